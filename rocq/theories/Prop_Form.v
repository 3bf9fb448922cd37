(** C01-C10: HTML form data. *)
From Verif Require Import Base BaseFacts Base64 Sha256 SpecCodec CodecFacts SpecCalendar Time TimeFacts Json SpecJson JsonFacts
  Policy PolicyFacts SpecPolicy Effects EffectsFacts Keys Scope Url HtmlForm SignedUrl Calls SpecToken SpecTrace KeysFacts CallFacts
  Discipline RefreshFacts SpecSign SignFacts SpecForm FormFacts Demo.
Local Open Scope Z_scope.

(** * C01 *)

Lemma unsigned_build d calls : no_options calls -> exists r, build d (builder_of calls) = Ret r /\ unsigned_result calls r.
Proof.
  intros N. apply no_options_iff in N. unfold build, build_policy. rewrite N. cbn [bind_ok bind option_map].
  pose proof (slot_unset _ _ _ (key_slot calls)) as K.
  destruct (b_key (builder_of calls)) as [key|] eqn:Ek.
  2:{ eexists. split; [reflexivity|]. apply ur_no_key. tauto. }
  assert (NK : ~ unset calls (B "key")) by (intros U; apply K in U; discriminate U).
  pose proof (meta_fields_spec (b_x_goog_meta (builder_of calls))) as M.
  destruct (meta_fields (b_x_goog_meta (builder_of calls))) as [fs|e].
  - destruct M as [M ->]. rewrite <- meta_pairs_of. eexists. split; [reflexivity|].
    destruct (form_listed calls None key (meta_pairs calls) Ek) as (l & E & L).
    change (unsigned_result calls (Ok (form_list (builder_of calls) key None (meta_pairs calls)))). rewrite E. apply ur_ok; [exact NK| |].
    + intros H. apply empty_meta_iff in H. exact (M H).
    + clear -L. revert L. assert (W : forall n v, form_value calls None n v <-> last_value calls n v).
      { intros n v. unfold form_value. split; [intros [H|(pf & E & _)]; [exact H|discriminate E]|auto]. }
      induction 1 as [|n v names l Hv H IH|n names l Hv H IH].
      * constructor.
      * apply li_set; [apply W; exact Hv|exact IH].
      * apply li_unset; [intros v Hn; apply (Hv v); apply W; exact Hn|exact IH].
  - destruct M as [-> M]. eexists. split; [reflexivity|]. apply ur_meta; [exact NK|]. apply empty_meta_iff. exact M.
Qed.

Lemma unsigned_unique calls r1 r2 : unsigned_result calls r1 -> unsigned_result calls r2 -> r1 = r2.
Proof.
  intros H1 H2. destruct H1, H2; try contradiction; try reflexivity. do 2 f_equal. eapply listed_unique; [|eassumption|eassumption].
  apply last_value_unique.
Qed.

(** Without signing options a build performs no effect, does not panic, and returns exactly the specified
    result. *)
Theorem C01_unsigned_build d calls : no_options calls ->
  (forall tr r, returns (build d (builder_of calls)) tr r <-> tr = [] /\ unsigned_result calls r) /\
  (forall tr q, steps (build d (builder_of calls)) tr q -> tr = []) /\
  (forall tr s, ~ panics (build d (builder_of calls)) tr s) /\
  (exists r, unsigned_result calls r).
Proof.
  intros N. destruct (unsigned_build d calls N) as (r & E & U). rewrite E. split; [|split; [|split]].
  - intros tr r'. split.
    + intros H. apply returns_ret_inv in H. destruct H as [-> ->]. auto.
    + intros [-> U']. rewrite (unsigned_unique _ _ _ U' U). constructor.
  - intros tr q H. apply steps_ret in H. tauto.
  - intros tr s H. exact (panics_ret_inv _ _ _ H).
  - eauto.
Qed.

Example C01_example :
  no_options [CKey (B "a"); CContentLength 10; CXGoogMeta (B "m") (B "1"); CKey (B "b")] /\
  build demo_deps (builder_of [CKey (B "a"); CContentLength 10; CXGoogMeta (B "m") (B "1"); CKey (B "b")])
  = Ret (Ok [(B "Content-Length", B "10"); (B "key", B "b"); (B "x-goog-meta-m", B "1")]).
Proof. split; [intros o H; cbn in H; intuition discriminate|reflexivity]. Qed.

(** * Signed builds *)

(** The facts about a successful signed build used below. *)
Lemma signed_form d calls o tr fields : last_options calls o -> returns (build d (builder_of calls)) tr (Ok fields) ->
  exists t pre t1 t2 acc exp bucket key email sig cs,
  let date := ut_to_iso8601 acc in
  let credential := email ++ B "/" ++ date_to_string (date_from_unix_timestamp acc) ++ B "/"
                     ++ unwrap_or (so_region o) (B "auto") ++ B "/" ++ B "storage" ++ B "/" ++ B "goog4_request" in
  let text := policy_to_string {| conditions := cs; pd_expiration := exp |} in
  let pf := {| pf_policy := b64_encode text; pf_algorithm := B "GOOG4-RSA-SHA256"; pf_credential := credential;
               pf_date := date; pf_signature := hex_encode sig |} in
  build_time o t pre /\ tr = pre ++ t1 ++ t2 /\ t < so_expiration o /\
  ut_from_system_time t = Some acc /\ ut_from_system_time (so_expiration o) = Some exp /\
  b_bucket (builder_of calls) = Some bucket /\ b_key (builder_of calls) = Some key /\
  authorized (so_signing_key o) t1 email /\ signed d (so_signing_key o) (so_use_sign_blob o) (b64_encode text) t2 sig /\
  fields = form_list (builder_of calls) key (Some pf) (meta_pairs calls) /\ ~ empty_meta calls /\
  Forall2 (fun c f => covers f (cond_of c)) cs (covered fields).
Proof.
  intros Lo H. apply options_iff in Lo. destruct (signed_build_inv _ _ _ _ _ Lo H) as (t & pre & t1 & t2 & T & E & S & _).
  destruct S as [acc exp bucket key email sig fixed meta metas Hw Hacc Hexp Hb Hk Ha Au cred Hd Hf Hm text Sg Hms Hfs].
  exists t, pre, t1, t2, acc, exp, bucket, key, email, sig, (fixed ++ meta). cbn zeta.
  pose proof (meta_fields_spec (b_x_goog_meta (builder_of calls))) as M. rewrite Hms in M. destruct M as [M ->].
  rewrite <- meta_pairs_of in Hfs. split; [exact T|]. split; [exact E|]. split; [exact Hw|]. split; [exact Hacc|]. split; [exact Hexp|].
  split; [exact Hb|]. split; [exact Hk|]. split; [eapply authorizer_ok; exact Au|]. split; [eapply sign_ok; exact Sg|]. split; [exact Hfs|].
  split; [intros X; apply empty_meta_iff in X; exact (M X)|].
  rewrite Hfs, meta_pairs_of. rewrite (covered_form _ bucket key) by exact Hb. apply Forall2_app.
  - cbn [pf_credential pf_date pf_algorithm]. eapply matches_traverse; [|exact Hf]. exact (fixed_matches _ bucket key _ _ Goog4RsaSha256).
  - apply meta_matches in Hm. apply Hm.
Qed.

Lemma Forall2_cond_of (l : list (str * str)) cs : Forall2 (fun c f => covers f (cond_of c)) cs l -> Forall2 covers l (map cond_of cs).
Proof. induction 1; constructor; assumption. Qed.

Lemma condition_tree c : cond_tree (cond_of c) (condition_to_json c).
Proof. destruct c; cbn; constructor; apply decimal_dec. Qed.

Lemma policy_text_tree cs exp : ts_ok exp ->
  policy_tree (map cond_of cs) exp (policy_to_json {| conditions := cs; pd_expiration := exp |}) /\
  json_text (policy_to_json {| conditions := cs; pd_expiration := exp |}) (policy_to_string {| conditions := cs; pd_expiration := exp |}).
Proof.
  intros Hx. split.
  - exists (map condition_to_json cs), (ut_to_rfc3339 exp). split; [|split; [apply rfc3339_spec; exact Hx|reflexivity]].
    induction cs as [|c cs IH]; constructor; [apply condition_tree|exact IH].
  - apply jprint_text. apply policy_json_nums.
Qed.

(** * C02 *)

(** The output of a signed build: the fields that were set, with the values last set, and the five computed
    fields, in the documented order; then the metadata. *)
Theorem C02_signed_fields d calls o tr fields :
  last_options calls o -> returns (build d (builder_of calls)) tr (Ok fields) ->
  exists l policy credential date signature,
    fields = l ++ meta_pairs calls /\
    listed (fun n v => last_value calls n v \/
              In (n, v) [(B "policy", policy); (B "x-goog-algorithm", B "GOOG4-RSA-SHA256");
                         (B "x-goog-credential", credential); (B "x-goog-date", date);
                         (B "x-goog-signature", signature)]) documented_names l /\
    ~ unset calls (B "bucket") /\ ~ unset calls (B "key") /\ ~ empty_meta calls.
Proof.
  intros Lo H. destruct (signed_form _ _ _ _ _ Lo H) as (t & pre & t1 & t2 & acc & exp & bucket & key & email & sig & cs & S).
  cbn zeta in S. destruct S as (T & E & Hw & Hacc & Hexp & Hb & Hk & Au & Sg & Hfs & M & C).
  match type of Hfs with _ = form_list _ _ (Some ?pf) _ => set (p := pf) in * end.
  destruct (form_listed calls (Some p) key (meta_pairs calls) Hk) as (l & El & L).
  exists l, (pf_policy p), (pf_credential p), (pf_date p), (pf_signature p). split; [congruence|]. split; [|split; [|split]].
  - clear -L. assert (W : forall n v, form_value calls (Some p) n v <-> last_value calls n v \/ In (n, v) (computed p)).
    { intros n v. unfold form_value. split; [intros [X|(pf & X & I)]; [auto|injection X as <-; auto]|intros [X|X]; eauto]. }
    change (listed (fun n v => last_value calls n v \/ In (n, v) (computed p)) documented_names l).
    induction L as [|n v names l Hv H IH|n names l Hv H IH]; constructor; try assumption; [apply W; exact Hv|].
    intros v Hn. apply (Hv v). apply W. exact Hn.
  - intros U. apply (slot_unset _ _ _ (bucket_slot calls)) in U. congruence.
  - intros U. apply (slot_unset _ _ _ (key_slot calls)) in U. congruence.
  - exact M.
Qed.

(** * C03 *)

(** The emitted policy is base64 of a JSON document with one condition per returned field other than
    [policy] and [x-goog-signature], in the order of the fields, and nothing else. *)
Theorem C03_policy_covers d calls o tr fields :
  last_options calls o -> returns (build d (builder_of calls)) tr (Ok fields) ->
  (exists policy, In (B "policy", policy) fields) /\
  forall policy, In (B "policy", policy) fields ->
  exists text cs secs j,
    base64_of text policy /\ json_text j text /\ (forall j', json_text j' text -> j' = j) /\
    policy_tree cs secs j /\ Forall2 covers (covered fields) cs.
Proof.
  intros Lo H. destruct (signed_form _ _ _ _ _ Lo H) as (t & pre & t1 & t2 & acc & exp & bucket & key & email & sig & cs & S).
  cbn zeta in S. destruct S as (T & E & Hw & Hacc & Hexp & Hb & Hk & Au & Sg & Hfs & M & C).
  match type of Hfs with _ = form_list _ _ (Some ?pf) _ => set (p := pf) in * end.
  assert (P : In (B "policy", pf_policy p) (computed p)) by (left; reflexivity).
  split; [exists (pf_policy p); rewrite Hfs; apply form_has; assumption|].
  intros policy I. rewrite Hfs in I. apply form_field in I; [|exact Hk|left; reflexivity].
  assert (policy = pf_policy p) as ->.
  { unfold computed in I. cbn [In] in I. repeat destruct I as [I|I]; try contradiction; try (apply (f_equal fst) in I; discriminate I).
    injection I as <-. reflexivity. }
  apply ut_ts_ok in Hexp. destruct (policy_text_tree cs exp (proj1 Hexp)) as [PT JT].
  exists (policy_to_string {| conditions := cs; pd_expiration := exp |}), (map cond_of cs), exp, (policy_to_json {| conditions := cs; pd_expiration := exp |}).
  split; [apply b64_encode_spec|]. split; [exact JT|]. split; [intros j' J; eapply json_text_unique; eassumption|].
  split; [exact PT|]. apply Forall2_cond_of. exact C.
Qed.

(** * C04 *)

(** Whatever document the emitted policy is read as, its expiration is the requested one rounded down. *)
Theorem C04_expiration d calls o tr fields policy text j :
  last_options calls o -> returns (build d (builder_of calls)) tr (Ok fields) ->
  In (B "policy", policy) fields -> base64_of text policy -> json_text j text ->
  exists e conditions etext,
    j = JObj [(B "conditions", conditions); (B "expiration", JStr etext)] /\ utc_rfc3339_text e etext /\
    e * 1000000000 <= so_expiration o < (e + 1) * 1000000000.
Proof.
  intros Lo H I D J. destruct (signed_form _ _ _ _ _ Lo H) as (t & pre & t1 & t2 & acc & exp & bucket & key & email & sig & cs & S).
  cbn zeta in S. destruct S as (T & E & Hw & Hacc & Hexp & Hb & Hk & Au & Sg & Hfs & M & C).
  match type of Hfs with _ = form_list _ _ (Some ?pf) _ => set (p := pf) in * end.
  rewrite Hfs in I. apply form_field in I; [|exact Hk|left; reflexivity].
  assert (policy = pf_policy p) as ->.
  { unfold computed in I. cbn [In] in I. repeat destruct I as [I|I]; try contradiction; try (apply (f_equal fst) in I; discriminate I).
    injection I as <-. reflexivity. }
  pose proof (ut_ts_ok _ _ Hexp) as Hx. destruct (policy_text_tree cs exp (proj1 Hx)) as [PT JT].
  rewrite (base64_of_data_unique _ _ _ D (b64_encode_spec _)) in J.
  rewrite (json_text_unique _ _ _ J JT). destruct PT as (trees & etext & _ & U & ->).
  exists exp, (JArr trees), etext. split; [reflexivity|]. split; [exact U|].
  apply ut_from_system_time_spec in Hexp. destruct Hexp as [_ ->]. unfold NS.
  pose proof (Z.div_mod (so_expiration o) 1000000000 ltac:(lia)). pose proof (Z.mod_pos_bound (so_expiration o) 1000000000 ltac:(lia)). lia.
Qed.

(** * C05 *)

Theorem C05_window d calls o tr fields :
  last_options calls o -> returns (build d (builder_of calls)) tr (Ok fields) ->
  exists t pre rest, build_time o t pre /\ tr = pre ++ rest /\
    0 <= t < so_expiration o /\ so_expiration o < 253402300800 * 1000000000.
Proof.
  intros Lo H. destruct (signed_form _ _ _ _ _ Lo H) as (t & pre & t1 & t2 & acc & exp & bucket & key & email & sig & cs & S).
  cbn zeta in S. destruct S as (T & E & Hw & Hacc & Hexp & _).
  exists t, pre, (t1 ++ t2). split; [exact T|]. split; [exact E|].
  apply ut_from_system_time_spec in Hacc, Hexp. unfold NS in *. lia.
Qed.

(** * C06 *)

(** The signature field is the hex text of the key's signature of exactly the bytes of the policy field. *)
Theorem C06_signature d calls o tr fields policy signature :
  last_options calls o -> returns (build d (builder_of calls)) tr (Ok fields) ->
  In (B "policy", policy) fields -> In (B "x-goog-signature", signature) fields ->
  exists before during sig, tr = before ++ during /\
    signed d (so_signing_key o) (so_use_sign_blob o) policy during sig /\ hex_of sig signature.
Proof.
  intros Lo H I1 I2. destruct (signed_form _ _ _ _ _ Lo H) as (t & pre & t1 & t2 & acc & exp & bucket & key & email & sig & cs & S).
  cbn zeta in S. destruct S as (T & E & Hw & Hacc & Hexp & Hb & Hk & Au & Sg & Hfs & M & C).
  match type of Hfs with _ = form_list _ _ (Some ?pf) _ => set (p := pf) in * end.
  rewrite Hfs in I1, I2. apply form_field in I1; [|exact Hk|cbn; tauto]. apply form_field in I2; [|exact Hk|cbn; tauto].
  assert (policy = pf_policy p) as ->.
  { unfold computed in I1. cbn [In] in I1. repeat destruct I1 as [I1|I1]; try contradiction; try (apply (f_equal fst) in I1; discriminate I1).
    injection I1 as <-. reflexivity. }
  assert (signature = pf_signature p) as ->.
  { unfold computed in I2. cbn [In] in I2. repeat destruct I2 as [I2|I2]; try contradiction; try (apply (f_equal fst) in I2; discriminate I2).
    injection I2 as <-. reflexivity. }
  exists (pre ++ t1), t2, sig. rewrite <- app_assoc. split; [exact E|]. split; [exact Sg|]. apply hex_encode_spec.
Qed.

(** * C07 *)

(** Credential and date are those of the authorizer, the region and the UTC time of the build. *)
Theorem C07_credential d calls o tr fields credential date :
  last_options calls o -> returns (build d (builder_of calls)) tr (Ok fields) ->
  In (B "x-goog-credential", credential) fields -> In (B "x-goog-date", date) fields ->
  exists t pre during rest secs email day,
    build_time o t pre /\ tr = pre ++ during ++ rest /\ authorized (so_signing_key o) during email /\
    secs * 1000000000 <= t < (secs + 1) * 1000000000 /\
    utc_basic_text secs date /\ utc_date_text secs day /\ firstn 8 date = day /\
    credential = email ++ B "/" ++ day ++ B "/" ++ match so_region o with Some r => r | None => B "auto" end
                   ++ B "/storage/goog4_request".
Proof.
  intros Lo H I1 I2. destruct (signed_form _ _ _ _ _ Lo H) as (t & pre & t1 & t2 & acc & exp & bucket & key & email & sig & cs & S).
  cbn zeta in S. destruct S as (T & E & Hw & Hacc & Hexp & Hb & Hk & Au & Sg & Hfs & M & C).
  match type of Hfs with _ = form_list _ _ (Some ?pf) _ => set (p := pf) in * end.
  rewrite Hfs in I1, I2. apply form_field in I1; [|exact Hk|cbn; tauto]. apply form_field in I2; [|exact Hk|cbn; tauto].
  assert (credential = pf_credential p) as ->.
  { unfold computed in I1. cbn [In] in I1. repeat destruct I1 as [I1|I1]; try contradiction; try (apply (f_equal fst) in I1; discriminate I1).
    injection I1 as <-. reflexivity. }
  assert (date = pf_date p) as ->.
  { unfold computed in I2. cbn [In] in I2. repeat destruct I2 as [I2|I2]; try contradiction; try (apply (f_equal fst) in I2; discriminate I2).
    injection I2 as <-. reflexivity. }
  pose proof (ut_ts_ok _ _ Hacc) as [Ha _].
  exists t, pre, t1, t2, acc, email, (date_to_string (date_from_unix_timestamp acc)).
  split; [exact T|]. split; [exact E|]. split; [exact Au|]. split.
  { apply ut_from_system_time_spec in Hacc. destruct Hacc as [_ ->]. unfold NS.
    pose proof (Z.div_mod t 1000000000 ltac:(lia)). pose proof (Z.mod_pos_bound t 1000000000 ltac:(lia)). lia. }
  split; [apply iso8601_spec; exact Ha|]. split; [apply date_utc_spec; exact Ha|]. split; [apply date_prefix_of_iso8601; exact Ha|].
  reflexivity.
Qed.

(** * C08 *)

Definition rest_build (d : deps) (b : builder) (o : signing_options) (t : Z) : prog (res (list (str * str)) form_error) :=
  bind_ok (fun e => e) (build_policy_at d b o t) (fun p =>
  match b_key b with
  | None => Ret (Err KeyNotFound)
  | Some key =>
  match meta_fields (b_x_goog_meta b) with
  | Err e => Ret (Err e)
  | Ok meta => Ret (Ok (form_list b key p meta))
  end end).

Lemma build_start d b o t pre : b_signing_options b = Some o -> build_time o t pre -> steps (build d b) pre (rest_build d b o t).
Proof.
  intros So T. unfold build, build_policy. rewrite So. destruct T as [t A|t A]; rewrite A.
  - exact (steps_refl (rest_build d b o t)).
  - exact (steps_act ENow (fun t => rest_build d b o t) t [] _ (steps_refl _)).
Qed.

Lemma build_split d b o tr q : b_signing_options b = Some o -> steps (build d b) tr q ->
  (tr = [] /\ q = build d b /\ so_accessible_at o = None) \/
  exists t pre tr', build_time o t pre /\ tr = pre ++ tr' /\ steps (rest_build d b o t) tr' q.
Proof.
  intros So H. unfold build, build_policy in H. rewrite So in H. destruct (so_accessible_at o) as [t|] eqn:A.
  - right. exists t, [], tr. split; [constructor; exact A|]. auto.
  - apply (steps_act_inv ENow (fun t => rest_build d b o t)) in H. destruct H as [[-> ->]|(t & tr' & -> & H)].
    + left. unfold build, build_policy. rewrite So, A. auto.
    + right. exists t, [VNow t], tr'. split; [constructor; exact A|]. auto.
Qed.

Lemma in_years_iff t : in_years t <-> ut_from_system_time t <> None.
Proof.
  unfold in_years. destruct (ut_from_system_time t) as [v|] eqn:E.
  - apply ut_from_system_time_spec in E. unfold NS in E. split; [discriminate|tauto].
  - split; [|congruence]. intros H _. apply (ut_from_system_time_none t) in E. unfold NS in E. tauto.
Qed.

(** Nothing is violated. *)
Definition sound (calls : list builder_call) (o : signing_options) (t : Z) : Prop :=
  t < so_expiration o /\ in_years t /\ in_years (so_expiration o) /\ ~ unset calls (B "bucket") /\ ~ unset calls (B "key") /\
  (forall a s, so_signing_key o <> KHmac a s).

Lemma violation_or_sound calls o t : (exists e, violation calls o t e) \/ sound calls o t.
Proof.
  destruct (Z.le_gt_cases (so_expiration o) t) as [H|H1]; [left; eexists; apply vi_order; exact H|].
  pose proof (in_years_iff t) as Y1. pose proof (in_years_iff (so_expiration o)) as Y2.
  destruct (ut_from_system_time t); [|left; eexists; apply vi_accessible; [exact H1|rewrite Y1; congruence]].
  destruct (ut_from_system_time (so_expiration o)); [|left; eexists; apply vi_expiration; [exact H1|apply Y1; discriminate|rewrite Y2; congruence]].
  assert (I1 : in_years t) by (apply Y1; discriminate). assert (I2 : in_years (so_expiration o)) by (apply Y2; discriminate).
  pose proof (slot_unset _ _ _ (bucket_slot calls)) as Ub. pose proof (slot_unset _ _ _ (key_slot calls)) as Uk.
  destruct (b_bucket (builder_of calls)) as [bucket|]; [|left; eexists; apply vi_bucket; tauto].
  assert (Nb : ~ unset calls (B "bucket")) by (rewrite Ub; discriminate).
  destruct (b_key (builder_of calls)) as [key|]; [|left; eexists; apply vi_key; tauto].
  assert (Nk : ~ unset calls (B "key")) by (rewrite Uk; discriminate).
  destruct (so_signing_key o) as [bt|a s|em k] eqn:Ek.
  - right. split; [exact H1|]. do 4 (split; [assumption|]). intros a s E. congruence.
  - left. eexists. eapply vi_hmac; eassumption.
  - right. split; [exact H1|]. do 4 (split; [assumption|]). intros a s E. congruence.
Qed.

Lemma violation_not_sound calls o t e : violation calls o t e -> ~ sound calls o t.
Proof. intros V (S1 & S2 & S3 & S4 & S5 & S6). destruct V; try contradiction; try lia. exact (S6 _ _ H4). Qed.

Lemma violation_result d calls o t e : violation calls o t e -> build_policy_at d (builder_of calls) o t = Ret (Err e).
Proof.
  intros V. unfold build_policy_at. destruct (Z.leb_spec (so_expiration o) t) as [H|H].
  { destruct V; try lia. reflexivity. }
  destruct (ut_from_system_time t) eqn:E1.
  2:{ assert (~ in_years t) by (rewrite in_years_iff; congruence). destruct V; try contradiction; [lia|reflexivity]. }
  assert (in_years t) by (rewrite in_years_iff; congruence).
  destruct (ut_from_system_time (so_expiration o)) eqn:E2.
  2:{ assert (~ in_years (so_expiration o)) by (rewrite in_years_iff; congruence). destruct V; try contradiction; [lia|reflexivity]. }
  assert (in_years (so_expiration o)) by (rewrite in_years_iff; congruence).
  pose proof (slot_unset _ _ _ (bucket_slot calls)) as Ub. pose proof (slot_unset _ _ _ (key_slot calls)) as Uk.
  destruct (b_bucket (builder_of calls)) as [bucket|].
  2:{ destruct V; try contradiction; try lia; try reflexivity; exfalso; tauto. }
  assert (Nb : ~ unset calls (B "bucket")) by (rewrite Ub; discriminate).
  destruct (b_key (builder_of calls)) as [key|].
  2:{ destruct V; try contradiction; try lia; try reflexivity; exfalso; tauto. }
  assert (Nk : ~ unset calls (B "key")) by (rewrite Uk; discriminate).
  destruct V as [V|V V'|V V' V''|V V1 V2 V3|V V1 V2 V3 V4|a s V V1 V2 V3 V4 V5]; try contradiction; [lia|]. rewrite V5. reflexivity.
Qed.

(** When nothing is violated: authorizer, then metadata names, then signature. *)
Lemma sound_result d calls o t : sound calls o t -> exists f,
  build_policy_at d (builder_of calls) o t = bind_ok FormBoundTokenAuthorizer (authorizer d (so_signing_key o)) f /\
  forall email, (empty_meta calls /\ f email = Ret (Err XGoogMetaNameEmpty)) \/
    (~ empty_meta calls /\ exists m g, f email =
       bind_ok FormSigning (sign d (so_signing_key o) (so_use_sign_blob o) m) (fun x => Ret (Ok (Some (g x))))).
Proof.
  intros (S1 & S2 & S3 & S4 & S5 & S6). unfold build_policy_at.
  destruct (Z.leb_spec (so_expiration o) t) as [H|_]; [lia|]. rewrite in_years_iff in S2, S3.
  destruct (ut_from_system_time t) as [acc|]; [|congruence]. destruct (ut_from_system_time (so_expiration o)) as [exp|]; [|congruence].
  rewrite (slot_unset _ _ _ (bucket_slot calls)) in S4. rewrite (slot_unset _ _ _ (key_slot calls)) in S5.
  destruct (b_bucket (builder_of calls)) as [bucket|]; [|congruence]. destruct (b_key (builder_of calls)) as [key|]; [|congruence].
  assert (Ka : key_algorithm (so_signing_key o) = Goog4RsaSha256) by (destruct (so_signing_key o) as [bt|a s|em k]; [reflexivity|destruct (S6 a s eq_refl)|reflexivity]).
  rewrite Ka. eexists. split; [reflexivity|]. intros email. cbn [location_try_from credential_scope_new].
  destruct (fixed_total (builder_of calls) bucket key (email ++ B "/" ++ credential_scope_to_string
     {| cs_date := date_from_unix_timestamp acc; cs_location := unwrap_or (so_region o) (B "auto"); cs_service := Storage; cs_request_type := Goog4Request |})
     (ut_to_iso8601 acc) Goog4RsaSha256) as [fixed F].
  rewrite F. pose proof (meta_no_panic (b_x_goog_meta (builder_of calls))) as NP. pose proof (meta_empty_iff (b_x_goog_meta (builder_of calls))) as NE.
  rewrite empty_meta_iff. destruct (meta_conditions (b_x_goog_meta (builder_of calls))) as [meta| |].
  - right. split; [intros I; apply NE in I; discriminate I|]. eexists. eexists (fun x => {| pf_policy := _ |}). reflexivity.
  - left. split; [apply NE; reflexivity|reflexivity].
  - congruence.
Qed.

Lemma sound_rest d calls o t tr q : sound calls o t -> steps (rest_build d (builder_of calls) o t) tr q ->
  exists f, steps (bind_ok (fun e => e) (bind_ok FormBoundTokenAuthorizer (authorizer d (so_signing_key o)) f) (fun p =>
    match b_key (builder_of calls) with
    | None => Ret (Err KeyNotFound)
    | Some key =>
    match meta_fields (b_x_goog_meta (builder_of calls)) with
    | Err e => Ret (Err e)
    | Ok meta => Ret (Ok (form_list (builder_of calls) key p meta))
    end end)) tr q /\
  forall email, (empty_meta calls /\ f email = Ret (Err XGoogMetaNameEmpty)) \/
    (~ empty_meta calls /\ exists m g, f email =
       bind_ok FormSigning (sign d (so_signing_key o) (so_use_sign_blob o) m) (fun x => Ret (Ok (Some (g x))))).
Proof.
  intros S H. destruct (sound_result d calls o t S) as (f & E & F). exists f. unfold rest_build in H. rewrite E in H. auto.
Qed.

(** The first violated requirement is the error, after nothing but the clock reading. *)
Theorem C08_precedence d calls o t pre e :
  last_options calls o -> build_time o t pre -> violation calls o t e ->
  returns (build d (builder_of calls)) pre (Err e) /\
  (forall tr q, steps (build d (builder_of calls)) (pre ++ tr) q -> tr = [] /\ q = Ret (Err e)).
Proof.
  intros Lo T V. apply options_iff in Lo. pose proof (build_start d _ o t pre Lo T) as S.
  assert (R : rest_build d (builder_of calls) o t = Ret (Err e)) by (unfold rest_build; rewrite (violation_result d _ _ _ _ V); reflexivity).
  rewrite R in S. split; [exact S|]. intros tr q H. apply (build_split d _ o) in H; [|exact Lo].
  destruct H as [(E & _ & A)|(t' & pre' & tr' & T' & E & H)].
  { destruct T as [t A'|t A']; [congruence|discriminate E]. }
  assert (t' = t /\ tr' = tr) as [-> ->].
  { destruct T as [t A|t A], T' as [t' A'|t' A']; rewrite A in A'; try discriminate A'; cbn in E.
    - injection A' as <-. auto.
    - injection E as <- <-. auto. }
  rewrite R in H. apply steps_ret in H. exact H.
Qed.

(** Every other error means that nothing is violated, and comes from the key or from an empty metadata name. *)
Theorem C08_errors d calls o tr e :
  last_options calls o -> returns (build d (builder_of calls)) tr (Err e) ->
  exists t pre rest, build_time o t pre /\ tr = pre ++ rest /\
    (violation calls o t e /\ rest = [] \/
     (forall e', ~ violation calls o t e') /\
     ((exists x, e = FormBoundTokenAuthorizer x) \/ (e = XGoogMetaNameEmpty /\ empty_meta calls) \/
      (exists x, e = FormSigning x) /\ ~ empty_meta calls)).
Proof.
  intros Lo H. apply options_iff in Lo. apply (build_split d _ o) in H; [|exact Lo].
  destruct H as [(_ & E & A)|(t & pre & tr' & T & -> & H)].
  { exfalso. unfold build, build_policy in E. rewrite Lo, A in E. discriminate E. }
  exists t, pre, tr'. split; [exact T|]. split; [reflexivity|].
  destruct (violation_or_sound calls o t) as [[e' V]|S].
  { left. unfold rest_build in H. rewrite (violation_result d _ _ _ _ V) in H. apply steps_ret in H. destruct H as [-> H]. injection H as ->. auto. }
  right. split; [intros e' V; exact (violation_not_sound _ _ _ _ V S)|].
  apply sound_rest in H; [|exact S]. destruct H as (f & H & F).
  apply returns_bind_ok_inv in H. destruct H as [(p & t1 & t2 & H1 & H & ->)|(e' & H & E)].
  - exfalso. destruct S as (_ & _ & _ & _ & Uk & _). rewrite (slot_unset _ _ _ (key_slot calls)) in Uk.
    destruct (b_key (builder_of calls)) as [key|]; [|congruence].
    pose proof (meta_fields_spec (b_x_goog_meta (builder_of calls))) as M.
    destruct (meta_fields (b_x_goog_meta (builder_of calls))) as [fs|em]; apply returns_ret_inv in H; destruct H as [_ H]; [discriminate H|].
    destruct M as [_ M]. apply returns_bind_ok_inv in H1. destruct H1 as [(email & t3 & t4 & _ & H1 & _)|(e' & _ & E)]; [|discriminate E].
    destruct (F email) as [[_ F']|[NM _]]; [rewrite F' in H1; apply returns_ret_inv in H1; destruct H1 as [_ H1]; discriminate H1|].
    apply NM, empty_meta_iff, M.
  - injection E as ->. apply returns_bind_ok_inv in H. destruct H as [(email & t3 & t4 & _ & H1 & _)|(x & _ & E)]; [|injection E as ->; eauto].
    destruct (F email) as [[M F']|[NM (m & g & F')]]; rewrite F' in H1.
    + apply returns_ret_inv in H1. destruct H1 as [_ E]. injection E as ->. auto.
    + apply returns_bind_ok_inv in H1. destruct H1 as [(x & t5 & t6 & _ & H1 & _)|(x & _ & E)].
      * apply returns_ret_inv in H1. destruct H1 as [_ H1]. discriminate H1.
      * injection E as ->. eauto.
Qed.

(** An empty validity window is always refused. *)
Theorem C05_empty_window d calls o t pre :
  last_options calls o -> build_time o t pre -> so_expiration o <= t ->
  returns (build d (builder_of calls)) pre (Err ExpirationBeforeAccessibleAt) /\
  forall rest fields, ~ returns (build d (builder_of calls)) (pre ++ rest) (Ok fields).
Proof.
  intros Lo T H. destruct (C08_precedence d calls o t pre _ Lo T (vi_order _ _ _ H)) as [R U]. split; [exact R|].
  intros rest fields H'. apply U in H'. destruct H' as [_ H']. discriminate H'.
Qed.

(** * C09 *)

(** The only panics of a form build: a service account key with [use_sign_blob], or a bound-token lookup. *)
Theorem C09_panics d calls tr s :
  panics (build d (builder_of calls)) tr s ->
  exists o t pre rest, last_options calls o /\ build_time o t pre /\ tr = pre ++ rest /\ (forall e, ~ violation calls o t e) /\
    ((exists email key, so_signing_key o = KServiceAccount email key /\ so_use_sign_blob o = true /\
        s = PServiceAccountSignBlob /\ rest = [] /\ ~ empty_meta calls) \/
     (exists bt, so_signing_key o = KBoundToken bt /\ In s [PExpiresBeforeEpoch; PNowBeforeEpoch; PExpiresOverflow])).
Proof.
  intros H. destruct (b_signing_options (builder_of calls)) as [o|] eqn:So.
  2:{ exfalso. assert (N : no_options calls) by (apply no_options_iff; exact So).
      destruct (C01_unsigned_build d calls N) as (_ & _ & P & _). exact (P _ _ H). }
  apply (build_split d _ o) in H; [|exact So]. destruct H as [(_ & E & A)|(t & pre & tr' & T & -> & H)].
  { exfalso. unfold build, build_policy in E. rewrite So, A in E. discriminate E. }
  exists o, t, pre, tr'. split; [apply options_iff; exact So|]. split; [exact T|]. split; [reflexivity|].
  destruct (violation_or_sound calls o t) as [[e' V]|S].
  { exfalso. unfold rest_build in H. rewrite (violation_result d _ _ _ _ V) in H. apply steps_ret in H. destruct H as [_ H]. discriminate H. }
  split; [intros e' V; exact (violation_not_sound _ _ _ _ V S)|].
  apply sound_rest in H; [|exact S]. destruct H as (f & H & F).
  apply panics_bind_ok_inv in H. destruct H as [H|(p & t1 & t2 & _ & H & _)].
  2:{ exfalso. destruct (b_key (builder_of calls)); [destruct (meta_fields _)|]; exact (panics_ret_inv _ _ _ H). }
  assert (LP : forall bt l, lookup_panic d bt l s -> In s [PExpiresBeforeEpoch; PNowBeforeEpoch; PExpiresOverflow]).
  { intros bt l L. destruct L; cbn; auto. }
  destruct S as (_ & _ & _ & _ & _ & NH).
  apply panics_bind_ok_inv in H. destruct H as [H|(email & t1 & t2 & H0 & H & ->)].
  - destruct (so_signing_key o) as [bt|a x|em k]; try (destruct (panics_ret_inv _ _ _ H)).
    right. exists bt. split; [reflexivity|]. apply auth_panics in H. eauto.
  - destruct (F email) as [[_ F']|[NM (m & g & F')]]; rewrite F' in H; [destruct (panics_ret_inv _ _ _ H)|].
    apply panics_bind_ok_inv in H. destruct H as [H|(x & t3 & t4 & _ & H & _)]; [|destruct (panics_ret_inv _ _ _ H)].
    destruct (so_signing_key o) as [bt|a x|em k].
    + right. exists bt. split; [reflexivity|]. apply sign_panics in H. destruct H as [_ H]. eauto.
    + destruct (NH a x eq_refl).
    + left. cbn [authorizer] in H0. apply returns_ret_inv in H0. destruct H0 as [-> _]. cbn [sign] in H.
      destruct (so_use_sign_blob o); [|destruct (d_rsa_sign d k m); destruct (panics_ret_inv _ _ _ H)].
      apply panics_panic_inv in H. destruct H as [-> ->]. exists em, k. auto.
Qed.

(** In particular a service account key that signs locally, an HMAC key and a build without options never panic. *)
Theorem C09_no_panic d calls :
  (forall o, last_options calls o ->
     (exists access_id secret, so_signing_key o = KHmac access_id secret) \/
     (exists email key, so_signing_key o = KServiceAccount email key /\ so_use_sign_blob o = false)) ->
  forall tr s, ~ panics (build d (builder_of calls)) tr s.
Proof.
  intros K tr s H. destruct (C09_panics _ _ _ _ H) as (o & t & pre & rest & Lo & _ & _ & NV & C). destruct (K o Lo) as [(a & x & E)|(em & k & E & U)].
  - destruct C as [(em & k & E' & _)|(bt & E' & _)]; congruence.
  - destruct C as [(em' & k' & E' & U' & _)|(bt & E' & _)]; congruence.
Qed.

(** A service account key with [use_sign_blob] panics as soon as nothing is violated and no metadata name is empty. *)
Theorem C09_sign_blob_panics d calls o t pre email key :
  last_options calls o -> build_time o t pre -> so_signing_key o = KServiceAccount email key -> so_use_sign_blob o = true ->
  (forall e, ~ violation calls o t e) -> ~ empty_meta calls ->
  panics (build d (builder_of calls)) pre PServiceAccountSignBlob /\
  (forall tr r, ~ returns (build d (builder_of calls)) (pre ++ tr) r).
Proof.
  intros Lo T K U NV NM. apply options_iff in Lo. destruct (violation_or_sound calls o t) as [[e V]|S]; [destruct (NV e V)|].
  assert (R : rest_build d (builder_of calls) o t = Panic PServiceAccountSignBlob).
  { destruct (sound_result d calls o t S) as (f & E & F). unfold rest_build. rewrite E, K. cbn [authorizer].
    destruct (F email) as [[M _]|[_ (m & g & F')]]; [contradiction|]. unfold bind_ok at 2. cbn [bind]. rewrite F', K, U. reflexivity. }
  pose proof (build_start d _ o t pre Lo T) as H. rewrite R in H. split; [exact H|].
  intros tr r H'. apply (build_split d _ o) in H'; [|exact Lo]. destruct H' as [(_ & E & A)|(t' & pre' & tr' & T' & E & H')].
  { unfold build, build_policy in E. rewrite Lo, A in E. discriminate E. }
  assert (t' = t) as ->.
  { destruct T as [t A|t A], T' as [t' A'|t' A']; rewrite A in A'; try discriminate A'; cbn in E; congruence. }
  rewrite R in H'. exact (returns_panic_inv _ _ _ H').
Qed.

(** * C10 *)

Lemma decimal_text_unique n m s : decimal_of n s -> decimal_of m s -> n = m.
Proof. intros [H1 _] [H2 _]. congruence. Qed.

Lemma cond_tree_unique c c' j : cond_tree c j -> cond_tree c' j -> c = c'.
Proof.
  intros H1 H2. inversion H1; subst; inversion H2; subst; try reflexivity; try discriminate.
  f_equal; eapply decimal_text_unique; eassumption.
Qed.

Lemma policy_tree_conds cs cs' secs secs' j : policy_tree cs secs j -> policy_tree cs' secs' j -> cs = cs'.
Proof.
  intros (trees & t & F & _ & E) (trees' & t' & F' & _ & E'). rewrite E in E'. injection E' as <- _. clear E.
  revert cs' F'. induction F as [|c tr cs trees H F IH]; intros cs' F'; inversion F'; subst; [reflexivity|].
  f_equal; [eapply cond_tree_unique; eassumption|auto].
Qed.

(** The conditions of the emitted policy, however it is read. *)
Lemma emitted_conditions d calls o tr fields policy text j cs secs :
  last_options calls o -> returns (build d (builder_of calls)) tr (Ok fields) ->
  In (B "policy", policy) fields -> base64_of text policy -> json_text j text -> policy_tree cs secs j ->
  Forall2 covers (covered fields) cs.
Proof.
  intros Lo H I D J P. destruct (C03_policy_covers _ _ _ _ _ Lo H) as [_ C]. destruct (C _ I) as (text' & cs' & secs' & j' & D' & J' & U & P' & F).
  rewrite (base64_of_data_unique _ _ _ D D') in J. rewrite (U _ J) in P. rewrite (policy_tree_conds _ _ _ _ _ P P'). exact F.
Qed.

(** The conditions accept the issued fields with a file of the signed length, and whatever they accept has
    every covered field with the signed value and the signed length. *)
Theorem C10_tamper_evidence d calls o tr fields policy text j cs secs :
  last_options calls o -> returns (build d (builder_of calls)) tr (Ok fields) ->
  In (B "policy", policy) fields -> base64_of text policy -> json_text j text -> policy_tree cs secs j ->
  (forall len, NoDup (map fst fields) ->
     (forall v n, In (B "Content-Length", v) fields -> decimal_of n v -> len = n) -> accepted cs fields len) /\
  (forall form len, accepted cs form len ->
     (forall n v, In (n, v) (covered fields) -> n <> B "Content-Length" -> has_field form n v) /\
     (forall v n, In (B "Content-Length", v) fields -> decimal_of n v -> len = n)).
Proof.
  intros Lo H I D J P. pose proof (emitted_conditions _ _ _ _ _ _ _ _ _ _ Lo H I D J P) as C. clear I D J P. split.
  - intros len ND L.
    assert (X : forall l, incl l (covered fields) -> forall cs, Forall2 covers l cs -> accepted cs fields len).
    { intros l Hl cs' F. induction F as [|f c l cs' Hc F IH]; constructor.
      - assert (If : In f fields) by (apply (proj1 (filter_In _ _ _) (Hl f (or_introl eq_refl)))).
        destruct Hc as [v n Dn|n v Nn]; cbn [satisfied].
        + rewrite (L v n If Dn). lia.
        + split; [exact If|]. intros w Iw. clear -ND If Iw. induction fields as [|[m u] fs IH]; [destruct If|].
          cbn in ND. inversion ND as [|? ? Nin ND']; subst.
          assert (Y : forall x, In (n, x) fs -> In n (map fst fs)) by (intros x Hx; apply in_map_iff; exists (n, x); auto).
          destruct If as [E|If], Iw as [E'|Iw].
          * congruence.
          * injection E as -> _. destruct (Nin (Y _ Iw)).
          * injection E' as -> _. destruct (Nin (Y _ If)).
          * auto.
      - apply IH. intros x Hx. apply Hl. right; exact Hx. }
    apply (X _ (fun f H => H) _ C).
  - intros form len A. split.
    + intros n v If Nn. revert A If. induction C as [|f c l cs' Hc F IH]; intros A If; [destruct If|].
      inversion A as [|? ? A1 A2]; subst. destruct If as [->|If]; [|auto].
      inversion Hc; subst; [congruence|]. exact A1.
    + intros v n If Dn.
      assert (Ic : In (B "Content-Length", v) (covered fields)) by (apply filter_In; split; [exact If|reflexivity]).
      clear If. revert A Ic. induction C as [|f c l cs' Hc F IH]; intros A If; [destruct If|].
      inversion A as [|? ? A1 A2]; subst. destruct If as [->|If]; [|auto].
      inversion Hc as [v' n' Dn' E|n' v' Nn E]; subst; [|congruence]. rewrite (decimal_text_unique _ _ _ Dn Dn'). cbn in A1. lia.
Qed.

(** * C52 *)

(** If two fields of the output have one name and different values, the emitted policy accepts no form. *)
Theorem C52_duplicate_names d calls o tr fields policy text j cs secs n v w :
  last_options calls o -> returns (build d (builder_of calls)) tr (Ok fields) ->
  In (B "policy", policy) fields -> base64_of text policy -> json_text j text -> policy_tree cs secs j ->
  In (n, v) (meta_pairs calls) -> In (n, w) (meta_pairs calls) -> v <> w ->
  forall form len, ~ accepted cs form len.
Proof.
  intros Lo H I D J P I1 I2 N form len A.
  destruct (C10_tamper_evidence _ _ _ _ _ _ _ _ _ _ Lo H I D J P) as [_ T]. destruct (T _ _ A) as [T1 _].
  destruct (C02_signed_fields _ _ _ _ _ Lo H) as (l & p & c & dt & sg & -> & _).
  destruct (meta_pair_name _ _ _ I1) as [m ->].
  assert (X : forall u, In (B "x-goog-meta-" ++ m, u) (meta_pairs calls) -> has_field form (B "x-goog-meta-" ++ m) u).
  { intros u Iu. apply T1; [|discriminate]. apply filter_In. split; [apply in_or_app; right; exact Iu|reflexivity]. }
  destruct (X _ I1) as [J1 _]. destruct (X _ I2) as [_ J2]. exact (N (J2 _ J1)).
Qed.

(** Field names are pairwise distinct exactly when the metadata names are. *)
Theorem C52_names_distinct d calls o tr fields :
  last_options calls o -> returns (build d (builder_of calls)) tr (Ok fields) ->
  (NoDup (map fst fields) <-> NoDup (map fst (meta_pairs calls))).
Proof.
  intros Lo H. destruct (C02_signed_fields _ _ _ _ _ Lo H) as (l & p & c & dt & sg & -> & L & _). rewrite map_app.
  assert (X : NoDup (map fst l) /\ incl (map fst l) documented_names).
  { assert (ND : NoDup documented_names).
    { unfold documented_names. repeat (constructor; [cbn; intuition discriminate|]). constructor. }
    clear H. revert ND L. generalize documented_names. intros names ND L. induction L as [|n v names l Hv L IH|n names l Hv L IH].
    - split; [constructor|intros x []].
    - inversion ND as [|? ? Nin ND']; subst. destruct (IH ND') as [IH1 IH2]. cbn [map fst]. split.
      + constructor; [intros X; exact (Nin (IH2 _ X))|exact IH1].
      + intros x [->|Hx]; [left; reflexivity|right; apply IH2; exact Hx].
    - inversion ND as [|? ? Nin ND']; subst. destruct (IH ND') as [IH1 IH2]. split; [exact IH1|]. intros x Hx. right. apply IH2. exact Hx. }
  destruct X as [ND IN]. split.
  - intros N. clear -N. induction l as [|f l IH]; [exact N|]. inversion N; subst. auto.
  - intros N. assert (DJ : forall x, In x (map fst l) -> ~ In x (map fst (meta_pairs calls))).
    { intros x H1 H2. apply IN in H1. apply in_map_iff in H2. destruct H2 as ([x' u] & <- & H2). cbn [fst] in H1.
      destruct (meta_pair_name _ _ _ H2) as [m ->]. clear -H1. cbn [documented_names map In] in H1.
      repeat (destruct H1 as [H1|H1]; [discriminate H1|]). destruct H1. }
    clear -ND N DJ. induction (map fst l) as [|x xs IH]; [exact N|]. inversion ND; subst. cbn [app]. constructor.
    + intros X. apply in_app_or in X. destruct X as [X|X]; [contradiction|]. exact (DJ x (or_introl eq_refl) X).
    + apply IH; [assumption|]. intros y Hy. apply DJ. right; exact Hy.
Qed.

(** * Concrete cases *)

Definition demo_calls : list builder_call := demo_form_at (Some demo_time) (KServiceAccount (B "sa@example.com") (B "key")) false.
Definition demo_options (t : option systime) (expiration : systime) (key : signing_key) (usb : bool) : signing_options :=
  {| so_accessible_at := t; so_expiration := expiration; so_region := None; so_signing_key := key; so_use_sign_blob := usb |}.

Lemma demo_last t key usb : last_options (demo_form_at t key usb) (demo_options t (demo_time + 60 * NS) key usb).
Proof. exists [CBucket (B "bucket1"); CKey (B "a/b"); CContentLength 3; CXGoogMeta (B "who") (B "me ""you""")], []. split; [reflexivity|intros o []]. Qed.

(** A signed build that meets the hypotheses of C02 to C07. *)
Example signed_example :
  last_options demo_calls (demo_options (Some demo_time) (demo_time + 60 * NS) (KServiceAccount (B "sa@example.com") (B "key")) false) /\
  exists fields policy, returns (build demo_deps (builder_of demo_calls)) [] (Ok fields) /\
    map fst fields = map B ["bucket"; "Content-Length"; "key"; "policy"; "x-goog-algorithm"; "x-goog-credential";
                            "x-goog-date"; "x-goog-signature"; "x-goog-meta-who"]%string /\
    In (B "policy", policy) fields /\
    In (B "x-goog-credential", B "sa@example.com/20200101/auto/storage/goog4_request") fields /\
    In (B "x-goog-date", B "20200101T000000Z") fields /\
    In (B "x-goog-signature", hex_encode (B "key" ++ policy)) fields /\
    b64_decode policy = Some (B "{""conditions"":[[""eq"",""$bucket"",""bucket1""],[""content-length-range"",3,3],[""eq"",""$key"",""a/b""],[""eq"",""$x-goog-algorithm"",""GOOG4-RSA-SHA256""],[""eq"",""$x-goog-credential"",""sa@example.com/20200101/auto/storage/goog4_request""],[""eq"",""$x-goog-date"",""20200101T000000Z""],[""eq"",""$x-goog-meta-who"",""me \""you\""""]],""expiration"":""2020-01-01T00:01:00Z""}").
Proof.
  split; [apply demo_last|]. destruct (build demo_deps (builder_of demo_calls)) as [r|s|e k] eqn:E; vm_compute in E; try discriminate E.
  injection E as <-. eexists. eexists. split; [constructor|]. split; [reflexivity|]. split; [cbn; do 3 right; left; reflexivity|].
  split; [cbn; do 5 right; left; reflexivity|]. split; [cbn; do 6 right; left; reflexivity|]. split; [cbn; do 7 right; left; reflexivity|].
  vm_compute. reflexivity.
Qed.

(** A successful build with a bound token. *)
Example signed_bound_example :
  exists tr fields, returns (build demo_deps (builder_of (demo_form_at (Some demo_time) (KBoundToken demo_token) true))) tr (Ok fields) /\
    In (B "x-goog-signature", B "0102") fields /\
    In (B "x-goog-credential", B "sa@example.com/20200101/auto/storage/goog4_request") fields.
Proof.
  set (p := build _ _). pose proof (play_steps p demo_run) as H. destruct (play p demo_run) as [tr q] eqn:E. subst p.
  vm_compute in E. injection E as <- <-. eexists. eexists. split; [exact H|]. split.
  - cbn; do 7 right; left; reflexivity.
  - cbn; do 5 right; left; reflexivity.
Qed.

(** Every kind of violation occurs. *)
Example C08_example :
  let key := KServiceAccount (B "e") (B "k") in
  violation [] (demo_options None 5 key false) 5 ExpirationBeforeAccessibleAt /\
  violation [] (demo_options None 5 key false) (-1) AccessibleAtOutOfRange /\
  violation [] (demo_options None (253402300800 * NS) key false) 5 FormExpirationOutOfRange /\
  violation [CKey (B "k")] (demo_options None 6 key false) 5 BucketNotFound /\
  violation [CBucket (B "b")] (demo_options None 6 key false) 5 KeyNotFound /\
  violation [CBucket (B "b"); CKey (B "k")] (demo_options None 6 (KHmac (B "a") (B "s")) false) 5 XGoogAlgorithmNotSupported.
Proof.
  assert (U : forall c n v, sets c n v -> ~ unset [c] n) by (intros c n v S F; inversion F as [|? ? X]; subst; exact (X _ S)).
  cbn zeta. repeat split; [apply vi_order|apply vi_accessible|apply vi_expiration|apply vi_bucket|apply vi_key|eapply vi_hmac; [| | | | |reflexivity]];
    unfold in_years, NS; cbn [so_expiration demo_options]; try lia.
  - constructor; [|constructor]. intros v [E _]. discriminate E.
  - apply (U _ _ (B "b")). cbn; auto.
  - constructor; [|constructor]. intros v [E _]. discriminate E.
  - intros F. inversion F as [|? ? X]; subst. apply (X (B "b")). cbn; auto.
  - intros F. inversion F as [|? ? X Y]; subst. inversion Y as [|? ? Z]; subst. apply (Z (B "k")). cbn; auto.
Qed.

Example C08_errors_example : exists tr,
  returns (build demo_deps (builder_of (demo_form_at (Some demo_time) (KBoundToken demo_token) true))) tr
    (Err (FormBoundTokenAuthorizer (BoundTokenAuthorizer (TokenRequestStatus 500 (B "oops"))))).
Proof.
  eexists. apply (play_returns (build demo_deps (builder_of (demo_form_at (Some demo_time) (KBoundToken demo_token) true))) demo_failed_run).
  vm_compute. reflexivity.
Qed.

Example C05_example : exists o, last_options [CKey (B "k"); CSigningOptions o] o /\ build_time o 7 [VNow 7] /\ so_expiration o <= 7.
Proof.
  exists (demo_options None 7 (KHmac (B "a") (B "s")) false). split; [exists [CKey (B "k")], []; split; [reflexivity|intros o []]|].
  split; [constructor; reflexivity|cbn; lia].
Qed.

(** The documented combination of a service account key with [use_sign_blob] panics. *)
Example C09_example :
  panics (build demo_deps (builder_of (demo_form_at (Some demo_time) (KServiceAccount (B "sa@example.com") (B "key")) true))) [] PServiceAccountSignBlob.
Proof.
  refine (proj1 (C09_sign_blob_panics demo_deps _ _ demo_time [] _ _ (demo_last _ _ _) (bt_given _ _ _) eq_refl eq_refl _ _)); [reflexivity| |].
  - intros e V. apply (violation_not_sound _ _ _ _ V). unfold sound, in_years, demo_time, NS. cbn [so_expiration demo_options]. unfold demo_time, NS.
    split; [lia|]. split; [lia|]. split; [lia|]. split; [|split; [|discriminate]].
    + intros U. apply Forall_inv in U. apply (U (B "bucket1")). cbn; auto.
    + intros U. apply Forall_inv_tail, Forall_inv in U. apply (U (B "a/b")). cbn; auto.
  - intros [v I]. cbn in I. intuition discriminate.
Qed.

(** A form that meets all hypotheses of C10, is accepted as issued, and is refused with another file length. *)
Example C10_example : exists fields policy text j cs secs,
  returns (build demo_deps (builder_of demo_calls)) [] (Ok fields) /\ In (B "policy", policy) fields /\
  base64_of text policy /\ json_text j text /\ policy_tree cs secs j /\ NoDup (map fst fields) /\
  accepted cs fields 3 /\ ~ accepted cs fields 4.
Proof.
  destruct signed_example as (Lo & fields & policy & R & Nm & I & _).
  destruct (C03_policy_covers _ _ _ _ _ Lo R) as [_ C]. destruct (C _ I) as (text & cs & secs & j & D & J & _ & P & _).
  assert (ND : NoDup (map fst fields)) by (rewrite Nm; cbn [map]; repeat (constructor; [cbn; intuition discriminate|]); constructor).
  exists fields, policy, text, j, cs, secs. do 6 (split; [assumption|]).
  destruct (C10_tamper_evidence _ _ _ _ _ _ _ _ _ _ Lo R I D J P) as [T1 T2].
  assert (X : forall v n, In (B "Content-Length", v) fields -> decimal_of n v -> 3%N = n).
  { intros v n Iv Dn. destruct (build demo_deps (builder_of demo_calls)) as [r|s|e k] eqn:E; [|destruct (returns_panic_inv _ _ _ R)|vm_compute in E; discriminate E].
    apply returns_ret_inv in R. destruct R as [_ <-]. vm_compute in E. injection E as <-. cbn [In] in Iv.
    repeat (destruct Iv as [Iv|Iv]; [try discriminate (f_equal fst Iv)|]); [|destruct Iv].
    injection Iv as <-. destruct Dn as [Dn _]. vm_compute in Dn. congruence. }
  split; [apply T1; assumption|]. intros A. apply T2 in A. destruct A as [_ A].
  destruct (build demo_deps (builder_of demo_calls)) as [r|s|e k] eqn:E; [|destruct (returns_panic_inv _ _ _ R)|vm_compute in E; discriminate E].
  apply returns_ret_inv in R. destruct R as [_ <-]. vm_compute in E. injection E as <-.
  specialize (A (B "3") 3%N). assert (4%N = 3%N); [|discriminate]. apply A; [right; left; reflexivity|split; [reflexivity|right; exists "3"%byte, []; split; [reflexivity|discriminate]]].
Qed.

(** A build with a repeated metadata name succeeds. *)
Example C52_example : exists fields,
  let calls := CXGoogMeta (B "who") (B "you") :: demo_calls in
  returns (build demo_deps (builder_of calls)) [] (Ok fields) /\
  In (B "x-goog-meta-who", B "you") (meta_pairs calls) /\ In (B "x-goog-meta-who", B "me ""you""") (meta_pairs calls).
Proof.
  cbn zeta. set (calls := _ :: _). destruct (build demo_deps (builder_of calls)) as [r|s|e k] eqn:E; subst calls; vm_compute in E; try discriminate E.
  injection E as <-. eexists. split; [constructor|]. split; [left; reflexivity|right; left; reflexivity].
Qed.
