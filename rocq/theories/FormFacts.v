(** The form builder: the last value of each field, and successful signed builds. *)
From Verif Require Import Base BaseFacts Base64 Sha256 SpecCodec CodecFacts SpecCalendar Time TimeFacts Json SpecJson JsonFacts
  Policy PolicyFacts SpecPolicy Effects EffectsFacts Keys Scope HtmlForm SpecForm.
Local Open Scope Z_scope.

Lemma undec_all_digits s n : undec s = Some n -> s <> [] /\ Forall (fun c => is_digit c = true) s.
Proof.
  unfold undec. destruct s as [|c s]; [discriminate|]. intros H. split; [discriminate|].
  revert H. generalize 0%N as acc. generalize (c :: s) as l. clear. induction l as [|c l IH]; intros acc H; [constructor|].
  cbn [undec_acc] in H. destruct (is_digit c) eqn:E; [|discriminate H]. constructor; [exact E|]. eapply IH; exact H.
Qed.

Lemma undec_acc_ge s : forall acc n, undec_acc acc s = Some n -> (acc * 10 ^ N.of_nat (length s) <= n)%N.
Proof.
  induction s as [|c s IH]; intros acc n H; cbn [undec_acc] in H.
  - injection H as <-. cbn. lia.
  - destruct (is_digit c) eqn:E; [|discriminate H]. apply IH in H. cbn [length]. rewrite Nat2N.inj_succ, N.pow_succ_r'.
    apply is_digit_range in E. nia.
Qed.

Lemma decimal_unique n s t : decimal_of n s -> decimal_of n t -> s = t.
Proof.
  assert (D : forall s, decimal_of n s -> s = dec n).
  { clear. intros s [H Hh]. destruct (undec_all_digits _ _ H) as [Ne Hd].
    assert (L : length s = length (dec n)).
    { pose proof (undec_dec n) as U.
      assert (B1 : forall s, decimal_of n s -> (N.of_nat (length s) = 1 /\ n < 10 \/ 10 ^ (N.of_nat (length s) - 1) <= n < 10 ^ N.of_nat (length s))%N).
      { clear. intros s [H Hh]. unfold undec in H. destruct s as [|c s]; [discriminate H|].
        pose proof (undec_acc_bounds _ _ _ H) as Bd.
        destruct Hh as [E|(c' & r & E & Hc)].
        - injection E as -> ->. left. split; [reflexivity|]. cbn in H. injection H as <-. lia.
        - injection E as <- <-. destruct s as [|c2 s].
          + left. split; [reflexivity|]. cbn [undec_acc] in H. destruct (is_digit c) eqn:Ec; [|discriminate H]. injection H as <-.
            apply is_digit_range in Ec. lia.
          + right. split; [|cbn [length] in *; lia].
            cbn [undec_acc] in H. destruct (is_digit c) eqn:Ec; [|discriminate H].
            assert (H' : undec_acc (0 * 10 + (bN c - 48)) (c2 :: s) = Some n) by exact H.
            apply undec_acc_ge in H'. assert (1 <= bN c - 48)%N.
            { apply is_digit_range in Ec. assert (bN c <> 48%N); [|lia]. intros E. apply Hc. apply bN_inj. rewrite E. reflexivity. }
            cbn [length] in *. replace (N.of_nat (S (S (length s))) - 1)%N with (N.of_nat (S (length s))) by lia. nia. }
      assert (B2 := B1 (dec n)). assert (B3 := B1 s (conj H Hh)).
      assert (decimal_of n (dec n)).
      { split; [exact U|]. destruct (N.eq_dec n 0) as [->|Hn]; [left; reflexivity|right; apply dec_head; lia]. }
      specialize (B2 H0). clear B1. set (a := N.of_nat (length s)) in *. set (b := N.of_nat (length (dec n))) in *.
      enough (a = b) by lia.
      assert (Ha : (1 <= a)%N) by (destruct s; [congruence|cbn in a; lia]).
      assert (Hb : (1 <= b)%N) by (pose proof (dec_nonempty n); destruct (dec n); [congruence|cbn in b; lia]).
      assert (P : forall x y, (x < y)%N -> (10 ^ x <= 10 ^ (y - 1))%N) by (intros x y Hxy; apply N.pow_le_mono_r; lia).
      assert (P10 : forall x, (2 <= x)%N -> (10 <= 10 ^ (x - 1))%N).
      { intros x Hx. change 10%N with (10 ^ 1)%N at 1. apply N.pow_le_mono_r; lia. }
      destruct (N.lt_trichotomy a b) as [Lt|[Eq|Gt]]; [|exact Eq|].
      - specialize (P _ _ Lt). specialize (P10 b). destruct B2 as [[? ?]|[? ?]], B3 as [[? ?]|[? ?]]; lia.
      - specialize (P _ _ Gt). specialize (P10 a). destruct B2 as [[? ?]|[? ?]], B3 as [[? ?]|[? ?]]; lia. }
    unfold undec in H. pose proof (undec_dec n) as U. unfold undec in U.
    destruct s as [|c s]; [discriminate H|]. destruct (dec n) as [|c' s'] eqn:E; [discriminate U|].
    eapply undec_acc_inj; eassumption. }
  intros H1 H2. rewrite (D s H1), (D t H2). reflexivity.
Qed.

Lemma decimal_dec n : decimal_of n (dec n).
Proof.
  split; [apply undec_dec|]. destruct (N.eq_dec n 0) as [->|Hn]; [left; reflexivity|right].
  apply dec_head. lia.
Qed.

Lemma decimal_iff n s : decimal_of n s <-> s = dec n.
Proof. split; [intros H; eapply decimal_unique; [exact H|apply decimal_dec]|intros ->; apply decimal_dec]. Qed.

(** * The last value of each field *)

Lemma sets_unique c n v w : sets c n v -> sets c n w -> v = w.
Proof.
  destruct c; cbn [sets]; intros H1 H2; try contradiction; destruct H1 as [_ H1], H2 as [_ H2];
    try (subst; reflexivity); eapply decimal_unique; eassumption.
Qed.

(** The text a call sets for one field, as a function. *)
Definition set_text (c : builder_call) : option (str * str) :=
  match c with
  | CAcl v => Some (B "acl", v)
  | CBucket v => Some (B "bucket", v)
  | CCacheControl v => Some (B "Cache-Control", v)
  | CContentDisposition v => Some (B "Content-Disposition", v)
  | CContentEncoding v => Some (B "Content-Encoding", v)
  | CContentLength n => Some (B "Content-Length", dec n)
  | CContentType v => Some (B "Content-Type", v)
  | CExpires v => Some (B "Expires", v)
  | CKey v => Some (B "key", v)
  | CSuccessActionRedirect v => Some (B "success_action_redirect", v)
  | CSuccessActionStatus n => Some (B "success_action_status", dec n)
  | CXGoogCustomTime v => Some (B "x-goog-custom-time", v)
  | CSigningOptions _ | CXGoogMeta _ _ => None
  end.

Lemma sets_iff c n v : sets c n v <-> set_text c = Some (n, v).
Proof.
  destruct c; cbn [sets set_text]; try (split; [intros [-> ->]; reflexivity|intros E; injection E as <- <-; auto]);
    try (split; [tauto|discriminate]).
  - rewrite decimal_iff. split; [intros [-> ->]; reflexivity|intros E; injection E as <- <-; auto].
  - rewrite decimal_iff. split; [intros [-> ->]; reflexivity|intros E; injection E as <- <-; auto].
Qed.

(** The fields of a builder by name. *)
Definition slots (b : builder) : list (str * option str) := [
  (B "acl", b_acl b); (B "bucket", b_bucket b); (B "Cache-Control", b_cache_control b);
  (B "Content-Disposition", b_content_disposition b); (B "Content-Encoding", b_content_encoding b);
  (B "Content-Length", option_map dec (b_content_length b)); (B "Content-Type", b_content_type b);
  (B "Expires", b_expires b); (B "key", b_key b);
  (B "success_action_redirect", b_success_action_redirect b);
  (B "success_action_status", option_map dec (b_success_action_status b));
  (B "x-goog-custom-time", b_x_goog_custom_time b)].

Definition slot_ok (calls : list builder_call) (s : str * option str) : Prop :=
  match snd s with
  | Some v => last_value calls (fst s) v
  | None => unset calls (fst s)
  end.

Lemma slots_apply b c :
  slots (apply_call b c) = map (fun s => match set_text c with
    | Some (n, v) => if str_eqb (fst s) n then (fst s, Some v) else s
    | None => s
    end) (slots b).
Proof. destruct b; destruct c; reflexivity. Qed.

Lemma builder_of_snoc calls c : builder_of (calls ++ [c]) = apply_call (builder_of calls) c.
Proof. unfold builder_of. rewrite fold_left_app. reflexivity. Qed.

Lemma slots_ok calls : Forall (slot_ok calls) (slots (builder_of calls)).
Proof.
  induction calls as [|c calls IH] using rev_ind.
  - repeat constructor.
  - rewrite builder_of_snoc, slots_apply. apply Forall_forall. intros s Hs. apply in_map_iff in Hs.
    destruct Hs as ([n o] & <- & Hs). rewrite Forall_forall in IH. specialize (IH _ Hs). unfold slot_ok in *. cbn [fst snd] in *.
    assert (K : (forall v, ~ sets c n v) ->
      match o with Some v => last_value (calls ++ [c]) n v | None => unset (calls ++ [c]) n end).
    { intros N. destruct o as [v|].
      - destruct IH as (b & c0 & a & -> & S & U). exists b, c0, (a ++ [c]). rewrite <- app_assoc. split; [reflexivity|].
        split; [exact S|]. apply Forall_app. split; [exact U|]. constructor; [exact N|constructor].
      - apply Forall_app. split; [exact IH|]. constructor; [exact N|constructor]. }
    destruct (set_text c) as [[m w]|] eqn:E.
    + destruct (str_eqb_spec n m) as [->|Hn]; cbn [fst snd].
      * exists calls, c, []. split; [reflexivity|]. split; [apply sets_iff; exact E|constructor].
      * apply K. intros v S. apply sets_iff in S. congruence.
    + apply K. intros v S. apply sets_iff in S. congruence.
Qed.

Lemma slot_value calls n o : In (n, o) (slots (builder_of calls)) ->
  forall v, last_value calls n v <-> o = Some v.
Proof.
  intros I v. pose proof (slots_ok calls) as H. rewrite Forall_forall in H. specialize (H _ I). unfold slot_ok in H. cbn [fst snd] in H.
  destruct o as [w|].
  - split; [|intros E; injection E as <-; exact H]. intros (b & c & a & E & S & U). destruct H as (b' & c' & a' & E' & S' & U').
    f_equal. rewrite E in E'. clear E calls I. revert b' E'. induction b as [|x b IH]; intros [|x' b'] E'; cbn [app] in E'.
    + injection E' as <- _. eapply sets_unique; eassumption.
    + injection E' as -> ->. exfalso. apply Forall_app in U. destruct U as [_ U]. inversion U as [|? ? U1]; subst. exact (U1 _ S').
    + injection E' as -> <-. exfalso. apply Forall_app in U'. destruct U' as [_ U']. inversion U' as [|? ? U1]; subst. exact (U1 _ S).
    + injection E' as -> E'. eapply IH; exact E'.
  - split; [|discriminate]. intros (b & c & a & -> & S & U). apply Forall_app in H. destruct H as [_ H]. inversion H as [|? ? U1]; subst.
    destruct (U1 _ S).
Qed.

Lemma slot_unset calls n o : In (n, o) (slots (builder_of calls)) -> (unset calls n <-> o = None).
Proof.
  intros I. pose proof (slots_ok calls) as H. rewrite Forall_forall in H. specialize (H _ I). unfold slot_ok in H. cbn [fst snd] in H.
  destruct o as [w|]; [|tauto]. split; [|discriminate]. intros U. exfalso. destruct H as (b & c & a & -> & S & _).
  apply Forall_app in U. destruct U as [_ U]. inversion U as [|? ? U1]; subst. exact (U1 _ S).
Qed.

(** Names no call sets. *)
Lemma last_value_names calls n v : last_value calls n v -> In n (map fst (slots builder_new)).
Proof.
  intros (b & c & a & _ & S & _). apply sets_iff in S. destruct c; try discriminate S; injection S as <- _; cbn; tauto.
Qed.

Lemma key_slot calls : In (B "key", b_key (builder_of calls)) (slots (builder_of calls)).
Proof. cbn. tauto. Qed.
Lemma bucket_slot calls : In (B "bucket", b_bucket (builder_of calls)) (slots (builder_of calls)).
Proof. cbn. tauto. Qed.

Lemma options_spec calls :
  match b_signing_options (builder_of calls) with Some o => last_options calls o | None => no_options calls end.
Proof.
  induction calls as [|c calls IH] using rev_ind; [intros o []|]. rewrite builder_of_snoc.
  assert (A : b_signing_options (apply_call (builder_of calls) c) =
    match c with CSigningOptions o => Some o | _ => b_signing_options (builder_of calls) end).
  { destruct (builder_of calls); destruct c; reflexivity. }
  rewrite A.
  assert (K : (forall o, c <> CSigningOptions o) ->
    match b_signing_options (builder_of calls) with Some o => last_options (calls ++ [c]) o | None => no_options (calls ++ [c]) end).
  { intros N. destruct (b_signing_options (builder_of calls)) as [o|].
    - destruct IH as (b & a & -> & U). exists b, (a ++ [c]). rewrite <- app_assoc. split; [reflexivity|].
      intros o' I. apply in_app_or in I. destruct I as [I|[I|[]]]; [exact (U _ I)|exact (N _ I)].
    - intros o' I. apply in_app_or in I. destruct I as [I|[I|[]]]; [exact (IH _ I)|exact (N _ I)]. }
  destruct c; try (apply K; discriminate). exists calls, []. split; [reflexivity|]. intros o' [].
Qed.

Lemma options_iff calls o : last_options calls o <-> b_signing_options (builder_of calls) = Some o.
Proof.
  pose proof (options_spec calls) as H. destruct (b_signing_options (builder_of calls)) as [o'|].
  - split; [|intros E; injection E as <-; exact H]. intros (b & a & E & U). destruct H as (b' & a' & E' & U'). rewrite E in E'. clear E.
    revert b' E'. induction b as [|x b IH]; intros [|x' b'] E'; cbn [app] in E'.
    + congruence.
    + injection E' as _ ->. exfalso. apply (U o'). apply in_or_app. right; left; reflexivity.
    + injection E' as -> <-. exfalso. apply (U' o). apply in_or_app. right; left; reflexivity.
    + injection E' as _ E'. eapply IH; exact E'.
  - split; [|discriminate]. intros (b & a & -> & U). exfalso. apply (H o). apply in_or_app. right; left; reflexivity.
Qed.

Lemma no_options_iff calls : no_options calls <-> b_signing_options (builder_of calls) = None.
Proof.
  pose proof (options_spec calls) as H. destruct (b_signing_options (builder_of calls)) as [o'|]; [|tauto].
  split; [|discriminate]. intros N. destruct H as (b & a & -> & _). exfalso. apply (N o'). apply in_or_app. right; left; reflexivity.
Qed.

Lemma meta_of calls : b_x_goog_meta (builder_of calls) =
  flat_map (fun c => match c with CXGoogMeta n v => [(n, v)] | _ => [] end) calls.
Proof.
  induction calls as [|c calls IH] using rev_ind; [reflexivity|]. rewrite builder_of_snoc, flat_map_app, <- IH. clear IH.
  destruct (builder_of calls) as [? ? ? ? ? ? ? ? ? ? ? ? ? m]; destruct c; cbn; rewrite ?app_nil_r; reflexivity.
Qed.

Lemma meta_fields_spec l :
  match meta_fields l with
  | Ok fs => ~ In [] (map fst l) /\ fs = map (fun nv => (B "x-goog-meta-" ++ fst nv, snd nv)) l
  | Err e => e = XGoogMetaNameEmpty /\ In [] (map fst l)
  end.
Proof.
  induction l as [|[n v] l IH]; cbn [meta_fields map fst snd].
  - split; [intros []|reflexivity].
  - destruct n as [|c n]; [split; [reflexivity|left; reflexivity]|].
    destruct (meta_fields l) as [fs|e].
    + destruct IH as [N ->]. split; [intros [E|I]; [discriminate E|exact (N I)]|reflexivity].
    + destruct IH as [-> I]. split; [reflexivity|right; exact I].
Qed.

Lemma empty_meta_iff calls : empty_meta calls <-> In [] (map fst (b_x_goog_meta (builder_of calls))).
Proof.
  rewrite meta_of. unfold empty_meta. rewrite in_map_iff. split.
  - intros [v I]. exists ([], v). split; [reflexivity|]. apply in_flat_map. exists (CXGoogMeta [] v). split; [exact I|left; reflexivity].
  - intros ([n v] & E & I). cbn in E. subst n. apply in_flat_map in I. destruct I as (c & I & J). destruct c; cbn in J; try contradiction.
    destruct J as [J|[]]. injection J as -> ->. eauto.
Qed.

Lemma meta_pairs_of calls : meta_pairs calls =
  map (fun nv => (B "x-goog-meta-" ++ fst nv, snd nv)) (b_x_goog_meta (builder_of calls)).
Proof.
  rewrite meta_of. unfold meta_pairs. induction calls as [|c calls IH]; [reflexivity|]. cbn [flat_map]. rewrite IH.
  destruct c; reflexivity.
Qed.

Lemma listed_push (V : str -> str -> Prop) n o names l : (forall v, V n v <-> o = Some v) -> listed V names l ->
  listed V (n :: names) (push_opt n o ++ l).
Proof.
  intros H L. destruct o as [v|]; cbn [push_opt app].
  - apply li_set; [apply H; reflexivity|exact L].
  - apply li_unset; [|exact L]. intros v Hv. apply H in Hv. discriminate Hv.
Qed.

Lemma listed_unique (V : str -> str -> Prop) names l1 l2 : (forall n v w, V n v -> V n w -> v = w) -> listed V names l1 -> listed V names l2 -> l1 = l2.
Proof.
  intros U H. revert l2. induction H as [|n v names l Hv H IH|n names l Hv H IH]; intros l2 H2; inversion H2; subst; try reflexivity.
  - f_equal; [f_equal; eapply U; eassumption|auto].
  - exfalso. match goal with N : forall v, ~ V n v |- _ => exact (N _ Hv) end.
  - exfalso. match goal with N : V n ?v |- _ => exact (Hv _ N) end.
  - auto.
Qed.

(** * Successful signed builds *)

Definition form_list (b : builder) (key : str) (p : option policy_fields) (meta : list (str * str)) : list (str * str) :=
    push_opt (B "acl") (b_acl b)
    ++ push_opt (B "bucket") (b_bucket b)
    ++ push_opt (B "Cache-Control") (b_cache_control b)
    ++ push_opt (B "Content-Disposition") (b_content_disposition b)
    ++ push_opt (B "Content-Encoding") (b_content_encoding b)
    ++ push_opt (B "Content-Length") (option_map dec (b_content_length b))
    ++ push_opt (B "Content-Type") (b_content_type b)
    ++ push_opt (B "Expires") (b_expires b)
    ++ [(B "key", key)]
    ++ push_opt (B "policy") (option_map pf_policy p)
    ++ push_opt (B "success_action_redirect") (b_success_action_redirect b)
    ++ push_opt (B "success_action_status") (option_map dec (b_success_action_status b))
    ++ push_opt (B "x-goog-algorithm") (option_map pf_algorithm p)
    ++ push_opt (B "x-goog-credential") (option_map pf_credential p)
    ++ push_opt (B "x-goog-custom-time") (b_x_goog_custom_time b)
    ++ push_opt (B "x-goog-date") (option_map pf_date p)
    ++ push_opt (B "x-goog-signature") (option_map pf_signature p)
    ++ meta.

(** Everything a successful signed build computed. *)
Record signed_build (d : deps) (b : builder) (o : signing_options) (t : Z) (t1 t2 : list event) (fields : list (str * str)) := {
  sb_acc : Z; sb_exp : Z; sb_bucket : str; sb_key : str; sb_email : str; sb_sig : str;
  sb_fixed : list condition; sb_meta : list condition; sb_metas : list (str * str);
  sb_window : t < so_expiration o;
  sb_acc_eq : ut_from_system_time t = Some sb_acc;
  sb_exp_eq : ut_from_system_time (so_expiration o) = Some sb_exp;
  sb_bucket_eq : b_bucket b = Some sb_bucket;
  sb_key_eq : b_key b = Some sb_key;
  sb_alg : key_algorithm (so_signing_key o) = Goog4RsaSha256;
  sb_auth : returns (authorizer d (so_signing_key o)) t1 (Ok sb_email);
  sb_credential := sb_email ++ B "/" ++ date_to_string (date_from_unix_timestamp sb_acc) ++ B "/"
                     ++ unwrap_or (so_region o) (B "auto") ++ B "/" ++ B "storage" ++ B "/" ++ B "goog4_request";
  sb_date := ut_to_iso8601 sb_acc;
  sb_fixed_eq : traverse (fun c => c) (fixed_conditions b sb_bucket sb_key sb_credential sb_date Goog4RsaSha256) = Some sb_fixed;
  sb_meta_eq : meta_conditions (b_x_goog_meta b) = MetaOk sb_meta;
  sb_text := policy_to_string {| conditions := sb_fixed ++ sb_meta; pd_expiration := sb_exp |};
  sb_sign : returns (sign d (so_signing_key o) (so_use_sign_blob o) (b64_encode sb_text)) t2 (Ok sb_sig);
  sb_metas_eq : meta_fields (b_x_goog_meta b) = Ok sb_metas;
  sb_fields : fields = form_list b sb_key (Some {| pf_policy := b64_encode sb_text;
     pf_algorithm := B "GOOG4-RSA-SHA256"; pf_credential := sb_credential; pf_date := sb_date; pf_signature := hex_encode sb_sig |}) sb_metas
}.

Lemma credential_scope_text date location scope :
  credential_scope_new date location Storage Goog4Request = Some scope ->
  credential_scope_to_string scope = date_to_string date ++ B "/" ++ location ++ B "/" ++ B "storage" ++ B "/" ++ B "goog4_request".
Proof. intros H. injection H as <-. reflexivity. Qed.

Lemma signed_build_inv d b o tr fields : b_signing_options b = Some o ->
  returns (build d b) tr (Ok fields) ->
  exists t pre t1 t2, build_time o t pre /\ tr = pre ++ t1 ++ t2 /\ exists _ : signed_build d b o t t1 t2 fields, True.
Proof.
  intros So H. unfold build in H. apply returns_bind_ok_inv in H. destruct H as [(p & t1 & t2 & H1 & H & ->)|(e & _ & E)]; [|discriminate E].
  destruct (b_key b) as [key|] eqn:Hkey; [|apply returns_ret_inv in H; destruct H as [_ H]; discriminate H].
  destruct (meta_fields (b_x_goog_meta b)) as [metas|] eqn:Hm; [|apply returns_ret_inv in H; destruct H as [_ H]; discriminate H].
  apply returns_ret_inv in H. destruct H as [-> E]. injection E as ->. rewrite app_nil_r.
  unfold build_policy in H1. rewrite So in H1.
  assert (K : forall t tr', returns (build_policy_at d b o t) tr' (Ok p) ->
    exists t1 t2, tr' = t1 ++ t2 /\ exists _ : signed_build d b o t t1 t2 (form_list b key p metas), True).
  { clear H1 t1. intros t tr' H. unfold build_policy_at in H.
    destruct (Z.leb_spec (so_expiration o) t) as [|Hw]; [apply returns_ret_inv in H; destruct H as [_ H]; discriminate H|].
    destruct (ut_from_system_time t) as [acc|] eqn:Hacc; [|apply returns_ret_inv in H; destruct H as [_ H]; discriminate H].
    destruct (ut_from_system_time (so_expiration o)) as [exp|] eqn:Hexp; [|apply returns_ret_inv in H; destruct H as [_ H]; discriminate H].
    destruct (b_bucket b) as [bucket|] eqn:Hb; [|apply returns_ret_inv in H; destruct H as [_ H]; discriminate H].
    rewrite Hkey in H.
    destruct (key_algorithm (so_signing_key o)) eqn:Ha; [|apply returns_ret_inv in H; destruct H as [_ H]; discriminate H|apply returns_ret_inv in H; destruct H as [_ H]; discriminate H].
    apply returns_bind_ok_inv in H. destruct H as [(email & t1 & t2 & H1 & H & ->)|(e & _ & E)]; [|discriminate E].
    destruct (location_try_from _) as [location|] eqn:Hl; [|destruct (returns_panic_inv _ _ _ H)].
    injection Hl as <-.
    destruct (credential_scope_new _ _ _ _) as [scope|] eqn:Hs; [|apply returns_ret_inv in H; destruct H as [_ H]; discriminate H].
    pose proof (credential_scope_text _ _ _ Hs) as Hst. rewrite Hst in H.
    destruct (traverse _ _) as [fixed|] eqn:Hf; [|destruct (returns_panic_inv _ _ _ H)].
    destruct (meta_conditions _) as [meta| |] eqn:Hmc; [|apply returns_ret_inv in H; destruct H as [_ H]; discriminate H|destruct (returns_panic_inv _ _ _ H)].
    apply returns_bind_ok_inv in H. destruct H as [(sig & t3 & t4 & H2 & H & ->)|(e & _ & E)]; [|discriminate E].
    apply returns_ret_inv in H. destruct H as [-> E]. injection E as ->. rewrite app_nil_r.
    exists t1, t3. split; [reflexivity|].
    unshelve eexists; [|exact I].
    exact {| sb_window := Hw; sb_acc_eq := Hacc; sb_exp_eq := Hexp; sb_bucket_eq := Hb; sb_key_eq := Hkey; sb_alg := Ha; sb_auth := H1;
      sb_fixed_eq := Hf; sb_meta_eq := Hmc; sb_sign := H2; sb_metas_eq := Hm; sb_fields := eq_refl |}. }
  destruct (so_accessible_at o) as [t|] eqn:Ht.
  - apply K in H1. destruct H1 as (t2 & t3 & -> & R). exists t, [], t2, t3. split; [constructor; exact Ht|]. split; [reflexivity|exact R].
  - apply returns_act_inv in H1. destruct H1 as (t & tr' & -> & H1). apply K in H1. destruct H1 as (t2 & t3 & -> & R).
    exists t, [VNow t], t2, t3. split; [constructor; exact Ht|]. split; [reflexivity|exact R].
Qed.

(** * Conditions and fields *)

Definition cond_of (c : condition) : cond :=
  match c with
  | ExactMatching f v => CEq (field_to_string f) v
  | StartsWith f v => CPrefix (field_to_string f) v
  | ContentLengthRange a b => CRange a b
  end.

Definition matches (oc : option condition) (f : str * str) : Prop := exists c, oc = Some c /\ covers f (cond_of c) /\
  match c with ExactMatching g _ | StartsWith g _ => field_ok g | ContentLengthRange _ _ => True end.

Lemma matches_exact n v : field_new n <> None -> n <> B "Content-Length" -> matches (exact n v) (n, v).
Proof.
  intros H1 H2. unfold exact. destruct (field_new n) as [f|] eqn:E; [|congruence]. eexists. split; [reflexivity|].
  apply field_to_string_new in E. destruct E as [E Ok']. cbn [cond_of]. rewrite E. split; [apply cv_eq; exact H2|exact Ok'].
Qed.

Lemma matches_opt n o : field_new n <> None -> n <> B "Content-Length" -> Forall2 matches (exact_opt n o) (push_opt n o).
Proof. intros H1 H2. destruct o as [v|]; cbn; constructor; [apply matches_exact; assumption|constructor]. Qed.

Lemma matches_length o :
  Forall2 matches (match o with Some n => [Some (ContentLengthRange n n)] | None => [] end)
    (push_opt (B "Content-Length") (option_map dec o)).
Proof.
  destruct o as [n|]; cbn; constructor; [|constructor]. eexists. split; [reflexivity|]. split; [|exact I]. apply cv_length. apply decimal_dec.
Qed.

Lemma matches_traverse l fs cs : Forall2 matches l fs -> traverse (fun c => c) l = Some cs ->
  Forall2 (fun c f => covers f (cond_of c)) cs fs /\
  Forall (fun c => match c with ExactMatching g _ | StartsWith g _ => field_ok g | ContentLengthRange _ _ => True end) cs.
Proof.
  intros H. revert cs. induction H as [|oc f l fs (c & -> & Hc & Hok) H IH]; intros cs T; cbn [traverse] in T.
  - injection T as <-. split; constructor.
  - destruct (traverse (fun c => c) l) as [cs'|]; [|discriminate T]. injection T as <-. destruct (IH _ eq_refl) as [IH1 IH2].
    split; constructor; assumption.
Qed.

Lemma matches_total l fs : Forall2 matches l fs -> exists cs, traverse (fun c => c) l = Some cs.
Proof.
  induction 1 as [|oc f l fs (c & -> & _) H [cs IH]]; cbn [traverse]; [eauto|]. rewrite IH. eauto.
Qed.

(** The fields the fixed conditions cover. *)
Definition fixed_list (b : builder) (bucket key credential date algorithm : str) : list (str * str) :=
  push_opt (B "acl") (b_acl b)
  ++ [(B "bucket", bucket)]
  ++ push_opt (B "Cache-Control") (b_cache_control b)
  ++ push_opt (B "Content-Disposition") (b_content_disposition b)
  ++ push_opt (B "Content-Encoding") (b_content_encoding b)
  ++ push_opt (B "Content-Length") (option_map dec (b_content_length b))
  ++ push_opt (B "Content-Type") (b_content_type b)
  ++ push_opt (B "Expires") (b_expires b)
  ++ [(B "key", key)]
  ++ push_opt (B "success_action_redirect") (b_success_action_redirect b)
  ++ push_opt (B "success_action_status") (option_map dec (b_success_action_status b))
  ++ [(B "x-goog-algorithm", algorithm)]
  ++ [(B "x-goog-credential", credential)]
  ++ push_opt (B "x-goog-custom-time") (b_x_goog_custom_time b)
  ++ [(B "x-goog-date", date)].

Lemma fixed_matches b bucket key credential date a :
  Forall2 matches (fixed_conditions b bucket key credential date a)
    (fixed_list b bucket key credential date (algorithm_str a)).
Proof.
  unfold fixed_conditions, fixed_list.
  repeat (apply Forall2_app; [first [apply matches_length|apply matches_opt; discriminate|repeat constructor; apply matches_exact; discriminate]|]).
  repeat constructor; apply matches_exact; discriminate.
Qed.

Lemma meta_matches l cs : meta_conditions l = MetaOk cs ->
  Forall2 (fun c f => covers f (cond_of c)) cs (map (fun nv => (B "x-goog-meta-" ++ fst nv, snd nv)) l) /\
  Forall (fun c => match c with ExactMatching g _ | StartsWith g _ => field_ok g | ContentLengthRange _ _ => True end) cs.
Proof.
  revert cs. induction l as [|[n v] l IH]; intros cs H; cbn [meta_conditions map fst snd] in *.
  - injection H as <-. split; constructor.
  - destruct n as [|x n]; [discriminate H|]. destruct (exact _ _) as [c|] eqn:E; [|discriminate H].
    destruct (meta_conditions l) as [cs'| |]; try discriminate H. injection H as <-. destruct (IH _ eq_refl) as [IH1 IH2].
    unfold exact in E. destruct (field_new _) as [f|] eqn:Ef; [|discriminate E]. injection E as <-.
    apply field_to_string_new in Ef. destruct Ef as [Ef Hok].
    split; constructor; [|exact IH1|exact Hok|exact IH2]. cbn [cond_of]. rewrite Ef. apply cv_eq. discriminate.
Qed.

Lemma meta_no_panic l : meta_conditions l <> MetaPanic.
Proof.
  induction l as [|[n v] l IH]; cbn [meta_conditions]; [discriminate|]. destruct n as [|x n]; [discriminate|].
  unfold exact. pose proof (field_new_to_string (FXGoogMeta (x :: n))) as F. cbn [field_to_string] in F.
  rewrite F by discriminate. destruct (meta_conditions l); try discriminate. congruence.
Qed.

Lemma meta_empty_iff l : meta_conditions l = MetaEmptyName <-> In [] (map fst l).
Proof.
  induction l as [|[n v] l IH]; cbn [meta_conditions map fst In]; [split; [discriminate|tauto]|].
  destruct n as [|x n]; [split; auto|].
  unfold exact. pose proof (field_new_to_string (FXGoogMeta (x :: n))) as F. cbn [field_to_string] in F.
  rewrite F by discriminate. pose proof (meta_no_panic l). destruct (meta_conditions l) as [cs| |].
  - split; [discriminate|]. intros [E|I]; [discriminate E|]. apply IH in I. discriminate I.
  - split; [intros _; right; apply IH; reflexivity|reflexivity].
  - congruence.
Qed.

Lemma fixed_total b bucket key credential date a : exists cs, traverse (fun c => c) (fixed_conditions b bucket key credential date a) = Some cs.
Proof. eapply matches_total. apply fixed_matches. Qed.

Lemma covered_push n o : n <> B "policy" -> n <> B "x-goog-signature" -> covered (push_opt n o) = push_opt n o.
Proof.
  intros H1 H2. destruct o as [v|]; [|reflexivity]. unfold covered. cbn [push_opt filter fst].
  apply str_eqb_neq in H1, H2. rewrite H1, H2. reflexivity.
Qed.

Lemma covered_app l1 l2 : covered (l1 ++ l2) = covered l1 ++ covered l2.
Proof. apply filter_app. Qed.

Lemma covered_meta l : covered (map (fun nv : str * str => (B "x-goog-meta-" ++ fst nv, snd nv)) l)
  = map (fun nv => (B "x-goog-meta-" ++ fst nv, snd nv)) l.
Proof. induction l as [|[n v] l IH]; [reflexivity|]. cbn [map]. unfold covered in *. cbn [filter fst snd]. cbn [B app]. cbn. f_equal. exact IH. Qed.

Lemma covered_form b bucket key p l : b_bucket b = Some bucket -> 
  covered (form_list b key (Some p) (map (fun nv => (B "x-goog-meta-" ++ fst nv, snd nv)) l))
  = fixed_list b bucket key (pf_credential p) (pf_date p) (pf_algorithm p) ++ map (fun nv => (B "x-goog-meta-" ++ fst nv, snd nv)) l.
Proof.
  intros Hb. unfold form_list, fixed_list. rewrite !covered_app, covered_meta, Hb. cbn [option_map].
  change (push_opt (B "policy") (Some (pf_policy p))) with [(B "policy", pf_policy p)].
  change (push_opt (B "x-goog-signature") (Some (pf_signature p))) with [(B "x-goog-signature", pf_signature p)].
  rewrite !covered_push by discriminate.
  change (covered [(B "policy", pf_policy p)]) with (@nil (str * str)).
  change (covered [(B "x-goog-signature", pf_signature p)]) with (@nil (str * str)).
  change (covered [(B "key", key)]) with [(B "key", key)].
  cbn [app push_opt]. repeat (rewrite <- app_assoc; cbn [app]). reflexivity.
Qed.

Definition computed (p : policy_fields) : list (str * str) := [
  (B "policy", pf_policy p); (B "x-goog-algorithm", pf_algorithm p); (B "x-goog-credential", pf_credential p);
  (B "x-goog-date", pf_date p); (B "x-goog-signature", pf_signature p)].

Definition form_value (calls : list builder_call) (p : option policy_fields) (n v : str) : Prop :=
  last_value calls n v \/ exists pf, p = Some pf /\ In (n, v) (computed pf).

Lemma form_value_slot calls p n o : In (n, o) (slots (builder_of calls)) ->
  ~ In n (map B ["policy"; "x-goog-algorithm"; "x-goog-credential"; "x-goog-date"; "x-goog-signature"]%string) ->
  forall v, form_value calls p n v <-> o = Some v.
Proof.
  intros H N v. rewrite <- (slot_value calls n o H v). unfold form_value. split; [|auto]. intros [L|(pf & _ & I)]; [exact L|].
  exfalso. apply N. unfold computed in I. cbn [In map] in *. intuition congruence.
Qed.

Lemma form_value_computed calls p n f :
  ~ In n (map fst (slots builder_new)) -> (forall pf v, In (n, v) (computed pf) <-> v = f pf) ->
  forall v, form_value calls p n v <-> option_map f p = Some v.
Proof.
  intros N H v. unfold form_value. split.
  - intros [L|(pf & -> & I)]; [destruct (N (last_value_names _ _ _ L))|]. apply H in I. cbn. congruence.
  - intros E. destruct p as [pf|]; [|discriminate E]. injection E as <-. right. exists pf. split; [reflexivity|]. apply H. reflexivity.
Qed.

Lemma not_in_names {A} (x : A) l : (forall y, In y l -> y <> x) -> ~ In x l.
Proof. intros H I. exact (H _ I eq_refl). Qed.

Ltac computed_case := apply form_value_computed; [cbn; intuition discriminate|
  intros pf v; unfold computed; cbn [In]; split; [|intros ->; tauto];
  intros I; repeat destruct I as [I|I]; try contradiction; try (apply (f_equal fst) in I; discriminate I);
  injection I as <-; reflexivity].
Ltac slot_case := apply form_value_slot; [cbn; tauto|cbn; intuition discriminate].

Lemma form_listed calls p key meta : b_key (builder_of calls) = Some key ->
  exists l, form_list (builder_of calls) key p meta = l ++ meta /\ listed (form_value calls p) documented_names l.
Proof.
  intros K. exists (form_list (builder_of calls) key p []). split.
  { unfold form_list. rewrite <- !app_assoc. cbn [app]. reflexivity. }
  unfold form_list, documented_names. cbn [map].
  change [(B "key", key)] with (push_opt (B "key") (Some key)).
  repeat (apply listed_push; [first [slot_case|computed_case|idtac]|]); [|constructor].
  rewrite <- K. slot_case.
Qed.

Lemma listed_in V names l n v : listed V names l -> In (n, v) l -> V n v /\ In n names.
Proof.
  induction 1 as [|m w names l Hv H IH|m names l Hv H IH]; intros I.
  - destruct I.
  - destruct I as [E|I]; [injection E as <- <-; split; [exact Hv|left; reflexivity]|]. destruct (IH I). split; [assumption|right; assumption].
  - destruct (IH I). split; [assumption|right; assumption].
Qed.

Lemma listed_has (V : str -> str -> Prop) names l n v : listed V names l -> In n names -> V n v ->
  (forall m a b, V m a -> V m b -> a = b) -> In (n, v) l.
Proof.
  induction 1 as [|m w names l Hv H IH|m names l Hv H IH]; intros I Hn U.
  - destruct I.
  - destruct I as [->|I]; [left; f_equal; eapply U; eassumption|right; auto].
  - destruct I as [->|I]; [destruct (Hv _ Hn)|auto].
Qed.

Lemma last_value_unique calls n v w : last_value calls n v -> last_value calls n w -> v = w.
Proof.
  intros H1 H2. pose proof (last_value_names _ _ _ H1) as N. change (map fst (slots builder_new)) with (map fst (slots (builder_of calls))) in N.
  apply in_map_iff in N. destruct N as ([m o] & E & I). cbn in E. subst m.
  apply (slot_value calls n o I) in H1, H2. congruence.
Qed.

Lemma form_value_unique calls p n v w : form_value calls p n v -> form_value calls p n w -> v = w.
Proof.
  assert (X : forall pf a, In (n, a) (computed pf) -> ~ In n (map fst (slots builder_new))).
  { intros pf a I N. unfold computed in I. cbn [In map fst slots] in *.
    repeat destruct I as [I|I]; try contradiction; injection I as <- _; revert N; cbn; intuition discriminate. }
  intros [L|(pf & Ep & I)] [L'|(pf' & Ep' & I')].
  - eapply last_value_unique; eassumption.
  - destruct (X _ _ I' (last_value_names _ _ _ L)).
  - destruct (X _ _ I (last_value_names _ _ _ L')).
  - rewrite Ep in Ep'. injection Ep' as <-. clear X. unfold computed in I, I'. cbn [In] in I, I'.
    repeat destruct I as [I|I]; try contradiction; injection I as <- <-;
      repeat destruct I' as [I'|I']; try contradiction; try (apply (f_equal fst) in I'; discriminate I'); injection I' as <-; reflexivity.
Qed.

Lemma meta_pair_name calls n v : In (n, v) (meta_pairs calls) -> exists m, n = B "x-goog-meta-" ++ m.
Proof.
  unfold meta_pairs. intros I. apply in_flat_map in I. destruct I as (c & _ & I). destruct c as [| | | | | | | | | | | | |m w]; try (destruct I; fail).
  destruct I as [I|[]]. injection I as <- _. exists m. reflexivity.
Qed.

(** A computed field of the output. *)
Lemma form_field calls pf key n v : b_key (builder_of calls) = Some key ->
  In (n, v) (form_list (builder_of calls) key (Some pf) (meta_pairs calls)) ->
  In n (map fst (computed pf)) -> In (n, v) (computed pf).
Proof.
  intros K I N. destruct (form_listed calls (Some pf) key (meta_pairs calls) K) as (l & E & L). rewrite E in I.
  assert (X : ~ In n (map fst (slots builder_new))).
  { clear -N. unfold computed in N. cbn [In map fst] in N. repeat destruct N as [<-|N]; try contradiction; cbn; intuition discriminate. }
  apply in_app_or in I. destruct I as [I|I].
  - destruct (listed_in _ _ _ _ _ L I) as [[Lv|(pf' & Ep & I')] _]; [destruct (X (last_value_names _ _ _ Lv))|]. congruence.
  - apply meta_pair_name in I. destruct I as [m ->]. exfalso. unfold computed in N. cbn in N. intuition discriminate.
Qed.

Lemma form_has calls pf key n v : b_key (builder_of calls) = Some key ->
  In (n, v) (computed pf) -> In (n, v) (form_list (builder_of calls) key (Some pf) (meta_pairs calls)).
Proof.
  intros K I. destruct (form_listed calls (Some pf) key (meta_pairs calls) K) as (l & -> & L).
  apply in_or_app. left. eapply listed_has; [exact L| |right; exists pf; auto|apply form_value_unique].
  unfold computed in I. cbn [In] in I. repeat destruct I as [I|I]; try contradiction; injection I as <- _; cbn; tauto.
Qed.
