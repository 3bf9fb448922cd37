(** C109: the key decides nothing but the account and the signature. *)
From Verif Require Import Base BaseFacts Base64 Sha256 SpecCodec CodecFacts SpecCalendar Time TimeFacts Json SpecJson JsonFacts
  Policy PolicyFacts SpecPolicy Effects EffectsFacts Keys Scope Url HtmlForm SignedUrl Calls SpecToken SpecTrace KeysFacts CallFacts
  SpecSign SignFacts SpecForm FormFacts SpecUrl UrlFacts SignedUrlFacts UrlResult Conc SpecConc ConcFacts Sim Demo Prop_Form Prop_Url Prop_Keys Prop_Conc SpecPlatform Prop_Platform SpecAgree.
Local Open Scope Z_scope.

(** * Forms *)

Definition without_options (b : builder) : builder :=
  match b with
  | {| b_acl := acl; b_bucket := bucket; b_cache_control := cc; b_content_disposition := cd;
       b_content_encoding := ce; b_content_length := cl; b_content_type := ct; b_expires := ex;
       b_key := key; b_signing_options := so; b_success_action_redirect := sr;
       b_success_action_status := ss; b_x_goog_custom_time := xt; b_x_goog_meta := xm |} =>
      {| b_acl := acl; b_bucket := bucket; b_cache_control := cc; b_content_disposition := cd;
         b_content_encoding := ce; b_content_length := cl; b_content_type := ct; b_expires := ex;
         b_key := key; b_signing_options := None; b_success_action_redirect := sr;
         b_success_action_status := ss; b_x_goog_custom_time := xt; b_x_goog_meta := xm |}
  end.

Lemma builder_field_calls calls : without_options (builder_of calls) = builder_of (field_calls calls).
Proof.
  unfold builder_of. assert (G : forall b b', without_options b = b' -> without_options (fold_left apply_call calls b) = fold_left apply_call (field_calls calls) b').
  { induction calls as [|c calls IH]; intros b b' E; [exact E|]. subst b'. destruct c; cbn [field_calls filter fold_left]; apply IH; destruct b; reflexivity. }
  apply G. reflexivity.
Qed.

Lemma bucket_without b : b_bucket b = b_bucket (without_options b).
Proof. destruct b. reflexivity. Qed.
Lemma key_without b : b_key b = b_key (without_options b).
Proof. destruct b. reflexivity. Qed.
Lemma meta_without b : b_x_goog_meta b = b_x_goog_meta (without_options b).
Proof. destruct b. reflexivity. Qed.
Lemma fixed_without b bucket key credential date a : fixed_conditions b bucket key credential date a = fixed_conditions (without_options b) bucket key credential date a.
Proof. destruct b. reflexivity. Qed.
Lemma list_without b key p meta : form_list b key p meta = form_list (without_options b) key p meta.
Proof. destruct b. reflexivity. Qed.

Lemma ut_second t t' v v' : ut_from_system_time t = Some v -> ut_from_system_time t' = Some v' -> t / 1000000000 = t' / 1000000000 -> v = v'.
Proof. intros H H' E. apply ut_from_system_time_spec in H, H'. unfold NS in H, H'. lia. Qed.

Theorem C109_form d calls o tr fields calls' o' tr' fields' : last_options calls o -> last_options calls' o' -> forms_alike calls o calls' o' ->
  returns (build d (builder_of calls)) tr (Ok fields) -> returns (build d (builder_of calls')) tr' (Ok fields') ->
  exists t pre t1 t2 account policy s t' pre' t1' t2' account' policy' s',
    build_time o t pre /\ tr = pre ++ t1 ++ t2 /\ authorized (so_signing_key o) t1 account /\
    In (B "policy", policy) fields /\ signed d (so_signing_key o) (so_use_sign_blob o) policy t2 s /\
    build_time o' t' pre' /\ tr' = pre' ++ t1' ++ t2' /\ authorized (so_signing_key o') t1' account' /\
    In (B "policy", policy') fields' /\ signed d (so_signing_key o') (so_use_sign_blob o') policy' t2' s' /\
    (account = account' -> t / 1000000000 = t' / 1000000000 -> policy = policy' /\ (s = s' -> fields = fields')).
Proof.
  intros Lo Lo' [Ff Fr Fe] H H'. apply options_iff in Lo, Lo'.
  destruct (signed_build_inv _ _ _ _ _ Lo H) as (t & pre & t1 & t2 & T & E & S & _).
  destruct (signed_build_inv _ _ _ _ _ Lo' H') as (t' & pre' & t1' & t2' & T' & E' & S' & _).
  destruct S as [acc exp bucket key email sig fixed meta metas Hw Hacc Hexp Hb Hk Ha Au cred Hd Hf Hm text Sg Hms Hfs].
  destruct S' as [acc' exp' bucket' key' email' sig' fixed' meta' metas' Hw' Hacc' Hexp' Hb' Hk' Ha' Au' cred' Hd' Hf' Hm' text' Sg' Hms' Hfs'].
  assert (In1 : forall b k p m, In (B "policy", pf_policy p) (form_list b k (Some p) m)).
  { intros b k p m. unfold form_list. repeat (apply in_or_app; (left; left; reflexivity) || right). }
  exists t, pre, t1, t2, email, (b64_encode text), sig, t', pre', t1', t2', email', (b64_encode text'), sig'.
  split; [exact T|]. split; [exact E|]. split; [eapply authorizer_ok; exact Au|]. split; [rewrite Hfs; apply In1 with (p := {| pf_policy := _ |})|]. split; [eapply sign_ok; exact Sg|].
  split; [exact T'|]. split; [exact E'|]. split; [eapply authorizer_ok; exact Au'|]. split; [rewrite Hfs'; apply In1 with (p := {| pf_policy := _ |})|]. split; [eapply sign_ok; exact Sg'|].
  intros Ea Et. pose proof (ut_second _ _ _ _ Hacc Hacc' Et) as X. pose proof (ut_second _ _ _ _ Hexp Hexp' Fe) as Y. subst acc' exp' email'.
  assert (W : without_options (builder_of calls) = without_options (builder_of calls')) by (rewrite !builder_field_calls, Ff; reflexivity).
  rewrite (bucket_without (builder_of calls)), W, <- bucket_without, Hb' in Hb. injection Hb as ->.
  rewrite (key_without (builder_of calls)), W, <- key_without, Hk' in Hk. injection Hk as ->.
  rewrite (meta_without (builder_of calls)), W, <- meta_without in Hm, Hms. rewrite Hm' in Hm. injection Hm as ->. rewrite Hms' in Hms. injection Hms as ->.
  assert (fixed = fixed') as ->.
  { rewrite (fixed_without (builder_of calls)), W, <- fixed_without in Hf. subst cred cred' Hd Hd'. rewrite Fr, Hf' in Hf. injection Hf as ->. reflexivity. }
  split; [reflexivity|]. intros ->. rewrite Hfs, Hfs', (list_without (builder_of calls)), W, <- list_without. subst cred cred' Hd Hd'. rewrite Fr. reflexivity.
Qed.

(** * URLs *)

Lemma path_alike d o o' : urls_alike o o' -> path_of d o = path_of d o'.
Proof. intros [Eb Eo _ _ _ _]. unfold path_of, requested. rewrite Eb, Eo. reflexivity. Qed.
Lemma lowered_alike o o' : urls_alike o o' -> lowered o = lowered o'.
Proof. intros [_ _ _ _ Eh _]. unfold lowered. rewrite Eh. reflexivity. Qed.
Lemma region_alike o o' : urls_alike o o' -> region_of o = region_of o'.
Proof. intros [_ _ Er _ _ _]. unfold region_of. rewrite Er. reflexivity. Qed.
Lemma pairs_alike d o o' now secs hs email : urls_alike o o' -> algorithm_str (key_algorithm (o_signing_key o)) = algorithm_str (key_algorithm (o_signing_key o')) ->
  pairs_of d o now secs hs email = pairs_of d o' now secs hs email.
Proof.
  intros U A. unfold pairs_of, five, own_pairs, own_query, scope_of, requested. rewrite A, (region_alike _ _ U). destruct U as [-> -> _ _ _ ->]. reflexivity.
Qed.
Lemma canonical_alike d o o' verb query block names : urls_alike o o' -> canonical_of d o verb query block names = canonical_of d o' verb query block names.
Proof. intros U. unfold canonical_of. rewrite (path_alike d _ _ U). reflexivity. Qed.
Lemma message_alike o o' now canonical : urls_alike o o' -> algorithm_str (key_algorithm (o_signing_key o)) = algorithm_str (key_algorithm (o_signing_key o')) ->
  message_of o now canonical = message_of o' now canonical.
Proof. intros U A. unfold message_of, scope_of. rewrite A, (region_alike _ _ U). reflexivity. Qed.
Lemma url_alike d o o' query s : urls_alike o o' -> url_of d o query s = url_of d o' query s.
Proof. intros U. unfold url_of. rewrite (path_alike d _ _ U). reflexivity. Qed.

Theorem C109_url d o tr url o' tr' url' : urls_alike o o' ->
  returns (build_signed_url d o) tr (Ok url) -> returns (build_signed_url d o') tr' (Ok url') ->
  exists t pre t1 t2 account message s t' pre' t1' t2' account' message' s',
    url_time o t pre /\ tr = pre ++ t1 ++ t2 /\ authorized (o_signing_key o) t1 account /\ signed d (o_signing_key o) (o_use_sign_blob o) message t2 s /\
    url_time o' t' pre' /\ tr' = pre' ++ t1' ++ t2' /\ authorized (o_signing_key o') t1' account' /\ signed d (o_signing_key o') (o_use_sign_blob o') message' t2' s' /\
    (account = account' -> t / 1000000000 = t' / 1000000000 -> (o_expires o - t) / 1000000000 = (o_expires o' - t') / 1000000000 ->
     message = message' /\ (s = s' -> url = url')).
Proof.
  intros U H H'. destruct (url_ok_inv _ _ _ _ H) as (t & pre & t1 & t2 & email & verb & block & s & T & E & [_ Ev Au _ Eb Sg Eu]).
  destruct (url_ok_inv _ _ _ _ H') as (t' & pre' & t1' & t2' & email' & verb' & block' & s' & T' & E' & [_ Ev' Au' _ Eb' Sg' Eu']).
  exists t, pre, t1, t2, email. eexists. exists s, t', pre', t1', t2', email'. eexists. exists s'.
  split; [exact T|]. split; [exact E|]. split; [eapply authorizer_ok; exact Au|]. split; [eapply sign_ok; exact Sg|].
  split; [exact T'|]. split; [exact E'|]. split; [eapply authorizer_ok; exact Au'|]. split; [eapply sign_ok; exact Sg'|].
  intros Ea Et El. change (lifetime o t = lifetime o' t') in El. change (t / NS = t' / NS) in Et.
  assert (A : algorithm_str (key_algorithm (o_signing_key o)) = algorithm_str (key_algorithm (o_signing_key o'))) by (rewrite (sign_ok_rsa _ _ _ _ _ _ Sg), (sign_ok_rsa _ _ _ _ _ _ Sg'); reflexivity).
  assert (verb = verb') as <- by (destruct U as [_ _ _ Em _ _]; rewrite <- Em, <- Ev in Ev'; destruct verb, verb'; try reflexivity; discriminate Ev').
  rewrite <- (lowered_alike _ _ U), Eb in Eb'. injection Eb' as <-.
  rewrite Eu, Eu', (message_alike _ _ _ _ U A), (canonical_alike d _ _ _ _ _ _ U), (pairs_alike d _ _ _ _ _ _ U A), (lowered_alike _ _ U), Ea, Et, El.
  split; [reflexivity|]. intros ->. apply url_alike. exact U.
Qed.

(** * In histories *)

Lemma key_parts d base tr cfg i account signs key pre t1 t2 email usb message s : runs d base tr cfg -> key_of d base tr account signs key ->
  (forall bt, key = KBoundToken bt -> bt_base_url bt = base (bt_id bt)) -> did i tr = pre ++ t1 ++ t2 -> authorized key t1 email -> signed d key usb message t2 s ->
  email = account /\ signs message s.
Proof.
  intros H K Eb E Au Sg. destruct K as [key F|bt T].
  - inversion Au; subst. split; [reflexivity|]. inversion Sg; subst. apply F. assumption.
  - exact (truthful_parts _ _ _ _ _ _ _ _ _ _ _ _ _ _ _ H T (Eb _ eq_refl) E Au Sg).
Qed.

Theorem C109_histories_form d base tr cfg i calls o fields base' tr' cfg' i' calls' o' fields' account signs :
  runs d base tr cfg -> runs_call tr i (CallForm (builder_of calls)) -> last_options calls o -> In (GEnd i (Returned (AForm (Ok fields)))) tr -> key_of d base tr account signs (so_signing_key o) ->
  runs d base' tr' cfg' -> runs_call tr' i' (CallForm (builder_of calls')) -> last_options calls' o' -> In (GEnd i' (Returned (AForm (Ok fields')))) tr' -> key_of d base' tr' account signs (so_signing_key o') ->
  forms_alike calls o calls' o' -> (forall m x y, signs m x -> signs m y -> x = y) ->
  exists t pre rest t' pre' rest', build_time o t pre /\ did i tr = pre ++ rest /\ build_time o' t' pre' /\ did i' tr' = pre' ++ rest' /\
    (t / 1000000000 = t' / 1000000000 -> fields = fields').
Proof.
  intros H R Lo I K H' R' Lo' I' K' Al Un.
  destruct (returned _ _ _ _ _ _ _ H R I) as [F Q]. apply returned_form in Q. destruct (returned _ _ _ _ _ _ _ H' R' I') as [F' Q']. apply returned_form in Q'.
  assert (Ck : forall c x, last_options c x -> call_key (CallForm (builder_of c)) = Some (so_signing_key x)).
  { intros c x L. cbn [call_key]. rewrite (proj1 (options_iff _ _) L). reflexivity. }
  destruct (C109_form _ _ _ _ _ _ _ _ _ Lo Lo' Al Q Q') as (t & pre & t1 & t2 & a & p & s & t' & pre' & t1' & t2' & a' & p' & s' & T & E & Au & _ & Sg & T' & E' & Au' & _ & Sg' & X).
  assert (Kb : forall bt, so_signing_key o = KBoundToken bt -> bt_base_url bt = base (bt_id bt)) by (intros bt Eb; apply F; rewrite (Ck _ _ Lo), Eb; reflexivity).
  destruct (key_parts _ _ _ _ _ _ _ _ _ _ _ _ _ _ _ H K Kb E Au Sg) as [-> S1].
  assert (Kb' : forall bt, so_signing_key o' = KBoundToken bt -> bt_base_url bt = base' (bt_id bt)) by (intros bt Eb; apply F'; rewrite (Ck _ _ Lo'), Eb; reflexivity).
  destruct (key_parts _ _ _ _ _ _ _ _ _ _ _ _ _ _ _ H' K' Kb' E' Au' Sg') as [-> S1'].
  exists t, pre, (t1 ++ t2), t', pre', (t1' ++ t2'). split; [exact T|]. split; [exact E|]. split; [exact T'|]. split; [exact E'|].
  intros Et. destruct (X eq_refl Et) as [-> Y]. apply Y. exact (Un _ _ _ S1 S1').
Qed.

Theorem C109_histories_url d base tr cfg i o url base' tr' cfg' i' o' url' account signs :
  runs d base tr cfg -> runs_call tr i (CallUrl o) -> In (GEnd i (Returned (AUrl (Ok url)))) tr -> key_of d base tr account signs (o_signing_key o) ->
  runs d base' tr' cfg' -> runs_call tr' i' (CallUrl o') -> In (GEnd i' (Returned (AUrl (Ok url')))) tr' -> key_of d base' tr' account signs (o_signing_key o') ->
  urls_alike o o' -> (forall m x y, signs m x -> signs m y -> x = y) ->
  exists t pre rest t' pre' rest', url_time o t pre /\ did i tr = pre ++ rest /\ url_time o' t' pre' /\ did i' tr' = pre' ++ rest' /\
    (t / 1000000000 = t' / 1000000000 -> (o_expires o - t) / 1000000000 = (o_expires o' - t') / 1000000000 -> url = url').
Proof.
  intros H R I K H' R' I' K' Al Un.
  destruct (returned _ _ _ _ _ _ _ H R I) as [F Q]. apply returned_url in Q. destruct (returned _ _ _ _ _ _ _ H' R' I') as [F' Q']. apply returned_url in Q'.
  destruct (C109_url _ _ _ _ _ _ _ Al Q Q') as (t & pre & t1 & t2 & a & p & s & t' & pre' & t1' & t2' & a' & p' & s' & T & E & Au & Sg & T' & E' & Au' & Sg' & X).
  assert (Kb : forall bt, o_signing_key o = KBoundToken bt -> bt_base_url bt = base (bt_id bt)) by (intros bt Eb; apply F; cbn [call_key]; rewrite Eb; reflexivity).
  destruct (key_parts _ _ _ _ _ _ _ _ _ _ _ _ _ _ _ H K Kb E Au Sg) as [-> S1].
  assert (Kb' : forall bt, o_signing_key o' = KBoundToken bt -> bt_base_url bt = base' (bt_id bt)) by (intros bt Eb; apply F'; cbn [call_key]; rewrite Eb; reflexivity).
  destruct (key_parts _ _ _ _ _ _ _ _ _ _ _ _ _ _ _ H' K' Kb' E' Au' Sg') as [-> S1'].
  exists t, pre, (t1 ++ t2), t', pre', (t1' ++ t2'). split; [exact T|]. split; [exact E|]. split; [exact T'|]. split; [exact E'|].
  intros Et El. destruct (X eq_refl Et El) as [-> Y]. apply Y. exact (Un _ _ _ S1 S1').
Qed.

(** * Cases *)

Definition told_well (v : gevent) : bool := match v with GDo _ e => answers_ok e | _ => true end.
Lemma told_truthful tr : forallb told_well tr = true -> truthful (demo_base 7) demo_account_name (fun _ s => s = demo_signature) tr.
Proof. intros F. rewrite forallb_forall in F. apply (demo_platform tr). intros i v I. left. exact (F _ I). Qed.

(** A library that gives one signature for everything. *)
Definition fixed_deps : deps := {|
  d_path_caret := false; d_quote_in_header_name := false; d_num_ok := fun _ => true;
  d_rsa_sign := fun _ _ => Ok demo_signature;
  d_hm_iter := fun l => l; d_hm_overflow := fun _ => false; d_url_ok := fun _ => true |}.

Definition local_form_calls : list builder_call := demo_form_at (Some (demo_time + 5)) (KServiceAccount demo_account_name (B "key")) false.

(** A form with a service account's key, then the same with a bound token. *)
Definition demo_both : list move := [
  MSpawn (CallForm (builder_of local_form_calls)); MStep 0 RUnit;
  MSpawn demo_bound_form; MStep 1 RUnit; MStep 1 RUnit; MStep 1 RUnit; MStep 1 email_ok; MStep 1 RUnit; MStep 1 token_ok; MStep 1 (RNow demo_time); MStep 1 RUnit; MStep 1 RUnit;
  MStep 1 RUnit; MStep 1 RUnit; MStep 1 (RNow (demo_time + 6 * NS)); MStep 1 RUnit; MStep 1 RUnit; MStep 1 (ok_response demo_blob_body); MStep 1 RUnit].

Definition form_end (i : nat) (v : gevent) : bool := match v with GEnd j (Returned (AForm (Ok _))) => Nat.eqb j i | _ => false end.
Lemma form_ended i tr : existsb (form_end i) tr = true -> exists fields, In (GEnd i (Returned (AForm (Ok fields)))) tr.
Proof.
  intros X. apply existsb_exists in X. destruct X as (v & I & X). destruct v as [| | |j [[[fields|]|]| |]]; try discriminate X. apply Nat.eqb_eq in X. subst j. exists fields. exact I.
Qed.

Example C109_case : exists tr cfg fields fields' o o', runs fixed_deps demo_base tr cfg /\
  runs_call tr 0 (CallForm (builder_of local_form_calls)) /\ last_options local_form_calls o /\ In (GEnd 0 (Returned (AForm (Ok fields)))) tr /\
  key_of fixed_deps demo_base tr demo_account_name (fun _ s => s = demo_signature) (so_signing_key o) /\
  runs_call tr 1 (CallForm (builder_of demo_form_calls)) /\ last_options demo_form_calls o' /\ In (GEnd 1 (Returned (AForm (Ok fields')))) tr /\
  key_of fixed_deps demo_base tr demo_account_name (fun _ s => s = demo_signature) (so_signing_key o') /\
  forms_alike local_form_calls o demo_form_calls o' /\ so_accessible_at o <> so_accessible_at o' /\
  (forall t pre t' pre', build_time o t pre -> build_time o' t' pre' -> t / 1000000000 = t' / 1000000000).
Proof.
  destruct (sim_history fixed_deps demo_base demo_both) as [cfg H]; [vm_compute; exact Logic.I|].
  remember (sim fixed_deps demo_base demo_both) as tr eqn:Et.
  destruct (form_ended 0 tr) as [fields I0]; [subst tr; vm_compute; reflexivity|]. destruct (form_ended 1 tr) as [fields' I1]; [subst tr; vm_compute; reflexivity|].
  assert (T : truthful (demo_base 7) demo_account_name (fun _ s => s = demo_signature) tr) by (apply told_truthful; subst tr; vm_compute; reflexivity).
  exists tr, cfg, fields, fields'. do 2 eexists. split; [exact H|]. split; [apply (nth_error_In tr 0); subst tr; vm_compute; reflexivity|].
  split; [exists [CBucket (B "bucket1"); CKey (B "a/b"); CContentLength 3; CXGoogMeta (B "who") (B "me ""you""")], []; split; [reflexivity|intros o []]|].
  split; [exact I0|]. split; [cbn [so_signing_key]; constructor; intros m s E; injection E as <-; reflexivity|].
  split; [apply (nth_error_In tr 2); subst tr; vm_compute; reflexivity|].
  split; [exists [CBucket (B "bucket1"); CKey (B "a/b"); CContentLength 3; CXGoogMeta (B "who") (B "me ""you""")], []; split; [reflexivity|intros o []]|].
  split; [exact I1|]. split; [cbn [so_signing_key]; constructor; exact T|]. split; [split; reflexivity|]. split; [discriminate|].
  intros t pre t' pre' X X'. destruct X as [t X|t X]; [|discriminate X]. destruct X' as [t' X'|t' X']; [|discriminate X']. injection X as <-. injection X' as <-. vm_compute. reflexivity.
Qed.

(** A form fetches a token; two URLs are made from the cache. *)
Example C109_url_case : exists tr cfg url url', runs demo_deps demo_base tr cfg /\
  truthful (demo_base (bt_id demo_token)) demo_account_name (fun _ s => s = demo_signature) tr /\ o_signing_key demo_bound_url = KBoundToken demo_token /\
  runs_call tr 1 (CallUrl demo_bound_url) /\ In (GEnd 1 (Returned (AUrl (Ok url)))) tr /\
  runs_call tr 2 (CallUrl demo_bound_url) /\ In (GEnd 2 (Returned (AUrl (Ok url')))) tr.
Proof.
  destruct demo_form_returns as [fields Rf]. destruct demo_url_returns as (m & url & Ru & _).
  assert (F1 : fits demo_base demo_bound_form) by (apply fits_bool_ok; vm_compute; reflexivity).
  assert (F2 : fits demo_base (CallUrl demo_bound_url)) by (apply fits_bool_ok; vm_compute; reflexivity).
  assert (S1 : solo 7 false None demo_form_did) by (vm_compute; repeat split).
  destruct (solo_next _ demo_base 7 _ _ _ _ _ (runs_nil _ _) eq_refl F1 Rf S1) as (cfg1 & H1 & O1 & C1 & L1). cbn [initial tasks length caches app] in H1, C1, L1.
  assert (Ec : left_over None demo_form_did = demo_entry) by (vm_compute; reflexivity). rewrite Ec in C1.
  assert (S2 : solo 7 false (caches cfg1 7%N) (demo_url_did m)) by (rewrite C1; cbn; repeat split).
  destruct (solo_next _ demo_base 7 _ _ _ _ _ H1 O1 F2 Ru S2) as (cfg2 & H2 & O2 & C2 & L2). rewrite L1 in H2, L2. rewrite C1 in C2.
  assert (Ed : left_over demo_entry (demo_url_did m) = demo_entry) by reflexivity. rewrite Ed in C2.
  assert (S3 : solo 7 false (caches cfg2 7%N) (demo_url_did m)) by (rewrite C2; cbn; repeat split).
  destruct (solo_next _ demo_base 7 _ _ _ _ _ H2 O2 F2 Ru S3) as (cfg & H3 & _). rewrite L2 in H3.
  match type of H3 with runs _ _ ?l _ => remember l as tr eqn:Et end.
  exists tr, cfg, url, url. split; [exact H3|]. split.
  { apply (demo_platform tr). intros i v I. left. rewrite Et in I. apply in_app_or in I. destruct I as [I|I]; [apply in_app_or in I; destruct I as [I|I]|]; apply alone_in in I; destruct I as [-> I].
    - assert (A : forallb answers_ok demo_form_did = true) by (vm_compute; reflexivity). rewrite forallb_forall in A. exact (A _ I).
    - unfold demo_url_did, demo_hit in I. cbn [app In] in I. repeat (destruct I as [<-|I]; [vm_compute; reflexivity|]). contradiction.
    - unfold demo_url_did, demo_hit in I. cbn [app In] in I. repeat (destruct I as [<-|I]; [vm_compute; reflexivity|]). contradiction. }
  split; [reflexivity|]. rewrite Et. unfold runs_call. split; [apply in_or_app; left; apply in_or_app; right; left; reflexivity|].
  split; [apply in_or_app; left; apply in_or_app; right; right; apply in_or_app; right; left; reflexivity|].
  split; [apply in_or_app; right; left; reflexivity|]. apply in_or_app; right; right; apply in_or_app; right; left; reflexivity.
Qed.
