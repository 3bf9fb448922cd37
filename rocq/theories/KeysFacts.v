(** Executions of the bound-token functions. *)
From Verif Require Import Base BaseFacts Time Json SpecJson JsonFacts Base64 CodecFacts Effects EffectsFacts Keys SpecToken TokenFacts SpecCodec
  SpecPolicy SpecTrace.
Local Open Scope Z_scope.

Definition buildable (d : deps) (r : request) : Prop :=
  d_url_ok d (rq_url r) = true /\ forallb (fun h => header_value_ok (snd h)) (rq_headers r) = true.

Lemma is_success_spec s : is_success s = true <-> success_status s.
Proof. unfold is_success, success_status. rewrite andb_true_iff, N.leb_le, N.ltb_lt. lia. Qed.

Section request_text.
  Context (d : deps) (e1 e2 e3 : bt_error) (e4 : N -> str -> bt_error) (e5 : bt_error) (r : request).
  Local Notation rt := (request_text d e1 e2 e3 e4 e5 r).

  (** How a request can fail. *)
  Inductive request_failure : list event -> bt_error -> Prop :=
  | rf_build : ~ buildable d r -> request_failure [] e1
  | rf_execute : request_failure [VHttp r HttpFailed] e2
  | rf_error_body s : ~ success_status s -> request_failure [VHttp r (HttpResponse s None)] e3
  | rf_status s b : ~ success_status s -> request_failure [VHttp r (HttpResponse s (Some b))] (e4 s b)
  | rf_body s : success_status s -> request_failure [VHttp r (HttpResponse s None)] e5.

  Lemma buildable_dec : {buildable d r} + {~ buildable d r}.
  Proof.
    unfold buildable. destruct (d_url_ok d (rq_url r)), (forallb (fun h => header_value_ok (snd h)) (rq_headers r));
      (left; split; reflexivity) || (right; intros [H1 H2]; discriminate).
  Defined.

  Lemma not_success s : is_success s = false -> ~ success_status s.
  Proof. intros E H. apply is_success_spec in H. congruence. Qed.

  Lemma request_text_steps tr q : steps rt tr q ->
    (tr = [] /\ (q = Ret (Err e1) /\ ~ buildable d r \/ buildable d r /\ exists k, q = Act (EHttp r) k)) \/
    (exists o, buildable d r /\ tr = [VHttp r o] /\
      ((exists b, answered o b /\ q = Ret (Ok b)) \/ (exists e, request_failure [VHttp r o] e /\ q = Ret (Err e)))).
  Proof.
    unfold request_text. destruct buildable_dec as [Hb|Hb].
    - pose proof Hb as [E1 E2]. rewrite E1, E2. cbn [negb andb]. intros H. apply steps_act_inv in H.
      destruct H as [[-> ->]|(o & tr' & -> & H)].
      + left. split; [reflexivity|]. right. split; [exact Hb|eauto].
      + right. exists o. split; [exact Hb|]. cbn [event_of]. destruct o as [|s b].
        { apply steps_ret in H. destruct H as [-> ->]. split; [reflexivity|]. right. eexists. split; [constructor|reflexivity]. }
        destruct (is_success s) eqn:S; cbn [negb] in H.
        * apply is_success_spec in S. destruct b as [b|]; apply steps_ret in H; destruct H as [-> ->]; (split; [reflexivity|]).
          -- left. exists b. split; [exists s; auto|reflexivity].
          -- right. eexists. split; [apply rf_body; exact S|reflexivity].
        * apply not_success in S. destruct b as [b|]; apply steps_ret in H; destruct H as [-> ->]; (split; [reflexivity|]);
            right; eexists; (split; [constructor; exact S|reflexivity]).
    - assert (E : d_url_ok d (rq_url r) && forallb (fun h => header_value_ok (snd h)) (rq_headers r) = false).
      { apply not_true_is_false. intros E. apply andb_prop in E. exact (Hb E). }
      rewrite E. cbn [negb]. intros H. apply steps_ret in H. destruct H as [-> ->]. left. auto.
  Qed.

  Lemma request_text_ok tr b : returns rt tr (Ok b) <-> buildable d r /\ exists o, answered o b /\ tr = [VHttp r o].
  Proof.
    split.
    - intros H. apply request_text_steps in H. destruct H as [(-> & [[E _]|(_ & k & E)])|(o & Hb & -> & [(b' & A & E)|(e & F & E)])];
        try discriminate E. injection E as ->. split; [exact Hb|eauto].
    - intros ([E1 E2] & o & (s & S & ->) & ->). unfold request_text. rewrite E1, E2. cbn [negb andb].
      apply (steps_act (EHttp r)). apply is_success_spec in S. rewrite S. constructor.
  Qed.

  Lemma request_text_err tr e : returns rt tr (Err e) -> request_failure tr e /\ (tr <> [] -> buildable d r).
  Proof.
    intros H. apply request_text_steps in H. destruct H as [(-> & [[E Hb]|(_ & k & E)])|(o & Hb & -> & [(b' & A & E)|(e' & F & E)])];
      try discriminate E; injection E as ->; [split; [constructor; exact Hb|congruence]|auto].
  Qed.

  Lemma request_text_panics tr s : ~ panics rt tr s.
  Proof.
    intros H. apply request_text_steps in H. destruct H as [(-> & [[E _]|(_ & k & E)])|(o & Hb & -> & [(b' & A & E)|(e & F & E)])];
      discriminate E.
  Qed.
End request_text.

Lemma email_request_spec bt : email_request bt = metadata_request (bt_base_url bt) (B "email").
Proof. unfold email_request, metadata_request. f_equal. Qed.
Lemma token_request_spec bt : token_request bt = metadata_request (bt_base_url bt) (B "token").
Proof. unfold token_request, metadata_request. f_equal. Qed.

(** How a refresh can fail. *)
Inductive refresh_failure (d : deps) (bt : bound_token) : list event -> bt_error -> Prop :=
| ff_email tr e :
    request_failure d EmailRequestBuild EmailRequestExecute EmailRequestErrorResponse EmailRequestStatus
      EmailRequestSuccessResponse (email_request bt) tr e ->
    refresh_failure d bt tr e
| ff_token o1 email tr e :
    answered o1 email ->
    request_failure d TokenRequestBuild TokenRequestExecute TokenRequestErrorResponse TokenRequestStatus
      TokenRequestSuccessResponse (token_request bt) tr e ->
    refresh_failure d bt (VHttp (email_request bt) o1 :: tr) e
| ff_parse o1 email o2 body :
    answered o1 email -> answered o2 body -> (forall t n y, ~ token_body body t n y) ->
    refresh_failure d bt [VHttp (email_request bt) o1; VHttp (token_request bt) o2]
      TokenRequestSuccessResponseDeserialize
| ff_type o1 email o2 body t n y :
    answered o1 email -> answered o2 body -> token_body body t n y -> y <> B "Bearer" ->
    refresh_failure d bt [VHttp (email_request bt) o1; VHttp (token_request bt) o2]
      (TokenRequestInvalidTokenType y).

Lemma token_body_none body : access_token_from_str body = None <-> forall t n y, ~ token_body body t n y.
Proof.
  split.
  - intros E t n y H. apply token_body_spec in H. congruence.
  - intros H. destruct (access_token_from_str body) as [[t n y]|] eqn:E; [|reflexivity].
    apply token_body_spec in E. destruct (H _ _ _ E).
Qed.

(** What a refresh may have done, and where it is: every execution, finished or not. *)
Inductive refresh_run (d : deps) (bt : bound_token) : list event -> prog (res (str * str) bt_error) -> Prop :=
| rr_email k : refresh_run d bt [] (Act (EHttp (email_request bt)) k)
| rr_token o1 email k : answered o1 email ->
    refresh_run d bt [VHttp (email_request bt) o1] (Act (EHttp (token_request bt)) k)
| rr_fail tr e : refresh_failure d bt tr e -> refresh_run d bt tr (Ret (Err e))
| rr_now o1 email o2 body t n k : answered o1 email -> answered o2 body -> token_body body t n (B "Bearer") ->
    refresh_run d bt [VHttp (email_request bt) o1; VHttp (token_request bt) o2] (Act ENow k)
| rr_overflow o1 email o2 body t n now :
    answered o1 email -> answered o2 body -> token_body body t n (B "Bearer") ->
    two63 * 1000000000 <= now + Z.of_N n * 1000000000 ->
    refresh_run d bt [VHttp (email_request bt) o1; VHttp (token_request bt) o2; VNow now] (Panic PExpiresOverflow)
| rr_set o1 email o2 body t n now k :
    answered o1 email -> answered o2 body -> token_body body t n (B "Bearer") ->
    now + Z.of_N n * 1000000000 < two63 * 1000000000 ->
    refresh_run d bt [VHttp (email_request bt) o1; VHttp (token_request bt) o2; VNow now]
      (Act (ESet (bt_id bt) (Some (email, t, now + Z.of_N n * 1000000000))) k)
| rr_done email t expires l : refreshed (bt_id bt) (bt_base_url bt) email t expires l ->
    refresh_run d bt l (Ret (Ok (email, t))).

Lemma refresh_steps d bt tr q : steps (refresh d bt) tr q -> refresh_run d bt tr q.
Proof.
  unfold refresh. intros H. unfold bind_ok in H. apply steps_bind_inv in H. destruct H as [(p & H & ->)|(a1 & t1 & t2 & H1 & H & ->)].
  - apply request_text_steps in H. destruct H as [(-> & [[-> Hb]|(Hb & k & ->)])|(o & Hb & -> & [(b & A & ->)|(e & F & ->)])]; cbn [bind].
    + apply rr_fail. apply ff_email. constructor. exact Hb.
    + constructor.
    + destruct (buildable_dec d (token_request bt)) as [Hb2|Hb2].
      * unfold request_text. pose proof Hb2 as [E1 E2]. rewrite E1, E2. cbn [negb andb bind]. apply (rr_token d bt o b). exact A.
      * unfold request_text. assert (E : d_url_ok d (rq_url (token_request bt)) && forallb (fun h => header_value_ok (snd h)) (rq_headers (token_request bt)) = false).
        { apply not_true_is_false. intros E. apply andb_prop in E. exact (Hb2 E). }
        rewrite E. cbn [negb bind]. apply rr_fail. apply (ff_token d bt o b); [exact A|]. constructor. exact Hb2.
    + apply rr_fail. apply ff_email. exact F.
  - destruct a1 as [email|e].
    2:{ apply request_text_err in H1. destruct H1 as [F _]. apply steps_ret in H. destruct H as [-> ->]. rewrite app_nil_r.
        apply rr_fail. apply ff_email. exact F. }
    apply request_text_ok in H1. destruct H1 as (_ & o1 & A1 & ->). cbn [app].
    apply steps_bind_inv in H. destruct H as [(p & H & ->)|(a2 & t3 & t4 & H2 & H & ->)].
    + apply request_text_steps in H. destruct H as [(-> & [[-> Hb]|(Hb & k & ->)])|(o & Hb & -> & [(b & A & ->)|(e & F & ->)])]; cbn [bind].
      * apply rr_fail. apply (ff_token d bt o1 email); [exact A1|]. constructor. exact Hb.
      * apply (rr_token d bt o1 email). exact A1.
      * destruct (access_token_from_str b) as [[t n y]|] eqn:Et.
        2:{ apply rr_fail. apply (ff_parse d bt o1 email o b); auto. apply token_body_none. exact Et. }
        apply token_body_spec in Et. cbn [at_type at_expires_in at_token]. destruct (str_eqb_spec y (B "Bearer")) as [->|Hy]; cbn [negb].
        -- apply (rr_now d bt o1 email o b t n); assumption.
        -- apply rr_fail. eapply (ff_type d bt o1 email o b); eassumption.
      * apply rr_fail. apply (ff_token d bt o1 email); assumption.
    + destruct a2 as [body|e].
      2:{ apply request_text_err in H2. destruct H2 as [F _]. apply steps_ret in H. destruct H as [-> ->]. rewrite app_nil_r.
          apply rr_fail. apply (ff_token d bt o1 email); assumption. }
      apply request_text_ok in H2. destruct H2 as (_ & o2 & A2 & ->). cbn [app].
      destruct (access_token_from_str body) as [[t n y]|] eqn:Et.
      2:{ apply steps_ret in H. destruct H as [-> ->]. apply rr_fail. apply (ff_parse d bt o1 email o2 body); auto. apply token_body_none. exact Et. }
      apply token_body_spec in Et. cbn [at_type at_expires_in at_token] in H. destruct (str_eqb_spec y (B "Bearer")) as [->|Hy]; cbn [negb] in H.
      2:{ apply steps_ret in H. destruct H as [-> ->]. apply rr_fail. eapply (ff_type d bt o1 email o2 body); eassumption. }
      apply steps_act_inv in H. destruct H as [[-> ->]|(now & tr' & -> & H)].
      { apply (rr_now d bt o1 email o2 body t n); assumption. }
      cbn [event_of]. unfold systime_add_secs in H. change NS with 1000000000 in H.
      destruct (Z.ltb_spec (now + Z.of_N n * 1000000000) (two63 * 1000000000)) as [L|L].
      2:{ apply steps_panic in H. destruct H as [-> ->]. apply (rr_overflow d bt o1 email o2 body t n now); assumption. }
      apply steps_act_inv in H. destruct H as [[-> ->]|(u & tr'' & -> & H)].
      { apply (rr_set d bt o1 email o2 body t n now); assumption. }
      apply steps_ret in H. destruct H as [-> ->]. cbn [event_of].
      apply (rr_done d bt email t (now + Z.of_N n * 1000000000)). exists o1, o2, body, n, now.
      rewrite <- email_request_spec, <- token_request_spec. auto 6.
Qed.

(** What a lookup may have done while holding the lock. *)
Inductive locked_run (d : deps) (bt : bound_token) : list event -> prog (res (str * str) bt_error) -> Prop :=
| lr_get k : locked_run d bt [] (Act (EGet (bt_id bt)) k)
| lr_check email token expires k : 0 <= expires ->
    locked_run d bt [VGet (bt_id bt) (Some (email, token, expires))] (Act ENow k)
| lr_expires_early email token expires : expires < 0 ->
    locked_run d bt [VGet (bt_id bt) (Some (email, token, expires))] (Panic PExpiresBeforeEpoch)
| lr_now_early email token expires now : 0 <= expires -> now < 0 ->
    locked_run d bt [VGet (bt_id bt) (Some (email, token, expires)); VNow now] (Panic PNowBeforeEpoch)
| lr_hit email token expires now : 0 <= now -> now + 30 * 1000000000 < expires ->
    locked_run d bt [VGet (bt_id bt) (Some (email, token, expires)); VNow now] (Ret (Ok (email, token)))
| lr_refresh c pre tr q : not_served c pre -> refresh_run d bt tr q ->
    (forall email token expires, c = Some (email, token, expires) -> 0 <= expires) ->
    (forall now, In (VNow now) pre -> 0 <= now) ->
    locked_run d bt (VGet (bt_id bt) c :: pre ++ tr) q.

Lemma get_locked_steps d bt tr q : steps (get_locked d bt) tr q -> locked_run d bt tr q.
Proof.
  unfold get_locked. intros H. apply steps_act_inv in H. destruct H as [[-> ->]|(c & tr' & -> & H)]; [constructor|].
  cbn [event_of]. cbn [resp] in c. destruct c as [[[email token] expires]|].
  - unfold duration_since at 1 in H. destruct (Z.leb_spec 0 expires) as [L|L].
    2:{ apply steps_panic in H. destruct H as [-> ->]. apply lr_expires_early. exact L. }
    apply steps_act_inv in H. destruct H as [[-> ->]|(now & tr'' & -> & H)]; [apply lr_check; exact L|]. cbn [event_of].
    unfold duration_since in H. destruct (Z.leb_spec 0 now) as [Ln|Ln].
    2:{ apply steps_panic in H. destruct H as [-> ->]. apply lr_now_early; assumption. }
    change NS with 1000000000 in H. destruct (Z.ltb_spec (now - 0 + 30 * 1000000000) (expires - 0)) as [Lt|Lt].
    + apply steps_ret in H. destruct H as [-> ->]. apply lr_hit; lia.
    + apply refresh_steps in H. apply (lr_refresh d bt (Some (email, token, expires)) [VNow now]).
      * right. exists email, token, expires, now. split; [reflexivity|]. split; [reflexivity|]. lia.
      * exact H.
      * intros ? ? ? E. injection E as -> -> ->. exact L.
      * intros n [E|[]]. injection E as ->. exact Ln.
  - apply refresh_steps in H. apply (lr_refresh d bt None []); [left; auto|exact H|discriminate|intros ? []].
Qed.

(** What a lookup may have done. *)
Inductive get_run (d : deps) (bt : bound_token) : list event -> prog (res (str * str) bt_error) -> Prop :=
| gr_lock k : get_run d bt [] (Act (ELock (bt_id bt)) k)
| gr_locked tr q : locked_run d bt tr q -> (forall r, q <> Ret r) ->
    get_run d bt (VLock (bt_id bt) :: tr) (bind q (fun r => Act (EUnlock (bt_id bt)) (fun _ => Ret r)))
| gr_unlock tr r : locked_run d bt tr (Ret r) ->
    get_run d bt (VLock (bt_id bt) :: tr) (Act (EUnlock (bt_id bt)) (fun _ => Ret r))
| gr_done tr r : locked_run d bt tr (Ret r) ->
    get_run d bt (VLock (bt_id bt) :: tr ++ [VUnlock (bt_id bt)]) (Ret r).

Lemma get_steps d bt tr q : steps (get_email_and_token d bt) tr q -> get_run d bt tr q.
Proof.
  unfold get_email_and_token. intros H. apply steps_act_inv in H. destruct H as [[-> ->]|(c & tr' & -> & H)]; [constructor|].
  cbn [event_of]. apply steps_bind_inv in H. destruct H as [(p & H & ->)|(a & t1 & t2 & H1 & H & ->)].
  - apply get_locked_steps in H. destruct p as [r|s|e k]; cbn [bind].
    + apply gr_unlock. exact H.
    + apply (gr_locked d bt tr' (Panic s)); [exact H|discriminate].
    + apply (gr_locked d bt tr' (Act e k)); [exact H|discriminate].
  - apply get_locked_steps in H1. apply steps_act_inv in H. destruct H as [[-> ->]|(u & t3 & -> & H)].
    + rewrite app_nil_r. apply gr_unlock. exact H1.
    + apply steps_ret in H. destruct H as [-> ->]. apply gr_done. exact H1.
Qed.

(** Successful lookups. *)
Lemma get_ok d bt tr email token : returns (get_email_and_token d bt) tr (Ok (email, token)) ->
  lookup (bt_id bt) (bt_base_url bt) email token tr.
Proof.
  intros H. apply get_steps in H. inversion H as [| tr' q L Hn E1 E2|tr' r L E1 E2|tr' r L E1 E2]; subst.
  - destruct q as [r|s|e k]; cbn [bind] in E2; try discriminate E2.
  - inversion L as [| | | |e t x now H1 H2|c pre tr'' q N R H1 H2]; subst.
    + apply lookup_hit. exact H2.
    + inversion R as [| | | | | |e t x l F]; subst. cbn [app]. rewrite <- app_assoc. eapply lookup_refresh; eassumption.
Qed.

(** Failing lookups. *)
Inductive lookup_failure (d : deps) (bt : bound_token) : list event -> bt_error -> Prop :=
| lf_refresh c pre tr e : not_served c pre -> refresh_failure d bt tr e ->
    lookup_failure d bt (VLock (bt_id bt) :: VGet (bt_id bt) c :: pre ++ tr ++ [VUnlock (bt_id bt)]) e.

Lemma get_err d bt tr e : returns (get_email_and_token d bt) tr (Err e) -> lookup_failure d bt tr e.
Proof.
  intros H. apply get_steps in H. inversion H as [| tr' q L Hn E1 E2|tr' r L E1 E2|tr' r L E1 E2]; subst.
  - destruct q as [r|s|e' k]; cbn [bind] in E2; try discriminate E2.
  - inversion L as [| | | |e' t x now H1 H2|c pre tr'' q N R H1 H2]; subst.
    inversion R; subst. cbn [app]. rewrite <- app_assoc. constructor; assumption.
Qed.

(** Panicking lookups. *)
Inductive lookup_panic (d : deps) (bt : bound_token) : list event -> panic -> Prop :=
| lp_expires email token expires : expires < 0 ->
    lookup_panic d bt [VLock (bt_id bt); VGet (bt_id bt) (Some (email, token, expires))] PExpiresBeforeEpoch
| lp_now email token expires now : 0 <= expires -> now < 0 ->
    lookup_panic d bt [VLock (bt_id bt); VGet (bt_id bt) (Some (email, token, expires)); VNow now] PNowBeforeEpoch
| lp_overflow c pre o1 email o2 body t n now : not_served c pre ->
    answered o1 email -> answered o2 body -> token_body body t n (B "Bearer") ->
    two63 * 1000000000 <= now + Z.of_N n * 1000000000 ->
    lookup_panic d bt (VLock (bt_id bt) :: VGet (bt_id bt) c :: pre ++
      [VHttp (email_request bt) o1; VHttp (token_request bt) o2; VNow now]) PExpiresOverflow.

Lemma get_panics d bt tr s : panics (get_email_and_token d bt) tr s -> lookup_panic d bt tr s.
Proof.
  intros H. apply get_steps in H. inversion H as [| tr' q L Hn E1 E2|tr' r L E1 E2|tr' r L E1 E2]; subst.
  destruct q as [r|s'|e' k]; cbn [bind] in E2; try discriminate E2. injection E2 as ->.
  inversion L as [| |email token expires Hx|email token expires now Hx Hnow| |c pre tr'' q N R H1 H2]; subst.
  - constructor. exact Hx.
  - constructor; assumption.
  - inversion R; subst. eapply lp_overflow; eassumption.
Qed.

Lemma sign_blob_request_spec email token message : sign_blob_call email token message (sign_blob_request email token message).
Proof.
  split; [reflexivity|]. split; [reflexivity|]. split; [reflexivity|].
  eexists. exists (JObj [(B "payload", JStr (b64_encode message))]). split; [reflexivity|]. split.
  - apply jprint_text. cbn. auto.
  - exists (b64_encode message). split; [apply b64_encode_spec|reflexivity].
Qed.

(** A finished or unfinished remote signing: the lookup, then the signBlob request. *)
Inductive sign_run (d : deps) (bt : bound_token) (message : str) : list event -> prog (res str bt_error) -> Prop :=
| sr_lookup tr q p : get_run d bt tr q -> (forall r, q <> Ret r) -> 
    (forall s, p = Panic s <-> q = Panic s) -> (forall r, p <> Ret r) ->
    (forall e, (exists k, p = Act e k) <-> (exists k, q = Act e k)) ->
    sign_run d bt message tr p
| sr_lookup_err tr e : lookup_failure d bt tr e -> sign_run d bt message tr (Ret (Err e))
| sr_request tr email token k : lookup (bt_id bt) (bt_base_url bt) email token tr ->
    sign_run d bt message tr (Act (EHttp (sign_blob_request email token message)) k)
| sr_request_err tr tr' email token e : lookup (bt_id bt) (bt_base_url bt) email token tr ->
    request_failure d SignBlobRequestBuild SignBlobRequestExecute SignBlobRequestErrorResponse
       SignBlobRequestStatus SignBlobRequestSuccessResponse (sign_blob_request email token message) tr' e ->
    sign_run d bt message (tr ++ tr') (Ret (Err e))
| sr_response_err tr email token o body e : lookup (bt_id bt) (bt_base_url bt) email token tr ->
    answered o body -> (forall sig, ~ blob_body body sig) ->
    e = SignBlobRequestSuccessResponseDeserialize \/ e = SignBlobRequestSuccessResponseBase64Decode ->
    sign_run d bt message (tr ++ [VHttp (sign_blob_request email token message) o]) (Ret (Err e))
| sr_done tr email token o body sig : lookup (bt_id bt) (bt_base_url bt) email token tr ->
    answered o body -> blob_body body sig ->
    sign_run d bt message (tr ++ [VHttp (sign_blob_request email token message) o]) (Ret (Ok sig)).

Lemma bind_pending {A C} (p : prog A) (f : A -> prog C) : (forall r, p <> Ret r) ->
  (forall s, bind p f = Panic s <-> p = Panic s) /\ (forall r, bind p f <> Ret r) /\
  (forall e, (exists k, bind p f = Act e k) <-> (exists k, p = Act e k)).
Proof.
  intros Hn. destruct p as [r|s|e k]; [destruct (Hn r eq_refl)| |]; cbn [bind].
  - split; [intros s'; split; intros E; injection E as ->; reflexivity|]. split; [discriminate|].
    intros e. split; intros [k E]; discriminate E.
  - split; [intros s; split; discriminate|]. split; [discriminate|]. intros e'. split; intros [k' E]; injection E as -> _; eauto.
Qed.

Lemma pending_dec {A} (p : prog A) : (exists r, p = Ret r) \/ (forall r, p <> Ret r).
Proof. destruct p; [left; eauto|right; discriminate|right; discriminate]. Qed.

Lemma bound_token_sign_steps d bt message tr q : steps (bound_token_sign d bt message) tr q -> sign_run d bt message tr q.
Proof.
  unfold bound_token_sign. intros H.
  assert (K : forall r t1 t2 q, returns (get_email_and_token d bt) t1 r ->
    steps (match r with
           | Ok et => bind_ok (fun e => e)
               (request_text d SignBlobRequestBuild SignBlobRequestExecute SignBlobRequestErrorResponse
                  SignBlobRequestStatus SignBlobRequestSuccessResponse (sign_blob_request (fst et) (snd et) message))
               (fun body => match signed_blob_from_str body with
                            | None => Ret (Err SignBlobRequestSuccessResponseDeserialize)
                            | Some blob => match b64_decode blob with
                                           | None => Ret (Err SignBlobRequestSuccessResponseBase64Decode)
                                           | Some sig => Ret (Ok sig)
                                           end
                            end)
           | Err e => Ret (Err e)
           end) t2 q -> sign_run d bt message (t1 ++ t2) q).
  { clear. intros [[email token]|e] t1 t2 q H1 H.
    2:{ apply get_err in H1. apply steps_ret in H. destruct H as [-> ->]. rewrite app_nil_r. constructor. exact H1. }
    apply get_ok in H1. cbn [fst snd] in H.
    assert (B : forall o body t q, answered o body ->
      steps (match signed_blob_from_str body with
                            | None => Ret (Err SignBlobRequestSuccessResponseDeserialize)
                            | Some blob => match b64_decode blob with
                                           | None => Ret (Err SignBlobRequestSuccessResponseBase64Decode)
                                           | Some sig => Ret (Ok sig)
                                           end
                            end) t q -> sign_run d bt message (t1 ++ VHttp (sign_blob_request email token message) o :: t) q).
    { clear H t2 q. intros o body t q A H. destruct (signed_blob_from_str body) as [blob|] eqn:Eb.
      - destruct (b64_decode blob) as [sig|] eqn:Ed; apply steps_ret in H; destruct H as [-> ->].
        + eapply sr_done; [exact H1|exact A|]. apply blob_body_spec. eauto.
        + eapply sr_response_err; [exact H1|exact A| |auto]. intros sig Hs. apply blob_body_spec in Hs.
          destruct Hs as (blob' & E1 & E2). congruence.
      - apply steps_ret in H; destruct H as [-> ->]. eapply sr_response_err; [exact H1|exact A| |auto].
        intros sig Hs. apply blob_body_spec in Hs. destruct Hs as (blob' & E1 & E2). congruence. }
    unfold bind_ok in H. apply steps_bind_inv in H. destruct H as [(p & H & ->)|(a & t3 & t4 & H2 & H & ->)].
    - apply request_text_steps in H. destruct H as [(-> & [[-> Hb]|(Hb & k & ->)])|(o & Hb & -> & [(b & A & ->)|(e & F & ->)])]; cbn [bind].
      + eapply sr_request_err; [exact H1|]. constructor. exact Hb.
      + rewrite app_nil_r. constructor. exact H1.
      + apply (B o b); [exact A|]. constructor.
      + eapply sr_request_err; [exact H1|exact F].
    - destruct a as [body|e].
      + apply request_text_ok in H2. destruct H2 as (_ & o & A & ->). apply (B o body); [exact A|exact H].
      + apply request_text_err in H2. destruct H2 as [F _]. apply steps_ret in H. destruct H as [-> ->]. rewrite app_nil_r.
        eapply sr_request_err; [exact H1|exact F]. }
  unfold bind_ok in H at 1. apply steps_bind_inv in H. destruct H as [(p & H & ->)|(a & t1 & t2 & H1 & H & ->)].
  - destruct (pending_dec p) as [[r ->]|Hn].
    + cbn [bind]. rewrite <- (app_nil_r tr). eapply K; [exact H|]. constructor.
    + pose proof (bind_pending p (fun r => match r with
        | Ok a => bind_ok (fun e => e) (request_text d SignBlobRequestBuild SignBlobRequestExecute SignBlobRequestErrorResponse
             SignBlobRequestStatus SignBlobRequestSuccessResponse (sign_blob_request (fst a) (snd a) message))
             (fun body => match signed_blob_from_str body with
                            | None => Ret (Err SignBlobRequestSuccessResponseDeserialize)
                            | Some blob => match b64_decode blob with
                                           | None => Ret (Err SignBlobRequestSuccessResponseBase64Decode)
                                           | Some sig => Ret (Ok sig)
                                           end
                            end)
        | Err e => Ret (Err e) end) Hn) as (P1 & P2 & P3).
      eapply sr_lookup; [apply get_steps; exact H|exact Hn|exact P1|exact P2|exact P3].
  - eapply K; [exact H1|exact H].
Qed.
