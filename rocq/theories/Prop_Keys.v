(** C29, C30, C31, C33, C37, C39: effects of the public operations and of bound-token keys. *)
From Verif Require Import Base BaseFacts Time Json Scope Url Effects EffectsFacts Keys HtmlForm SignedUrl Calls
  SpecCodec SpecToken TokenFacts SpecTrace KeysFacts CallFacts Discipline RefreshFacts Demo.
Local Open Scope Z_scope.

(** * C29 *)

(** A call without a key, or with a local key and a given time, performs no effect at all: there is
    exactly one execution, and it depends on nothing but the arguments. *)
Theorem C29_pure d c :
  (call_key c = None \/
   exists email key t, call_key c = Some (KServiceAccount email key) /\ call_accessible_at c = Some t) ->
  (forall tr q, steps (run_call d c) tr q -> tr = []) /\
  ((exists a, returns (run_call d c) [] a) \/ (exists s, panics (run_call d c) [] s)) /\
  (forall tr1 a1 tr2 a2, returns (run_call d c) tr1 a1 -> returns (run_call d c) tr2 a2 -> a1 = a2).
Proof.
  intros K.
  assert (N : forall tr q, steps (run_call d c) tr q -> tr = []).
  { intros tr q H. destruct K as [K|(email & key & t & K & T)].
    - apply call_shape in H. destruct H as [->|(k & pre & tr' & K' & _)]; [reflexivity|congruence].
    - apply call_parts in H. destruct H as (pre & t1 & t2 & -> & P & B).
      destruct B as [[-> ->]|(bt & K' & _)]; [|congruence]. destruct P as [->|[A _]]; [reflexivity|congruence]. }
  split; [exact N|]. split.
  - destruct (run_call d c) as [a|s|e k] eqn:E.
    + left. exists a. constructor.
    + right. exists s. constructor.
    + exfalso. assert (r : resp e) by (destruct e; cbn; first [exact 0|exact HttpFailed|exact tt|exact None]).
      assert (H : steps (Act e k) [event_of e r] (k r)) by (constructor; constructor).
      specialize (N _ _ H). discriminate N.
  - intros tr1 a1 tr2 a2 H1 H2. pose proof (N _ _ H1). pose proof (N _ _ H2). subst.
    eapply returns_deterministic; eassumption.
Qed.

(** * C30 *)

(** The same call with [accessible_at] set. *)
Definition at_time (c : call) (t : systime) : call :=
  match c with
  | CallForm b =>
      CallForm (match b_signing_options b with
                | None => b
                | Some o => apply_call b (CSigningOptions
                    {| so_accessible_at := Some t; so_expiration := so_expiration o; so_region := so_region o;
                       so_signing_key := so_signing_key o; so_use_sign_blob := so_use_sign_blob o |})
                end)
  | CallUrl o =>
      CallUrl {| o_bucket_name := o_bucket_name o; o_object_name := o_object_name o; o_region := o_region o;
                 o_expires := o_expires o; o_http_method := o_http_method o; o_accessible_at := Some t;
                 o_signing_key := o_signing_key o; o_use_sign_blob := o_use_sign_blob o;
                 o_headers := o_headers o; o_query_parameters := o_query_parameters o |}
  end.

Lemma run_at_time d c : call_key c <> None -> call_accessible_at c = None ->
  run_call d c = Act ENow (fun t => run_call d (at_time c t)).
Proof.
  destruct c as [b|o]; cbn [call_key call_accessible_at at_time run_call]; intros K A.
  - destruct b as [acl bucket cc cd ce cl ct ex key so sr ss xt xm]. cbn [b_signing_options] in *.
    destruct so as [o|]; [|destruct (K eq_refl)]. cbn [apply_call]. unfold build, build_policy. cbn [b_signing_options so_accessible_at].
    rewrite A. cbn [bind_ok bind]. reflexivity.
  - unfold build_signed_url. cbn [o_accessible_at]. rewrite A. cbn [bind]. reflexivity.
Qed.

(** Leaving [accessible_at] out is the same as reading the clock once, first, and passing the reading. *)
Theorem C30_single_reading d c : call_key c <> None -> call_accessible_at c = None ->
  (forall tr a, returns (run_call d c) tr a <->
     exists t tr', tr = VNow t :: tr' /\ returns (run_call d (at_time c t)) tr' a) /\
  (forall tr s, panics (run_call d c) tr s <->
     exists t tr', tr = VNow t :: tr' /\ panics (run_call d (at_time c t)) tr' s) /\
  (forall t, call_accessible_at (at_time c t) = Some t /\ call_key (at_time c t) = call_key c /\
             call_use_sign_blob (at_time c t) = call_use_sign_blob c).
Proof.
  intros K A. rewrite (run_at_time d c K A). split; [|split].
  - intros tr a. split.
    + intros H. apply returns_act_inv in H. destruct H as (t & tr' & -> & H). eauto.
    + intros (t & tr' & -> & H). apply (steps_act ENow). exact H.
  - intros tr s. split.
    + intros H. apply panics_act_inv in H. destruct H as (t & tr' & -> & H). eauto.
    + intros (t & tr' & -> & H). apply (steps_act ENow). exact H.
  - intros t. destruct c as [b|o]; cbn [call_key call_accessible_at at_time call_use_sign_blob] in *; [|auto].
    destruct b as [acl bucket cc cd ce cl ct ex key so sr ss xt xm]. cbn [b_signing_options] in *.
    destruct so as [o|]; [|destruct (K eq_refl)]. cbn [apply_call b_signing_options]. auto.
Qed.

(** After the given time is known, the only clock readings are those of token lookups. *)
Theorem C30_no_other_reading d c tr q : steps (run_call d c) tr q ->
  (forall bt, call_key c <> Some (KBoundToken bt)) ->
  tr = [] \/ call_accessible_at c = None /\ exists t, tr = [VNow t].
Proof.
  intros H N. apply call_parts in H. destruct H as (pre & t1 & t2 & -> & P & B).
  destruct B as [[-> ->]|(bt & K & _)]; [|destruct (N bt K)]. cbn [app]. rewrite app_nil_r. exact P.
Qed.

(** * C31, C37 *)

(** In every execution of every operation, finished or not, a signBlob request is the last thing but its
    lookup's: it directly follows a completed lookup and carries that lookup's email and token; the lookup
    either read a cache entry with more than thirty seconds left at its own clock reading, or fetched the
    email and then the token itself. *)
Theorem C31_token_use d c tr q tr1 r o tr2 :
  steps (run_call d c) tr q -> tr = tr1 ++ VHttp r o :: tr2 -> is_sign_blob r ->
  exists bt pre l email token message,
    call_key c = Some (KBoundToken bt) /\ call_use_sign_blob c = true /\ tr2 = [] /\
    tr1 = pre ++ l /\ lookup (bt_id bt) (bt_base_url bt) email token l /\ sign_blob_call email token message r.
Proof.
  intros H E S. apply call_parts in H. destruct H as (pre & t1 & t2 & -> & P & B).
  symmetry in E. apply split_event in E. destruct E as [(y' & -> & ->)|(x' & E & ->)].
  { exfalso. destruct P as [P|[_ [t P]]]; [destruct tr1; discriminate P|].
    destruct tr1 as [|? [|? ?]]; discriminate P. }
  destruct B as [[-> ->]|(bt & K & B)]; [destruct x'; discriminate E|].
  symmetry in E. apply split_event in E. destruct E as [(y' & -> & ->)|(x'' & E & ->)].
  - exfalso. destruct B as [(-> & p & G)|(_ & em & tk & m & p & L & _)].
    + apply (not_blob _ _ _ _ G r o); [apply in_or_app; right; left; reflexivity|exact S].
    + assert (I : In (VHttp r o) (x' ++ VHttp r o :: y')) by (apply in_or_app; right; left; reflexivity).
      apply (kinds_differ _ S). destruct (lookup_http _ _ _ _ _ _ L I) as [->| ->]; [apply email_request_is|apply token_request_is].
  - destruct B as [(-> & _)|(U & em & tk & m & p & L & G)]; [destruct x''; discriminate E|].
    destruct (sign_run_blob _ _ _ _ _ _ _ _ _ G E S) as (-> & email & token & L' & ->).
    exists bt, (pre ++ t1), x'', email, token, m. rewrite <- app_assoc. split; [exact K|]. split; [exact U|].
    split; [reflexivity|]. split; [reflexivity|]. split; [exact L'|apply sign_blob_request_spec].
Qed.

(** The lookup itself: every success is a hit with more than thirty seconds left or a refresh. *)
Theorem C31_lookup d bt tr email token :
  returns (get_email_and_token d bt) tr (Ok (email, token)) ->
  lookup (bt_id bt) (bt_base_url bt) email token tr.
Proof. apply get_ok. Qed.

(** A lookup that reads a fresh entry sends nothing and writes nothing, wherever it is observed. *)
Theorem C31_fresh d bt email token expires now tr q : 0 <= now -> now + 30 * 1000000000 < expires ->
  steps (get_email_and_token d bt) (VLock (bt_id bt) :: VGet (bt_id bt) (Some (email, token, expires)) :: VNow now :: tr) q ->
  tr = [] \/ tr = [VUnlock (bt_id bt)] /\ q = Ret (Ok (email, token)).
Proof.
  intros Hn Hx H. unfold get_email_and_token, get_locked in H. cbn [bind] in H.
  apply steps_act_inv in H. destruct H as [[E _]|([] & t1 & E & H)]; [discriminate E|]. injection E as <-.
  apply steps_act_inv in H. destruct H as [[E _]|(c & t2 & E & H)]; [discriminate E|]. injection E as <- <-.
  unfold duration_since in H at 1. destruct (Z.leb_spec 0 expires) as [_|]; [|lia]. cbn [bind] in H.
  apply steps_act_inv in H. destruct H as [[E _]|(n & t3 & E & H)]; [discriminate E|]. injection E as <- <-.
  unfold duration_since in H. destruct (Z.leb_spec 0 now) as [_|]; [|lia]. change NS with 1000000000 in H.
  destruct (Z.ltb_spec (now - 0 + 30 * 1000000000) (expires - 0)) as [_|]; [|lia]. cbn [bind] in H.
  apply steps_act_inv in H. destruct H as [[-> _]|([] & t4 & -> & H)]; [left; reflexivity|].
  apply steps_ret in H. destruct H as [-> ->]. right. auto.
Qed.

(** A remote signature is the base64 decoding of the [signedBlob] of a successful response to a signBlob
    request for the message. *)
Theorem C37_signature d bt usb message tr sig :
  returns (sign d (KBoundToken bt) usb message) tr (Ok sig) ->
  usb = true /\
  exists l email token r o body,
    tr = l ++ [VHttp r o] /\ lookup (bt_id bt) (bt_base_url bt) email token l /\
    sign_blob_call email token message r /\ answered o body /\ blob_body body sig.
Proof.
  cbn [sign]. destruct usb; intros H.
  2:{ apply returns_ret_inv in H. destruct H as [_ H]. discriminate H. }
  split; [reflexivity|]. apply returns_bind_ok_inv in H. destruct H as [(a & t1 & t2 & H1 & H & ->)|(e & _ & E)]; [|discriminate E].
  apply returns_ret_inv in H. destruct H as [-> E]. injection E as ->. rewrite app_nil_r.
  apply bound_token_sign_steps in H1. inversion H1 as [? ? ? ? ? ? NR| | | | |tr em tk o bd sig' L A Bb]; subst; [destruct (NR _ eq_refl)|].
  exists tr, em, tk, (sign_blob_request em tk message), o, bd. split; [reflexivity|]. split; [exact L|].
  split; [apply sign_blob_request_spec|]. split; [exact A|exact Bb].
Qed.

(** Every HTTP request of every operation is one of the three, addressed as specified. *)
Theorem C37_requests d c tr q r o : steps (run_call d c) tr q -> In (VHttp r o) tr ->
  exists bt, call_key c = Some (KBoundToken bt) /\
    (r = metadata_request (bt_base_url bt) (B "email") \/ r = metadata_request (bt_base_url bt) (B "token") \/
     exists email token message, sign_blob_call email token message r).
Proof.
  intros H I. pose proof H as H0. apply call_parts in H. destruct H as (pre & t1 & t2 & E & P & B).
  pose proof I as I0. rewrite E in I. apply in_app_or in I. destruct I as [I|I].
  { destruct P as [->|[_ [t ->]]]; [destruct I|]. destruct I as [I|[]]; discriminate I. }
  destruct B as [[-> ->]|(bt & K & B)]; [destruct I|]. exists bt. split; [exact K|].
  rewrite <- email_request_spec, <- token_request_spec.
  assert (M : r = email_request bt \/ r = token_request bt \/ exists email token message, r = sign_blob_request email token message).
  { apply in_app_or in I. destruct B as [(-> & p & G)|(_ & em & tk & m & p & L & G)]; destruct I as [I|I].
    - destruct (get_run_http _ _ _ _ _ _ G I); auto.
    - destruct I.
    - destruct (lookup_http _ _ _ _ _ _ L I); auto.
    - destruct G as [tr' q' p G|tr' e G|tr' em' tk' k G|tr' tr'' em' tk' e G F|tr' em' tk' o' bd e G A NB' He|tr' em' tk' o' bd sig G A Bb].
      + destruct (get_run_http _ _ _ _ _ _ G I); auto.
      + destruct (lookup_failure_http _ _ _ _ _ _ G I); auto.
      + destruct (lookup_http _ _ _ _ _ _ G I); auto.
      + apply in_app_or in I. destruct I as [I|I]; [destruct (lookup_http _ _ _ _ _ _ G I); auto|].
        apply (request_failure_http _ _ _ _ _ _ _ _ _ _ _ F) in I. right; right; eauto.
      + apply in_app_or in I. destruct I as [I|[I|[]]]; [destruct (lookup_http _ _ _ _ _ _ G I); auto|].
        injection I as <- _. right; right; eauto.
      + apply in_app_or in I. destruct I as [I|[I|[]]]; [destruct (lookup_http _ _ _ _ _ _ G I); auto|].
        injection I as <- _. right; right; eauto. }
  destruct M as [M|[M|(em & tk & m & ->)]]; [auto|auto|]. right; right. exists em, tk, m. apply sign_blob_request_spec.
Qed.

(** * C33 *)

(** After an unusable metadata response an operation only releases the lock: it writes no cache, sends
    nothing more, does not panic and, when it ends, ends with an error. *)
Theorem C33_failed_response d c tr1 r o tr2 q :
  steps (run_call d c) (tr1 ++ VHttp r o :: tr2) q -> refresh_failed r o ->
  exists bt tr0 c0 mid,
    call_key c = Some (KBoundToken bt) /\
    tr1 = tr0 ++ VLock (bt_id bt) :: VGet (bt_id bt) c0 :: mid /\ Forall outside mid /\
    (tr2 = [] \/ tr2 = [VUnlock (bt_id bt)]) /\
    (forall a, q = Ret a -> tr2 = [VUnlock (bt_id bt)] /\ answer_ok a = false) /\
    (forall s, q <> Panic s).
Proof.
  intros H F. pose proof H as H0. apply call_stops in H0.
  assert (NF : ~ Forall fine (tr1 ++ VHttp r o :: tr2)).
  { intros A. apply Forall_app in A. destruct A as [_ A]. inversion A as [|? ? A1 _]; subst. exact (A1 r o eq_refl F). }
  destruct H0 as [A|(bt & pre & tr' & K & E & Fp & c0 & l & v & Fl & Ol & T)]; [destruct (NF A)|].
  assert (Fl' : Forall fine (VLock (bt_id bt) :: VGet (bt_id bt) c0 :: l)).
  { constructor; [apply fine_other; discriminate|]. constructor; [apply fine_other; discriminate|]. exact Fl. }
  assert (X : tr1 = pre ++ VLock (bt_id bt) :: VGet (bt_id bt) c0 :: l /\ (tr2 = [] \/ tr2 = [VUnlock (bt_id bt)])).
  { assert (E' : exists rest, tr1 ++ VHttp r o :: tr2 = (pre ++ VLock (bt_id bt) :: VGet (bt_id bt) c0 :: l) ++ rest /\
                  (rest = [v] \/ rest = [v; VUnlock (bt_id bt)])).
    { rewrite E. destruct T as [->| ->]; [exists [v]|exists [v; VUnlock (bt_id bt)]]; rewrite <- app_assoc; auto. }
    destruct E' as (rest & E' & R). apply split_event in E'. destruct E' as [(y' & E1 & _)|(x' & E1 & E2)].
    - exfalso. assert (A : Forall fine (pre ++ VLock (bt_id bt) :: VGet (bt_id bt) c0 :: l)) by (apply Forall_app; auto).
      rewrite E1 in A. apply Forall_app in A. destruct A as [_ A]. inversion A as [|? ? A1 _]; subst. exact (A1 r o eq_refl F).
    - destruct x' as [|z x'].
      + rewrite app_nil_r in E2. split; [exact E2|]. destruct R as [->| ->]; injection E1 as _ <-; auto.
      + exfalso. destruct R as [->| ->]; injection E1 as <- E1.
        * destruct x'; discriminate E1.
        * destruct x' as [|z' x']; [discriminate E1|]. injection E1 as _ E1. destruct x'; discriminate E1. }
  destruct X as [X1 X2]. exists bt, pre, c0, l. split; [exact K|]. split; [exact X1|].
  split; [apply Forall_app in Ol; tauto|]. split; [exact X2|]. split.
  - intros a ->. split.
    + destruct X2 as [->|X2]; [|exact X2]. exfalso.
      pose proof (disc_steps _ _ _ _ _ H _ (disc_call d c bt K)) as D. cbn [disc] in D. rewrite X1 in D.
      rewrite <- app_assoc in D. rewrite fold_left_app in D. cbn [app fold_left held_after] in D.
      rewrite fold_left_app in D. cbn [fold_left held_after] in D. rewrite fold_outside in D; [discriminate D|].
      apply Forall_app in Ol; tauto.
    + destruct (answer_ok a) eqn:O; [|reflexivity]. exfalso. apply NF.
      destruct (call_ok d c _ a _ H O K) as (pre' & tr'' & -> & P & Ok').
      apply Forall_app. split; [destruct P as [->|[_ [t ->]]]; fines|]. eapply ok_trace_fine; exact Ok'.
  - intros s ->. apply NF. eapply panics_fine; exact H.
Qed.

(** A lookup that returns an error, for whatever reason, wrote nothing, asked for no signature and gave the
    lock back. *)
Theorem C33_lookup d bt tr e : returns (get_email_and_token d bt) tr (Err e) ->
  exists c mid, tr = VLock (bt_id bt) :: VGet (bt_id bt) c :: mid ++ [VUnlock (bt_id bt)] /\ Forall outside mid /\
    (forall r o, In (VHttp r o) mid -> is_metadata r /\ ~ is_sign_blob r).
Proof.
  intros H. apply get_err in H. pose proof H as H0. destruct H as [c pre tr e N R].
  exists c, (pre ++ tr). rewrite <- app_assoc. split; [reflexivity|].
  destruct (not_served_fine _ _ N) as [_ Op]. split.
  - apply Forall_app. split; [exact Op|]. destruct R as [tr e F|o1 em tr e A F| |]; try (repeat constructor; fail).
    + apply request_failure_stops in F. destruct F as [->|[o ->]]; repeat constructor.
    + apply request_failure_stops in F. destruct F as [->|[o ->]]; repeat constructor.
  - intros r o I. assert (M : is_metadata r).
    { destruct (lookup_failure_http _ _ _ _ r o H0) as [->| ->]; [|apply email_request_is|apply token_request_is].
      right; right. rewrite app_assoc. apply in_or_app. left. exact I. }
    split; [exact M|]. intros S. exact (kinds_differ _ S M).
Qed.

(** * C39 *)

(** Every panic of an operation with a bound-token key that happens in a token lookup: the cached expiry or
    the clock is before 1970, or the clock reading plus [expires_in] is out of range.  Nothing was written
    to the cache since the lock was taken. *)
Theorem C39_panic_cause d c bt tr s :
  panics (run_call d c) tr s -> call_key c = Some (KBoundToken bt) ->
  In s [PFieldName; PHeaderMap; PUri] \/
  exists tr0 c0 mid,
    tr = tr0 ++ VLock (bt_id bt) :: VGet (bt_id bt) c0 :: mid /\ Forall outside mid /\
    ((exists email token expires, c0 = Some (email, token, expires) /\ expires < 0 /\ mid = []) \/
     (exists now, mid = [VNow now] /\ now < 0) \/
     (exists mid' o body token n now,
        mid = mid' ++ [VHttp (metadata_request (bt_base_url bt) (B "token")) o; VNow now] /\
        answered o body /\ token_body body token n (B "Bearer") /\
        two63 * 1000000000 <= now + Z.of_N n * 1000000000)).
Proof.
  intros H K. apply call_panics in H. destruct H as (k & pre & tr' & K' & -> & P & T). rewrite K in K'. injection K' as <-.
  assert (X : forall l, lookup_panic d bt l s -> exists tr0 c0 mid,
    l = tr0 ++ VLock (bt_id bt) :: VGet (bt_id bt) c0 :: mid /\ Forall outside mid /\
    ((exists email token expires, c0 = Some (email, token, expires) /\ expires < 0 /\ mid = []) \/
     (exists now, mid = [VNow now] /\ now < 0) \/
     (exists mid' o body token n now,
        mid = mid' ++ [VHttp (metadata_request (bt_base_url bt) (B "token")) o; VNow now] /\
        answered o body /\ token_body body token n (B "Bearer") /\
        two63 * 1000000000 <= now + Z.of_N n * 1000000000))).
  { intros l L. destruct L as [em tk x Hx|em tk x now Hx Hn|c0 pp o1 em o2 body t n now N A1 A2 T' O].
    - exists [], (Some (em, tk, x)), []. split; [reflexivity|]. split; [constructor|]. left. eauto 6.
    - exists [], (Some (em, tk, x)), [VNow now]. split; [reflexivity|]. split; [repeat constructor|]. right; left. eauto.
    - exists [], c0, (pp ++ [VHttp (email_request bt) o1; VHttp (token_request bt) o2; VNow now]). split; [reflexivity|].
      split; [apply Forall_app; split; [apply (not_served_fine _ _ N)|repeat constructor]|]. right; right.
      exists (pp ++ [VHttp (email_request bt) o1]), o2, body, t, n, now. rewrite <- app_assoc, <- token_request_spec. auto. }
  destruct T as [[-> I]|[T|(em & t1 & t2 & H1 & -> & [[-> I]|[m T]])]].
  - left. cbn in *. tauto.
  - right. apply auth_panics in T. apply X in T. destruct T as (tr0 & c0 & mid & -> & R).
    exists (pre ++ tr0), c0, mid. rewrite <- app_assoc. split; [reflexivity|exact R].
  - left. cbn in *. tauto.
  - right. apply sign_panics in T. destruct T as [_ T]. apply X in T. destruct T as (tr0 & c0 & mid & -> & R).
    exists (pre ++ t1 ++ tr0), c0, mid. rewrite <- !app_assoc. split; [reflexivity|exact R].
Qed.

(** The hypotheses of C29, C30, C31, C33, C37 and C39 are met by concrete calls and executions. *)
Example C29_example :
  let c := CallForm (demo_form (KServiceAccount (B "sa@example.com") (B "key")) false) in
  (exists email key t, call_key c = Some (KServiceAccount email key) /\ call_accessible_at c = Some t) /\
  exists fields, returns (run_call demo_deps c) [] (AForm (Ok fields)) /\ length fields = 9%nat.
Proof.
  cbn zeta. split; [repeat eexists|].
  destruct (play (run_call demo_deps (CallForm (demo_form (KServiceAccount (B "sa@example.com") (B "key")) false))) []) as [tr q] eqn:E.
  pose proof (play_steps (run_call demo_deps (CallForm (demo_form (KServiceAccount (B "sa@example.com") (B "key")) false))) []) as H.
  rewrite E in H. vm_compute in E. injection E as <- <-. eexists. split; [exact H|reflexivity].
Qed.

Example C30_example :
  let c := CallForm (builder_of (demo_form_at None (KServiceAccount (B "sa@example.com") (B "key")) false)) in
  call_key c <> None /\ call_accessible_at c = None /\
  exists fields, returns (run_call demo_deps c) [VNow demo_time] (AForm (Ok fields)).
Proof.
  cbn zeta. split; [discriminate|]. split; [reflexivity|].
  set (c := CallForm _). pose proof (play_steps (run_call demo_deps c) [RNow demo_time]) as H.
  destruct (play (run_call demo_deps c) [RNow demo_time]) as [tr q] eqn:E. subst c. vm_compute in E. injection E as <- <-.
  eexists. exact H.
Qed.

Example C31_example :
  exists tr fields, returns (run_call demo_deps demo_bound_form) tr (AForm (Ok fields)) /\
    exists tr1 r o, tr = tr1 ++ [VHttp r o] /\ is_sign_blob r.
Proof.
  pose proof (play_steps (run_call demo_deps demo_bound_form) demo_run) as H.
  destruct (play (run_call demo_deps demo_bound_form) demo_run) as [tr q] eqn:E. vm_compute in E. injection E as <- <-.
  eexists. eexists. split; [exact H|]. cbn [fst]. eexists [_; _; _; _; _; _; _; _; _; _; _], _, _. split; [reflexivity|].
  exists (B "sa@example.com"). vm_compute. reflexivity.
Qed.

Example C31_lookup_example :
  returns (get_email_and_token demo_deps demo_token)
    [VLock 7; VGet 7 (Some (B "e", B "t", demo_time + 31 * NS)); VNow demo_time; VUnlock 7] (Ok (B "e", B "t")).
Proof.
  exact (play_returns (get_email_and_token demo_deps demo_token)
    [RUnit; RCache (Some (B "e", B "t", demo_time + 31 * NS)); RNow demo_time; RUnit] _ eq_refl).
Qed.

Example C37_example :
  exists tr, returns (sign demo_deps (KBoundToken demo_token) true (B "message")) tr (Ok [x01; x02]%byte).
Proof. eexists. exact (play_returns (sign demo_deps (KBoundToken demo_token) true (B "message")) (skipn 7 demo_run) _ eq_refl). Qed.

Example C33_example :
  exists tr1 r o tr2 a, steps (run_call demo_deps demo_bound_form) (tr1 ++ VHttp r o :: tr2) (Ret a) /\ refresh_failed r o.
Proof.
  pose proof (play_steps (run_call demo_deps demo_bound_form) demo_failed_run) as H.
  destruct (play (run_call demo_deps demo_bound_form) demo_failed_run) as [tr q] eqn:E. vm_compute in E. injection E as <- <-.
  eexists [_; _; _], _, _, _, _. split; [exact H|]. split.
  - exists (bt_base_url demo_token), (B "token"). split; [cbn; auto|]. vm_compute. reflexivity.
  - left. intros body (s & S & Es). injection Es as <- _. unfold success_status in S. lia.
Qed.

Example C33_lookup_example :
  exists tr, returns (get_email_and_token demo_deps demo_token) tr (Err (TokenRequestStatus 500 (B "oops"))).
Proof. eexists. exact (play_returns (get_email_and_token demo_deps demo_token) demo_failed_run _ eq_refl). Qed.

(** A public operation panics although the clock is in 2020, the cache was empty and both metadata responses
    are well formed with status 200.  This is also a case of C39_panic_cause. *)
Theorem C39_refuted :
  exists d c bt tr s, call_key c = Some (KBoundToken bt) /\ panics (run_call d c) tr s /\ s = PExpiresOverflow /\
    (forall t, In (VNow t) tr -> t = demo_time) /\ (forall i x, In (VGet i x) tr -> x = None) /\
    (forall r o, In (VHttp r o) tr -> exists body, answered o body).
Proof.
  exists demo_deps, demo_bound_form, demo_token.
  pose proof (play_steps (run_call demo_deps demo_bound_form) demo_overflow_run) as H.
  destruct (play (run_call demo_deps demo_bound_form) demo_overflow_run) as [tr q] eqn:E. vm_compute in E. injection E as <- <-.
  do 2 eexists. split; [reflexivity|]. split; [exact H|]. split; [reflexivity|]. cbn [fst In]. split; [|split].
  - intros t I. repeat destruct I as [I|I]; try discriminate I; [|destruct I]. injection I as <-. vm_compute. reflexivity.
  - intros i x I. repeat destruct I as [I|I]; try discriminate I; [|destruct I]. injection I as <- <-. reflexivity.
  - intros r o I. repeat destruct I as [I|I]; try discriminate I; try contradiction;
      injection I as <- <-; eexists; exists 200%N; (split; [unfold success_status; lia|reflexivity]).
Qed.
