(** C56: secrets. *)
From Verif Require Import Base BaseFacts Time Base64 Json Scope Effects EffectsFacts Keys HtmlForm SignedUrl Calls
  SpecToken TokenFacts SpecTrace KeysFacts SpecSecret Demo.
Local Open Scope Z_scope.

(** Two programs that behave the same up to secrets as long as they get the same answers up to secrets. *)
Inductive twin {A} (R : A -> A -> Prop) : prog A -> prog A -> Prop :=
| tw_ret a a' : R a a' -> twin R (Ret a) (Ret a')
| tw_panic s : twin R (Panic s) (Panic s)
| tw_now k k' : (forall t, twin R (k t) (k' t)) -> twin R (Act ENow k) (Act ENow k')
| tw_http r r' k k' : same_request r r' -> (forall o o', same_response r o o' -> twin R (k o) (k' o')) ->
    twin R (Act (EHttp r) k) (Act (EHttp r') k')
| tw_lock i k k' : twin R (k tt) (k' tt) -> twin R (Act (ELock i) k) (Act (ELock i) k')
| tw_unlock i k k' : twin R (k tt) (k' tt) -> twin R (Act (EUnlock i) k) (Act (EUnlock i) k')
| tw_get i k k' : (forall c c', same_entry c c' -> twin R (k c) (k' c')) -> twin R (Act (EGet i) k) (Act (EGet i) k')
| tw_set i c c' k k' : same_entry c c' -> twin R (k tt) (k' tt) -> twin R (Act (ESet i c) k) (Act (ESet i c') k').

Lemma twin_bind {A C} (R : A -> A -> Prop) (S : C -> C -> Prop) p p' f f' :
  twin R p p' -> (forall a a', R a a' -> twin S (f a) (f' a')) -> twin S (bind p f) (bind p' f').
Proof. intros H F. induction H; cbn [bind]; auto; constructor; auto. Qed.

Definition on_ok {A E} (R : A -> A -> Prop) (x y : res A E) : Prop :=
  match x, y with Ok a, Ok b => R a b | Err e, Err f => e = f | _, _ => False end.

Lemma twin_bind_ok {A C E F} (R : A -> A -> Prop) (S : C -> C -> Prop) (g : E -> F) p p' f f' :
  twin (on_ok R) p p' -> (forall a a', R a a' -> twin (on_ok S) (f a) (f' a')) ->
  twin (on_ok S) (bind_ok g p f) (bind_ok g p' f').
Proof.
  intros H K. unfold bind_ok. eapply twin_bind; [exact H|]. intros [a|e] [a'|e'] X; cbn [on_ok] in X; try contradiction.
  - apply K, X.
  - subst e'. constructor. reflexivity.
Qed.

Lemma sendable_ok t : sendable t -> header_value_ok t = true.
Proof.
  intros H. apply forallb_forall. intros c I. unfold sendable in H. rewrite Forall_forall in H. destruct (H c I) as [->|[L N]]; [reflexivity|].
  apply orb_true_iff. left. apply andb_true_iff. split; [apply N.leb_le; exact L|]. apply negb_true_iff, N.eqb_neq. exact N.
Qed.

Definition token_pair (x y : str * str) : Prop :=
  fst x = fst y /\ (snd x = snd y \/ sendable (snd x) /\ sendable (snd y)).

Lemma token_pair_same x : token_pair x x.
Proof. split; auto. Qed.

Lemma metadata_twin d be xe ere se sre r : (forall base, r <> metadata_request base (B "token")) ->
  twin (on_ok eq) (request_text d be xe ere se sre r) (request_text d be xe ere se sre r).
Proof.
  intros N. unfold request_text. destruct (negb _); [constructor; reflexivity|].
  constructor; [constructor|]. intros o o' S. destruct S as [r o|base]; [|destruct (N base eq_refl)].
  destruct o as [|s [b|]]; [constructor; reflexivity| |]; destruct (negb (is_success s)); constructor; reflexivity.
Qed.

Definition same_body (b b' : str) : Prop :=
  b = b' \/ exists t t' n type, token_body b t n type /\ token_body b' t' n type /\ sendable t /\ sendable t'.

Lemma success_status_spec s : success_status s -> is_success s = true.
Proof. intros H. unfold success_status in H. unfold is_success. apply andb_true_iff. split; [apply N.leb_le|apply N.ltb_lt]; lia. Qed.

Lemma token_twin d be xe ere se sre r :
  twin (on_ok same_body) (request_text d be xe ere se sre r) (request_text d be xe ere se sre r).
Proof.
  unfold request_text. destruct (negb _); [constructor; reflexivity|].
  constructor; [constructor|]. intros o o' S. destruct S as [r o|base s b b' t t' n type Hs Hb Hb' Ht Ht'].
  - destruct o as [|s [b|]]; [constructor; reflexivity| |]; destruct (negb (is_success s)); constructor; try reflexivity.
    left. reflexivity.
  - rewrite (success_status_spec _ Hs). constructor. right. exists t, t', n, type. auto.
Qed.

Lemma email_not_token bt base : email_request bt <> metadata_request base (B "token").
Proof.
  intros E. apply (f_equal rq_url) in E. cbn [rq_url email_request metadata_request] in E.
  apply (f_equal (@rev byte)) in E. rewrite !rev_app_distr in E. cbn in E. discriminate E.
Qed.

Lemma refresh_twin d bt : twin (on_ok token_pair) (refresh d bt) (refresh d bt).
Proof.
  unfold refresh. eapply twin_bind_ok; [apply metadata_twin; apply email_not_token|]. intros email ? <-.
  eapply twin_bind_ok; [apply token_twin|]. intros b b' S.
  assert (X : match access_token_from_str b, access_token_from_str b' with
              | None, None => True
              | Some x, Some y => at_expires_in x = at_expires_in y /\ at_type x = at_type y /\
                                  (at_token x = at_token y \/ sendable (at_token x) /\ sendable (at_token y))
              | _, _ => False
              end).
  { destruct S as [->|(t & t' & n & ty & H & H' & St & St')].
    - destruct (access_token_from_str b'); auto.
    - apply token_body_spec in H, H'. rewrite H, H'. cbn. auto. }
  destruct (access_token_from_str b) as [x|], (access_token_from_str b') as [y|]; try contradiction; [|constructor; reflexivity].
  destruct X as (E1 & E2 & E3). rewrite E1, E2. destruct (negb _); [constructor; reflexivity|].
  constructor. intros now. destruct (systime_add_secs now (at_expires_in y)) as [expires|]; [|constructor].
  constructor.
  - destruct E3 as [->|[Sx Sy]]; constructor; assumption.
  - constructor. cbn [on_ok]. split; [reflexivity|exact E3].
Qed.

Lemma get_twin d bt : twin (on_ok token_pair) (get_email_and_token d bt) (get_email_and_token d bt).
Proof.
  unfold get_email_and_token. constructor. apply twin_bind with (R := on_ok token_pair).
  2:{ intros a a' H. constructor. constructor. exact H. }
  unfold get_locked. constructor. intros c c' S.
  assert (X : match c, c' with
              | None, None => True
              | Some (e, t, x), Some (e', t', x') => e = e' /\ x = x' /\ (t = t' \/ sendable t /\ sendable t')
              | _, _ => False
              end).
  { destruct S as [c|]; [destruct c as [[[e t] x]|]|]; auto. }
  destruct c as [[[e t] x]|], c' as [[[e' t'] x']|]; try contradiction; [|apply refresh_twin].
  destruct X as (<- & <- & T). destruct (duration_since x 0); [|constructor]. constructor. intros now.
  destruct (duration_since now 0); [|constructor]. destruct (_ <? _); [|apply refresh_twin].
  constructor. split; [reflexivity|exact T].
Qed.

Lemma blob_not_token email t m base : sign_blob_request email t m <> metadata_request base (B "token").
Proof. intros E. apply (f_equal rq_method) in E. discriminate E. Qed.

Lemma bound_sign_twin d bt m : twin (on_ok eq) (bound_token_sign d bt m) (bound_token_sign d bt m).
Proof.
  unfold bound_token_sign. eapply twin_bind_ok; [apply get_twin|]. intros [e t] [e' t'] [E T]. cbn [fst snd] in *. subst e'.
  apply twin_bind_ok with (R := eq).
  - destruct T as [<-|[S S']]; [apply metadata_twin, blob_not_token|].
    unfold request_text. cbn [sign_blob_request rq_url rq_headers forallb snd].
    assert (V : forall x, sendable x -> header_value_ok (B "Bearer " ++ x) = true).
    { intros x H. unfold header_value_ok. rewrite forallb_app. apply andb_true_iff. split; [reflexivity|]. apply (sendable_ok x H). }
    rewrite !V by assumption. destruct (negb _); [constructor; reflexivity|].
    constructor.
    + apply sq_token with (email := e) (message := m) (t := t) (t' := t'); [apply sign_blob_request_spec|apply sign_blob_request_spec|reflexivity].
    + intros o o' Q. remember (sign_blob_request e t m) as r eqn:R. destruct Q as [r o|base]; [|destruct (blob_not_token e t m base); congruence].
      destruct o as [|s [b|]]; [constructor; reflexivity| |]; destruct (negb (is_success s)); constructor; reflexivity.
  - intros b ? <-. destruct (signed_blob_from_str b) as [blob|]; [|constructor; reflexivity].
    destruct (b64_decode blob); constructor; reflexivity.
Qed.

Lemma authorizer_twin d k k' : same_key d k k' -> twin (on_ok eq) (authorizer d k) (authorizer d k').
Proof.
  assert (X : forall k, twin (on_ok eq) (authorizer d k) (authorizer d k)).
  { intros [bt| |]; cbn [authorizer]; [|constructor; reflexivity|constructor; reflexivity].
    eapply twin_bind_ok; [apply get_twin|]. intros x y [E _]. constructor. exact E. }
  intros [?| |]; [apply X|constructor; reflexivity|constructor; reflexivity].
Qed.

Lemma sign_twin d k k' usb m : same_key d k k' -> twin (on_ok eq) (sign d k usb m) (sign d k' usb m).
Proof.
  intros [[bt|id s|email key]|id s s'|email key key' H]; cbn [sign].
  - destruct usb; [|constructor; reflexivity]. eapply twin_bind_ok; [apply bound_sign_twin|]. intros x y ->. constructor. reflexivity.
  - constructor.
  - destruct usb; [constructor|]. destruct (d_rsa_sign d key m); constructor; reflexivity.
  - constructor.
  - destruct usb; [constructor|]. rewrite H. destruct (d_rsa_sign d key' m); constructor; reflexivity.
Qed.

Lemma same_algorithm d k k' : same_key d k k' -> key_algorithm k = key_algorithm k'.
Proof. intros [?| |]; reflexivity. Qed.

Ltac same_ret := constructor; reflexivity.

Lemma form_twin d b b' o o' :
  b_signing_options b = Some o -> b_signing_options b' = Some o' ->
  b' = apply_call b (CSigningOptions o') ->
  o' = {| so_accessible_at := so_accessible_at o; so_expiration := so_expiration o; so_region := so_region o;
          so_signing_key := so_signing_key o'; so_use_sign_blob := so_use_sign_blob o |} ->
  same_key d (so_signing_key o) (so_signing_key o') ->
  twin (on_ok eq) (build d b) (build d b').
Proof.
  intros E E' Hb Ho K. unfold build.
  assert (P : twin (on_ok eq) (build_policy d b) (build_policy d b')).
  { unfold build_policy. rewrite E, E'.
    assert (A : forall t, twin (on_ok eq) (build_policy_at d b o t) (build_policy_at d b' o' t)).
    { intros t. unfold build_policy_at. rewrite <- (same_algorithm _ _ _ K).
      rewrite Hb. destruct b as [acl bucket cc cd ce cl ct ex key so sr ss xt xm]. cbn [apply_call b_bucket b_key b_x_goog_meta].
      rewrite Ho. cbn [so_expiration so_region so_signing_key so_use_sign_blob].
      destruct (_ <=? _); [same_ret|]. destruct (ut_from_system_time t) as [acc|]; [|same_ret].
      destruct (ut_from_system_time (so_expiration o)) as [exp|]; [|same_ret].
      destruct bucket as [bucket|]; [|same_ret]. destruct key as [key|]; [|same_ret].
      destruct (key_algorithm (so_signing_key o)); try same_ret.
      eapply twin_bind_ok; [apply authorizer_twin, K|]. intros email ? <-.
      destruct (location_try_from _) as [loc|]; [|constructor]. destruct (credential_scope_new _ _ _ _) as [sc|]; [|same_ret].
      match goal with |- twin _ (match traverse ?f ?l with _ => _ end) (match traverse ?f ?l' with _ => _ end) =>
        change (traverse f l') with (traverse f l); destruct (traverse f l) as [fixed|]; [|constructor] end.
      destruct (meta_conditions xm) as [meta| |]; [|same_ret|constructor].
      eapply twin_bind_ok; [apply sign_twin, K|]. intros dg ? <-. same_ret. }
    rewrite Ho at 1. cbn [so_accessible_at]. destruct (so_accessible_at o); [apply A|]. constructor. exact A. }
  eapply twin_bind_ok; [exact P|]. intros p ? <-. rewrite Hb.
  destruct b as [acl bucket cc cd ce cl ct ex key so sr ss xt xm].
  cbn [apply_call b_acl b_bucket b_cache_control b_content_disposition b_content_encoding b_content_length b_content_type
       b_expires b_key b_success_action_redirect b_success_action_status b_x_goog_custom_time b_x_goog_meta].
  destruct key; [|same_ret]. destruct (meta_fields xm); same_ret.
Qed.

Lemma url_new_twin d sc t ex r k k' usb : same_key d k k' ->
  twin (on_ok eq) (signed_url_new d sc t ex r k usb) (signed_url_new d sc t ex r k' usb).
Proof.
  intros K. unfold signed_url_new. rewrite <- (same_algorithm _ _ _ K).
  eapply twin_bind_ok; [apply authorizer_twin, K|]. intros email ? <-.
  destruct (negb _); [same_ret|]. destruct (add_required_params _ _ _ _ _ _ _) as [r'|]; [|constructor].
  destruct (canonical_request d r'); [|same_ret]. eapply twin_bind_ok; [apply sign_twin, K|]. intros x ? <-. same_ret.
Qed.

Lemma url_twin d o o' : CallUrl o' = with_key (CallUrl o) (o_signing_key o') ->
  same_key d (o_signing_key o) (o_signing_key o') -> twin (on_ok eq) (build_signed_url d o) (build_signed_url d o').
Proof.
  intros Ho K. cbn [with_key] in Ho. injection Ho as Ho.
  assert (A : forall t, twin (on_ok eq) (build_signed_url_at d o t) (build_signed_url_at d o' t)).
  { intros t. rewrite Ho. unfold build_signed_url_at.
    cbn [o_bucket_name o_object_name o_region o_expires o_http_method o_signing_key o_use_sign_blob o_headers o_query_parameters].
    repeat match goal with
    | |- twin _ (match ?x with _ => _ end) (match ?x with _ => _ end) => destruct x; try same_ret; try constructor
    | |- twin _ (let x := _ in _) _ => cbv zeta
    end.
    eapply twin_bind_ok; [apply url_new_twin, K|]. intros x ? <-. same_ret. }
  unfold build_signed_url. rewrite Ho at 1. cbn [o_accessible_at]. destruct (o_accessible_at o); [apply A|]. constructor. exact A.
Qed.

Lemma call_twin d c k k' : call_key c = Some k -> same_key d k k' -> twin eq (run_call d c) (run_call d (with_key c k')).
Proof.
  assert (L : forall A E (x y : res A E), on_ok eq x y -> x = y).
  { intros A E [a|e] [a'|e'] H; cbn in H; try contradiction; congruence. }
  intros H K. destruct c as [b|o]; cbn [run_call with_key].
  - cbn [call_key] in H. destruct (b_signing_options b) as [o|] eqn:E; [|discriminate H]. cbn [option_map] in H. injection H as <-.
    eapply twin_bind.
    + eapply form_twin; [exact E| |reflexivity| |].
      * destruct b. reflexivity.
      * reflexivity.
      * exact K.
    + intros x y X. apply L in X. subst y. same_ret.
  - cbn [call_key] in H. injection H as <-. eapply twin_bind.
    + apply url_twin; [reflexivity|exact K].
    + intros x y X. apply L in X. subst y. same_ret.
Qed.

Lemma keyless_call d c k : call_key c = None -> with_key c k = c /\ (forall tr q, steps (run_call d c) tr q -> tr = [] /\ q = run_call d c).
Proof.
  destruct c as [b|o]; cbn [call_key]; [|discriminate]. destruct (b_signing_options b) as [o|] eqn:E; [discriminate|]. intros _.
  cbn [with_key run_call]. rewrite E. split; [reflexivity|]. unfold build, build_policy. rewrite E. cbn [bind_ok bind].
  intros tr q. destruct (b_key b) as [key|]; cbn [bind]; [|apply steps_ret].
  destruct (meta_fields _); cbn [bind]; apply steps_ret.
Qed.

Lemma twin_steps {A} (p p' : prog A) : twin eq p p' -> forall tr q tr' q', steps p tr q -> steps p' tr' q' ->
  Forall2 same_answer tr tr' -> Forall2 same_event tr tr' /\ same_outcome q q'.
Proof.
  intros T. induction T; intros tr q tr' q' Z Z' F.
  1,2: apply steps_inv in Z, Z'; destruct Z as [-> ->], Z' as [-> ->]; split; [constructor|cbn; auto].
  all: apply steps_act_inv in Z, Z'; destruct Z as [[-> ->]|(x & u & -> & Z)], Z' as [[-> ->]|(x' & u' & -> & Z')];
    inversion F as [|? ? ? ? S F1]; subst; try (split; [constructor|exact I]); cbn [event_of same_answer] in S.
  - subst x'. destruct (H0 x _ _ _ _ Z Z' F1) as [X Y]. split; [constructor; [constructor|exact X]|exact Y].
  - destruct (H1 x x' S _ _ _ _ Z Z' F1) as [X Y]. split; [constructor; [constructor; assumption|exact X]|exact Y].
  - destruct x, x'. destruct (IHT _ _ _ _ Z Z' F1) as [X Y]. split; [constructor; [constructor|exact X]|exact Y].
  - destruct x, x'. destruct (IHT _ _ _ _ Z Z' F1) as [X Y]. split; [constructor; [constructor|exact X]|exact Y].
  - destruct (H0 x x' S _ _ _ _ Z Z' F1) as [X Y]. split; [constructor; [constructor; assumption|exact X]|exact Y].
  - destruct x, x'. destruct (IHT _ _ _ _ Z Z' F1) as [X Y]. split; [constructor; [constructor; assumption|exact X]|exact Y].
Qed.

(** Two executions of a call with keys that differ in their secret only, and with answers that differ in
    access tokens only, send the same requests up to the token in the authorization header of a signBlob
    request, lock, read and write the same up to tokens, and end alike with the same result: no URL, form,
    error or panic says anything about a token, a private key (beyond its signatures) or an HMAC secret. *)
Theorem C56_secrets d c k k' tr q tr' q' :
  call_key c = Some k -> same_key d k k' ->
  steps (run_call d c) tr q -> steps (run_call d (with_key c k')) tr' q' ->
  Forall2 same_answer tr tr' -> Forall2 same_event tr tr' /\ same_outcome q q'.
Proof. intros K S H H' F. exact (twin_steps _ _ (call_twin d c k k' K S) _ _ _ _ H H' F). Qed.

(** An access token leaves the program only in a signBlob request, in its authorization header: two different
    requests in the same place are signBlob requests for the same account and message over HTTPS. *)
Theorem C56_destination r r' : same_request r r' -> r <> r' ->
  exists path t t', rq_url r = B "https://iamcredentials.googleapis.com/" ++ path /\ rq_url r' = rq_url r /\
    rq_method r = B "POST" /\ rq_method r' = B "POST" /\ rq_body r = rq_body r' /\
    rq_headers r = [(B "authorization", B "Bearer " ++ t); (B "content-type", B "application/json")] /\
    rq_headers r' = [(B "authorization", B "Bearer " ++ t'); (B "content-type", B "application/json")].
Proof.
  intros [?|email m t t' r1 r2 (M & U & Hh & _) (M' & U' & H' & _) Hb] N; [destruct (N eq_refl)|].
  exists (B "v1/projects/-/serviceAccounts/" ++ email ++ B ":signBlob"), t, t'.
  split; [exact U|]. split; [congruence|]. auto.
Qed.

(** Two runs with different tokens in the response of the metadata server: the same form. *)
Definition other_token_body : str := B "{""token_type"":""Bearer"",""access_token"":""ya29.A"",""expires_in"":3599,""scope"":[]}".
Definition other_run : list reply := [
  RUnit; RCache None; ok_response (B "sa@example.com"); ok_response other_token_body; RNow demo_time; RUnit; RUnit;
  RUnit; RCache (Some (B "sa@example.com", B "ya29.A", demo_time + 3599 * NS)); RNow (demo_time + 1 * NS); RUnit;
  ok_response demo_blob_body].

Example C56_case :
  let p := run_call demo_deps demo_bound_form in
  let tr := fst (play p demo_run) in let tr' := fst (play p other_run) in
  same_key demo_deps (KBoundToken demo_token) (KBoundToken demo_token) /\
  (exists a, returns p tr a /\ returns p tr' a) /\ Forall2 same_answer tr tr' /\ tr <> tr'.
Proof.
  cbv zeta. split; [constructor|]. split; [|split].
  - destruct (snd (play (run_call demo_deps demo_bound_form) demo_run)) as [a| |] eqn:E; [|vm_compute in E; discriminate E|vm_compute in E; discriminate E].
    exists a. split; [apply play_returns; exact E|]. apply play_returns. rewrite <- E. vm_compute. reflexivity.
  - assert (S1 : sendable (B "tok1")) by (repeat (apply Forall_cons; [right; split; intros H; discriminate H|]); apply Forall_nil).
    assert (S2 : sendable (B "ya29.A")) by (repeat (apply Forall_cons; [right; split; intros H; discriminate H|]); apply Forall_nil).
    match goal with |- Forall2 _ ?x ?y => let x' := eval vm_compute in x in let y' := eval vm_compute in y in
      change (Forall2 same_answer x' y') end.
    repeat (apply Forall2_cons; [cbn [same_answer]; try exact I; try reflexivity; try apply sr_same; try apply se_same; try (apply se_token; assumption)|]); [|apply Forall2_nil].
    apply (sr_token (B "http://metadata.google.internal") 200 demo_token_body other_token_body (B "tok1") (B "ya29.A") 3599 (B "Bearer"));
      [split; intros H; discriminate H|apply token_body_spec; vm_compute; reflexivity|apply token_body_spec; vm_compute; reflexivity|exact S1|exact S2].
  - intros E. vm_compute in E. discriminate E.
Qed.

(** Two private keys with the same signatures, and two HMAC secrets. *)
Example C56_keys :
  same_key demo_deps (KHmac (B "id") (B "secret")) (KHmac (B "id") (B "other")) /\
  same_key {| d_path_caret := false; d_quote_in_header_name := false; d_num_ok := fun _ => true;
              d_rsa_sign := fun _ m => Ok m; d_hm_iter := fun l => l; d_hm_overflow := fun _ => false; d_url_ok := fun _ => true |}
    (KServiceAccount (B "sa") (B "key one")) (KServiceAccount (B "sa") (B "key two")).
Proof. split; [apply sk_hmac|]. apply sk_account. reflexivity. Qed.
