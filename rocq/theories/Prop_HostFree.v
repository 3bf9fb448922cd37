(** C104: the metadata host. *)
From Verif Require Import Base BaseFacts Time Base64 Json Scope Effects EffectsFacts Keys HtmlForm SignedUrl Calls
  SpecToken TokenFacts SpecTrace KeysFacts CallFacts SpecSecret Demo SpecRequests SpecConstructors Prop_Constructors SpecHostFree.
Local Open Scope Z_scope.

Section Hosts.
Variables h h' : str.

(** Two programs that differ in metadata requests only. *)
Inductive shift {A} : prog A -> prog A -> Prop :=
| sh_ret a : shift (Ret a) (Ret a)
| sh_panic s : shift (Panic s) (Panic s)
| sh_act e k k' : (forall r, e <> EHttp r) -> (forall x, shift (k x) (k' x)) -> shift (Act e k) (Act e k')
| sh_http r r' k k' : elsewhere h h' r r' -> (forall o, shift (k o) (k' o)) -> shift (Act (EHttp r) k) (Act (EHttp r') k').

Lemma shift_bind {A C} (p p' : prog A) (f f' : A -> prog C) : shift p p' -> (forall a, shift (f a) (f' a)) -> shift (bind p f) (bind p' f').
Proof. intros H F. induction H; cbn [bind]; auto; constructor; auto. Qed.

Lemma shift_bind_ok {A C E F} (g : E -> F) (p p' : prog (res A E)) (f f' : A -> prog (res C F)) :
  shift p p' -> (forall a, shift (f a) (f' a)) -> shift (bind_ok g p f) (bind_ok g p' f').
Proof. intros H K. unfold bind_ok. apply shift_bind; [exact H|]. intros [a|e]; [apply K|constructor]. Qed.

Lemma text_shift d be xe ere se sre r r' : elsewhere h h' r r' ->
  d_url_ok d (rq_url r) = d_url_ok d (rq_url r') -> rq_headers r = rq_headers r' ->
  shift (request_text d be xe ere se sre r) (request_text d be xe ere se sre r').
Proof.
  intros E U H. unfold request_text. rewrite U, H. destruct (negb _); [constructor|]. constructor; [exact E|]. intros [|s [b|]]; [constructor| |]; destruct (negb (is_success s)); constructor.
Qed.

Variables (d : deps) (id : N).
Let bt := {| bt_id := id; bt_base_url := B "http://" ++ h |}.
Let bt' := {| bt_id := id; bt_base_url := B "http://" ++ h' |}.
Hypothesis U : forall a, In a [B "email"; B "token"] -> d_url_ok d (metadata_url h a) = true /\ d_url_ok d (metadata_url h' a) = true.

Lemma email_url x : (B "http://" ++ x) ++ B "/computeMetadata/v1/instance/service-accounts/default/email" = metadata_url x (B "email").
Proof. unfold metadata_url. rewrite <- app_assoc. reflexivity. Qed.
Lemma token_url x : (B "http://" ++ x) ++ B "/computeMetadata/v1/instance/service-accounts/default/token" = metadata_url x (B "token").
Proof. unfold metadata_url. rewrite <- app_assoc. reflexivity. Qed.

Lemma refresh_shift : shift (refresh d bt) (refresh d bt').
Proof.
  unfold refresh. apply shift_bind_ok.
  - apply text_shift.
    + unfold email_request, bt, bt'. cbn [bt_base_url]. rewrite !email_url. constructor. left. reflexivity.
    + unfold email_request, bt, bt'. cbn [bt_base_url rq_url]. rewrite !email_url. destruct (U (B "email")) as [-> ->]; [left|]; reflexivity.
    + reflexivity.
  - intros email. apply shift_bind_ok.
    + apply text_shift.
      * unfold token_request, bt, bt'. cbn [bt_base_url]. rewrite !token_url. constructor. right. left. reflexivity.
      * unfold token_request, bt, bt'. cbn [bt_base_url rq_url]. rewrite !token_url. destruct (U (B "token")) as [-> ->]; [right; left|]; reflexivity.
      * reflexivity.
    + intros b. destruct (access_token_from_str b) as [x|]; [|constructor]. destruct (negb _); [constructor|].
      constructor; [discriminate|]. intros now. destruct (systime_add_secs now (at_expires_in x)) as [expires|]; [|constructor].
      constructor; [discriminate|]. intros u. constructor.
Qed.

Lemma get_shift : shift (get_email_and_token d bt) (get_email_and_token d bt').
Proof.
  unfold get_email_and_token. apply sh_act; [discriminate|]. intros _. apply shift_bind.
  - unfold get_locked. apply sh_act; [discriminate|]. intros [[[e t] x]|]; [|apply refresh_shift].
    destruct (duration_since x 0); [|constructor]. apply sh_act; [discriminate|]. intros now.
    destruct (duration_since now 0); [|constructor]. destruct (_ <? _); [constructor|apply refresh_shift].
  - intros a. apply sh_act; [discriminate|]. intros u. constructor.
Qed.

Lemma bound_sign_shift m : shift (bound_token_sign d bt m) (bound_token_sign d bt' m).
Proof.
  unfold bound_token_sign. apply shift_bind_ok; [apply get_shift|]. intros [e t]. apply shift_bind_ok.
  - apply text_shift; [|reflexivity|reflexivity]. apply ew_blob. apply sign_blob_request_is.
  - intros b. destruct (signed_blob_from_str b) as [blob|]; [|constructor]. destruct (b64_decode blob); constructor.
Qed.

Lemma authorizer_shift : shift (authorizer d (KBoundToken bt)) (authorizer d (KBoundToken bt')).
Proof. cbn [authorizer]. apply shift_bind_ok; [apply get_shift|]. intros x. constructor. Qed.

Lemma sign_shift usb m : shift (sign d (KBoundToken bt) usb m) (sign d (KBoundToken bt') usb m).
Proof. cbn [sign]. destruct usb; [|constructor]. apply shift_bind_ok; [apply bound_sign_shift|]. intros x. constructor. Qed.

Lemma form_shift b o : b_signing_options b = Some o -> so_signing_key o = KBoundToken bt ->
  let o' := {| so_accessible_at := so_accessible_at o; so_expiration := so_expiration o; so_region := so_region o;
          so_signing_key := KBoundToken bt'; so_use_sign_blob := so_use_sign_blob o |} in
  shift (build d b) (build d (apply_call b (CSigningOptions o'))).
Proof.
  intros E K o'. unfold build.
  assert (P : shift (build_policy d b) (build_policy d (apply_call b (CSigningOptions o')))).
  { unfold build_policy. rewrite E. replace (b_signing_options (apply_call b (CSigningOptions o'))) with (Some o') by (destruct b; reflexivity).
    assert (A : forall t, shift (build_policy_at d b o t) (build_policy_at d (apply_call b (CSigningOptions o')) o' t)).
    { intros t. unfold build_policy_at.
      destruct b as [acl bucket cc cd ce cl ct ex key so sr ss xt xm]. cbn [apply_call b_bucket b_key b_x_goog_meta].
      unfold o'. cbn [so_expiration so_region so_signing_key so_use_sign_blob]. rewrite K. change (key_algorithm (KBoundToken bt')) with (key_algorithm (KBoundToken bt)).
      destruct (_ <=? _); [constructor|]. destruct (ut_from_system_time t) as [acc|]; [|constructor].
      destruct (ut_from_system_time (so_expiration o)) as [exp|]; [|constructor].
      destruct bucket as [bucket|]; [|constructor]. destruct key as [key|]; [|constructor].
      destruct (key_algorithm (KBoundToken bt)); try (constructor; fail).
      all: apply shift_bind_ok; [apply authorizer_shift|]; intros email;
        destruct (location_try_from _) as [loc|]; [|constructor]; destruct (credential_scope_new _ _ _ _) as [sc|]; [|constructor];
        match goal with |- shift (match traverse ?f ?l with _ => _ end) (match traverse ?f ?l' with _ => _ end) =>
          change (traverse f l') with (traverse f l); destruct (traverse f l) as [fixed|]; [|constructor] end;
        destruct (meta_conditions xm) as [meta| |]; [|constructor|constructor];
        apply shift_bind_ok; [apply sign_shift|]; intros dg; constructor. }
    unfold o' at 1. cbn [so_accessible_at]. destruct (so_accessible_at o); [apply A|]. apply sh_act; [discriminate|]. exact A. }
  apply shift_bind_ok; [exact P|]. intros p.
  destruct b as [acl bucket cc cd ce cl ct ex key so sr ss xt xm].
  cbn [apply_call b_acl b_bucket b_cache_control b_content_disposition b_content_encoding b_content_length b_content_type
       b_expires b_key b_success_action_redirect b_success_action_status b_x_goog_custom_time b_x_goog_meta].
  destruct key; [|constructor]. destruct (meta_fields xm); constructor.
Qed.

Lemma url_new_shift sc t ex r usb : shift (signed_url_new d sc t ex r (KBoundToken bt) usb) (signed_url_new d sc t ex r (KBoundToken bt') usb).
Proof.
  unfold signed_url_new. change (key_algorithm (KBoundToken bt')) with (key_algorithm (KBoundToken bt)).
  apply shift_bind_ok; [apply authorizer_shift|]. intros email.
  destruct (negb _); [constructor|]. destruct (add_required_params _ _ _ _ _ _ _) as [r'|]; [|constructor].
  destruct (canonical_request d r'); [|constructor]. apply shift_bind_ok; [apply sign_shift|]. intros x. constructor.
Qed.

Lemma url_shift o o' : o_signing_key o = KBoundToken bt -> CallUrl o' = with_key (CallUrl o) (KBoundToken bt') ->
  shift (build_signed_url d o) (build_signed_url d o').
Proof.
  intros K Ho. cbn [with_key] in Ho. injection Ho as Ho.
  assert (A : forall t, shift (build_signed_url_at d o t) (build_signed_url_at d o' t)).
  { intros t. rewrite Ho. unfold build_signed_url_at.
    cbn [o_bucket_name o_object_name o_region o_expires o_http_method o_signing_key o_use_sign_blob o_headers o_query_parameters]. rewrite K.
    repeat match goal with
    | |- shift (match ?x with _ => _ end) (match ?x with _ => _ end) => destruct x; try (constructor; fail)
    | |- shift (let x := _ in _) _ => cbv zeta
    end.
    apply shift_bind_ok; [apply url_new_shift|]. intros x. constructor. }
  unfold build_signed_url. rewrite Ho at 1. cbn [o_accessible_at]. destruct (o_accessible_at o); [apply A|]. apply sh_act; [discriminate|]. exact A.
Qed.

Lemma call_shift c : call_key c = Some (KBoundToken bt) -> shift (run_call d c) (run_call d (with_key c (KBoundToken bt'))).
Proof.
  intros H. destruct c as [b|o]; cbn [run_call with_key].
  - cbn [call_key] in H. destruct (b_signing_options b) as [o|] eqn:E; [|discriminate H]. cbn [option_map] in H. injection H as H.
    apply shift_bind; [apply form_shift; assumption|]. intros x. constructor.
  - cbn [call_key] in H. injection H as H. apply shift_bind; [apply url_shift; [exact H|reflexivity]|]. intros x. constructor.
Qed.

Lemma shift_steps {A} (p p' : prog A) : shift p p' -> forall tr q, steps p tr q ->
  exists tr' q', Forall2 (moved h h') tr tr' /\ steps p' tr' q' /\ same_outcome q q'.
Proof.
  intros T. induction T as [a|s|e k k' N K IH|r r' k k' E K IH]; intros tr q Z.
  - apply steps_ret in Z. destruct Z as [-> ->]. exists [], (Ret a). split; [constructor|]. split; [constructor|reflexivity].
  - apply steps_panic in Z. destruct Z as [-> ->]. exists [], (Panic s). split; [constructor|]. split; [constructor|reflexivity].
  - apply steps_act_inv in Z. destruct Z as [[-> ->]|(x & u & -> & Z)]; [exists [], (Act e k'); split; [constructor|]; split; [constructor|exact I]|].
    destruct (IH x _ _ Z) as (tr' & q' & F & S & O). exists (event_of e x :: tr'), q'. split; [|split; [constructor; exact S|exact O]].
    constructor; [|exact F]. apply mv_same. destruct e; try reflexivity. destruct (N r eq_refl).
  - apply steps_act_inv in Z. destruct Z as [[-> ->]|(x & u & -> & Z)]; [exists [], (Act (EHttp r') k'); split; [constructor|]; split; [constructor|exact I]|].
    destruct (IH x _ _ Z) as (tr' & q' & F & S & O). exists (VHttp r' x :: tr'), q'. split; [|split; [apply (steps_act (EHttp r') k' x); exact S|exact O]].
    constructor; [|exact F]. apply mv_http. exact E.
Qed.
End Hosts.

(** Whatever a call does with one content of the variable it does with another one, with the same responses: only the host in the URLs of
    the metadata requests differs. *)
Theorem C104_host d c tr q env env' id host host' :
  call_key c = Some (key_bound_token env id) -> asked_host env host -> asked_host env' host' ->
  (forall attribute, In attribute [B "email"; B "token"] -> d_url_ok d (metadata_url host attribute) = true /\ d_url_ok d (metadata_url host' attribute) = true) ->
  steps (run_call d c) tr q ->
  exists tr' q', Forall2 (moved host host') tr tr' /\ steps (run_call d (with_key c (key_bound_token env' id))) tr' q' /\ same_outcome q q'.
Proof.
  intros K H H' U S. apply (C61_host env id) in H. apply (C61_host env' id) in H'.
  assert (X : key_bound_token env id = KBoundToken {| bt_id := id; bt_base_url := B "http://" ++ host |}) by (unfold key_bound_token; rewrite <- H; reflexivity).
  assert (X' : key_bound_token env' id = KBoundToken {| bt_id := id; bt_base_url := B "http://" ++ host' |}) by (unfold key_bound_token; rewrite <- H'; reflexivity).
  rewrite X in K. rewrite X'. exact (shift_steps host host' _ _ (call_shift host host' d id U c K) tr q S).
Qed.

Example C104_case :
  call_key demo_bound_form = Some (key_bound_token None 7) /\ asked_host None (B "metadata.google.internal") /\ asked_host (Some (B "10.0.0.1:80")) (B "10.0.0.1:80") /\
  (forall attribute, In attribute [B "email"; B "token"] ->
     d_url_ok demo_deps (metadata_url (B "metadata.google.internal") attribute) = true /\ d_url_ok demo_deps (metadata_url (B "10.0.0.1:80") attribute) = true) /\
  exists tr a, returns (run_call demo_deps demo_bound_form) tr a /\ answer_ok a = true /\ length (asked tr) = 3%nat.
Proof.
  split; [reflexivity|]. split; [apply ah_unset|]. split; [apply ah_set; apply unicode_spec; reflexivity|]. split; [split; reflexivity|].
  destruct (snd (play (run_call demo_deps demo_bound_form) demo_run)) as [a| |] eqn:E; [|vm_compute in E; discriminate E|vm_compute in E; discriminate E].
  exists (fst (play (run_call demo_deps demo_bound_form) demo_run)), a. split; [apply play_returns; exact E|]. split; [|vm_compute; reflexivity].
  assert (X : match snd (play (run_call demo_deps demo_bound_form) demo_run) with Ret a => answer_ok a | _ => false end = true) by (vm_compute; reflexivity). rewrite E in X. exact X.
Qed.
