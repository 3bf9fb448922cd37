(** The shape of every execution of a public operation: an optional clock reading, then at most one
    lookup of the authorizer, then at most one remote signing. *)
From Verif Require Import Base BaseFacts Time Json Scope Url Effects EffectsFacts Keys HtmlForm SignedUrl Calls SpecTrace KeysFacts.

(** [p] performs no effects other than those of at most one [sign]. *)
Definition signs (d : deps) (k : signing_key) (usb : bool) {A} (p : prog A) : Prop :=
  forall tr q, steps p tr q -> tr = [] \/ exists msg p', steps (sign d k usb msg) tr p'.

Lemma signs_ret d k usb {A} (a : A) : signs d k usb (Ret a).
Proof. intros tr q H. apply steps_ret in H. tauto. Qed.
Lemma signs_panic d k usb {A} s : signs d k usb (A := A) (Panic s).
Proof. intros tr q H. apply steps_panic in H. tauto. Qed.
Lemma signs_sign d k usb {A E} (g : key_error -> E) m (f : str -> A) :
  signs d k usb (bind_ok g (sign d k usb m) (fun x => Ret (Ok (f x)))).
Proof.
  intros tr q H. right. exists m. unfold bind_ok in H. apply steps_bind_inv in H. destruct H as [(p & H & ->)|(a & t1 & t2 & H1 & H & ->)].
  - eauto.
  - destruct a as [a|a]; apply steps_ret in H; destruct H as [-> _]; rewrite app_nil_r; eauto.
Qed.
Lemma signs_bind d k usb {A C} (p : prog A) (f : A -> prog C) :
  signs d k usb p -> (forall a tr q, steps (f a) tr q -> tr = []) -> signs d k usb (bind p f).
Proof.
  intros Hp Hf tr q H. apply steps_bind_inv in H. destruct H as [(p' & H & ->)|(a & t1 & t2 & H1 & H & ->)]; [eauto|].
  apply Hf in H. subst. rewrite app_nil_r. eauto.
Qed.

(** [p] is an authorizer lookup followed by at most one signature. *)
Inductive body_trace (d : deps) (k : signing_key) (usb : bool) (tr : list event) : Prop :=
| bt_none : tr = [] -> body_trace d k usb tr
| bt_auth p : steps (authorizer d k) tr p -> body_trace d k usb tr
| bt_sign email t1 t2 msg p : returns (authorizer d k) t1 (Ok email) -> steps (sign d k usb msg) t2 p ->
    tr = t1 ++ t2 -> body_trace d k usb tr.

Definition body (d : deps) (k : signing_key) (usb : bool) {A} (p : prog A) : Prop :=
  forall tr q, steps p tr q -> body_trace d k usb tr.

Lemma body_ret d k usb {A} (a : A) : body d k usb (Ret a).
Proof. intros tr q H. apply steps_ret in H. constructor. tauto. Qed.
Lemma body_panic d k usb {A} s : body d k usb (A := A) (Panic s).
Proof. intros tr q H. apply steps_panic in H. constructor. tauto. Qed.
Lemma body_auth d k usb {A E} (g : key_error -> E) (f : str -> prog (res A E)) :
  (forall email, signs d k usb (f email)) -> body d k usb (bind_ok g (authorizer d k) f).
Proof.
  intros Hf tr q H. unfold bind_ok in H. apply steps_bind_inv in H. destruct H as [(p & H & ->)|(a & t1 & t2 & H1 & H & ->)].
  - eapply bt_auth. exact H.
  - destruct a as [email|e].
    + apply Hf in H. destruct H as [->|(msg & p' & H)].
      * rewrite app_nil_r. eapply bt_auth. exact H1.
      * eapply bt_sign; eauto.
    + apply steps_ret in H. destruct H as [-> _]. rewrite app_nil_r. eapply bt_auth. exact H1.
Qed.
Lemma body_bind d k usb {A C} (p : prog A) (f : A -> prog C) :
  body d k usb p -> (forall a tr q, steps (f a) tr q -> tr = []) -> body d k usb (bind p f).
Proof.
  intros Hp Hf tr q H. apply steps_bind_inv in H. destruct H as [(p' & H & ->)|(a & t1 & t2 & H1 & H & ->)]; [eauto|].
  apply Hf in H. subst. rewrite app_nil_r. eauto.
Qed.

Ltac pure_case :=
  repeat (match goal with
  | |- body _ _ _ (Ret _) => apply body_ret
  | |- body _ _ _ (Panic _) => apply body_panic
  | |- signs _ _ _ (Ret _) => apply signs_ret
  | |- signs _ _ _ (Panic _) => apply signs_panic
  | |- body _ _ _ (match ?x with _ => _ end) => destruct x eqn:?
  | |- signs _ _ _ (match ?x with _ => _ end) => destruct x eqn:?
  end).

Lemma build_policy_at_body d b o t : body d (so_signing_key o) (so_use_sign_blob o) (build_policy_at d b o t).
Proof.
  unfold build_policy_at. pure_case. apply body_auth. intros email. pure_case. apply (signs_sign d).
Qed.

Lemma build_signed_url_at_body d o t : body d (o_signing_key o) (o_use_sign_blob o) (build_signed_url_at d o t).
Proof.
  unfold build_signed_url_at. pure_case.
  unfold bind_ok. apply body_bind.
  - unfold signed_url_new. apply body_auth. intros email. pure_case. apply (signs_sign d).
  - intros [x|x] tr q H; apply steps_ret in H; tauto.
Qed.

(** The shape. *)
Lemma call_shape d c tr q : steps (run_call d c) tr q ->
  tr = [] \/
  exists k pre tr', call_key c = Some k /\ tr = pre ++ tr' /\ body_trace d k (call_use_sign_blob c) tr' /\
    (pre = [] \/ call_accessible_at c = None /\ exists t, pre = [VNow t]).
Proof.
  destruct c as [b|o]; cbn [run_call call_key call_use_sign_blob call_accessible_at]; intros H.
  - assert (Hb : (exists p, steps (build d b) tr p)).
    { apply steps_bind_inv in H. destruct H as [(p & H & _)|(a & t1 & t2 & H1 & H & ->)]; [eauto|].
      apply steps_ret in H. destruct H as [-> _]. rewrite app_nil_r. eauto. }
    clear H. destruct Hb as [p H]. unfold build in H.
    assert (Hp : exists p', steps (build_policy d b) tr p').
    { unfold bind_ok in H. apply steps_bind_inv in H. destruct H as [(p' & H & _)|(a & t1 & t2 & H1 & H & ->)]; [eauto|].
      assert (t2 = []) as ->.
      { destruct a as [a|e]; [destruct (b_key b); [destruct (meta_fields _)|]|]; apply steps_ret in H; tauto. }
      rewrite app_nil_r. eauto. }
    clear H p. destruct Hp as [p H]. unfold build_policy in H. destruct (b_signing_options b) as [o|]; cbn [option_map].
    2:{ apply steps_ret in H. left. tauto. }
    destruct (so_accessible_at o) as [t|].
    + apply build_policy_at_body in H. right. exists (so_signing_key o), [], tr. auto.
    + apply steps_act_inv in H. destruct H as [[-> _]|(t & tr' & -> & H)]; [left; reflexivity|].
      apply build_policy_at_body in H. right. exists (so_signing_key o), [VNow t], tr'. cbn [event_of app].
      split; [reflexivity|]. split; [reflexivity|]. split; [exact H|]. right. eauto.
  - assert (Hb : (exists p, steps (build_signed_url d o) tr p)).
    { apply steps_bind_inv in H. destruct H as [(p & H & _)|(a & t1 & t2 & H1 & H & ->)]; [eauto|].
      apply steps_ret in H. destruct H as [-> _]. rewrite app_nil_r. eauto. }
    clear H. destruct Hb as [p H]. unfold build_signed_url in H.
    destruct (o_accessible_at o) as [t|].
    + apply build_signed_url_at_body in H. right. exists (o_signing_key o), [], tr. auto.
    + apply steps_act_inv in H. destruct H as [[-> _]|(t & tr' & -> & H)]; [left; reflexivity|].
      apply build_signed_url_at_body in H. right. exists (o_signing_key o), [VNow t], tr'. cbn [event_of app].
      split; [reflexivity|]. split; [reflexivity|]. split; [exact H|]. right. eauto.
Qed.

Lemma auth_steps d bt tr p : steps (authorizer d (KBoundToken bt)) tr p -> exists p', steps (get_email_and_token d bt) tr p'.
Proof.
  cbn [authorizer]. unfold bind_ok. intros H. apply steps_bind_inv in H. destruct H as [(p' & H & _)|(a & t1 & t2 & H1 & H & ->)]; [eauto|].
  assert (t2 = []) as -> by (destruct a; apply steps_ret in H; tauto). rewrite app_nil_r. eauto.
Qed.

Lemma auth_ok d bt tr email : returns (authorizer d (KBoundToken bt)) tr (Ok email) ->
  exists token, returns (get_email_and_token d bt) tr (Ok (email, token)).
Proof.
  cbn [authorizer]. intros H. apply returns_bind_ok_inv in H. destruct H as [([e t] & t1 & t2 & H1 & H & ->)|(e & H & E)]; [|discriminate].
  apply returns_ret_inv in H. destruct H as [-> E]. injection E as ->. rewrite app_nil_r. exists t. exact H1.
Qed.

Lemma auth_err d bt tr e : returns (authorizer d (KBoundToken bt)) tr (Err e) ->
  exists e', e = BoundTokenAuthorizer e' /\ returns (get_email_and_token d bt) tr (Err e').
Proof.
  cbn [authorizer]. intros H. apply returns_bind_ok_inv in H. destruct H as [([e' t] & t1 & t2 & H1 & H & ->)|(e' & H & E)].
  - apply returns_ret_inv in H. destruct H as [_ E]. discriminate E.
  - injection E as ->. eauto.
Qed.

Lemma auth_local d k tr p : (forall bt, k <> KBoundToken bt) -> steps (authorizer d k) tr p -> tr = [].
Proof. destruct k as [bt| |]; intros Hn H; [destruct (Hn bt eq_refl)| |]; apply steps_ret in H; tauto. Qed.

Lemma sign_steps d k usb m tr p : steps (sign d k usb m) tr p ->
  tr = [] \/ exists bt, k = KBoundToken bt /\ usb = true /\ exists p', steps (bound_token_sign d bt m) tr p'.
Proof.
  destruct k as [bt|a s|e key]; cbn [sign].
  - destruct usb.
    + intros H. right. exists bt. split; [reflexivity|]. split; [reflexivity|]. unfold bind_ok in H. apply steps_bind_inv in H.
      destruct H as [(p' & H & _)|(x & t1 & t2 & H1 & H & ->)]; [eauto|].
      assert (t2 = []) as -> by (destruct x; apply steps_ret in H; tauto). rewrite app_nil_r. eauto.
    + intros H. apply steps_ret in H. tauto.
  - intros H. apply steps_panic in H. tauto.
  - destruct usb; [intros H; apply steps_panic in H; tauto|]. destruct (d_rsa_sign d key m); intros H; apply steps_ret in H; tauto.
Qed.

(** Every execution, in parts. *)
Definition starts_with_clock (c : call) (pre : list event) : Prop :=
  pre = [] \/ call_accessible_at c = None /\ exists t, pre = [VNow t].

Definition bound_parts (d : deps) (usb : bool) (bt : bound_token) (t1 t2 : list event) : Prop :=
  (t2 = [] /\ exists p, get_run d bt t1 p) \/
  (usb = true /\ exists email token m p, lookup (bt_id bt) (bt_base_url bt) email token t1 /\ sign_run d bt m t2 p).

Lemma call_parts d c tr q : steps (run_call d c) tr q ->
  exists pre t1 t2, tr = pre ++ t1 ++ t2 /\ starts_with_clock c pre /\
    (t1 = [] /\ t2 = [] \/
     exists bt, call_key c = Some (KBoundToken bt) /\ bound_parts d (call_use_sign_blob c) bt t1 t2).
Proof.
  intros H. apply call_shape in H. destruct H as [->|(k & pre & tr' & K & -> & B & P)].
  { exists [], [], []. split; [reflexivity|]. split; [left; reflexivity|]. left; auto. }
  assert (D : (exists bt, k = KBoundToken bt) \/ (forall bt, k <> KBoundToken bt)).
  { destruct k; [left; eauto|right; discriminate|right; discriminate]. }
  destruct D as [[bt ->]|Hn].
  - destruct B as [->|p H|email t1 t2 msg p H1 H2 ->].
    + exists pre, [], []. auto.
    + apply auth_steps in H. destruct H as [p' H]. apply get_steps in H. exists pre, tr', []. rewrite app_nil_r.
      split; [reflexivity|]. split; [exact P|]. right. exists bt. split; [exact K|]. left. eauto.
    + apply auth_ok in H1. destruct H1 as [token H1].
      apply sign_steps in H2. destruct H2 as [->|(bt' & E & U & p' & H2)].
      * exists pre, t1, []. split; [reflexivity|]. split; [exact P|]. right. exists bt. split; [exact K|]. left.
        split; [reflexivity|]. eexists. apply get_steps. exact H1.
      * injection E as <-. apply bound_token_sign_steps in H2. exists pre, t1, t2. split; [reflexivity|]. split; [exact P|].
        right. exists bt. split; [exact K|]. right. split; [exact U|]. exists email, token, msg, p'. split; [apply (get_ok d); exact H1|exact H2].
  - exists pre, [], []. assert (tr' = []) as ->.
    { destruct B as [->|p H|email t1 t2 msg p H1 H2 ->]; [reflexivity|eapply auth_local; eassumption|].
      apply auth_local in H1; [|exact Hn]. apply sign_steps in H2. destruct H2 as [->|(bt & E & _)]; [subst; reflexivity|destruct (Hn _ E)]. }
    auto.
Qed.

(** * HTTP requests in traces *)

Lemma request_failure_http d e1 e2 e3 e4 e5 r tr e r' o :
  request_failure d e1 e2 e3 e4 e5 r tr e -> In (VHttp r' o) tr -> r' = r.
Proof. intros H I. destruct H; cbn in I; try tauto; destruct I as [I|[]]; congruence. Qed.

Lemma refresh_failure_http d bt tr e r o : refresh_failure d bt tr e -> In (VHttp r o) tr ->
  r = email_request bt \/ r = token_request bt.
Proof.
  intros H I. destruct H as [tr e H|o1 em tr e A H|o1 em o2 bd A1 A2 T|o1 em o2 bd t n y A1 A2 T Hy].
  - left. eapply request_failure_http; eassumption.
  - destruct I as [E|I]; [left; congruence|right; eapply request_failure_http; eassumption].
  - destruct I as [E|[E|[]]]; [left; congruence|right; congruence].
  - destruct I as [E|[E|[]]]; [left; congruence|right; congruence].
Qed.

Lemma refreshed_http bt email t x l r o : refreshed (bt_id bt) (bt_base_url bt) email t x l -> In (VHttp r o) l ->
  r = email_request bt \/ r = token_request bt.
Proof.
  intros (o1 & o2 & body & n & now & _ & _ & _ & _ & ->) I. rewrite email_request_spec, token_request_spec.
  cbn in I. destruct I as [E|[E|[E|[E|[]]]]]; try discriminate E; injection E as <- _; auto.
Qed.

Lemma refresh_run_http d bt tr q r o : refresh_run d bt tr q -> In (VHttp r o) tr ->
  r = email_request bt \/ r = token_request bt.
Proof.
  intros H I. destruct H; cbn in I;
    try (repeat (destruct I as [I|I]; [try discriminate I; injection I as <- _; auto|]); destruct I).
  - eapply refresh_failure_http; eassumption.
  - eapply refreshed_http; eassumption.
Qed.

Lemma not_served_http c pre r o : not_served c pre -> ~ In (VHttp r o) pre.
Proof.
  intros [[_ ->]|(e & t & x & now & _ & -> & _)] I; [destruct I|]. destruct I as [E|[]]. discriminate E.
Qed.

Lemma locked_run_http d bt tr q r o : locked_run d bt tr q -> In (VHttp r o) tr ->
  r = email_request bt \/ r = token_request bt.
Proof.
  intros H I. destruct H as [k|e t x k Hx|e t x Hx|e t x now Hx Hn|e t x now Hn Hx|c pre tr q N R _ _]; cbn in I;
    try (repeat (destruct I as [I|I]; [discriminate I|]); destruct I; fail).
  destruct I as [E|I]; [discriminate E|]. apply in_app_or in I. destruct I as [I|I]; [destruct (not_served_http _ _ _ _ N I)|].
  eapply refresh_run_http; eassumption.
Qed.

Lemma get_run_http d bt tr q r o : get_run d bt tr q -> In (VHttp r o) tr ->
  r = email_request bt \/ r = token_request bt.
Proof.
  intros H I. destruct H as [k|tr q L Hn|tr r' L|tr r' L].
  - destruct I.
  - destruct I as [E|I]; [discriminate E|]. eapply locked_run_http; eassumption.
  - destruct I as [E|I]; [discriminate E|]. eapply locked_run_http; eassumption.
  - destruct I as [E|I]; [discriminate E|]. apply in_app_or in I. destruct I as [I|[E|[]]]; [|discriminate E].
    eapply locked_run_http; eassumption.
Qed.

Lemma lookup_http bt email token tr r o : lookup (bt_id bt) (bt_base_url bt) email token tr -> In (VHttp r o) tr ->
  r = email_request bt \/ r = token_request bt.
Proof.
  intros H I. destruct H as [x now Hx|c pre x l N R].
  - repeat (destruct I as [I|I]; [discriminate I|]). destruct I.
  - destruct I as [E|[E|I]]; try discriminate E. apply in_app_or in I. destruct I as [I|I]; [destruct (not_served_http _ _ _ _ N I)|].
    apply in_app_or in I. destruct I as [I|[E|[]]]; [|discriminate E]. eapply refreshed_http; eassumption.
Qed.

Lemma lookup_failure_http d bt tr e r o : lookup_failure d bt tr e -> In (VHttp r o) tr ->
  r = email_request bt \/ r = token_request bt.
Proof.
  intros H I. destruct H as [c pre tr e N R].
  destruct I as [E|[E|I]]; try discriminate E. apply in_app_or in I. destruct I as [I|I]; [destruct (not_served_http _ _ _ _ N I)|].
  apply in_app_or in I. destruct I as [I|[E|[]]]; [|discriminate E]. eapply refresh_failure_http; eassumption.
Qed.

(** Requests of the two kinds are different. *)
Lemma last_app_cons {A} (l m : list A) d : m <> [] -> last (l ++ m) d = last m d.
Proof.
  intros H. induction l as [|h l IH]; [reflexivity|]. cbn [app]. destruct (l ++ m) as [|z zs] eqn:E.
  - destruct l; [|discriminate E]. cbn in E. congruence.
  - cbn [last]. exact IH.
Qed.

Lemma kinds_differ r : is_sign_blob r -> ~ is_metadata r.
Proof.
  intros [email E] (base & a & Ha & E'). rewrite E in E'.
  assert (L : last (rq_url r) x00 = "b"%byte).
  { rewrite E, app_assoc. rewrite last_app_cons; [reflexivity|discriminate]. }
  rewrite E, E', app_assoc in L. destruct Ha as [<-|[<-|[]]];
    (rewrite last_app_cons in L; [discriminate L|discriminate]).
Qed.

Lemma sign_blob_request_is email token m : is_sign_blob (sign_blob_request email token m).
Proof. exists email. reflexivity. Qed.
Lemma email_request_is bt : is_metadata (email_request bt).
Proof. exists (bt_base_url bt), (B "email"). split; [cbn; auto|]. reflexivity. Qed.
Lemma token_request_is bt : is_metadata (token_request bt).
Proof. exists (bt_base_url bt), (B "token"). split; [cbn; auto|]. reflexivity. Qed.

Lemma not_blob d bt tr q : get_run d bt tr q -> forall r o, In (VHttp r o) tr -> ~ is_sign_blob r.
Proof.
  intros H r o I S. apply (get_run_http _ _ _ _ _ _ H) in I. apply kinds_differ in S. apply S.
  destruct I as [->| ->]; [apply email_request_is|apply token_request_is].
Qed.

(** Every signBlob request follows a completed lookup, with its email and token. *)
Lemma sign_run_blob d bt m tr q x r o y : sign_run d bt m tr q -> tr = x ++ VHttp r o :: y -> is_sign_blob r ->
  y = [] /\ exists email token, lookup (bt_id bt) (bt_base_url bt) email token x /\ r = sign_blob_request email token m.
Proof.
  intros H E S. assert (NB : ~ (r = email_request bt \/ r = token_request bt)).
  { intros C. apply kinds_differ in S. apply S. destruct C as [->| ->]; [apply email_request_is|apply token_request_is]. }
  assert (IN : In (VHttp r o) tr) by (rewrite E; apply in_or_app; right; left; reflexivity).
  assert (L1 : forall l em tk v, lookup (bt_id bt) (bt_base_url bt) em tk l -> l ++ [v] = x ++ VHttp r o :: y ->
            y = [] /\ x = l /\ v = VHttp r o).
  { intros l em tk v L Ev. symmetry in Ev. apply split_event in Ev. destruct Ev as [(y' & -> & ->)|(x' & Ev & ->)].
    - exfalso. apply NB. eapply lookup_http; [exact L|]. apply in_or_app; right; left; reflexivity.
    - destruct x' as [|z x']; cbn [app] in Ev.
      + injection Ev as -> <-. rewrite app_nil_r. auto.
      + injection Ev as _ Ev. destruct x'; discriminate Ev. }
  destruct H as [tr q p G|tr e G|tr em tk k G|tr tr' em tk e G F|tr em tk o' bd e G A NB' He|tr em tk o' bd sig G A Bb].
  - destruct (NB (get_run_http _ _ _ _ _ _ G IN)).
  - destruct (NB (lookup_failure_http _ _ _ _ _ _ G IN)).
  - destruct (NB (lookup_http _ _ _ _ _ _ G IN)).
  - inversion F; subst.
    + rewrite app_nil_r in IN. destruct (NB (lookup_http _ _ _ _ _ _ G IN)).
    + match goal with Eq : _ ++ [_] = _ |- _ => destruct (L1 _ _ _ _ G Eq) as (-> & -> & E2) end. injection E2 as <- _. eauto.
    + match goal with Eq : _ ++ [_] = _ |- _ => destruct (L1 _ _ _ _ G Eq) as (-> & -> & E2) end. injection E2 as <- _. eauto.
    + match goal with Eq : _ ++ [_] = _ |- _ => destruct (L1 _ _ _ _ G Eq) as (-> & -> & E2) end. injection E2 as <- _. eauto.
    + match goal with Eq : _ ++ [_] = _ |- _ => destruct (L1 _ _ _ _ G Eq) as (-> & -> & E2) end. injection E2 as <- _. eauto.
  - destruct (L1 _ _ _ _ G E) as (-> & -> & E2). injection E2 as <- _. eauto.
  - destruct (L1 _ _ _ _ G E) as (-> & -> & E2). injection E2 as <- _. eauto.
Qed.

(** * Results *)

(** Success needs a successful authorizer and a successful signature. *)
Definition ok_trace (d : deps) (k : signing_key) (usb : bool) (tr : list event) : Prop :=
  exists email sig m t1 t2, returns (authorizer d k) t1 (Ok email) /\ returns (sign d k usb m) t2 (Ok sig) /\ tr = t1 ++ t2.

Definition ok_signs (d : deps) (k : signing_key) (usb : bool) {A E} (p : prog (res A E)) : Prop :=
  forall tr x, returns p tr (Ok x) -> exists sig m, returns (sign d k usb m) tr (Ok sig).
Definition ok_body (d : deps) (k : signing_key) (usb : bool) {A E} (p : prog (res A E)) : Prop :=
  forall tr x, returns p tr (Ok x) -> ok_trace d k usb tr.

Lemma ok_signs_err d k usb {A E} (e : E) : ok_signs d k usb (A := A) (Ret (Err e)).
Proof. intros tr x H. apply returns_ret_inv in H. destruct H as [_ H]. discriminate H. Qed.
Lemma ok_signs_panic d k usb {A E} s : ok_signs d k usb (A := A) (E := E) (Panic s).
Proof. intros tr x H. destruct (returns_panic_inv _ _ _ H). Qed.
Lemma ok_signs_sign d k usb {A E} (g : key_error -> E) m (f : str -> A) :
  ok_signs d k usb (bind_ok g (sign d k usb m) (fun x => Ret (Ok (f x)))).
Proof.
  intros tr x H. apply returns_bind_ok_inv in H. destruct H as [(a & t1 & t2 & H1 & H & ->)|(e & _ & E')]; [|discriminate E'].
  apply returns_ret_inv in H. destruct H as [-> _]. rewrite app_nil_r. eauto.
Qed.
Lemma ok_body_err d k usb {A E} (e : E) : ok_body d k usb (A := A) (Ret (Err e)).
Proof. intros tr x H. apply returns_ret_inv in H. destruct H as [_ H]. discriminate H. Qed.
Lemma ok_body_panic d k usb {A E} s : ok_body d k usb (A := A) (E := E) (Panic s).
Proof. intros tr x H. destruct (returns_panic_inv _ _ _ H). Qed.
Lemma ok_body_auth d k usb {A E} (g : key_error -> E) (f : str -> prog (res A E)) :
  (forall email, ok_signs d k usb (f email)) -> ok_body d k usb (bind_ok g (authorizer d k) f).
Proof.
  intros Hf tr x H. apply returns_bind_ok_inv in H. destruct H as [(a & t1 & t2 & H1 & H & ->)|(e & _ & E')]; [|discriminate E'].
  apply Hf in H. destruct H as (sig & m & H). exists a, sig, m, t1, t2. auto.
Qed.

Ltac ok_case :=
  repeat (match goal with
  | |- ok_body _ _ _ (Ret (Err _)) => apply ok_body_err
  | |- ok_body _ _ _ (Panic _) => apply ok_body_panic
  | |- ok_signs _ _ _ (Ret (Err _)) => apply ok_signs_err
  | |- ok_signs _ _ _ (Panic _) => apply ok_signs_panic
  | |- ok_body _ _ _ (match ?x with _ => _ end) => destruct x eqn:?
  | |- ok_signs _ _ _ (match ?x with _ => _ end) => destruct x eqn:?
  end).

Lemma build_policy_at_ok d b o t : ok_body d (so_signing_key o) (so_use_sign_blob o) (build_policy_at d b o t).
Proof.
  unfold build_policy_at. ok_case. apply ok_body_auth. intros email. ok_case. apply (ok_signs_sign d).
Qed.

Lemma build_signed_url_at_ok d o t : ok_body d (o_signing_key o) (o_use_sign_blob o) (build_signed_url_at d o t).
Proof.
  unfold build_signed_url_at. ok_case.
  intros tr x H. apply returns_bind_ok_inv in H. destruct H as [(y & t1 & t2 & H1 & H & ->)|(e & _ & E')]; [|discriminate E'].
  apply returns_ret_inv in H. destruct H as [-> _]. rewrite app_nil_r. revert t1 y H1.
  match goal with |- forall t1 y, returns ?p t1 (Ok y) -> _ => change (ok_body d (o_signing_key o) (o_use_sign_blob o) p) end.
  unfold signed_url_new. apply ok_body_auth. intros email. ok_case. apply (ok_signs_sign d).
Qed.

(** A panic comes from the authorizer, from the signature, or from the code around them. *)
Definition panic_trace (d : deps) (k : signing_key) (usb : bool) (tr : list event) (s : panic) : Prop :=
  tr = [] /\ In s [PHeaderMap; PUri] \/ panics (authorizer d k) tr s \/
  exists email t1 t2, returns (authorizer d k) t1 (Ok email) /\ tr = t1 ++ t2 /\
    (t2 = [] /\ In s [PFieldName; PUri] \/ exists m, panics (sign d k usb m) t2 s).
Definition panic_signs (d : deps) (k : signing_key) (usb : bool) {A} (p : prog A) : Prop :=
  forall tr s, panics p tr s -> tr = [] /\ In s [PFieldName; PUri] \/ exists m, panics (sign d k usb m) tr s.
Definition panic_body (d : deps) (k : signing_key) (usb : bool) {A} (p : prog A) : Prop :=
  forall tr s, panics p tr s -> panic_trace d k usb tr s.

Lemma panic_signs_ret d k usb {A} (a : A) : panic_signs d k usb (Ret a).
Proof. intros tr s H. destruct (panics_ret_inv _ _ _ H). Qed.
Lemma panic_signs_panic d k usb {A} s : In s [PFieldName; PUri] -> panic_signs d k usb (A := A) (Panic s).
Proof. intros I tr s' H. apply panics_panic_inv in H. destruct H as [-> ->]. auto. Qed.
Lemma panic_signs_sign d k usb {A E} (g : key_error -> E) m (f : str -> A) :
  panic_signs d k usb (bind_ok g (sign d k usb m) (fun x => Ret (Ok (f x)))).
Proof.
  intros tr s H. apply panics_bind_ok_inv in H. destruct H as [H|(a & t1 & t2 & H1 & H & ->)]; [eauto|].
  destruct (panics_ret_inv _ _ _ H).
Qed.
Lemma panic_body_ret d k usb {A} (a : A) : panic_body d k usb (Ret a).
Proof. intros tr s H. destruct (panics_ret_inv _ _ _ H). Qed.
Lemma panic_body_panic d k usb {A} s : In s [PHeaderMap; PUri] -> panic_body d k usb (A := A) (Panic s).
Proof. intros I tr s' H. apply panics_panic_inv in H. destruct H as [-> ->]. left. auto. Qed.
Lemma panic_body_auth d k usb {A E} (g : key_error -> E) (f : str -> prog (res A E)) :
  (forall email, panic_signs d k usb (f email)) -> panic_body d k usb (bind_ok g (authorizer d k) f).
Proof.
  intros Hf tr s H. apply panics_bind_ok_inv in H. destruct H as [H|(a & t1 & t2 & H1 & H & ->)]; [right; left; exact H|].
  apply Hf in H. right; right. exists a, t1, t2. auto.
Qed.

Ltac panic_case :=
  repeat (match goal with
  | |- panic_body _ _ _ (Ret _) => apply panic_body_ret
  | |- panic_body _ _ _ (Panic _) => apply panic_body_panic; cbn; auto; fail
  | |- panic_signs _ _ _ (Ret _) => apply panic_signs_ret
  | |- panic_signs _ _ _ (Panic _) => apply panic_signs_panic; cbn; auto; fail
  | |- panic_body _ _ _ (match ?x with _ => _ end) => destruct x eqn:?
  | |- panic_signs _ _ _ (match ?x with _ => _ end) => destruct x eqn:?
  end).

Lemma build_policy_at_panics d b o t : panic_body d (so_signing_key o) (so_use_sign_blob o) (build_policy_at d b o t).
Proof.
  unfold build_policy_at. panic_case. apply panic_body_auth. intros email. panic_case. apply (panic_signs_sign d).
Qed.

Lemma build_signed_url_at_panics d o t : panic_body d (o_signing_key o) (o_use_sign_blob o) (build_signed_url_at d o t).
Proof.
  unfold build_signed_url_at. panic_case.
  intros tr pn H. apply panics_bind_ok_inv in H. destruct H as [H|(y & t1 & t2 & H1 & H & ->)].
  2:{ destruct (panics_ret_inv _ _ _ H). }
  revert tr pn H.
  match goal with |- forall tr s, panics ?p tr s -> _ => change (panic_body d (o_signing_key o) (o_use_sign_blob o) p) end.
  unfold signed_url_new. apply panic_body_auth. intros email. panic_case. apply (panic_signs_sign d).
Qed.

Definition answer_ok (a : answer) : bool := match a with AForm r => is_ok r | AUrl r => is_ok r end.

(** A successful signing call: clock, authorizer, signature. *)
Lemma call_ok d c tr a k : returns (run_call d c) tr a -> answer_ok a = true -> call_key c = Some k ->
  exists pre tr', tr = pre ++ tr' /\ starts_with_clock c pre /\ ok_trace d k (call_use_sign_blob c) tr'.
Proof.
  destruct c as [b|o]; cbn [run_call call_key call_use_sign_blob]; unfold starts_with_clock; cbn [call_accessible_at]; intros H O K.
  - destruct (b_signing_options b) as [o|] eqn:So; [|discriminate K]. injection K as <-.
    apply returns_bind_inv in H. destruct H as (r & t1 & t2 & H & H2 & ->). apply returns_ret_inv in H2. destruct H2 as [-> ->].
    rewrite app_nil_r. cbn in O. destruct r as [fields|]; [|discriminate O]. unfold build in H.
    apply returns_bind_ok_inv in H. destruct H as [(p & t2 & t3 & H1 & H & ->)|(e & _ & E')]; [|discriminate E'].
    assert (t3 = []) as -> by (destruct (b_key b); [destruct (meta_fields _)|]; apply returns_ret_inv in H; tauto).
    rewrite app_nil_r. unfold build_policy in H1. rewrite So in H1. destruct (so_accessible_at o) as [t|].
    + apply build_policy_at_ok in H1. exists [], t2. auto.
    + apply returns_act_inv in H1. destruct H1 as (t & tr' & -> & H1). apply build_policy_at_ok in H1.
      exists [VNow t], tr'. split; [reflexivity|]. split; [right; eauto|exact H1].
  - injection K as <-. apply returns_bind_inv in H. destruct H as (r & t1 & t2 & H & H2 & ->). apply returns_ret_inv in H2. destruct H2 as [-> ->].
    rewrite app_nil_r. cbn in O. destruct r as [fields|]; [|discriminate O]. unfold build_signed_url in H.
    destruct (o_accessible_at o) as [t|].
    + apply build_signed_url_at_ok in H. exists [], t1. auto.
    + apply returns_act_inv in H. destruct H as (t & tr' & -> & H1). apply build_signed_url_at_ok in H1.
      exists [VNow t], tr'. split; [reflexivity|]. split; [right; eauto|exact H1].
Qed.

Lemma call_panics d c tr s : panics (run_call d c) tr s ->
  exists k pre tr', call_key c = Some k /\ tr = pre ++ tr' /\ starts_with_clock c pre /\ panic_trace d k (call_use_sign_blob c) tr' s.
Proof.
  destruct c as [b|o]; cbn [run_call call_key call_use_sign_blob]; unfold starts_with_clock; cbn [call_accessible_at]; intros H.
  - apply panics_bind_inv in H. destruct H as [H|(r & t1 & t2 & _ & H & _)]; [|destruct (panics_ret_inv _ _ _ H)].
    unfold build in H. apply panics_bind_ok_inv in H. destruct H as [H1|(p & t2 & t3 & H1 & H & ->)].
    2:{ exfalso. destruct (b_key b); [destruct (meta_fields _)|]; exact (panics_ret_inv _ _ _ H). }
    unfold build_policy in H1. destruct (b_signing_options b) as [o|] eqn:So; [|destruct (panics_ret_inv _ _ _ H1)].
    exists (so_signing_key o). destruct (so_accessible_at o) as [t|].
    + apply build_policy_at_panics in H1. exists [], tr. auto.
    + apply panics_act_inv in H1. destruct H1 as (t & tr' & -> & H1). apply build_policy_at_panics in H1.
      exists [VNow t], tr'. split; [reflexivity|]. split; [reflexivity|]. split; [right; eauto|exact H1].
  - apply panics_bind_inv in H. destruct H as [H|(r & t1 & t2 & _ & H & _)]; [|destruct (panics_ret_inv _ _ _ H)].
    unfold build_signed_url in H. exists (o_signing_key o).
    destruct (o_accessible_at o) as [t|].
    + apply build_signed_url_at_panics in H. exists [], tr. auto.
    + apply panics_act_inv in H. destruct H as (t & tr' & -> & H1). apply build_signed_url_at_panics in H1.
      exists [VNow t], tr'. split; [reflexivity|]. split; [reflexivity|]. split; [right; eauto|exact H1].
Qed.
