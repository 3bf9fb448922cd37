(** C77: a request without a host header is refused before anything is signed. *)
From Verif Require Import Base BaseFacts Time Effects EffectsFacts Keys KeysFacts Url Scope SignedUrl Calls CallFacts SpecTrace Demo.
Local Open Scope Z_scope.

Lemma has_host (r : http_request) : existsb (fun h => str_eqb (fst h) (B "host")) (hr_headers r) = true <-> exists v, In (B "host", v) (hr_headers r).
Proof.
  rewrite existsb_exists. split.
  - intros ([n v] & I & E). apply str_eqb_eq in E. cbn in E. subst n. eauto.
  - intros (v & I). exists (B "host", v). split; [exact I|reflexivity].
Qed.

(** Without a host header only the account is looked up: no signBlob request is sent, in no execution, finished or not; and the
    result, if there is one, is the refusal or the failure of that lookup. *)
Theorem C77_refused d scope t x r k usb tr q : (forall v, ~ In (B "host", v) (hr_headers r)) -> steps (signed_url_new d scope t x r k usb) tr q ->
  (forall rq o, In (VHttp rq o) tr -> is_metadata rq /\ ~ is_sign_blob rq) /\
  (forall a, q = Ret a ->
     a = Err HostHeaderNotFound /\ (exists account, returns (authorizer d k) tr (Ok account)) \/
     exists e, a = Err (UrlSigning e) /\ returns (authorizer d k) tr (Err e)) /\
  (forall s, q = Panic s -> panics (authorizer d k) tr s).
Proof.
  intros N H. unfold signed_url_new in H.
  assert (E : existsb (fun h => str_eqb (fst h) (B "host")) (hr_headers r) = false).
  { apply not_true_is_false. intros E. apply has_host in E. destruct E as [v I]. exact (N v I). }
  rewrite E in H. cbn [negb] in H.
  assert (A : exists p, steps (authorizer d k) tr p).
  { unfold bind_ok in H. apply steps_bind_inv in H. destruct H as [(p & H & _)|(a & t1 & t2 & H1 & H & ->)]; [eauto|].
    assert (t2 = []) as -> by (destruct a; apply steps_ret in H; tauto). rewrite app_nil_r. eauto. }
  split; [|split].
  - intros rq o I. assert (M : is_metadata rq).
    { destruct A as [p A]. destruct k as [bt| |].
      - apply auth_steps in A. destruct A as [p' A]. apply get_steps in A.
        destruct (get_run_http _ _ _ _ _ _ A I) as [->| ->]; [apply email_request_is|apply token_request_is].
      - apply auth_local in A; [subst; destruct I|discriminate].
      - apply auth_local in A; [subst; destruct I|discriminate]. }
    split; [exact M|]. intros S. exact (kinds_differ _ S M).
  - intros a ->. apply returns_bind_ok_inv in H. destruct H as [(email & t1 & t2 & H1 & H & ->)|(e & H & ->)].
    + apply returns_ret_inv in H. destruct H as [-> ->]. left. split; [reflexivity|]. rewrite app_nil_r. eauto.
    + right. eauto.
  - intros s ->. apply panics_bind_ok_inv in H. destruct H as [H|(email & t1 & t2 & _ & H & _)]; [exact H|]. destruct (panics_ret_inv _ _ _ H).
Qed.

(** With a host header it is never refused for this reason; so neither is any URL, whose request has one (C20). *)
Theorem C77_accepted d scope t x r k usb tr v : In (B "host", v) (hr_headers r) -> ~ returns (signed_url_new d scope t x r k usb) tr (Err HostHeaderNotFound).
Proof.
  intros I H. unfold signed_url_new in H. assert (E : existsb (fun h => str_eqb (fst h) (B "host")) (hr_headers r) = true) by (apply has_host; eauto).
  apply returns_bind_ok_inv in H. destruct H as [(email & t1 & t2 & _ & H & _)|(e & _ & X)]; [|discriminate X].
  rewrite E in H. cbn [negb] in H. destruct (add_required_params _ _ _ _ _ _ _) as [r'|]; [|apply steps_panic in H; destruct H as [_ H]; discriminate H].
  destruct (canonical_request d r') as [c|]; [|apply returns_ret_inv in H; destruct H as [_ H]; discriminate H].
  apply returns_bind_ok_inv in H. destruct H as [(s & t3 & t4 & _ & H & _)|(e & _ & X)]; [|discriminate X].
  apply returns_ret_inv in H. destruct H as [_ H]. discriminate H.
Qed.

Theorem C77_url d o tr : ~ returns (build_signed_url d o) tr (Err (UrlSignedUrl HostHeaderNotFound)).
Proof.
  assert (K : forall t tr, ~ returns (build_signed_url_at d o t) tr (Err (UrlSignedUrl HostHeaderNotFound))).
  { intros t tr' H. unfold build_signed_url_at in H.
    repeat match type of H with
    | returns (Ret _) _ _ => apply returns_ret_inv in H; destruct H as [_ H]; discriminate H
    | returns (Panic _) _ _ => apply steps_panic in H; destruct H as [_ H]; discriminate H
    | returns (match ?y with _ => _ end) _ _ => destruct y eqn:?
    end.
    - apply returns_bind_ok_inv in H. destruct H as [(? & t3 & t4 & _ & H & _)|(e0 & H & X)].
      + apply returns_ret_inv in H. destruct H as [_ H]. discriminate H.
      + injection X as <-. eapply C77_accepted; [|exact H]. cbn [hr_headers]. left. reflexivity.
    - apply returns_ret_inv in H. destruct H as [_ H]. injection H as <-.
      match goal with C : convert_headers _ ?l = Err _ |- _ => revert C; generalize l end. clear.
      induction l as [|[n v] l IH]; cbn [convert_headers]; [discriminate|].
      destruct (header_name_from_bytes d n); [|discriminate]. destruct (header_value_ok v); [|discriminate].
      destruct (convert_headers d l); [discriminate|exact IH]. }
  intros H. unfold build_signed_url in H. destruct (o_accessible_at o) as [t|]; [exact (K _ _ H)|].
  apply returns_act_inv in H. destruct H as (t & tr' & _ & H). exact (K _ _ H).
Qed.

Definition demo_request (headers : list (str * str)) : http_request :=
  {| hr_method := Get; hr_uri := {| uri_path := B "/bucket1/a"; uri_query := None |}; hr_headers := headers |}.

Example C77_case : forall scope t, (forall v, ~ In (B "host", v) (hr_headers (demo_request [(B "content-type", B "text/plain")]))) /\
  returns (signed_url_new demo_deps scope t 60 (demo_request [(B "content-type", B "text/plain")]) demo_account false) [] (Err HostHeaderNotFound) /\
  In (B "host", B "storage.googleapis.com") (hr_headers (demo_request [(B "host", B "storage.googleapis.com")])).
Proof.
  intros scope t. split; [intros v [I|[]]; discriminate I|]. split; [constructor|]. left. reflexivity.
Qed.
