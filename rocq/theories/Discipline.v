(** Lock discipline: which programs hold the lock when. *)
From Verif Require Import Base Base64 Effects EffectsFacts Time Json Keys Scope Url HtmlForm SignedUrl Calls SpecTrace KeysFacts CallFacts.

(** [disc id h h' p]: started with the lock of [id] held ([h = true]) or not, [p] locks only when it is not
    held, unlocks, reads and writes the cache and asks the metadata server only when it is, and returns with
    it held or not according to [h']. *)
Fixpoint disc {A} (id : N) (h h' : bool) (p : prog A) : Prop :=
  match p with
  | Ret _ => h = h'
  | Panic _ => True
  | Act e k =>
      match e return (resp e -> prog A) -> Prop with
      | ENow => fun k => forall r, disc id h h' (k r)
      | EHttp q => fun k => (is_metadata q -> h = true) /\ forall r, disc id h h' (k r)
      | ELock i => fun k => i = id /\ h = false /\ forall r, disc id true h' (k r)
      | EUnlock i => fun k => i = id /\ h = true /\ forall r, disc id false h' (k r)
      | EGet i => fun k => i = id /\ h = true /\ forall r, disc id h h' (k r)
      | ESet i c => fun k => i = id /\ h = true /\ forall r, disc id h h' (k r)
      end k
  end.

Lemma disc_bind {A C} id (p : prog A) : forall h h' h'' (f : A -> prog C),
  disc id h h' p -> (forall a, disc id h' h'' (f a)) -> disc id h h'' (bind p f).
Proof.
  induction p as [a|s|e k IH]; intros h h' h'' f H F; cbn [bind disc] in *.
  - subst. apply F.
  - exact I.
  - destruct e; cbn [resp] in *.
    + intros r. eapply IH; [apply H|exact F].
    + destruct H as [H1 H]. split; [exact H1|]. intros o. eapply IH; [apply H|exact F].
    + destruct H as (H1 & H2 & H). split; [exact H1|]. split; [exact H2|]. intros o. eapply IH; [apply H|exact F].
    + destruct H as (H1 & H2 & H). split; [exact H1|]. split; [exact H2|]. intros o. eapply IH; [apply H|exact F].
    + destruct H as (H1 & H2 & H). split; [exact H1|]. split; [exact H2|]. intros o. eapply IH; [apply H|exact F].
    + destruct H as (H1 & H2 & H). split; [exact H1|]. split; [exact H2|]. intros o. eapply IH; [apply H|exact F].
Qed.

Lemma disc_bind_ok {A C E F} id h h' (g : E -> F) (p : prog (res A E)) (f : A -> prog (res C F)) :
  disc id h h' p -> (forall a, disc id h' h' (f a)) -> disc id h h' (bind_ok g p f).
Proof. intros H H1. unfold bind_ok. eapply disc_bind; [exact H|]. intros [a|e]; [apply H1|reflexivity]. Qed.

Definition held_after (h : bool) (v : event) : bool :=
  match v with VLock _ => true | VUnlock _ => false | _ => h end.

(** What the discipline says about one event. *)
Definition disc_event (id : N) (h : bool) (v : event) : Prop :=
  match v with
  | VNow _ => True
  | VHttp r _ => is_metadata r -> h = true
  | VLock i => i = id /\ h = false
  | VUnlock i | VGet i _ | VSet i _ => i = id /\ h = true
  end.

Lemma disc_step {A} id h h' e (k : resp e -> prog A) (r : resp e) : disc id h h' (Act e k) ->
  disc_event id h (event_of e r) /\ disc id (held_after h (event_of e r)) h' (k r).
Proof.
  destruct e; cbn [disc event_of held_after disc_event]; intros H.
  - split; [exact I|apply H].
  - destruct H as [H1 H]. split; [exact H1|apply H].
  - destruct H as (H1 & H2 & H). split; [auto|apply H].
  - destruct H as (H1 & H2 & H). split; [auto|apply H].
  - destruct H as (H1 & H2 & H). split; [auto|apply H].
  - destruct H as (H1 & H2 & H). split; [auto|apply H].
Qed.

Lemma disc_steps {A} id h' (p q : prog A) tr : steps p tr q -> forall h, disc id h h' p ->
  disc id (fold_left held_after tr h) h' q.
Proof.
  induction 1 as [|e k r tr q H IH]; intros h D; [exact D|]. cbn [fold_left]. apply IH.
  apply (disc_step id h h' e k r D).
Qed.

Lemma disc_request d e1 e2 e3 e4 e5 r id h : (is_metadata r -> h = true) -> disc id h h (request_text d e1 e2 e3 e4 e5 r).
Proof.
  intros M. unfold request_text. destruct (negb _); [reflexivity|]. cbn [disc]. split; [exact M|].
  intros [|s [b|]]; [reflexivity| |]; destruct (negb _); reflexivity.
Qed.

Lemma disc_get d bt : disc (bt_id bt) false false (get_email_and_token d bt).
Proof.
  assert (R : disc (bt_id bt) true true (refresh d bt)).
  { unfold refresh. apply disc_bind_ok; [apply disc_request; reflexivity|]. intros email.
    apply disc_bind_ok; [apply disc_request; reflexivity|]. intros body.
    destruct (access_token_from_str body) as [t|]; [|reflexivity]. destruct (negb _); [reflexivity|].
    cbn [disc]. intros now. destruct (systime_add_secs _ _); [|exact I]. cbn [disc]. auto. }
  unfold get_email_and_token. cbn [disc]. split; [reflexivity|]. split; [reflexivity|]. intros _.
  eapply (disc_bind _ _ true true).
  - unfold get_locked. cbn [disc]. split; [reflexivity|]. split; [reflexivity|]. intros [[[em tk] x]|]; [|exact R].
    destruct (duration_since x 0%Z); [|exact I]. cbn [disc]. intros now. destruct (duration_since now 0%Z); [|exact I].
    destruct (_ <? _)%Z; [reflexivity|exact R].
  - intros r. cbn [disc]. auto.
Qed.

Lemma disc_auth d bt : disc (bt_id bt) false false (authorizer d (KBoundToken bt)).
Proof. cbn [authorizer]. apply disc_bind_ok; [apply disc_get|]. reflexivity. Qed.

Lemma disc_sign d bt usb m : disc (bt_id bt) false false (sign d (KBoundToken bt) usb m).
Proof.
  cbn [sign]. destruct usb; [|reflexivity]. apply disc_bind_ok; [|reflexivity]. unfold bound_token_sign.
  apply disc_bind_ok; [apply disc_get|]. intros et. apply disc_bind_ok.
  - apply disc_request. intros M. exfalso. eapply kinds_differ; [apply sign_blob_request_is|exact M].
  - intros body. destruct (signed_blob_from_str body); [|reflexivity]. destruct (b64_decode _); reflexivity.
Qed.

Lemma disc_local_auth d k id : (forall bt, k <> KBoundToken bt) -> disc id false false (authorizer d k).
Proof. intros H. destruct k; [destruct (H bt eq_refl)| |]; reflexivity. Qed.
Lemma disc_local_sign d k usb m id : (forall bt, k <> KBoundToken bt) -> disc id false false (sign d k usb m).
Proof.
  intros H. destruct k as [bt| |e key]; [destruct (H bt eq_refl)| |]; cbn [sign]; [exact I|].
  destruct usb; [exact I|]. destruct (d_rsa_sign d key m); reflexivity.
Qed.

Ltac disc_case :=
  repeat (match goal with
  | |- disc _ _ _ (Ret _) => reflexivity
  | |- disc _ _ _ (Panic _) => exact I
  | |- disc _ _ _ (match ?x with _ => _ end) => destruct x eqn:?
  end).

Lemma disc_build_policy_at d b o t id :
  disc id false false (authorizer d (so_signing_key o)) -> (forall m, disc id false false (sign d (so_signing_key o) (so_use_sign_blob o) m)) ->
  disc id false false (build_policy_at d b o t).
Proof.
  intros HA HS. unfold build_policy_at. disc_case. apply disc_bind_ok; [exact HA|]. intros email. disc_case.
  apply disc_bind_ok; [apply HS|]. intros sg. disc_case.
Qed.

Lemma disc_build_signed_url_at d o t id :
  disc id false false (authorizer d (o_signing_key o)) -> (forall m, disc id false false (sign d (o_signing_key o) (o_use_sign_blob o) m)) ->
  disc id false false (build_signed_url_at d o t).
Proof.
  intros HA HS. unfold build_signed_url_at. disc_case. apply disc_bind_ok; [|reflexivity].
  unfold signed_url_new. apply disc_bind_ok; [exact HA|]. intros email. disc_case.
  apply disc_bind_ok; [apply HS|]. intros sg. disc_case.
Qed.

Lemma disc_call_gen d c id :
  (forall k, call_key c = Some k -> disc id false false (authorizer d k) /\ forall m, disc id false false (sign d k (call_use_sign_blob c) m)) ->
  disc id false false (run_call d c).
Proof.
  destruct c as [b|o]; cbn [call_key run_call call_use_sign_blob]; intros H.
  - eapply disc_bind; [|reflexivity]. unfold build. apply disc_bind_ok.
    2:{ intros p. destruct (b_key b); [destruct (meta_fields _)|]; reflexivity. }
    unfold build_policy. destruct (b_signing_options b) as [o|] eqn:So; [|reflexivity].
    destruct (H _ eq_refl) as [HA HS]. destruct (so_accessible_at o) as [t|].
    + apply disc_build_policy_at; assumption.
    + cbn [disc]. intros t. apply disc_build_policy_at; assumption.
  - eapply disc_bind; [|reflexivity]. unfold build_signed_url. destruct (H _ eq_refl) as [HA HS].
    destruct (o_accessible_at o) as [t|].
    + apply disc_build_signed_url_at; assumption.
    + cbn [disc]. intros t. apply disc_build_signed_url_at; assumption.
Qed.

(** Every operation obeys the discipline for the lock of its key. *)
Lemma disc_call d c bt : call_key c = Some (KBoundToken bt) -> disc (bt_id bt) false false (run_call d c).
Proof.
  intros K. apply disc_call_gen. intros k K'. rewrite K in K'. injection K' as <-. split; [apply disc_auth|]. intros m. apply disc_sign.
Qed.

Lemma disc_call_local d c id : (forall bt, call_key c <> Some (KBoundToken bt)) -> disc id false false (run_call d c).
Proof.
  intros K. apply disc_call_gen. intros k K'.
  assert (forall bt, k <> KBoundToken bt) by (intros bt ->; exact (K bt K')).
  split; [apply disc_local_auth; assumption|]. intros m. apply disc_local_sign; assumption.
Qed.
