(** Automata that follow the effects of a program. *)
From Verif Require Import Base BaseFacts Base64 Effects EffectsFacts Time Json Keys Scope Url HtmlForm SignedUrl Calls SpecToken TokenFacts SpecTrace KeysFacts CallFacts.

Section obeys.
  Context {S : Type} (ok : S -> eff -> Prop) (next : S -> event -> S).

  (** Started in state [s], [p] performs allowed effects only, and returns in a state of [fin]. *)
  Fixpoint obeys {A} (fin : S -> Prop) (s : S) (p : prog A) : Prop :=
    match p with
    | Ret _ => fin s
    | Panic _ => True
    | Act e k => ok s e /\ forall r, obeys fin (next s (event_of e r)) (k r)
    end.

  Lemma obeys_bind {A C} (f1 f2 : S -> Prop) (p : prog A) (f : A -> prog C) : forall s,
    obeys f1 s p -> (forall a s, f1 s -> obeys f2 s (f a)) -> obeys f2 s (bind p f).
  Proof.
    induction p as [a|x|e k IH]; intros s H F; cbn [bind obeys] in *; [apply F; exact H|exact I|].
    destruct H as [H1 H]. split; [exact H1|]. intros r. apply IH; [apply H|exact F].
  Qed.

  Lemma obeys_bind_ok {A C E F} (f1 f2 : S -> Prop) (g : E -> F) (p : prog (res A E)) (f : A -> prog (res C F)) s :
    obeys f1 s p -> (forall s, f1 s -> f2 s) -> (forall a s, f1 s -> obeys f2 s (f a)) -> obeys f2 s (bind_ok g p f).
  Proof. intros H M F1. unfold bind_ok. eapply obeys_bind; [exact H|]. intros [a|e] s' X; [apply F1; exact X|apply M; exact X]. Qed.

  Lemma obeys_mono {A} (f1 f2 : S -> Prop) (p : prog A) : (forall s, f1 s -> f2 s) -> forall s, obeys f1 s p -> obeys f2 s p.
  Proof.
    intros M. induction p as [a|x|e k IH]; intros s H; cbn [obeys] in *; [apply M; exact H|exact I|].
    destruct H as [H1 H]. split; [exact H1|]. intros r. apply IH. apply H.
  Qed.

  Lemma obeys_steps {A} fin (p q : prog A) tr : steps p tr q -> forall s, obeys fin s p -> obeys fin (fold_left next tr s) q.
  Proof. induction 1 as [|e k r tr q H IH]; intros s O; [exact O|]. cbn [fold_left]. apply IH. apply O. Qed.

  Lemma obeys_request d e1 e2 e3 e4 e5 r (fin : S -> Prop) s :
    ok s (EHttp r) -> fin s -> (forall o, fin (next s (VHttp r o))) -> obeys fin s (request_text d e1 e2 e3 e4 e5 r).
  Proof.
    intros O F0 F. unfold request_text. destruct (negb _); [exact F0|]. cbn [obeys event_of]. split; [exact O|].
    intros [|c [b|]]; [apply F| |]; destruct (negb _); apply F.
  Qed.

  Ltac obeys_case fin0 :=
    repeat (match goal with
    | |- obeys _ _ (Ret _) => exact fin0
    | |- obeys _ _ (Panic _) => exact I
    | |- obeys _ _ (match ?x with _ => _ end) => destruct x eqn:?
    end).

  (** Every public operation: a clock reading from [P0] to [P1], an authorizer lookup from [P1] to [P2], a
      signature from [P2] to [P3]. *)
  Lemma obeys_call d c (P0 P1 P2 P3 : S -> Prop) :
    (forall s, P0 s -> P1 s) -> (forall s, P1 s -> P3 s) -> (forall s, P2 s -> P3 s) ->
    (forall s, P0 s -> call_key c <> None -> call_accessible_at c = None -> ok s ENow /\ forall t, P1 (next s (VNow t))) ->
    (forall k s, call_key c = Some k -> P1 s -> obeys P2 s (authorizer d k)) ->
    (forall k m s, call_key c = Some k -> P2 s -> obeys P3 s (sign d k (call_use_sign_blob c) m)) ->
    forall s, P0 s -> obeys P3 s (run_call d c).
  Proof.
    intros M01 M13 M23 HN HA HS s H0.
    destruct c as [b|o]; cbn [call_key run_call call_use_sign_blob call_accessible_at] in *.
    - eapply obeys_bind; [|intros a s' X; exact X]. unfold build. apply (obeys_bind_ok P3); [|auto|].
      2:{ intros p s' X. destruct (b_key b); [destruct (meta_fields _)|]; exact X. }
      unfold build_policy. destruct (b_signing_options b) as [o|] eqn:So; [|apply M13, M01; exact H0].
      assert (K : forall t s, P1 s -> obeys P3 s (build_policy_at d b o t)).
      { clear s H0. intros t s H1. pose proof (M13 _ H1) as H3. unfold build_policy_at. obeys_case H3.
        apply (obeys_bind_ok P2); [apply HA; auto|exact M23|]. intros email s2 H2. pose proof (M23 _ H2) as H32. obeys_case H32.
        apply (obeys_bind_ok P3); [apply HS; auto|auto|]. intros sg s_ H4. obeys_case H4. }
      destruct (so_accessible_at o) as [t|].
      + apply K, M01. exact H0.
      + destruct (HN s H0) as [O N]; [discriminate|reflexivity|]. cbn [obeys event_of]. split; [exact O|]. intros t. apply K, N.
    - eapply obeys_bind; [|intros a s' X; exact X]. unfold build_signed_url.
      assert (K : forall t s, P1 s -> obeys P3 s (build_signed_url_at d o t)).
      { clear s H0. intros t s H1. pose proof (M13 _ H1) as H3. unfold build_signed_url_at. obeys_case H3.
        apply (obeys_bind_ok P3); [|auto|intros ? ? X; exact X]. unfold signed_url_new.
        apply (obeys_bind_ok P2); [apply HA; auto|exact M23|]. intros email s2 H2. pose proof (M23 _ H2) as H32. obeys_case H32.
        apply (obeys_bind_ok P3); [apply HS; auto|auto|]. intros sg s_ H4. obeys_case H4. }
      destruct (o_accessible_at o) as [t|].
      + apply K, M01. exact H0.
      + destruct (HN s H0) as [O N]; [discriminate|reflexivity|]. cbn [obeys event_of]. split; [exact O|]. intros t. apply K, N.
  Qed.
End obeys.

(** * Phases of a lookup *)

Inductive phase : Type := Out | Locked | Got (x : systime) | Fresh | Busy | Done.

(** Asking the metadata server and writing the cache happen only after a reading of the cache that did not
    serve the lookup. *)
Definition phase_ok (s : phase) (e : eff) : Prop :=
  match e with
  | EHttp r => is_metadata r -> s = Busy
  | ESet _ _ => s = Busy
  | _ => True
  end.

Definition phase_next (s : phase) (v : event) : phase :=
  match v with
  | VNow t => match s with Got x => if (t + 30 * NS <? x)%Z then Fresh else Busy | _ => s end
  | VHttp _ _ => s
  | VLock _ => Locked
  | VUnlock _ => Out
  | VGet _ None => Busy
  | VGet _ (Some (_, _, x)) => Got x
  | VSet _ _ => Done
  end.

Lemma metadata_not_sign email token message : ~ is_metadata (sign_blob_request email token message).
Proof. intros M. eapply kinds_differ; [apply sign_blob_request_is|exact M]. Qed.

Lemma phase_refresh d bt : obeys phase_ok phase_next (fun s => s = Busy \/ s = Done) Busy (refresh d bt).
Proof.
  unfold refresh. apply (obeys_bind_ok _ _ (fun s => s = Busy)); [apply obeys_request; cbn; auto|auto|].
  intros email s ->. apply (obeys_bind_ok _ _ (fun s => s = Busy)); [apply obeys_request; cbn; auto|auto|].
  intros body s ->. destruct (access_token_from_str body) as [t|]; [|left; reflexivity]. destruct (negb _); [left; reflexivity|].
  cbn [obeys]. split; [exact I|]. intros now. cbn [event_of phase_next]. destruct (systime_add_secs _ _); [|exact I].
  cbn; auto.
Qed.

Lemma phase_get d bt : obeys phase_ok phase_next (fun s => s = Out) Out (get_email_and_token d bt).
Proof.
  unfold get_email_and_token. cbn [obeys]. split; [exact I|]. intros []. cbn [event_of phase_next].
  apply (obeys_bind _ _ (fun _ => True)).
  2:{ intros a s _. cbn. auto. }
  assert (R : obeys phase_ok phase_next (fun _ => True) Busy (refresh d bt)) by (eapply obeys_mono; [|apply phase_refresh]; auto).
  unfold get_locked. cbn [obeys]. split; [exact I|]. intros [[[em tk] x]|]; [|exact R]. cbn [event_of phase_next].
  destruct (duration_since x 0%Z) eqn:Ex; [|exact I]. cbn [obeys]. split; [exact I|]. intros now. cbn [event_of phase_next].
  destruct (duration_since now 0%Z) eqn:En; [|exact I]. unfold duration_since in *.
  destruct (0 <=? x)%Z; [|discriminate Ex]. destruct (0 <=? now)%Z; [|discriminate En]. injection Ex as <-. injection En as <-.
  rewrite !Z.sub_0_r. destruct (_ <? _)%Z; [exact I|exact R].
Qed.

Lemma phase_call d c : obeys phase_ok phase_next (fun s => s = Out) Out (run_call d c).
Proof.
  apply (obeys_call _ _ d c (fun s => s = Out) (fun s => s = Out) (fun s => s = Out)); auto.
  - intros s -> _ _. cbn. auto.
  - intros [bt| |] s K ->; [|reflexivity|reflexivity]. cbn [authorizer]. apply (obeys_bind_ok _ _ (fun s => s = Out)); [apply phase_get|auto|].
    intros a s ->. reflexivity.
  - intros [bt| |em key] m s K ->; cbn [sign].
    + destruct (call_use_sign_blob c); [|reflexivity]. apply (obeys_bind_ok _ _ (fun s => s = Out)); [|auto|intros a s ->; reflexivity].
      unfold bound_token_sign. apply (obeys_bind_ok _ _ (fun s => s = Out)); [apply phase_get|auto|]. intros et s ->.
      apply (obeys_bind_ok _ _ (fun s => s = Out)); [apply obeys_request; cbn; auto|auto|].
      { intros M. destruct (metadata_not_sign _ _ _ M). }
      intros body s ->. destruct (signed_blob_from_str body); [|reflexivity]. destruct (b64_decode _); reflexivity.
    + exact I.
    + destruct (call_use_sign_blob c); [exact I|]. destruct (d_rsa_sign d key m); reflexivity.
Qed.

(** * Writes to the cache *)

(** Events end with a complete refresh that produced [v]. *)
Definition write_ok (base : str) (h : list event) (e : eff) : Prop :=
  match e with
  | ESet id v => exists h0 email token expires l,
      v = Some (email, token, expires) /\ refreshed id base email token expires l /\ h ++ [VSet id v] = h0 ++ l
  | _ => True
  end.
Definition record (h : list event) (v : event) : list event := h ++ [v].

Lemma request_obeys_ok base d e1 e2 e3 e4 e5 r h : forall A (f : str -> prog (res A bt_error)) (fin : list event -> Prop),
  (forall h, fin h) ->
  (forall o b, answered o b -> obeys (write_ok base) record fin (h ++ [VHttp r o]) (f b)) ->
  obeys (write_ok base) record fin h (bind_ok (fun e => e) (request_text d e1 e2 e3 e4 e5 r) f).
Proof.
  intros A f fin Ff F. unfold request_text. destruct (negb _); [apply Ff|]. cbn [obeys bind_ok bind]. split; [exact I|].
  intros [|s [b|]]; cbn [event_of]; [apply Ff| |]; destruct (is_success s) eqn:S; cbn [negb bind]; try apply Ff.
  unfold record. apply F. exists s. split; [apply is_success_spec; exact S|reflexivity].
Qed.

Lemma write_refresh d bt h : obeys (write_ok (bt_base_url bt)) record (fun _ => True) h (refresh d bt).
Proof.
  unfold refresh. apply request_obeys_ok; [auto|]. intros o1 email A1. apply request_obeys_ok; [auto|]. intros o2 body A2.
  destruct (access_token_from_str body) as [[t n y]|] eqn:Et; [|exact I]. cbn [at_type at_token at_expires_in].
  destruct (str_eqb y (B "Bearer")) eqn:Y; cbn [negb]; [|exact I]. apply str_eqb_eq in Y. subst y.
  apply token_body_spec in Et. cbn [obeys]. split; [exact I|]. intros now. cbn [event_of].
  destruct (systime_add_secs now n) as [x|] eqn:Ex; [|exact I]. cbn [obeys]. split; [|intros []; exact I].
  cbn [write_ok]. unfold record. exists h, email, t, x. eexists. split; [reflexivity|]. split.
  - exists o1, o2, body, n, now. split; [exact A1|]. split; [exact A2|]. split; [exact Et|]. split; [|reflexivity].
    unfold systime_add_secs in Ex. cbv zeta in Ex. match type of Ex with context [if ?c then _ else _] => destruct c end; [|discriminate Ex].
    injection Ex as <-. reflexivity.
  - rewrite email_request_spec, token_request_spec, <- !app_assoc. reflexivity.
Qed.

Lemma write_get d bt h : obeys (write_ok (bt_base_url bt)) record (fun _ => True) h (get_email_and_token d bt).
Proof.
  unfold get_email_and_token. cbn [obeys]. split; [exact I|]. intros []. apply (obeys_bind _ _ (fun _ => True)).
  2:{ intros a s _. cbn. auto. }
  unfold get_locked. cbn [obeys]. split; [exact I|]. intros [[[em tk] x]|]; [|apply write_refresh].
  destruct (duration_since x 0%Z); [|exact I]. cbn [obeys]. split; [exact I|]. intros now.
  destruct (duration_since now 0%Z); [|exact I]. destruct (_ <? _)%Z; [exact I|apply write_refresh].
Qed.

Lemma write_call d c base : (forall bt, call_key c = Some (KBoundToken bt) -> bt_base_url bt = base) ->
  forall h, obeys (write_ok base) record (fun _ => True) h (run_call d c).
Proof.
  intros Hb h. apply (obeys_call _ _ d c (fun _ => True) (fun _ => True) (fun _ => True)); auto.
  - intros [bt| |] s K _; [|exact I|exact I]. cbn [authorizer]. apply (obeys_bind_ok _ _ (fun _ => True)); [|auto|intros a s' _; exact I].
    rewrite <- (Hb bt K). apply write_get.
  - intros [bt| |em key] m s K _; cbn [sign].
    + destruct (call_use_sign_blob c); [|exact I]. apply (obeys_bind_ok _ _ (fun _ => True)); [|auto|intros a s' _; exact I].
      unfold bound_token_sign. rewrite <- (Hb bt K). apply (obeys_bind_ok _ _ (fun _ => True)); [apply write_get|auto|]. intros et s' _.
      apply (obeys_bind_ok _ _ (fun _ => True)); [apply obeys_request; cbn; auto|auto|].
      intros body s'' _. destruct (signed_blob_from_str body); [|exact I]. destruct (b64_decode _); exact I.
    + exact I.
    + destruct (call_use_sign_blob c); [exact I|]. destruct (d_rsa_sign d key m); exact I.
Qed.

(** * Lengths *)

(** A request counts twice: it is sent and answered. *)
Definition cost (v : event) : nat := match v with VHttp _ _ => 2 | _ => 1 end.
Definition cost_ok (n : nat) (e : eff) : Prop := (match e with EHttp _ => 2 | _ => 1 end <= n)%nat.
Definition cost_next (n : nat) (v : event) : nat := n - cost v.

Lemma cost_refresh d bt n : (6 <= n)%nat -> obeys cost_ok cost_next (fun m => (n <= m + 6)%nat) n (refresh d bt).
Proof.
  intros L. unfold refresh.
  apply (obeys_bind_ok _ _ (fun m => n <= m + 2)%nat); [apply obeys_request; unfold cost_ok, cost_next, cost; lia|intros; lia|].
  intros email m Hm. apply (obeys_bind_ok _ _ (fun m => n <= m + 4)%nat); [apply obeys_request; unfold cost_ok, cost_next, cost; intros; lia|intros; lia|].
  intros body m' Hm'. destruct (access_token_from_str body) as [t|]; [|cbn; lia]. destruct (negb _); [cbn; lia|].
  cbn [obeys]. split; [unfold cost_ok; lia|]. intros now. cbn [event_of]. destruct (systime_add_secs _ _); [|exact I].
  cbn [obeys event_of]. unfold cost_ok, cost_next, cost. split; [lia|]. intros []. lia.
Qed.

Lemma cost_get d bt n : (10 <= n)%nat -> obeys cost_ok cost_next (fun m => (n <= m + 10)%nat) n (get_email_and_token d bt).
Proof.
  intros L. unfold get_email_and_token. cbn [obeys event_of]. split; [unfold cost_ok; lia|]. intros [].
  apply (obeys_bind _ _ (fun m => n <= m + 9)%nat).
  2:{ intros a m Hm. cbn [obeys event_of]. unfold cost_ok, cost_next, cost. split; [lia|]. intros []. lia. }
  assert (R : forall m, (n <= m + 3)%nat -> obeys cost_ok cost_next (fun m => n <= m + 9)%nat m (refresh d bt)).
  { intros m Hm. eapply obeys_mono; [|apply cost_refresh]; [cbn; intros; lia|lia]. }
  unfold get_locked. cbn [obeys event_of]. split; [unfold cost_ok, cost_next, cost; lia|].
  intros [[[em tk] x]|]; [|apply R; unfold cost_next, cost; lia].
  destruct (duration_since x 0%Z); [|exact I]. cbn [obeys event_of]. split; [unfold cost_ok, cost_next, cost; lia|]. intros now.
  destruct (duration_since now 0%Z); [|exact I]. destruct (_ <? _)%Z; [cbn [obeys]; unfold cost_next, cost; lia|apply R; unfold cost_next, cost; lia].
Qed.

(** A call takes at most 23 steps besides its start and its end. *)
Lemma cost_call d c : obeys cost_ok cost_next (fun _ => True) 23%nat (run_call d c).
Proof.
  apply (obeys_call _ _ d c (fun m => m = 23)%nat (fun m => 22 <= m)%nat (fun m => 12 <= m)%nat); try (intros; lia); auto.
  - intros s -> _ _. cbn. unfold cost_ok. split; intros; lia.
  - intros [bt| |] s K Hs; [|cbn; lia|cbn; lia]. cbn [authorizer].
    apply (obeys_bind_ok _ _ (fun m => s <= m + 10)%nat); [apply cost_get; lia|intros; lia|]. intros a m Hm. cbn. lia.
  - intros [bt| |em key] m s K Hs; cbn [sign].
    + destruct (call_use_sign_blob c); [|exact I]. apply (obeys_bind_ok _ _ (fun _ => True)); [|auto|intros a s' _; exact I].
      unfold bound_token_sign. apply (obeys_bind_ok _ _ (fun m => s <= m + 10)%nat); [apply cost_get; lia|auto|]. intros et s' Hs'.
      apply (obeys_bind_ok _ _ (fun _ => True)); [apply obeys_request; cbn; unfold cost_ok; try lia; auto|auto|].
      intros body s'' _. destruct (signed_blob_from_str body); [|exact I]. destruct (b64_decode _); exact I.
    + exact I.
    + destruct (call_use_sign_blob c); [exact I|]. destruct (d_rsa_sign d key m); exact I.
Qed.
