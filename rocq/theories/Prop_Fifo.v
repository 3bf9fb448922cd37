(** C65-C67: the lock with a queue. *)
From Verif Require Import Base Effects EffectsFacts Keys Calls Conc Fifo SpecTrace SpecConc SpecFifo ConcFacts Prop_Conc FifoFacts Sim Demo.
Open Scope nat_scope.

(** * C65: with and without a queue *)

(** The histories with queues, the queueing left out, are exactly the histories of [Conc], with the same tasks, lock
    owners and caches at the end. *)
Theorem C65_refines d base tr f : fruns d base tr f -> runs d base (plain_history tr) (f_core f).
Proof. apply fruns_core. Qed.

Theorem C65_complete d base tr cfg : runs d base tr cfg ->
  exists f, fruns d base (map FDo tr) f /\ f_core f = cfg /\ (forall id, f_handed f id = None) /\ (forall id, f_queue f id = []) /\
    plain_history (map FDo tr) = tr.
Proof.
  intros H. assert (P : forall l, plain_history (map FDo l) = l) by (induction l as [|v l IH]; [reflexivity|cbn; f_equal; exact IH]).
  cut (exists f, fruns d base (map FDo tr) f /\ f_core f = cfg /\ (forall id, f_handed f id = None) /\ (forall id, f_queue f id = [])).
  { intros (f & X & Y & Z & T). exists f. auto 6. }
  clear P. induction H as [|tr cfg v cfg' H (f & Hf & <- & Hh & Hq) S].
  - exists finitial. split; [constructor|]. auto.
  - rewrite map_app. cbn [map].
    assert (K : keeps_locks v \/ (exists i id, v = GDo i (VLock id)) \/ (exists i id, v = GDo i (VUnlock id)) \/ exists i e, v = GEnd i e /\ forall a, e <> Returned a).
    { destruct v as [i c|i r|i e|i e]; try (left; exact Logic.I).
      - destruct e; try (left; exact Logic.I); right; [left|right; left]; eauto.
      - destruct e; [left; exact Logic.I| |]; do 3 right; exists i; eexists; (split; [reflexivity|discriminate]). }
    destruct K as [K|[(i & id & ->)|[(i & id & ->)|(i & e & -> & Ne)]]].
    + exists (move_core f cfg'). split; [econstructor; [exact Hf|apply fs_other; assumption]|]. auto.
    + exists (move_core f cfg'). split; [econstructor; [exact Hf|apply fs_lock; auto]|]. auto.
    + exists (hand_over (move_core f cfg') id). split; [econstructor; [exact Hf|eapply fs_unlock; eassumption]|]. split; [reflexivity|].
      cbn [hand_over move_core f_handed f_queue]. split; intros x; rewrite ?Hq, ?Hh; destruct (N.eqb x id); reflexivity.
    + exists (drop_task (move_core f cfg') (f_core f) i). split; [econstructor; [exact Hf|eapply fs_drop; eassumption]|]. split; [reflexivity|].
      cbn [drop_task move_core f_handed f_queue]. split; intros x; rewrite ?Hq, ?Hh; destruct (_ || _)%bool; reflexivity.
Qed.

(** * C66: first come, first served *)

Lemma served_snoc b v i id : served (b ++ [v]) i id <-> served b i id \/ v = FDo (GDo i (VLock id)) \/ exists e, v = FDo (GEnd i e).
Proof.
  unfold served. rewrite in_snoc. split.
  - intros [[I|I]|[e I]]; [auto|right; left; symmetry; exact I|]. apply in_snoc in I. destruct I as [I|I]; [left; right; eauto|right; right; exists e; symmetry; exact I].
  - intros [[I|[e I]]|[I|[e I]]]; [left; auto|right; exists e; apply in_snoc; auto|left; right; auto|right; exists e; apply in_snoc; auto].
Qed.

Lemma line_waits id tr i : In i (line id tr) <-> waits tr i id.
Proof.
  induction tr as [|v tr IH] using rev_ind.
  { split; [intros []|]. intros (a & b & E & _). destruct a; discriminate E. }
  rewrite line_snoc.
  assert (Keep : waits (tr ++ [v]) i id <-> v = FAsk i id \/ (waits tr i id /\ v <> FDo (GDo i (VLock id)) /\ forall e, v <> FDo (GEnd i e))).
  { split.
    - intros (a & b & E & Ns). destruct b as [|w b] using rev_ind.
      + apply app_inj_tail in E. destruct E as [_ ->]. auto.
      + rewrite app_comm_cons, app_assoc in E. apply app_inj_tail in E. destruct E as [E <-]. rewrite served_snoc in Ns. right. split; [exists a, b; tauto|].
        split; [tauto|]. intros e X. apply Ns. right. right. eauto.
    - intros [->|((a & b & -> & Ns) & N1 & N2)].
      + exists tr, []. split; [reflexivity|]. intros [[]|[e []]].
      + exists a, (b ++ [v]). split; [rewrite <- app_assoc; reflexivity|]. rewrite served_snoc. intros [X|[X|[e X]]]; [tauto|tauto|exact (N2 _ X)]. }
  rewrite Keep, <- IH. clear Keep IH. destruct v as [j x|[j c|j r|j e|j e]]; cbn [line1].
  - destruct (N.eqb_spec x id) as [->|Nx].
    + rewrite in_snoc. split; [intros [I| ->]; [right; split; [exact I|split; discriminate]|left; reflexivity]|].
      intros [E|[I _]]; [injection E as ->; right; reflexivity|left; exact I].
    + split; [intros I; right; split; [exact I|split; discriminate]|intros [E|[I _]]; [congruence|exact I]].
  - split; [intros I; right; split; [exact I|split; discriminate]|intros [E|[I _]]; [discriminate E|exact I]].
  - split; [intros I; right; split; [exact I|split; discriminate]|intros [E|[I _]]; [discriminate E|exact I]].
  - destruct e as [t|r o|x|x|x c|x c]; try (split; [intros I; right; split; [exact I|split; discriminate]|intros [E|[I _]]; [discriminate E|exact I]]).
    destruct (N.eqb_spec x id) as [->|Nx].
    + rewrite leave_in. split; [intros [I Nj]; right; split; [exact I|split; [congruence|discriminate]]|]. intros [E|(I & N1 & _)]; [discriminate E|split; [exact I|congruence]].
    + split; [intros I; right; split; [exact I|split; [congruence|discriminate]]|intros [E|[I _]]; [discriminate E|exact I]].
  - rewrite leave_in. split; [intros [I Nj]; right; split; [exact I|split; [discriminate|congruence]]|]. intros [E|(I & _ & N2)]; [discriminate E|]. split; [exact I|]. intros ->. exact (N2 e eq_refl).
Qed.

Lemma served_dec b i id : served b i id \/ ~ served b i id.
Proof.
  induction b as [|v b IH] using rev_ind; [right; intros [[]|[e []]]|]. rewrite served_snoc. destruct IH as [IH|IH]; [tauto|].
  destruct v as [j x|[j c|j r|j e|j e]]; try (right; intros [X|[X|[e' X]]]; [tauto|discriminate X|discriminate X]).
  - destruct e as [t|r o|x|x|x c|x c]; try (right; intros [X|[X|[e' X]]]; [tauto|discriminate X|discriminate X]).
    destruct (Nat.eq_dec j i) as [->|]; [|right; intros [X|[X|[e' X]]]; [tauto|congruence|discriminate X]].
    destruct (N.eq_dec x id) as [->|]; [tauto|right; intros [X|[X|[e' X]]]; [tauto|congruence|discriminate X]].
  - destruct (Nat.eq_dec j i) as [->|]; [left; right; right; eauto|right; intros [X|[X|[e' X]]]; [tauto|discriminate X|congruence]].
Qed.

(** What a line becomes: those before [i] that have not been served, [i], and others. *)
Lemma line_ahead id i a b : ~ served b i id -> exists l r,
  line id (a ++ FAsk i id :: b) = l ++ i :: r /\ forall j, In j l -> In j (line id a) /\ ~ served b j id.
Proof.
  induction b as [|v b IH] using rev_ind; intros Ns.
  - exists (line id a), []. rewrite line_snoc. cbn [line1]. rewrite N.eqb_refl. split; [reflexivity|]. intros j I. split; [exact I|]. intros [[]|[e []]].
  - rewrite served_snoc in Ns. destruct IH as (l & r & E & P); [tauto|].
    rewrite app_comm_cons, app_assoc, line_snoc, E.
    assert (X : forall j, j <> i -> leave j (l ++ i :: r) = leave j l ++ i :: leave j r).
    { intros j Nj. unfold leave. rewrite filter_app. cbn [filter]. destruct (Nat.eqb_spec i j); [congruence|reflexivity]. }
    assert (Same : (forall j, v <> FDo (GDo j (VLock id)) /\ forall e, v <> FDo (GEnd j e)) ->
      forall j, In j l -> In j (line id a) /\ ~ served (b ++ [v]) j id).
    { intros Nv j I. destruct (P j I) as [P1 P2]. split; [exact P1|]. rewrite served_snoc. destruct (Nv j) as [N1 N2]. intros [Y|[Y|[e Y]]]; [tauto|tauto|exact (N2 _ Y)]. }
    assert (Left : forall j, (v = FDo (GDo j (VLock id)) \/ exists e, v = FDo (GEnd j e)) ->
      forall j', In j' (leave j l) -> In j' (line id a) /\ ~ served (b ++ [v]) j' id).
    { intros j Ev j' I. apply leave_in in I. destruct I as [I Nj]. destruct (P j' I) as [P1 P2]. split; [exact P1|]. rewrite served_snoc.
      intros [Y|[Y|[e Y]]]; [tauto| |]; destruct Ev as [Ev|[e' Ev]]; congruence. }
    destruct v as [j x|[j c|j q|j e|j e]]; cbn [line1].
    + destruct (N.eqb x id).
      * exists l, (r ++ [j]). split; [rewrite <- app_assoc; reflexivity|]. apply Same. intros k; split; discriminate.
      * exists l, r. split; [reflexivity|]. apply Same. intros k; split; discriminate.
    + exists l, r. split; [reflexivity|]. apply Same. intros k; split; discriminate.
    + exists l, r. split; [reflexivity|]. apply Same. intros k; split; discriminate.
    + destruct e as [t|q o|x|x|x c|x c]; try (exists l, r; split; [reflexivity|]; apply Same; intros k; split; discriminate).
      destruct (N.eqb_spec x id) as [->|Nx].
      * exists (leave j l), (leave j r). split; [|apply (Left j); left; reflexivity]. apply X. intros ->. apply Ns. right. left. reflexivity.
      * exists l, r. split; [reflexivity|]. apply Same. intros k; split; [congruence|discriminate].
    + exists (leave j l), (leave j r). split; [|apply (Left j); right; eauto]. apply X. intros ->. apply Ns. right. right. eauto.
Qed.

(** Who takes a lock is first in line, or nobody waits. *)
Lemma taker_first d base tr f a j id b : fruns d base tr f -> tr = a ++ FDo (GDo j (VLock id)) :: b ->
  line id a = [] \/ exists q, line id a = j :: q.
Proof.
  intros H E. destruct (fruns_split _ _ _ _ _ _ _ H E) as (f1 & f2 & H1 & S & _). pose proof (fruns_inv _ _ _ _ H1) as I.
  rewrite <- (fi_line _ _ I id). inversion S as [? ? ? S' K| |? ? ? ? S' Hn|? ? ? ? S' Hn| |]; subst; [destruct K| |].
  - left. unfold in_line. rewrite Hn. apply (fi_free _ _ I); [|exact Hn]. apply (owner_lock _ _ _ _ _ _ S').
  - right. unfold in_line. rewrite Hn. eauto.
Qed.

(** While a task waits for a lock, only tasks that asked for it before take it. *)
Theorem C66_order d base tr f a i id b j c : fruns d base tr f ->
  tr = a ++ FAsk i id :: b ++ FDo (GDo j (VLock id)) :: c -> i <> j -> ~ served b i id ->
  exists a1 a2, a = a1 ++ FAsk j id :: a2 /\ ~ served (a2 ++ b) j id.
Proof.
  intros H E Nij Ns. destruct (line_ahead id i a b Ns) as (l & r & El & P).
  rewrite app_comm_cons, app_assoc in E. destruct (taker_first _ _ _ _ _ _ _ _ H E) as [X|[q X]]; rewrite El in X.
  - destruct l; discriminate X.
  - destruct l as [|j' l]; [injection X as X _; contradiction|]. injection X as -> _. destruct (P j (or_introl eq_refl)) as [I Nb].
    apply line_waits in I. destruct I as (a1 & a2 & -> & Na). exists a1, a2. split; [reflexivity|].
    unfold served in *. intros [Y|[e Y]]; apply in_app_or in Y; destruct Y as [Y|Y]; eauto.
Qed.

Lemma in_takers id b j : In j (takers id b) <-> In (FDo (GDo j (VLock id))) b.
Proof.
  unfold takers. rewrite in_flat_map. split.
  - intros (v & I & J). destruct v as [|[| |k e|]]; try destruct J. destruct e; try destruct J. destruct (N.eqb_spec id0 id) as [->|]; [|destruct J]. destruct J as [->|[]]. exact I.
  - intros I. eexists. split; [exact I|]. cbn. rewrite N.eqb_refl. left. reflexivity.
Qed.

(** While a task waits, every task takes the lock at most once before it, and only if it waited already. *)
Theorem C66_bounded d base tr f a i id b : fruns d base tr f -> tr = a ++ FAsk i id :: b -> ~ served b i id ->
  NoDup (takers id b) /\ forall j, In j (takers id b) -> waits a j id /\ j <> i.
Proof.
  intros H E Ns.
  assert (Sub : forall x v y, b = x ++ v :: y -> ~ served x i id).
  { intros x v y -> S. apply Ns. destruct S as [S|[e S]]; [left|right; exists e]; apply in_or_app; auto. }
  assert (W : forall x j y, b = x ++ FDo (GDo j (VLock id)) :: y -> j <> i /\ waits a j id /\ ~ served x j id).
  { intros x j y Eb. assert (Nj : i <> j).
    { intros <-. apply Ns. left. rewrite Eb. apply in_or_app. right. left. reflexivity. }
    split; [congruence|]. destruct (C66_order _ _ _ _ a i id x j y H) as (a1 & a2 & Ea & Na); [rewrite E, Eb; reflexivity|exact Nj|exact (Sub _ _ _ Eb)|].
    split.
    - exists a1, a2. split; [exact Ea|]. intros S. apply Na. destruct S as [S|[e S]]; [left|right; exists e]; apply in_or_app; auto.
    - intros S. apply Na. destruct S as [S|[e S]]; [left|right; exists e]; apply in_or_app; auto. }
  split.
  - clear E Ns Sub. assert (G : forall x, (exists y, b = x ++ y) -> NoDup (takers id x)).
    { induction x as [|v x IH] using rev_ind; intros [y Ey]; [constructor|].
      assert (IHx : NoDup (takers id x)) by (apply IH; exists (v :: y); rewrite Ey, <- app_assoc; reflexivity).
      unfold takers. rewrite flat_map_app. change (flat_map _ x) with (takers id x). cbn [flat_map]. rewrite app_nil_r.
      destruct v as [|[| |k e|]]; rewrite ?app_nil_r; try exact IHx. destruct e; rewrite ?app_nil_r; try exact IHx.
      destruct (N.eqb_spec id0 id) as [->|]; [|rewrite app_nil_r; exact IHx].
      apply NoDup_app_snoc_; [exact IHx|]. intros I. apply in_takers in I.
      destruct (W x k y) as (_ & _ & N); [rewrite Ey, <- app_assoc; reflexivity|]. apply N. left. exact I. }
    apply G. exists []. rewrite app_nil_r. reflexivity.
  - intros j I. apply in_takers in I. apply in_split in I. destruct I as (x & y & Eb). destruct (W _ _ _ Eb) as (N1 & N2 & _). auto.
Qed.

(** * C67: no lost wake-up *)

Definition fcan_move (d : deps) (base : N -> str) (f : fconfig) (i : nat) : Prop :=
  exists v f', fstep d base f (FDo v) f' /\ of_task i v = true /\ ~ external v.

(** A move that does not take a lock can be made with queues, too. *)
Lemma lift_move d base f i v cfg : cstep d base (f_core f) v cfg -> of_task i v = true -> ~ external v ->
  (forall j id, v <> GDo j (VLock id)) -> fcan_move d base f i.
Proof.
  intros S T X N.
  assert (K : keeps_locks v \/ (exists j id, v = GDo j (VUnlock id)) \/ exists j e, v = GEnd j e /\ forall a, e <> Returned a).
  { destruct v as [j c|j r|j e|j e]; try (left; exact Logic.I).
    - destruct e; try (left; exact Logic.I); [destruct (N _ _ eq_refl)|right; left; eauto].
    - destruct e; [left; exact Logic.I| |]; do 2 right; exists j; eexists; (split; [reflexivity|discriminate]). }
  destruct K as [K|[(j & id & ->)|(j & e & -> & Ne)]]; do 2 eexists; (split; [|split; [exact T|exact X]]).
  - apply fs_other; eassumption.
  - eapply fs_unlock. eassumption.
  - eapply fs_drop; eassumption.
Qed.

(** Somebody who waits does so for a task that holds the lock, or the first in line can take it. *)
Theorem C67_wait d base tr f i id : fruns d base tr f -> waits tr i id ->
  (exists j, j <> i /\ holding (plain_history tr) j id /\ ~ has_ended (plain_history tr) j) \/
  (exists j f', waits tr j id /\ fstep d base f (FDo (GDo j (VLock id))) f').
Proof.
  intros H W. pose proof (fruns_inv _ _ _ _ H) as I. pose proof (fruns_core _ _ _ _ H) as Hc.
  apply line_waits in W. rewrite <- (fi_line _ _ I) in W.
  destruct (owner (f_core f) id) as [j|] eqn:O.
  - left. exists j. destruct (C36_lock _ _ _ _ _ _ Hc O) as (Hh & _ & Ne). split; [|auto].
    intros ->. destruct (fi_at _ _ I _ _ W) as (c & k & A). destruct (task_next d base _ _ i c _ _ (ELock id) k tt Hc A eq_refl eq_refl) as [Hf _].
    apply (runs_lock _ _ _ _ Hc) in O. destruct O as (_ & _ & _ & _ & _ & Hd). congruence.
  - right. destruct (f_handed f id) as [h|] eqn:Hh.
    + assert (J : In h (in_line f id)) by (unfold in_line; rewrite Hh; left; reflexivity). exists h.
      destruct (fi_at _ _ I _ _ J) as (c & k & A). eexists. split; [apply line_waits; rewrite <- (fi_line _ _ I); exact J|].
      eapply fs_granted; [apply (cs_lock _ _ _ _ _ _ _ A O)|exact Hh].
    + exfalso. unfold in_line in W. rewrite Hh, (fi_free _ _ I _ O Hh) in W. destruct W.
Qed.

(** An unfinished task can move, or another unfinished task, which holds the lock it needs or is first in line for it, can. *)
Theorem C67_progress d base tr f i c : fruns d base tr f -> runs_call (plain_history tr) i c -> ~ has_ended (plain_history tr) i ->
  fcan_move d base f i \/
  exists id j, uses_key (plain_history tr) i id /\ j <> i /\ ~ has_ended (plain_history tr) j /\
    (holding (plain_history tr) j id \/ waits tr j id) /\ fcan_move d base f j.
Proof.
  intros H R N. pose proof (fruns_inv _ _ _ _ H) as I. pose proof (fruns_core _ _ _ _ H) as Hc.
  pose proof (li_spawn _ _ _ _ (runs_local _ _ _ _ Hc) i c) as Ls. destruct (proj1 Ls R) as [s A].
  assert (Cases : (exists id k, s = Running (Act (ELock id) k)) \/ forall id k, s <> Running (Act (ELock id) k)).
  { destruct s as [[a|x|e k]|r k|e]; try (right; discriminate). destruct e; try (right; discriminate). left. eauto. }
  assert (Other : forall j cj sj, at_ (f_core f) j cj sj -> can_move d base (f_core f) j -> (forall id k, sj <> Running (Act (ELock id) k)) -> fcan_move d base f j).
  { intros j cj sj Aj (v & cfg & S & T & X) Ns. apply (lift_move _ _ _ _ _ _ S T X). intros j' id ->. apply Nat.eqb_eq in T. subst j'.
    inversion S; subst. match goal with B : at_ _ j _ (Running (Act (ELock _) _)) |- _ => destruct (at_fun _ _ _ _ _ _ Aj B) as [_ E] end. exact (Ns _ _ (eq_sym E)). }
  destruct Cases as [(id & k & ->)|Ns].
  - destruct (task_next d base _ _ i c _ _ (ELock id) k tt Hc A eq_refl eq_refl) as [Hf K].
    assert (U : uses_key (plain_history tr) i id) by (apply (uses_key_is _ _ _ _ _ _ Hc); eauto).
    destruct (owner (f_core f) id) as [j|] eqn:O.
    + right. exists id, j. split; [exact U|]. destruct (C36_lock _ _ _ _ _ _ Hc O) as (Hh & _ & Ne).
      apply (runs_lock _ _ _ _ Hc) in O. destruct O as (c' & s' & A' & L' & K' & Hd).
      split; [intros ->; congruence|]. split; [exact Ne|]. split; [auto|].
      assert (Ns : forall id k, s' <> Running (Act (ELock id) k)).
      { intros id' k' ->. destruct (task_next d base _ _ j c' _ _ (ELock id') k' tt Hc A' eq_refl eq_refl) as [Hf' _]. congruence. }
      apply (Other j c' s' A'); [|exact Ns]. destruct (moves d base _ _ _ _ A' L') as [M|(id' & k' & -> & _)]; [exact M|destruct (Ns _ _ eq_refl)].
    + destruct (f_handed f id) as [h|] eqn:Hh.
      * assert (J : In h (in_line f id)) by (unfold in_line; rewrite Hh; left; reflexivity).
        destruct (fi_at _ _ I _ _ J) as (ch & kh & Ah).
        assert (M : fcan_move d base f h).
        { do 2 eexists. split; [eapply fs_granted; [apply (cs_lock _ _ _ _ _ _ _ Ah O)|exact Hh]|]. split; [apply Nat.eqb_refl|intros []]. }
        destruct (Nat.eq_dec h i) as [->|Nh]; [left; exact M|right]. exists id, h. split; [exact U|]. split; [exact Nh|].
        split; [apply (live_not_ended _ _ _ _ _ _ _ Hc Ah); discriminate|]. split; [|exact M]. right. apply line_waits. rewrite <- (fi_line _ _ I). exact J.
      * left. do 2 eexists. split; [apply fs_lock; [apply (cs_lock _ _ _ _ _ _ _ A O)|exact Hh]|]. split; [apply Nat.eqb_refl|intros []].
  - left. pose proof (proj2 (live_not_ended _ _ _ _ _ _ _ Hc A) N) as L. apply (Other i c s A); [|exact Ns].
    destruct (moves d base _ _ _ _ A L) as [M|(id & k & -> & _)]; [exact M|destruct (Ns _ _ eq_refl)].
Qed.

(** An execution that only new calls or cancellations could continue has ended every call. *)
Theorem C67_maximal d base tr f : fruns d base tr f -> (forall v f', fstep d base f v f' -> fexternal v) ->
  forall i c, runs_call (plain_history tr) i c -> has_ended (plain_history tr) i.
Proof.
  intros H M i c R. pose proof (fruns_core _ _ _ _ H) as Hc. destruct (proj1 (li_spawn _ _ _ _ (runs_local _ _ _ _ Hc) i c) R) as [s A].
  destruct (live_dec s) as [L|[e ->]]; [|apply (has_ended_at _ _ _ _ _ Hc); eauto]. exfalso.
  apply (live_not_ended _ _ _ _ _ _ _ Hc A) in L.
  destruct (C67_progress _ _ _ _ _ _ H R L) as [(v & f' & S & _ & X)|(id & j & _ & _ & _ & _ & v & f' & S & _ & X)]; exact (X (M _ _ S)).
Qed.

(** * Executions are finite *)

(** The moments at which tasks ask, as events of these tasks. *)
Definition asked (tr : list fevent) : list gevent :=
  flat_map (fun v => match v with FAsk i id => [GDo i (VLock id)] | FDo _ => [] end) tr.
Lemma asked_snoc tr v : asked (tr ++ [v]) = asked tr ++ match v with FAsk i id => [GDo i (VLock id)] | FDo _ => [] end.
Proof. unfold asked. rewrite flat_map_app. cbn. rewrite app_nil_r. reflexivity. Qed.
Lemma count_snoc i (tr : list gevent) v : count i (tr ++ [v]) = (count i tr + if of_task i v then 1 else 0)%nat.
Proof. unfold count. rewrite filter_app, app_length. cbn [filter]. destruct (of_task i v); reflexivity. Qed.
Lemma count_in i (tr : list gevent) v : In v tr -> of_task i v = true -> (1 <= count i tr)%nat.
Proof.
  intros I T. unfold count. destruct (filter (of_task i) tr) as [|w l] eqn:E; [|cbn; lia].
  assert (X : In v (filter (of_task i) tr)) by (apply filter_In; auto). rewrite E in X. destruct X.
Qed.

Definition index_ (v : gevent) : nat := match v with GSpawn i _ | GSend i _ | GDo i _ | GEnd i _ => i end.

(** A task asks no more often than it does other things. *)
Lemma asks_bound d base tr f i : fruns d base tr f ->
  (count i (asked tr) <= count i (plain_history tr))%nat /\
  ((1 <= count i (plain_history tr))%nat -> (forall id, ~ waits tr i id) -> (count i (asked tr) < count i (plain_history tr))%nat).
Proof.
  induction 1 as [|tr f v f' H IH S]; [cbn; lia|]. rewrite asked_snoc, plain_snoc. pose proof (fruns_inv _ _ _ _ H) as I. pose proof (fruns_core _ _ _ _ H) as Hc.
  destruct v as [j id|v].
  - rewrite app_nil_r, count_snoc. cbn [of_task]. destruct (Nat.eqb_spec j i) as [->|Nj].
    + inversion S as [|? ? c ? k A B Nh Nq| | | |]; subst.
      assert (W : forall id', ~ waits tr i id').
      { intros id' W. apply line_waits in W. rewrite <- (fi_line _ _ I) in W. destruct (fi_at _ _ I _ _ W) as (c' & k' & A').
        destruct (at_fun _ _ _ _ _ _ A A') as [_ X]. injection X as -> _. unfold in_line in W. destruct (f_handed f id) as [h|]; [|exact (Nq W)].
        destruct W as [->|W]; [exact (Nh eq_refl)|exact (Nq W)]. }
      assert (P : (1 <= count i (plain_history tr))%nat).
      { apply (count_in i _ (GSpawn i c)); [|apply Nat.eqb_refl]. apply (li_spawn _ _ _ _ (runs_local _ _ _ _ Hc)). eauto. }
      split; [specialize (proj2 IH P W); lia|]. intros _ W'. exfalso. apply (W' id). apply line_waits. rewrite line_snoc. cbn [line1]. rewrite N.eqb_refl. apply in_snoc. auto.
    + rewrite Nat.add_0_r. split; [apply IH|]. intros P W. apply (proj2 IH P). intros id' X. apply (W id'). apply line_waits. apply line_waits in X.
      rewrite line_snoc. cbn [line1]. destruct (N.eqb id id'); [apply in_snoc; auto|exact X].
  - rewrite app_nil_r, count_snoc. destruct (of_task i v) eqn:T; [split; [lia|intros _ _; lia]|]. rewrite Nat.add_0_r. split; [apply IH|].
    intros P W. apply (proj2 IH P). intros id X. apply (W id). apply line_waits. apply line_waits in X. rewrite line_snoc.
    destruct v as [j c|j r|j e|j e]; cbn [line1]; try exact X.
    + destruct e; try exact X. destruct (N.eqb id0 id); [|exact X]. apply leave_in. split; [exact X|]. intros ->. cbn in T. rewrite Nat.eqb_refl in T. discriminate T.
    + apply leave_in. split; [exact X|]. intros ->. cbn in T. rewrite Nat.eqb_refl in T. discriminate T.
Qed.

(** Every execution is finite: at most fifty events for each call started. *)
Theorem C67_finite d base tr f : fruns d base tr f ->
  (length tr <= 50 * length (filter (fun v => match v with FDo (GSpawn _ _) => true | _ => false end) tr))%nat.
Proof.
  intros H. pose proof (fruns_core _ _ _ _ H) as Hc. pose proof (C36_total _ _ _ _ Hc) as T.
  assert (E1 : length tr = (length (asked tr) + length (plain_history tr))%nat).
  { unfold asked, plain_history. clear. induction tr as [|[i id|v] tr IH]; [reflexivity| |]; cbn [flat_map app length] in *; lia. }
  assert (E2 : length (filter (fun v => match v with GSpawn _ _ => true | _ => false end) (plain_history tr))
             = length (filter (fun v => match v with FDo (GSpawn _ _) => true | _ => false end) tr)).
  { clear. induction tr as [|[i id|[| | |]] tr IH]; cbn in *; auto. }
  assert (E3 : (length (asked tr) <= length (plain_history tr))%nat).
  { rewrite (counts (length (tasks (f_core f))) (asked tr)), (counts (length (tasks (f_core f))) (plain_history tr)).
    - generalize (seq 0 (length (tasks (f_core f)))). induction l as [|x l IH]; [cbn; lia|]. cbn [map list_sum fold_right]. change (fold_right Nat.add 0%nat) with list_sum.
      pose proof (proj1 (asks_bound _ _ _ _ x H)). lia.
    - intros v J. set (i := match v with GSpawn i _ | GSend i _ | GDo i _ | GEnd i _ => i end).
      assert (E : of_task i v = true) by (destruct v; apply Nat.eqb_refl). exists i. split; [|exact E].
      destruct (Nat.lt_ge_cases i (length (tasks (f_core f)))) as [X|X]; [exact X|].
      rewrite (li_new _ _ _ _ (runs_local _ _ _ _ Hc) _ X _ J) in E. discriminate E.
    - intros v J. pose proof (count_in (index_ v) _ _ J) as P. set (i := index_ v) in *. assert (E : of_task i v = true) by (destruct v; apply Nat.eqb_refl).
      specialize (P E). pose proof (proj1 (asks_bound _ _ _ _ i H)) as Q. exists i. split; [|exact E].
      destruct (Nat.lt_ge_cases i (length (tasks (f_core f)))) as [X|X]; [exact X|].
      assert (Z : count i (plain_history tr) = 0%nat).
      { unfold count. pose proof (li_new _ _ _ _ (runs_local _ _ _ _ Hc) _ X) as Nw. clear - Nw. induction (plain_history tr) as [|w l IH]; [reflexivity|]. cbn [filter].
        rewrite (Nw w (or_introl eq_refl)). apply IH. intros u Iu. apply Nw. right. exact Iu. }
      lia. }
  lia.
Qed.

(** From any state all calls started so far can be run to their ends, without cancelling any and without starting new ones. *)
Theorem C67_completes d base tr f : fruns d base tr f ->
  exists more f', fruns d base (tr ++ more) f' /\ Forall (fun v => ~ fexternal v) more /\
    forall i c, runs_call (plain_history tr) i c -> has_ended (plain_history (tr ++ more)) i.
Proof.
  intros H. remember (50 * length (filter (fun v => match v with FDo (GSpawn _ _) => true | _ => false end) tr) - length tr)%nat as m eqn:Em. revert tr f H Em.
  induction m as [m IH] using lt_wf_ind. intros tr f H Em. pose proof (fruns_core _ _ _ _ H) as Hc.
  destruct (live_or_all (tasks (f_core f))) as [(i & c & s & A & L)|All].
  - assert (M : exists j, fcan_move d base f j).
    { assert (R : runs_call (plain_history tr) i c) by (apply (li_spawn _ _ _ _ (runs_local _ _ _ _ Hc)); exists s; exact A).
      destruct (C67_progress _ _ _ _ _ _ H R) as [M|(id & j & _ & _ & _ & _ & M)]; [|eauto|eauto].
      apply (live_not_ended _ _ _ _ _ _ _ Hc A). exact L. }
    destruct M as (j & v & f1 & S & _ & Nx).
    assert (H1 : fruns d base (tr ++ [FDo v]) f1) by (econstructor; eassumption).
    pose proof (C67_finite _ _ _ _ H1) as T. rewrite filter_app, !app_length in T.
    assert (Z : length (filter (fun v => match v with FDo (GSpawn _ _) => true | _ => false end) [FDo v]) = 0%nat).
    { destruct v; try reflexivity. destruct Nx. exact Logic.I. }
    rewrite Z in T. cbn [length] in T.
    destruct (IH (50 * length (filter (fun v => match v with FDo (GSpawn _ _) => true | _ => false end) (tr ++ [FDo v])) - length (tr ++ [FDo v]))%nat) with (tr := tr ++ [FDo v]) (f := f1)
      as (more & f' & R & F & E); [rewrite filter_app, !app_length, Z; cbn [length]; lia|exact H1|reflexivity|].
    exists (FDo v :: more), f'. rewrite <- app_assoc in *. cbn [app] in *. split; [exact R|]. split; [constructor; [exact Nx|exact F]|].
    intros i' c' X. apply (E i' c'). unfold runs_call in *. rewrite plain_snoc. apply in_or_app. auto.
  - exists [], f. rewrite app_nil_r. split; [exact H|]. split; [constructor|]. intros i c R.
    apply (li_spawn _ _ _ _ (runs_local _ _ _ _ Hc)) in R. destruct R as [s A]. destruct (All _ _ _ A) as [e ->].
    apply (has_ended_at _ _ _ _ _ Hc). eauto.
Qed.

(** * Concrete cases *)

(** A choice of the scheduler: poll a task that finds the lock taken, or one of the choices of [Sim]. *)
Inductive fmove : Type := FMAsk (i : nat) (id : N) | FM (m : move).

Definition asks_for (f : fconfig) (i : nat) (id : N) : bool :=
  match nth_error (tasks (f_core f)) i with
  | Some {| t_call := _; t_status := Running (Act (ELock x) _) |} => N.eqb x id
  | _ => false
  end.
Definition some_ {A} (o : option A) : bool := match o with Some _ => true | None => false end.

Definition fsim1 (d : deps) (base : N -> str) (f : fconfig) (m : fmove) : option (fevent * fconfig) :=
  match m with
  | FMAsk i id =>
      if asks_for f i id && (some_ (owner (f_core f) id) || some_ (f_handed f id)) && negb (existsb (Nat.eqb i) (in_line f id))
      then Some (FAsk i id, {| f_core := f_core f; f_handed := f_handed f; f_queue := fun x => if N.eqb x id then f_queue f id ++ [i] else f_queue f x |})
      else None
  | FM m =>
      match sim1 d base (f_core f) m with
      | None => None
      | Some (v, cfg) =>
          match v with
          | GDo i (VLock id) =>
              match f_handed f id with
              | None => Some (FDo v, move_core f cfg)
              | Some j => if Nat.eqb j i then Some (FDo v, {| f_core := cfg; f_handed := fun x => if N.eqb x id then None else f_handed f x; f_queue := f_queue f |}) else None
              end
          | GDo i (VUnlock id) => Some (FDo v, hand_over (move_core f cfg) id)
          | GEnd i (Panicked _) | GEnd i Cancelled => Some (FDo v, drop_task (move_core f cfg) (f_core f) i)
          | _ => Some (FDo v, move_core f cfg)
          end
      end
  end.

Lemma fsim1_step d base f m v f' : fsim1 d base f m = Some (v, f') -> fstep d base f v f'.
Proof.
  destruct m as [i id|m]; cbn [fsim1].
  - unfold asks_for. destruct (nth_error (tasks (f_core f)) i) as [[c s]|] eqn:A; [|discriminate].
    destruct s as [[a|x|e k]|r k|e]; try discriminate. destruct e as [|r|x|x|x|x y]; try discriminate.
    destruct (N.eqb_spec x id) as [->|]; [|discriminate]. cbn [andb].
    destruct (some_ (owner (f_core f) id) || some_ (f_handed f id))%bool eqn:B; [|discriminate]. cbn [andb].
    destruct (existsb (Nat.eqb i) (in_line f id)) eqn:Q; [discriminate|]. cbn [negb]. intros E. injection E as <- <-.
    assert (Nin : ~ In i (in_line f id)).
    { intros J. assert (X : existsb (Nat.eqb i) (in_line f id) = true) by (apply existsb_exists; exists i; split; [exact J|apply Nat.eqb_refl]). congruence. }
    apply (fs_ask d base f i c id k A).
    + apply Bool.orb_true_iff in B. destruct B as [B|B]; [left|right]; intros X; rewrite X in B; discriminate B.
    + intros X. apply Nin. unfold in_line. rewrite X. left. reflexivity.
    + intros X. apply Nin. unfold in_line. destruct (f_handed f id); [right|]; exact X.
  - destruct (sim1 d base (f_core f) m) as [[w cfg]|] eqn:E; [|discriminate]. apply sim1_step in E.
    destruct w as [i c|i r|i e|i e]; try (intros X; injection X as <- <-; apply fs_other; [exact E|exact Logic.I]).
    + destruct e as [t|r o|id|id|id c|id c]; try (intros X; injection X as <- <-; apply fs_other; [exact E|exact Logic.I]).
      * destruct (f_handed f id) as [j|] eqn:Hh; [|intros X; injection X as <- <-; apply fs_lock; assumption].
        destruct (Nat.eqb_spec j i) as [->|]; [|discriminate]. intros X; injection X as <- <-. apply fs_granted; assumption.
      * intros X; injection X as <- <-. eapply fs_unlock. exact E.
    + destruct e; intros X; injection X as <- <-; [apply fs_other; [exact E|exact Logic.I]| |]; eapply fs_drop; try exact E; discriminate.
Qed.

Fixpoint fsim_from (d : deps) (base : N -> str) (f : fconfig) (ms : list fmove) : option (list fevent * fconfig) :=
  match ms with
  | [] => Some ([], f)
  | m :: rest =>
      match fsim1 d base f m with
      | None => None
      | Some (v, f1) => match fsim_from d base f1 rest with None => None | Some (tr, f2) => Some (v :: tr, f2) end
      end
  end.

Lemma fsim_runs d base ms : forall tr0 f0 tr f, fruns d base tr0 f0 -> fsim_from d base f0 ms = Some (tr, f) -> fruns d base (tr0 ++ tr) f.
Proof.
  induction ms as [|m ms IH]; intros tr0 f0 tr f H; cbn [fsim_from].
  - intros E. injection E as <- <-. rewrite app_nil_r. exact H.
  - destruct (fsim1 d base f0 m) as [[v f1]|] eqn:E1; [|discriminate]. destruct (fsim_from d base f1 ms) as [[tr' f2]|] eqn:E2; [|discriminate].
    intros E. injection E as <- <-. change (v :: tr') with ([v] ++ tr'). rewrite app_assoc. eapply IH; [|exact E2].
    econstructor; [exact H|]. apply fsim1_step with (m := m). exact E1.
Qed.

Definition fsim (d : deps) (base : N -> str) (ms : list fmove) : list fevent :=
  match fsim_from d base finitial ms with Some (tr, _) => tr | None => [] end.

Lemma fsim_history d base ms : match fsim_from d base finitial ms with Some _ => True | None => False end ->
  exists f, fruns d base (fsim d base ms) f.
Proof.
  unfold fsim. destruct (fsim_from d base finitial ms) as [[tr f]|] eqn:E; [|intros []]. intros _. exists f.
  exact (fsim_runs d base ms [] finitial tr f (fruns_nil d base) E).
Qed.

Lemma cut_at {A} (l : list A) n x : nth_error l n = Some x -> l = firstn n l ++ x :: skipn (S n) l.
Proof. revert l. induction n as [|n IH]; intros [|y l] E; try discriminate E; [injection E as ->; reflexivity|]. cbn. f_equal. apply IH. exact E. Qed.

Definition served_bool (b : list fevent) (i : nat) (id : N) : bool :=
  existsb (fun v => match v with FDo (GDo j (VLock x)) => Nat.eqb j i && N.eqb x id | FDo (GEnd j _) => Nat.eqb j i | _ => false end) b.
Lemma served_bool_ok b i id : served_bool b i id = false -> ~ served b i id.
Proof.
  unfold served_bool. intros F S.
  assert (X : existsb (fun v => match v with FDo (GDo j (VLock x)) => Nat.eqb j i && N.eqb x id | FDo (GEnd j _) => Nat.eqb j i | _ => false end) b = true).
  { apply existsb_exists. destruct S as [S|[e S]]; eexists; (split; [exact S|]); cbn; rewrite ?Nat.eqb_refl, ?N.eqb_refl; reflexivity. }
  congruence.
Qed.

(** Four calls on one key.  The first holds the lock, the second and third wait, the second is dropped.  The first fails
    and gives the lock back, which is handed to the third; then the fourth asks, and waits, while the third takes it. *)
Definition demo_queue : list fmove :=
  [FM (MSpawn demo_bound_form); FM (MSpawn demo_bound_form); FM (MSpawn demo_bound_form); FM (MSpawn demo_bound_form);
   FM (MStep 0 RUnit); FMAsk 1 7%N; FMAsk 2 7%N; FM (MCancel 1); FM (MStep 0 RUnit); FM (MStep 0 RUnit); FM (MStep 0 (RHttp HttpFailed));
   FM (MStep 0 RUnit); FMAsk 3 7%N; FM (MStep 0 RUnit); FM (MStep 2 RUnit)].
Definition demo_queue_history : list fevent := fsim demo_deps demo_base demo_queue.

Lemma demo_queue_runs : exists f, fruns demo_deps demo_base demo_queue_history f.
Proof. apply fsim_history. vm_compute. exact Logic.I. Qed.
Lemma demo_queue_12 : nth_error demo_queue_history 12 = Some (FAsk 3 7%N).
Proof. vm_compute. reflexivity. Qed.
Lemma demo_queue_14 : nth_error (skipn 13 demo_queue_history) 1 = Some (FDo (GDo 2 (VLock 7%N))).
Proof. vm_compute. reflexivity. Qed.
Lemma demo_queue_waits : served_bool (firstn 1 (skipn 13 demo_queue_history)) 3 7%N = false.
Proof. vm_compute. reflexivity. Qed.
Lemma demo_queue_still : served_bool (skipn 13 demo_queue_history) 3 7%N = false.
Proof. vm_compute. reflexivity. Qed.
Lemma demo_queue_takers : takers 7%N (skipn 13 demo_queue_history) = [2].
Proof. vm_compute. reflexivity. Qed.
Global Opaque demo_queue_history.

Example C66_case : exists f a b c, fruns demo_deps demo_base demo_queue_history f /\
  demo_queue_history = a ++ FAsk 3 7%N :: b ++ FDo (GDo 2 (VLock 7%N)) :: c /\ ~ served b 3 7%N.
Proof.
  destruct demo_queue_runs as [f H]. exists f, (firstn 12 demo_queue_history), (firstn 1 (skipn 13 demo_queue_history)), (skipn 2 (skipn 13 demo_queue_history)).
  split; [exact H|]. split; [|apply served_bool_ok; exact demo_queue_waits].
  rewrite (cut_at _ _ _ demo_queue_12) at 1. apply f_equal, f_equal. exact (cut_at _ _ _ demo_queue_14).
Qed.

(** Meets the hypotheses of C65 to C67; one task takes the lock while the fourth waits. *)
Example C67_case : exists f a b, fruns demo_deps demo_base demo_queue_history f /\
  demo_queue_history = a ++ FAsk 3 7%N :: b /\ ~ served b 3 7%N /\ takers 7%N b = [2] /\ waits demo_queue_history 3 7%N.
Proof.
  destruct demo_queue_runs as [f H]. exists f, (firstn 12 demo_queue_history), (skipn 13 demo_queue_history).
  pose proof (cut_at _ _ _ demo_queue_12) as E. pose proof (served_bool_ok _ _ _ demo_queue_still) as Ns.
  split; [exact H|]. split; [exact E|]. split; [exact Ns|]. split; [exact demo_queue_takers|].
  exists (firstn 12 demo_queue_history), (skipn 13 demo_queue_history). auto.
Qed.

(** An execution that only new calls or cancellations continue, as C67_maximal supposes: the one call has returned. *)
Definition demo_done : list fmove :=
  [FM (MSpawn demo_bound_form); FM (MStep 0 RUnit); FM (MStep 0 RUnit); FM (MStep 0 RUnit); FM (MStep 0 (RHttp HttpFailed)); FM (MStep 0 RUnit); FM (MStep 0 RUnit)].
Lemma done_external d base f : (forall i c s, at_ (f_core f) i c s -> exists e, s = Ended e) ->
  forall v f', fstep d base f v f' -> fexternal v.
Proof.
  intros All v f' S. destruct S as [f v cfg S K|f i c id k A O Nh Nq|f i id cfg S Hn|f i id cfg S Hn|f i id cfg S|f i e cfg S Ne];
    try (destruct (All _ _ _ A) as [e X]; discriminate X); try (inversion S; subst;
      try exact Logic.I; try (match goal with A : at_ _ _ _ _ |- _ => let y := fresh in let Y := fresh in destruct (All _ _ _ A) as [y Y]; discriminate Y end)).
Qed.
Example C67_maximal_case : exists tr f, fruns demo_deps demo_base tr f /\ (forall v f', fstep demo_deps demo_base f v f' -> fexternal v) /\
  (exists c, runs_call (plain_history tr) 0 c).
Proof.
  destruct (fsim_from demo_deps demo_base finitial demo_done) as [[tr f]|] eqn:E.
  2:{ exfalso. assert (X : match fsim_from demo_deps demo_base finitial demo_done with Some _ => true | None => false end = true) by (vm_compute; reflexivity). rewrite E in X. discriminate X. }
  exists tr, f. split; [exact (fsim_runs _ _ _ [] _ _ _ (fruns_nil _ _) E)|]. split.
  - apply done_external. intros i c s A.
    assert (X : match fsim_from demo_deps demo_base finitial demo_done with
                | Some (_, f) => map (fun t => match t_status t with Ended _ => true | _ => false end) (tasks (f_core f)) | None => [] end = [true]) by (vm_compute; reflexivity).
    rewrite E in X. unfold at_ in A. destruct (tasks (f_core f)) as [|t [|t' l]]; try discriminate X. destruct i as [|i]; [|destruct i; discriminate A].
    injection A as ->. cbn [map t_status] in X. destruct s; try discriminate X. eauto.
  - assert (X : match fsim_from demo_deps demo_base finitial demo_done with
                | Some (tr, _) => match tr with FDo (GSpawn 0 _) :: _ => true | _ => false end | None => false end = true) by (vm_compute; reflexivity).
    rewrite E in X. destruct tr as [|[|[[|] c| | |]] tr]; try discriminate X. exists c. left. reflexivity.
Qed.
