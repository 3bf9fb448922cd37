(** Facts on the lock with a queue. *)
From Verif Require Import Base Effects EffectsFacts Keys Calls Conc Fifo SpecTrace SpecConc SpecFifo ConcFacts.

Lemma plain_snoc tr v : plain_history (tr ++ [v]) = plain_history tr ++ match v with FDo w => [w] | FAsk _ _ => [] end.
Proof. unfold plain_history. rewrite flat_map_app. cbn. rewrite app_nil_r. reflexivity. Qed.

(** * Into [Conc] *)

Lemma fruns_core d base tr f : fruns d base tr f -> runs d base (plain_history tr) (f_core f).
Proof.
  induction 1 as [|tr f v f' H IH S]; [constructor|]. rewrite plain_snoc.
  destruct S as [f v cfg S K|f i c id k A O Nh Nq|f i id cfg S Hn|f i id cfg S Hn|f i id cfg S|f i e cfg S Ne]; cbn [move_core hand_over drop_task f_core];
    try (econstructor; [exact IH|exact S]).
  rewrite app_nil_r. exact IH.
Qed.

Lemma fruns_split d base tr f a v b : fruns d base tr f -> tr = a ++ v :: b ->
  exists f1 f2, fruns d base a f1 /\ fstep d base f1 v f2 /\ fruns d base (a ++ [v]) f2.
Proof.
  intros H. revert a v b. induction H as [|tr f w f' H IH S]; intros a v b E; [destruct a; discriminate E|].
  destruct b as [|x b] using rev_ind.
  - apply app_inj_tail in E. destruct E as [-> ->]. exists f, f'. split; [exact H|]. split; [exact S|]. econstructor; eassumption.
  - rewrite app_comm_cons, app_assoc in E. apply app_inj_tail in E. destruct E as [E _]. exact (IH _ _ _ E).
Qed.

Lemma NoDup_app_snoc_ {A} (l : list A) x : NoDup l -> ~ In x l -> NoDup (l ++ [x]).
Proof. intros N I. apply NoDup_rev in N. rewrite <- (rev_involutive (l ++ [x])), rev_app_distr. apply NoDup_rev. constructor; [|exact N]. intros J. apply in_rev in J. exact (I J). Qed.

(** * The line of a key, read off the history *)

Definition line1 (id : N) (l : list nat) (v : fevent) : list nat :=
  match v with
  | FAsk i x => if N.eqb x id then l ++ [i] else l
  | FDo (GDo i (VLock x)) => if N.eqb x id then leave i l else l
  | FDo (GEnd i _) => leave i l
  | _ => l
  end.
Definition line (id : N) (tr : list fevent) : list nat := fold_left (line1 id) tr [].

Lemma line_snoc id tr v : line id (tr ++ [v]) = line1 id (line id tr) v.
Proof. unfold line. rewrite fold_left_app. reflexivity. Qed.

Lemma leave_in i j q : In j (leave i q) <-> In j q /\ j <> i.
Proof. unfold leave. rewrite filter_In, Bool.negb_true_iff, Nat.eqb_neq. reflexivity. Qed.
Lemma leave_none i q : ~ In i q -> leave i q = q.
Proof.
  induction q as [|j q IH]; [reflexivity|]. intros N. unfold leave in *. cbn [filter]. destruct (Nat.eqb_spec j i) as [->|]; [destruct N; left; reflexivity|].
  cbn [negb]. rewrite IH; [reflexivity|]. intros I. apply N. right. exact I.
Qed.
Lemma leave_nodup i q : NoDup q -> NoDup (leave i q).
Proof. apply NoDup_filter. Qed.
Lemma leave_head i q : NoDup (i :: q) -> leave i (i :: q) = q.
Proof. intros N. inversion N; subst. unfold leave. cbn [filter]. rewrite Nat.eqb_refl. cbn [negb]. apply leave_none. assumption. Qed.
Lemma leave_cons i j q : j <> i -> leave i (j :: q) = j :: leave i q.
Proof. intros N. unfold leave. cbn [filter]. destruct (Nat.eqb_spec j i); [contradiction|reflexivity]. Qed.

(** The line as the machine keeps it. *)
Definition in_line (f : fconfig) (id : N) : list nat :=
  match f_handed f id with Some h => h :: f_queue f id | None => f_queue f id end.

Lemma hd_tl (q : list nat) : match hd_error q with Some h => h :: tl q | None => tl q end = q.
Proof. destruct q; reflexivity. Qed.

Record fifo_inv (tr : list fevent) (f : fconfig) : Prop := {
  fi_line id : in_line f id = line id tr;
  fi_nodup id : NoDup (in_line f id);
  fi_at id i : In i (in_line f id) -> exists c k, at_ (f_core f) i c (Running (Act (ELock id) k));
  fi_free id : owner (f_core f) id = None -> f_handed f id = None -> f_queue f id = [];
  fi_owned id : owner (f_core f) id <> None -> f_handed f id = None
}.

(** A step of a waiting task takes the lock it waits for or cancels the task. *)
Lemma waiting_step d base cfg v cfg' i c id k : cstep d base cfg v cfg' -> at_ cfg i c (Running (Act (ELock id) k)) -> of_task i v = true ->
  v = GDo i (VLock id) \/ v = GEnd i Cancelled.
Proof.
  destruct 1 as [cfg c0 F|cfg j c0 k0 t A|cfg j c0 r k0 A|cfg j c0 r k0 o A|cfg j c0 id0 k0 A O|cfg j c0 id0 k0 A|cfg j c0 id0 k0 A|cfg j c0 id0 x k0 A|cfg j c0 a A|cfg j c0 s0 A|cfg j c0 s0 A L];
    cbn [of_task]; intros W E; apply Nat.eqb_eq in E; subst; auto;
    try (destruct (at_fun _ _ _ _ _ _ A W) as [_ X]; try discriminate X; injection X; intros; subst; try discriminate; auto; fail).
  apply at_lt in W. lia.
Qed.

Lemma owner_other d base cfg v cfg' : cstep d base cfg v cfg' -> keeps_locks v -> owner cfg' = owner cfg.
Proof. destruct 1; cbn [keeps_locks]; intros K; try reflexivity; destruct K. Qed.

Lemma owner_lock d base cfg i id cfg' : cstep d base cfg (GDo i (VLock id)) cfg' ->
  owner cfg id = None /\ forall x, owner cfg' x = if N.eqb x id then Some i else owner cfg x.
Proof. intros S. inversion S; subst. split; [assumption|reflexivity]. Qed.

Lemma owner_unlock d base cfg i id cfg' : cstep d base cfg (GDo i (VUnlock id)) cfg' ->
  forall x, owner cfg' x = if N.eqb x id then None else owner cfg x.
Proof. intros S. inversion S; subst. reflexivity. Qed.

Lemma owner_drop d base cfg i e cfg' : cstep d base cfg (GEnd i e) cfg' -> (forall a, e <> Returned a) ->
  forall x, owner cfg' x = match owner cfg x with Some j => if Nat.eqb j i then None else Some j | None => None end.
Proof. intros S Ne. inversion S; subst; [destruct (Ne a eq_refl)|reflexivity|reflexivity]. Qed.

Lemma fruns_inv d base tr f : fruns d base tr f -> fifo_inv tr f.
Proof.
  induction 1 as [|tr f v f' H IH S].
  { split; intros id; cbn; auto; [constructor|intros i []]. }
  pose proof (fruns_core _ _ _ _ H) as Hc. destruct IH as [L N A F O].
  (* a task of the line that does not move stays where it is *)
  assert (Stay : forall w cfg i id, cstep d base (f_core f) w cfg -> In i (in_line f id) ->
     w <> GDo i (VLock id) -> (forall e, w <> GEnd i e) -> exists c k, at_ cfg i c (Running (Act (ELock id) k))).
  { intros w cfg i id S' I N1 N2. destruct (A _ _ I) as (c & k & W). exists c, k.
    destruct (of_task i w) eqn:T; [|apply (step_frame _ _ _ _ _ _ _ _ S' T); exact W].
    destruct (waiting_step _ _ _ _ _ _ _ _ _ S' W T) as [X|X]; [destruct (N1 X)|destruct (N2 _ X)]. }
  destruct S as [f v cfg S K|f i c id k W B Nh Nq|f i id cfg S Hn|f i id cfg S Hn|f i id cfg S|f i e cfg S Ne].
  - (* other *)
    assert (Lv : forall id, line1 id (line id tr) (FDo v) = line id tr).
    { intros id. destruct v as [j c|j r|j x|j e]; try reflexivity.
      - destruct x; try reflexivity; destruct K.
      - cbn [line1]. apply leave_none. rewrite <- L. intros I. destruct (A _ _ I) as (c & k & W).
        destruct (waiting_step _ _ _ _ _ _ _ _ _ S W (Nat.eqb_refl j)) as [X|X]; [discriminate X|]. injection X as ->. destruct K. }
    split; intros id; cbn [move_core f_core f_handed f_queue].
    + rewrite line_snoc, Lv. apply L.
    + apply N.
    + intros i I. apply (Stay _ _ _ _ S I).
      * intros ->. destruct K.
      * intros e ->. destruct (A _ _ I) as (c & k & W).
        destruct (waiting_step _ _ _ _ _ _ _ _ _ S W (Nat.eqb_refl i)) as [X|X]; [discriminate X|]. injection X as ->. destruct K.
    + rewrite (owner_other _ _ _ _ _ S K). apply F.
    + rewrite (owner_other _ _ _ _ _ S K). apply O.
  - (* ask *)
    assert (E : forall x, in_line {| f_core := f_core f; f_handed := f_handed f; f_queue := fun y => if N.eqb y id then f_queue f id ++ [i] else f_queue f y |} x
      = if N.eqb x id then in_line f id ++ [i] else in_line f x).
    { intros x. unfold in_line. cbn [f_handed f_queue]. destruct (N.eqb_spec x id) as [->|]; [|reflexivity]. destruct (f_handed f id); reflexivity. }
    assert (Nin : ~ In i (in_line f id)).
    { unfold in_line. destruct (f_handed f id) as [h|]; [|exact Nq]. intros [->|I]; [apply Nh; reflexivity|exact (Nq I)]. }
    split; intros x; try rewrite E.
    + rewrite line_snoc. cbn [line1]. rewrite (N.eqb_sym id x), <- !L. destruct (N.eqb_spec x id) as [->|]; reflexivity.
    + destruct (N.eqb_spec x id) as [->|]; [|apply N]. apply NoDup_app_snoc_; [apply N|exact Nin].
    + destruct (N.eqb_spec x id) as [->|]; [|apply A]. cbn [f_core]. intros j I. apply in_snoc in I. destruct I as [I| ->]; [apply A; exact I|eauto].
    + cbn [f_core f_handed f_queue]. destruct (N.eqb_spec x id) as [->|]; [|apply F]. intros O1 O2. destruct B; contradiction.
    + apply O.
  - (* lock *)
    destruct (owner_lock _ _ _ _ _ _ S) as [On Oc].
    assert (Q : in_line f id = []) by (unfold in_line; rewrite Hn; apply F; assumption).
    split; intros x; cbn [move_core f_core f_handed f_queue].
    + rewrite line_snoc. cbn [line1]. rewrite <- L. change (in_line (move_core f cfg) x) with (in_line f x).
      destruct (N.eqb_spec id x) as [<-|]; [rewrite Q; reflexivity|reflexivity].
    + apply N.
    + intros j I. change (In j (in_line f x)) in I. apply (Stay _ _ _ _ S I); [|discriminate].
      intros E. injection E as -> ->. rewrite Q in I. destruct I.
    + rewrite Oc. destruct (N.eqb_spec x id) as [->|]; [discriminate|apply F].
    + rewrite Oc. destruct (N.eqb_spec x id) as [->|]; [intros _; exact Hn|apply O].
  - (* granted *)
    destruct (owner_lock _ _ _ _ _ _ S) as [On Oc].
    assert (E : forall x, in_line {| f_core := cfg; f_handed := fun y => if N.eqb y id then None else f_handed f y; f_queue := f_queue f |} x
      = if N.eqb x id then leave i (in_line f id) else in_line f x).
    { intros x. unfold in_line at 1. cbn [f_handed f_queue]. destruct (N.eqb_spec x id) as [->|]; [|reflexivity].
      unfold in_line. rewrite Hn. symmetry. apply leave_head. specialize (N id). unfold in_line in N. rewrite Hn in N. exact N. }
    split; intros x; try rewrite E.
    + rewrite line_snoc. cbn [line1]. rewrite (N.eqb_sym id x), <- !L. destruct (N.eqb_spec x id) as [->|]; reflexivity.
    + destruct (N.eqb_spec x id) as [->|]; [apply leave_nodup|]; apply N.
    + cbn [f_core]. intros j I. assert (I' : In j (in_line f x) /\ (x = id -> j <> i)).
      { destruct (N.eqb_spec x id) as [->|]; [apply leave_in in I; tauto|tauto]. }
      destruct I' as [I' Nj]. apply (Stay _ _ _ _ S I'); [|discriminate]. intros X. injection X as <- <-. apply Nj; reflexivity.
    + cbn [f_core f_handed f_queue]. rewrite Oc. destruct (N.eqb_spec x id) as [->|]; [discriminate|apply F].
    + cbn [f_core f_handed f_queue]. rewrite Oc. destruct (N.eqb_spec x id) as [->|]; [reflexivity|apply O].
  - (* unlock *)
    pose proof (owner_unlock _ _ _ _ _ _ S) as Oc.
    pose proof (lock_event _ _ _ _ _ _ _ id Hc S eq_refl) as Oi.
    assert (Hn : f_handed f id = None) by (apply O; congruence).
    assert (E : forall x, in_line (hand_over (move_core f cfg) id) x = in_line f x).
    { intros x. unfold in_line. cbn [hand_over move_core f_handed f_queue]. destruct (N.eqb_spec x id) as [->|]; [|reflexivity]. rewrite hd_tl, Hn. reflexivity. }
    split; intros x; try rewrite E.
    + rewrite line_snoc. cbn [line1]. apply L.
    + apply N.
    + cbn [hand_over move_core f_core]. intros j I. apply (Stay _ _ _ _ S I); discriminate.
    + cbn [hand_over move_core f_core f_handed f_queue]. rewrite Oc. destruct (N.eqb_spec x id) as [->|]; [|apply F]. destruct (f_queue f id); [reflexivity|discriminate].
    + cbn [hand_over move_core f_core f_handed f_queue]. rewrite Oc. destruct (N.eqb_spec x id) as [->|]; [congruence|apply O].
  - (* drop *)
    pose proof (owner_drop _ _ _ _ _ _ S Ne) as Oc.
    set (gone := fun x => (match owner (f_core f) x with Some j => Nat.eqb j i | None => false end
          || match f_handed f x with Some j => Nat.eqb j i | None => false end)%bool).
    assert (E : forall x, in_line (drop_task (move_core f cfg) (f_core f) i) x = leave i (in_line f x)).
    { intros x. unfold in_line at 1. cbn [drop_task move_core f_handed f_queue]. change (_ || _)%bool with (gone x). destruct (gone x) eqn:G.
      - rewrite hd_tl. unfold in_line. unfold gone in G. apply Bool.orb_true_iff in G. destruct (f_handed f x) as [h|] eqn:Hh; [|reflexivity].
        destruct G as [G|G]; [|apply Nat.eqb_eq in G; subst; unfold leave; cbn [filter]; rewrite Nat.eqb_refl; reflexivity].
        assert (X : f_handed f x = None) by (apply O; destruct (owner (f_core f) x); [discriminate|discriminate G]). congruence.
      - unfold in_line. unfold gone in G. apply Bool.orb_false_iff in G. destruct G as [_ G]. destruct (f_handed f x) as [h|]; [|reflexivity].
        apply Nat.eqb_neq in G. rewrite leave_cons by exact G. reflexivity. }
    split; intros x; try rewrite E.
    + rewrite line_snoc, <- L. reflexivity.
    + apply leave_nodup, N.
    + cbn [drop_task move_core f_core]. intros j I. apply leave_in in I. destruct I as [I Nj]. apply (Stay _ _ _ _ S I); [discriminate|].
      intros e' X. injection X as <- _. apply Nj; reflexivity.
    + cbn [drop_task move_core f_core f_handed f_queue]. rewrite Oc. change (_ || _)%bool with (gone x). intros O1. destruct (gone x) eqn:G.
      * destruct (leave i (f_queue f x)); [reflexivity|discriminate].
      * intros Hh. unfold gone in G. apply Bool.orb_false_iff in G. destruct G as [G _]. rewrite F; [reflexivity| |exact Hh].
        destruct (owner (f_core f) x) as [j|]; [|reflexivity]. rewrite G in O1. discriminate O1.
    + cbn [drop_task move_core f_core f_handed f_queue]. rewrite Oc. change (_ || _)%bool with (gone x). intros O1.
      assert (O2 : owner (f_core f) x <> None) by (destruct (owner (f_core f) x); [discriminate|exact O1]).
      pose proof (O _ O2) as Hh. unfold gone. rewrite Hh. destruct (owner (f_core f) x) as [j|]; [|reflexivity]. destruct (Nat.eqb j i); [destruct (O1 eq_refl)|reflexivity].
Qed.
