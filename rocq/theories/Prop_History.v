(** C62: the executions of many tasks, characterised without configurations.
    C63: tasks on one key do not depend on tasks on other keys. *)
From Verif Require Import Base Time Effects EffectsFacts Keys HtmlForm SignedUrl Calls SpecTrace Conc SpecConc ConcFacts SpecHistory HistoryFacts
  Prop_Conc Demo Sim.

(** A history is possible exactly if every task follows its call, locks exclude each other, and reads see the last
    write. *)
Theorem C62_histories d base tr : (exists cfg, runs d base tr cfg) <-> history d base tr.
Proof. split; [intros [cfg H]; eapply runs_history; exact H|apply history_runs]. Qed.

Lemma nth_error_ext {A} (l m : list A) : (forall i, nth_error l i = nth_error m i) -> l = m.
Proof.
  revert m. induction l as [|x l IH]; intros [|y m] H; [reflexivity|specialize (H 0); discriminate H|specialize (H 0); discriminate H|].
  pose proof (H 0) as H0. cbn in H0. injection H0 as ->. f_equal. apply IH. intros i. exact (H (S i)).
Qed.

(** The history determines where every task is, who owns which lock and what every cache holds. *)
Theorem C62_determined d base tr c1 c2 : runs d base tr c1 -> runs d base tr c2 ->
  tasks c1 = tasks c2 /\ (forall id, owner c1 id = owner c2 id) /\ forall id, caches c1 id = caches c2 id.
Proof.
  intros H1 H2. split; [|split; [|apply (cache_fun _ _ _ _ _ H1 H2)]].
  - assert (L : length (tasks c1) = length (tasks c2)) by (rewrite <- (runs_spawns _ _ _ _ H1); apply (runs_spawns _ _ _ _ H2)).
    apply nth_error_ext. intros i. destruct (nth_error (tasks c1) i) as [[c s]|] eqn:E1.
    + destruct (nth_error (tasks c2) i) as [[c' s']|] eqn:E2.
      * destruct (runs_at_lsteps _ _ _ _ _ _ _ H1 E1) as (l & El & Ls).
        destruct (runs_at_lsteps _ _ _ _ _ _ _ H2 E2) as (l' & El' & Ls'). rewrite El in El'. injection El' as <- <-.
        rewrite (lsteps_fun _ _ _ _ _ Ls Ls'). reflexivity.
      * apply nth_error_None in E2. assert (nth_error (tasks c1) i <> None) as N by (rewrite E1; discriminate). apply nth_error_Some in N. lia.
    + symmetry. apply nth_error_None. apply nth_error_None in E1. lia.
  - intros id. destruct (owner c1 id) as [i|] eqn:O1.
    + symmetry. apply (holding_owner _ _ _ _ _ _ H2). apply (holding_owner _ _ _ _ _ _ H1). exact O1.
    + destruct (owner c2 id) as [i|] eqn:O2; [|reflexivity]. apply (holding_owner _ _ _ _ _ _ H2) in O2.
      apply (holding_owner _ _ _ _ _ _ H1) in O2. congruence.
Qed.

(** * C63 *)

Section restricted.
  Context (keep : nat -> bool).
  Local Notation f := (rank keep).
  Local Notation R := (restrict keep).

  Lemma rank_mono i j : i <= j -> f i <= f j.
  Proof.
    intros L. unfold rank. replace j with (i + (j - i)) by lia. rewrite seq_app, filter_app, app_length. lia.
  Qed.
  Lemma rank_S i : keep i = true -> f (S i) = S (f i).
  Proof. intros K. unfold rank. rewrite seq_S, filter_app, app_length. cbn. rewrite K. cbn. lia. Qed.
  Lemma rank_inj i j : keep i = true -> keep j = true -> f i = f j -> i = j.
  Proof.
    intros Ki Kj E. destruct (Nat.lt_trichotomy i j) as [L|[L|L]]; [|exact L|].
    - pose proof (rank_mono (S i) j L). rewrite (rank_S _ Ki) in H. lia.
    - pose proof (rank_mono (S j) i L). rewrite (rank_S _ Kj) in H. lia.
  Qed.

  Lemma restrict_app a b : R (a ++ b) = R a ++ R b.
  Proof. unfold restrict. rewrite filter_app, map_app. reflexivity. Qed.

  (** An event of the restricted history comes from one of the whole. *)
  Lemma restrict_split tr a' v' b' : R tr = a' ++ v' :: b' ->
    exists a v b, tr = a ++ v :: b /\ R a = a' /\ R b = b' /\ keep (index v) = true /\ v' = renumber f v.
  Proof.
    revert a'. induction tr as [|w tr IH]; intros a' E; [destruct a'; discriminate E|].
    unfold restrict in E. cbn [filter] in E. destruct (keep (index w)) eqn:K.
    - cbn [map] in E. destruct a' as [|x a']; cbn [app] in E; injection E as E0 E.
      + exists [], w, tr. auto.
      + apply IH in E. destruct E as (a & v & b & -> & Ea & Eb & Kv & Ev). exists (w :: a), v, b. split; [reflexivity|].
        split; [unfold restrict; cbn [filter]; rewrite K; cbn [map]; rewrite E0; f_equal; exact Ea|auto].
    - apply IH in E. destruct E as (a & v & b & -> & Ea & Eb & Kv & Ev). exists (w :: a), v, b. split; [reflexivity|].
      split; [unfold restrict; cbn [filter]; rewrite K; exact Ea|auto].
  Qed.

  Lemma restrict_in tr v : In v tr -> keep (index v) = true -> In (renumber f v) (R tr).
  Proof. intros I K. apply in_map. apply filter_In. auto. Qed.

  Lemma restrict_in_inv tr v' : In v' (R tr) -> exists v, In v tr /\ keep (index v) = true /\ v' = renumber f v.
  Proof. intros I. apply in_map_iff in I. destruct I as (v & <- & I). apply filter_In in I. exists v. tauto. Qed.

  Lemma index_renumber v : index (renumber f v) = f (index v).
  Proof. destruct v; reflexivity. Qed.
  Lemma of_task_index i v : of_task i v = Nat.eqb (index v) i.
  Proof. destruct v; reflexivity. Qed.

  Lemma restrict_task tr i : keep i = true -> filter (of_task (f i)) (R tr) = map (renumber f) (filter (of_task i) tr).
  Proof.
    intros K. unfold restrict. induction tr as [|v tr IH]; [reflexivity|]. cbn [filter].
    destruct (keep (index v)) eqn:Kv.
    - cbn [map filter]. rewrite !of_task_index, index_renumber. destruct (Nat.eqb_spec (index v) i) as [->|N].
      + rewrite Nat.eqb_refl. cbn [map]. f_equal. exact IH.
      + destruct (Nat.eqb_spec (f (index v)) (f i)) as [E|_]; [destruct (N (rank_inj _ _ Kv K E))|]. exact IH.
    - rewrite of_task_index. destruct (Nat.eqb_spec (index v) i) as [Ei|_]; [rewrite Ei in Kv; congruence|]. exact IH.
  Qed.

  Lemma behaves_renumber i p l : behaves i p l -> behaves (f i) p (map (renumber f) l).
  Proof. induction 1; cbn; constructor; assumption. Qed.

  (** The tasks started in a history are [0], [1], ... *)
  Lemma spawned_kept d base tr : history d base tr ->
    length (filter is_spawn (R tr)) = f (length (filter is_spawn tr)).
  Proof.
    induction tr as [|v tr IH] using rev_ind; intros H; [reflexivity|].
    specialize (IH (history_prefix _ _ _ _ H)). rewrite restrict_app, !filter_app, !app_length, IH.
    destruct v as [i c|i r|i e|i e]; try (unfold restrict; cbn; destruct (keep i); cbn; rewrite !Nat.add_0_r; reflexivity).
    destruct (h_spawn _ _ _ H tr i c [] eq_refl) as [-> _]. unfold restrict. cbn [filter index is_spawn length].
    destruct (keep (length (filter is_spawn tr))) eqn:K; cbn.
    - rewrite Nat.add_1_r. rewrite Nat.add_1_r. symmetry. apply rank_S. exact K.
    - unfold rank. rewrite Nat.add_1_r, seq_S, filter_app, app_length. cbn. rewrite K. cbn. lia.
  Qed.

  Lemma restrict_holding tr j' id : holding (R tr) j' id -> exists j, keep j = true /\ j' = f j /\ holding tr j id.
  Proof.
    intros (a' & b' & E & Nu & Ne). apply restrict_split in E. destruct E as (a & v & b & -> & <- & <- & K & Ev).
    destruct v as [|  |j e|]; try discriminate Ev. injection Ev as -> <-. exists j. split; [exact K|]. split; [reflexivity|].
    exists a, b. split; [reflexivity|]. split.
    - intros I. apply Nu. apply (restrict_in _ _ I K).
    - intros [e I]. apply Ne. exists e. apply (restrict_in _ _ I K).
  Qed.

  Lemma restrict_history d base tr cfg : runs d base tr cfg -> by_key keep tr -> history d base (R tr).
  Proof.
    intros H B. pose proof (runs_history _ _ _ _ H) as Hh. split.
    - intros a' i' c b' E. apply restrict_split in E. destruct E as (a & v & b & E & <- & <- & K & Ev).
      destruct v as [i c0| | |]; try discriminate Ev. injection Ev as -> <-.
      destruct (h_spawn _ _ _ Hh _ _ _ _ E) as [Ei F]. split; [|exact F].
      destruct (runs_split _ _ _ _ _ _ _ H E) as (c1 & _ & H1 & _). rewrite (spawned_kept _ _ _ (runs_history _ _ _ _ H1)). f_equal. exact Ei.
    - intros i'. destruct (filter (of_task i') (R tr)) as [|v' l'] eqn:E; [auto|]. right.
      assert (I : In v' (filter (of_task i') (R tr))) by (rewrite E; left; reflexivity). apply filter_In in I. destruct I as [I T].
      apply restrict_in_inv in I. destruct I as (v & I & K & ->). rewrite of_task_index, index_renumber in T. apply Nat.eqb_eq in T. subst i'.
      rewrite (restrict_task _ _ K) in E. destruct (h_task _ _ _ Hh (index v)) as [X|(c & l & X & Bh)]; rewrite X in E; [discriminate E|].
      cbn [map renumber] in E. injection E as <- <-. exists c. eexists. split; [reflexivity|]. apply behaves_renumber. exact Bh.
    - intros a' i' id b' E j' Hj. apply restrict_split in E. destruct E as (a & v & b & E & <- & <- & K & Ev).
      destruct v as [| |i e|]; try discriminate Ev. injection Ev as -> <-.
      apply restrict_holding in Hj. destruct Hj as (j & Kj & -> & Hj). exact (h_lock _ _ _ Hh _ _ _ _ E j Hj).
    - intros a' i' id c b' E. apply restrict_split in E. destruct E as (a & v & b & E & <- & <- & K & Ev).
      destruct v as [| |i e|]; try discriminate Ev. injection Ev as -> <-.
      destruct (h_read _ _ _ Hh _ _ _ _ _ E) as [W|[W ->]].
      2:{ right. split; [|reflexivity]. intros j' x I. apply restrict_in_inv in I. destruct I as (v & I & _ & Ev).
          destruct v as [| |j y|]; try discriminate Ev. injection Ev as _ <-. exact (W _ _ I). }
      left. destruct W as (x & j & y & Ea & N).
      assert (Ur : uses_key tr i id).
      { destruct (runs_split _ _ _ _ _ _ _ H E) as (c1 & c2 & H1 & S & _). apply (do_next _ _ _ _ _ _ _ H1) in S.
        destruct S as (c0 & s & A & _ & X). cbn [next_ok] in X. destruct X as [_ X].
        rewrite E. apply uses_key_mono. apply (uses_key_is _ _ _ _ _ _ H1). eauto. }
      assert (Uw : uses_key tr j id).
      { assert (E' : tr = x ++ GDo j (VSet id c) :: (y ++ GDo i (VGet id c) :: b)) by (rewrite E, Ea, <- app_assoc; reflexivity).
        destruct (write_refreshed _ _ _ _ _ _ _ _ _ H E') as (_ & _ & _ & _ & _ & _ & U & _). exact U. }
      assert (Kj : keep j = true) by (rewrite (B _ _ _ Uw Ur); exact K).
      exists (R x), (f j), (R y). split.
      + rewrite Ea, restrict_app. f_equal. unfold restrict. cbn [filter index]. rewrite Kj. reflexivity.
      + intros j' z I. apply restrict_in_inv in I. destruct I as (v & I & _ & Ev).
        destruct v as [| |j0 e|]; try discriminate Ev. injection Ev as _ <-. exact (N _ _ I).
  Qed.
End restricted.

(** What the kept tasks do is possible without the others, leads every kept task to the same point, and leaves the same
    content in the caches of their keys. *)
Theorem C63_independent d base tr cfg keep : runs d base tr cfg -> by_key keep tr ->
  exists cfg', runs d base (restrict keep tr) cfg' /\
    (forall i c s, keep i = true -> at_ cfg i c s -> at_ cfg' (rank keep i) c s) /\
    (forall i id, keep i = true -> uses_key tr i id -> caches cfg' id = caches cfg id) /\
    (forall i id, keep i = true -> owner cfg id = Some i -> owner cfg' id = Some (rank keep i)).
Proof.
  intros H B. destruct (history_runs _ _ _ (restrict_history keep _ _ _ _ H B)) as [cfg' H']. exists cfg'. split; [exact H'|].
  assert (At : forall i c s, keep i = true -> at_ cfg i c s -> at_ cfg' (rank keep i) c s).
  { intros i c s K A. destruct (runs_at_lsteps _ _ _ _ _ _ _ H A) as (l & El & Ls).
    assert (El' : filter (of_task (rank keep i)) (restrict keep tr) = GSpawn (rank keep i) c :: map (renumber (rank keep)) l)
      by (rewrite (restrict_task keep _ _ K), El; reflexivity).
    assert (Rc : runs_call (restrict keep tr) (rank keep i) c).
    { unfold runs_call. apply (filter_In (of_task (rank keep i))). rewrite El'. left. reflexivity. }
    apply (li_spawn _ _ _ _ (runs_local _ _ _ _ H')) in Rc. destruct Rc as [s' A'].
    destruct (runs_at_lsteps _ _ _ _ _ _ _ H' A') as (l' & X & Ls'). rewrite El' in X. injection X as <-.
    assert (G : forall s0 l s1, lsteps i s0 l s1 -> lsteps (rank keep i) s0 (map (renumber (rank keep)) l) s1).
    { clear. induction 1 as [|s v s' l s'' H1 H2 IH]; [constructor|]. cbn [map]. econstructor; [|exact IH]. destruct H1; cbn; constructor; assumption. }
    apply G in Ls. rewrite (lsteps_fun _ _ _ _ _ Ls Ls'). exact A'. }
  split; [exact At|]. split.
  - intros i id K U. destruct (runs_cache _ _ _ _ H' id) as [[W ->]|W]; destruct (runs_cache _ _ _ _ H id) as [[V ->]|V]; try reflexivity.
    + exfalso. destruct V as (a & j & b & E & _). destruct (write_refreshed _ _ _ _ _ _ _ _ _ H E) as (_ & _ & _ & _ & _ & _ & Uw & _).
      apply (W (rank keep j) (caches cfg id)). rewrite E, restrict_app. apply in_or_app. right. unfold restrict. cbn [filter index].
      rewrite (B _ _ _ Uw U), K. left. reflexivity.
    + exfalso. destruct W as (a & j & b & E & _).
      assert (I : In (GDo j (VSet id (caches cfg' id))) (restrict keep tr)) by (rewrite E; apply in_or_app; right; left; reflexivity).
      apply restrict_in_inv in I. destruct I as (v & I & _ & Ev). destruct v as [| |j0 e|]; try discriminate Ev. injection Ev as _ <-. exact (V _ _ I).
    + destruct V as (a & j & b & E & N). destruct (write_refreshed _ _ _ _ _ _ _ _ _ H E) as (_ & _ & _ & _ & _ & _ & Uw & _).
      apply (written_fun _ _ _ _ W). exists (restrict keep a), (rank keep j), (restrict keep b). split.
      * rewrite E at 1. rewrite restrict_app. f_equal. unfold restrict. cbn [filter index]. rewrite (B _ _ _ Uw U), K. reflexivity.
      * intros j' x I. apply restrict_in_inv in I. destruct I as (v & I & _ & Ev). destruct v as [| |j0 e|]; try discriminate Ev. injection Ev as _ <-. exact (N _ _ I).
  - intros i id K O. apply (holding_owner _ _ _ _ _ _ H) in O. apply (holding_owner _ _ _ _ _ _ H').
    destruct O as (a & b & E & Nu & Ne). exists (restrict keep a), (restrict keep b). split.
    + rewrite E, restrict_app. f_equal. unfold restrict. cbn [filter index]. rewrite K. reflexivity.
    + split.
      * intros I. apply restrict_in_inv in I. destruct I as (v & I & Kv & Ev). destruct v as [| |j e|]; try discriminate Ev. injection Ev as Ej <-.
        cbn in Kv. apply (rank_inj keep _ _ K Kv) in Ej. subst j. exact (Nu I).
      * intros [e I]. apply restrict_in_inv in I. destruct I as (v & I & Kv & Ev). destruct v as [| | |j e0]; try discriminate Ev. injection Ev as Ej <-.
        cbn in Kv. apply (rank_inj keep _ _ K Kv) in Ej. subst j. apply Ne. exists e. exact I.
Qed.

(** Three forms, two of them on one key, and the third on another: a history in which the third task's refresh falls between the
    events of the others. *)
Definition demo_token2 : bound_token := {| bt_id := 8; bt_base_url := B "http://metadata.google.internal" |}.
Definition demo_bound_form2 : call := CallForm (demo_form (KBoundToken demo_token2) true).
Definition demo_three : list move :=
  [MSpawn demo_bound_form; MSpawn demo_bound_form2; MSpawn demo_bound_form;
   MStep 0 RUnit; MStep 1 RUnit; MStep 0 RUnit; MStep 1 RUnit; MStep 0 RUnit; MStep 1 RUnit; MStep 1 email_ok; MStep 0 email_ok;
   MStep 0 RUnit; MStep 0 token_ok; MStep 1 RUnit; MStep 0 (RNow demo_time); MStep 0 RUnit; MStep 0 RUnit; MStep 2 RUnit; MStep 2 RUnit].
Definition keep_not_1 (i : nat) : bool := negb (Nat.eqb i 1).
Definition demo_three_history : list gevent := sim demo_deps demo_base demo_three.

(** Whether the tasks that use key 7 are exactly those that [keep] keeps. *)
Definition keeps_7 (keep : nat -> bool) (v : gevent) : bool :=
  match v with
  | GSpawn i c => match call_key c with Some (KBoundToken bt) => Bool.eqb (keep i) (N.eqb (bt_id bt) 7) | _ => true end
  | _ => true
  end.
Lemma keeps_7_by_key keep tr : forallb (keeps_7 keep) tr = true -> by_key keep tr.
Proof.
  intros F. rewrite forallb_forall in F.
  assert (G : forall i id, uses_key tr i id -> keep i = N.eqb id 7).
  { intros i id (c & bt & R & K & <-). specialize (F _ R). cbn [keeps_7] in F. rewrite K in F. apply Bool.eqb_prop in F. exact F. }
  intros i j id Ui Uj. rewrite (G _ _ Ui), (G _ _ Uj). reflexivity.
Qed.

Lemma pair_inv {X Y} (x x' : X) (y y' : Y) : (x, y) = (x', y') -> x = x' /\ y = y'.
Proof. intros E. injection E as -> ->. auto. Qed.

Lemma demo_three_runs : exists cfg, runs demo_deps demo_base demo_three_history cfg /\ owner cfg 7%N = Some 2 /\ owner cfg 8%N = Some 1.
Proof.
  destruct (sim_state demo_deps demo_base demo_three (fun cfg => (owner cfg 7%N, owner cfg 8%N)) (Some 2, Some 1)) as (cfg & H & O); [vm_compute; reflexivity|].
  exists cfg. split; [exact H|]. apply (pair_inv _ _ _ _ O).
Qed.
Lemma demo_three_by_key : by_key keep_not_1 demo_three_history.
Proof. apply keeps_7_by_key. vm_compute. reflexivity. Qed.
Lemma demo_three_length : length (restrict keep_not_1 demo_three_history) = 13.
Proof. vm_compute. reflexivity. Qed.
Global Opaque demo_three_history.

Example C63_case : exists cfg,
  runs demo_deps demo_base demo_three_history cfg /\ by_key keep_not_1 demo_three_history /\ owner cfg 7%N = Some 2 /\ owner cfg 8%N = Some 1 /\
  length (restrict keep_not_1 demo_three_history) = 13.
Proof.
  destruct demo_three_runs as (cfg & H & O1 & O2). exists cfg. split; [exact H|]. split; [exact demo_three_by_key|].
  split; [exact O1|]. split; [exact O2|exact demo_three_length].
Qed.

(** The same history without the second task, as a history. *)
Example C62_case : history demo_deps demo_base (restrict keep_not_1 demo_three_history).
Proof.
  destruct demo_three_runs as (cfg & H & _). destruct (C63_independent _ _ _ _ _ H demo_three_by_key) as (cfg' & H' & _).
  apply C62_histories. exists cfg'. exact H'.
Qed.
