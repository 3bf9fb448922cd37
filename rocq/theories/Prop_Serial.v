(** C64: every execution is equivalent to one in which every lookup happens at once. *)
From Verif Require Import Base Time Effects EffectsFacts Keys HtmlForm SignedUrl Calls SpecTrace Conc SpecConc ConcFacts SpecHistory HistoryFacts
  Prop_Conc Prop_History Demo Sim.

Lemma filter_split {A} (f : A -> bool) l a' x b' : filter f l = a' ++ x :: b' ->
  exists a b, l = a ++ x :: b /\ filter f a = a' /\ filter f b = b'.
Proof.
  revert a'. induction l as [|y l IH]; intros a' E; [destruct a'; discriminate E|]. cbn [filter] in E. destruct (f y) eqn:Fy.
  - destruct a' as [|z a']; cbn [app] in E; injection E as -> E.
    + exists [], l. auto.
    + apply IH in E. destruct E as (a & b & -> & <- & <-). exists (z :: a), b. split; [reflexivity|]. split; [cbn; rewrite Fy; reflexivity|reflexivity].
  - apply IH in E. destruct E as (a & b & -> & <- & <-). exists (y :: a), b. split; [reflexivity|]. split; [cbn; rewrite Fy; reflexivity|reflexivity].
Qed.

Lemma filter_nothing {A} (f : A -> bool) l : (forall x, In x l -> f x = false) -> filter f l = [].
Proof. induction l as [|x l IH]; intros H; [reflexivity|]. cbn. rewrite (H x (or_introl eq_refl)). apply IH. intros y I. apply H. right. exact I. Qed.

(** Holding a lock depends on the task's own events only. *)
Lemma holding_filter tr i id : holding tr i id <-> holding (filter (of_task i) tr) i id.
Proof.
  assert (T : forall e, of_task i (GDo i e) = true) by (intros; apply Nat.eqb_refl).
  assert (T' : forall e, of_task i (GEnd i e) = true) by (intros; apply Nat.eqb_refl).
  split.
  - intros (a & b & -> & Nu & Ne). exists (filter (of_task i) a), (filter (of_task i) b). split.
    + rewrite filter_app. cbn [filter]. rewrite T. reflexivity.
    + split; [intros I; apply Nu; apply filter_In in I; tauto|]. intros [e I]. apply Ne. exists e. apply filter_In in I. tauto.
  - intros (a' & b' & E & Nu & Ne). apply filter_split in E. destruct E as (a & b & -> & <- & <-). exists a, b. split; [reflexivity|]. split.
    + intros I. apply Nu. apply filter_In. split; [exact I|apply T].
    + intros [e I]. apply Ne. exists e. apply filter_In. split; [exact I|apply T'].
Qed.

(** The last write of a key depends on the events on that key only. *)
Lemma written_filter tr id c : written tr id c <-> written (filter (on_key id) tr) id c.
Proof.
  assert (T : forall i x, on_key id (GDo i (VSet id x)) = true) by (intros; apply N.eqb_refl).
  split.
  - intros (a & i & b & -> & N). exists (filter (on_key id) a), i, (filter (on_key id) b). split.
    + rewrite filter_app. cbn [filter]. rewrite T. reflexivity.
    + intros j x I. apply filter_In in I. apply (N j x). tauto.
  - intros (a' & i & b' & E & N). apply filter_split in E. destruct E as (a & b & -> & <- & <-). exists a, i, b. split; [reflexivity|].
    intros j x I. apply (N j x). apply filter_In. auto.
Qed.
Lemma never_filter tr id : never_written tr id <-> never_written (filter (on_key id) tr) id.
Proof.
  split; intros N j x I; apply (N j x).
  - apply filter_In in I. tauto.
  - apply filter_In. split; [exact I|]. apply N.eqb_refl.
Qed.

(** Two histories that agree per task, per key and in the order of starts. *)
Record same (tr tr' : list gevent) : Prop := {
  s_task i : filter (of_task i) tr' = filter (of_task i) tr;
  s_key id : filter (on_key id) tr' = filter (on_key id) tr;
  s_spawn : filter is_spawn tr' = filter is_spawn tr
}.

Lemma same_holding tr tr' i id : same tr tr' -> holding tr' i id <-> holding tr i id.
Proof. intros S. rewrite (holding_filter tr'), (holding_filter tr), (s_task _ _ S). reflexivity. Qed.

Lemma same_snoc tr tr' v : same tr tr' -> same (tr ++ [v]) (tr' ++ [v]).
Proof.
  intros [T K P]. split; [intros i|intros id|]; rewrite !filter_app.
  - rewrite T. reflexivity.
  - rewrite K. reflexivity.
  - rewrite P. reflexivity.
Qed.

Lemma snoc_split {A} (l : list A) v a x b : l ++ [v] = a ++ x :: b -> (b = [] /\ x = v /\ a = l) \/ exists b', b = b' ++ [v] /\ l = a ++ x :: b'.
Proof.
  destruct b as [|y b _] using rev_ind; intros E.
  - left. apply app_inj_tail in E. destruct E as [-> ->]. auto.
  - right. exists b. change (a ++ x :: b ++ [y]) with (a ++ (x :: b) ++ [y]) in E. rewrite app_assoc in E. apply app_inj_tail in E.
    destruct E as [-> ->]. auto.
Qed.

Lemma history_snoc d base tr tr' v : history d base (tr ++ [v]) -> history d base tr' -> same tr tr' -> history d base (tr' ++ [v]).
Proof.
  intros H H' S. split.
  - intros a i c b E. apply snoc_split in E. destruct E as [(-> & <- & ->)|(b' & -> & ->)].
    + rewrite (s_spawn _ _ S). exact (h_spawn _ _ _ H tr i c [] eq_refl).
    + exact (h_spawn _ _ _ H' _ _ _ _ eq_refl).
  - intros i. rewrite filter_app, (s_task _ _ S), <- filter_app. apply (h_task _ _ _ H).
  - intros a i id b E j Hj. apply snoc_split in E. destruct E as [(-> & <- & ->)|(b' & -> & ->)].
    + apply (same_holding _ _ _ _ S) in Hj. exact (h_lock _ _ _ H tr i id [] eq_refl j Hj).
    + exact (h_lock _ _ _ H' _ _ _ _ eq_refl j Hj).
  - intros a i id c b E. apply snoc_split in E. destruct E as [(-> & <- & ->)|(b' & -> & ->)].
    + rewrite written_filter, never_filter, (s_key _ _ S), <- written_filter, <- never_filter. exact (h_read _ _ _ H tr i id c [] eq_refl).
    + exact (h_read _ _ _ H' _ _ _ _ _ eq_refl).
Qed.

Lemma mid_split {A} (x : list A) v c a w b : x ++ v :: c = a ++ w :: b ->
  (exists b', x = a ++ w :: b' /\ b = b' ++ v :: c) \/ (a = x /\ w = v /\ b = c) \/ (exists c1, c = c1 ++ w :: b /\ a = x ++ v :: c1).
Proof.
  revert a. induction x as [|y x IH]; intros [|z a] E; cbn [app] in E; injection E as E0 E.
  - right. left. auto.
  - right. right. exists a. subst. auto.
  - left. exists x. subst. auto.
  - subst z. apply IH in E. destruct E as [(b' & -> & ->)|[(-> & -> & ->)|(c1 & -> & ->)]].
    + left. exists b'. auto.
    + right. left. auto.
    + right. right. exists c1. auto.
Qed.

(** The key an event is on. *)
Definition ekey (v : gevent) : option N :=
  match v with GDo _ e => event_id e | _ => None end.
Lemma on_key_ekey id v : on_key id v = true <-> ekey v = Some id.
Proof.
  destruct v as [| |i e|]; cbn; try (split; discriminate). destruct e; cbn; try (split; discriminate);
    rewrite N.eqb_eq; split; congruence.
Qed.

(** An event can be moved forward over events of other tasks that are not on its key. *)
Lemma history_move d base x c v : history d base (x ++ c ++ [v]) ->
  (forall w, In w c -> of_task (index v) w = false) -> is_spawn v = false -> (forall i id, v <> GDo i (VLock id)) ->
  (forall w id, In w c -> ekey v = Some id -> on_key id w = false) ->
  history d base (x ++ v :: c) /\ same (x ++ c ++ [v]) (x ++ v :: c).
Proof.
  intros H N Ns Nl Nk.
  assert (S : same (x ++ c ++ [v]) (x ++ v :: c)).
  { assert (G : forall f : gevent -> bool, (f v = true -> forall w, In w c -> f w = false) -> filter f (x ++ v :: c) = filter f (x ++ c ++ [v])).
    { intros f F. rewrite !filter_app. cbn [filter]. f_equal. destruct (f v); [|rewrite app_nil_r; reflexivity].
      rewrite (filter_nothing f c (F eq_refl)). reflexivity. }
    split.
    - intros i. apply G. intros T w I. rewrite of_task_index in T. apply Nat.eqb_eq in T. subst i. apply N. exact I.
    - intros id. apply G. intros T w I. apply on_key_ekey in T. exact (Nk w id I T).
    - apply G. congruence. }
  split; [|exact S]. split.
  - intros a i c0 b E. apply mid_split in E. destruct E as [(b' & -> & ->)|[(-> & <- & ->)|(c1 & -> & ->)]].
    + apply (h_spawn _ _ _ H a i c0 (b' ++ c ++ [v])). rewrite <- app_assoc. reflexivity.
    + discriminate Ns.
    + rewrite filter_app. cbn [filter]. rewrite Ns. rewrite <- filter_app.
      apply (h_spawn _ _ _ H (x ++ c1) i c0 (b ++ [v])). rewrite <- !app_assoc. reflexivity.
  - intros i. rewrite (s_task _ _ S). apply (h_task _ _ _ H).
  - intros a i id b E j Hj. apply mid_split in E. destruct E as [(b' & -> & ->)|[(-> & <- & ->)|(c1 & -> & ->)]].
    + eapply (h_lock _ _ _ H a i id (b' ++ c ++ [v])); [|exact Hj]. rewrite <- app_assoc. reflexivity.
    + exact (Nl _ _ eq_refl).
    + eapply (h_lock _ _ _ H (x ++ c1) i id (b ++ [v])); [rewrite <- !app_assoc; reflexivity|].
      destruct Hj as (p & q & E & Nu & Ne). apply mid_split in E. destruct E as [(q' & -> & ->)|[(-> & E & ->)|(r & -> & ->)]].
      * exists p, (q' ++ c1). split; [rewrite <- app_assoc; reflexivity|]. split.
        -- intros I. apply Nu. apply in_app_or in I. apply in_or_app. destruct I; [auto|right; right; assumption].
        -- intros [e I]. apply Ne. exists e. apply in_app_or in I. apply in_or_app. destruct I; [auto|right; right; assumption].
      * destruct (Nl _ _ (eq_sym E)).
      * exists (x ++ r), q. split; [rewrite <- app_assoc; reflexivity|auto].
  - intros a i id cc b E. apply mid_split in E. destruct E as [(b' & -> & ->)|[(-> & <- & ->)|(c1 & -> & ->)]].
    + apply (h_read _ _ _ H a i id cc (b' ++ c ++ [v])). rewrite <- app_assoc. reflexivity.
    + assert (F : filter (on_key id) x = filter (on_key id) (x ++ c)).
      { rewrite filter_app, (filter_nothing _ c); [symmetry; apply app_nil_r|]. intros w I. exact (Nk w id I eq_refl). }
      rewrite written_filter, never_filter, F, <- written_filter, <- never_filter.
      apply (h_read _ _ _ H (x ++ c) i id cc []). rewrite <- app_assoc. reflexivity.
    + assert (F : filter (on_key id) (x ++ v :: c1) = filter (on_key id) (x ++ c1)).
      { rewrite !filter_app. cbn [filter]. destruct (on_key id v) eqn:K; [|reflexivity]. apply on_key_ekey in K.
        assert (X : on_key id (GDo i (VGet id cc)) = false) by (apply (Nk _ id); [apply in_or_app; right; left; reflexivity|exact K]).
        cbn in X. rewrite N.eqb_refl in X. discriminate X. }
      rewrite written_filter, never_filter, F, <- written_filter, <- never_filter.
      apply (h_read _ _ _ H (x ++ c1) i id cc (b ++ [v])). rewrite <- !app_assoc. reflexivity.
Qed.

(** * Undisturbed lookups, by recursion *)

Definition gives_backb (i : nat) (id : N) (v : gevent) : bool :=
  match v with
  | GDo j (VUnlock x) => Nat.eqb j i && N.eqb x id
  | GEnd j _ => Nat.eqb j i
  | _ => false
  end.
Lemma gives_backb_spec i id v : gives_backb i id v = true <-> gives_back i id v.
Proof.
  unfold gives_back. destruct v as [j c|j r|j e|j e]; cbn; try (split; [discriminate|intros [X|[e X]]; discriminate X]).
  - destruct e as [| | |x| |]; try (split; [discriminate|intros [X|[e X]]; discriminate X]).
    rewrite andb_true_iff, Nat.eqb_eq, N.eqb_eq. split; [intros [-> ->]; auto|]. intros [X|[e X]]; [injection X as -> ->; auto|discriminate X].
  - rewrite Nat.eqb_eq. split; [intros ->; right; eauto|]. intros [X|[e' X]]; [discriminate X|congruence].
Qed.
Lemma gives_back_task i id v : gives_backb i id v = true -> of_task i v = true.
Proof. rewrite gives_backb_spec. intros [->|[e ->]]; apply Nat.eqb_refl. Qed.

(** After taking the lock: own events up to giving it back, or own events and then none of the task or the key. *)
Fixpoint quiet (i : nat) (id : N) (b : list gevent) : Prop :=
  match b with
  | [] => True
  | w :: r =>
      if of_task i w
      then gives_backb i id w = true \/ quiet i id r
      else forall u, In u b -> of_task i u = false
  end.
Fixpoint all_quiet (tr : list gevent) : Prop :=
  match tr with
  | [] => True
  | v :: r => match v with GDo i (VLock id) => quiet i id r | _ => True end /\ all_quiet r
  end.

Lemma quiet_undisturbed i id b v c : quiet i id (b ++ v :: c) -> of_task i v = false ->
  (exists w, In w b /\ gives_back i id w) \/ (forall w, In w (v :: c) -> of_task i w = false).
Proof.
  induction b as [|w b IH]; cbn [app quiet]; intros Q Nv.
  - rewrite Nv in Q. right. exact Q.
  - destruct (of_task i w) eqn:T.
    + destruct Q as [Q|Q]; [left; exists w; split; [left; reflexivity|apply gives_backb_spec; exact Q]|].
      destruct (IH Q Nv) as [(u & I & G)|X]; [left; exists u; split; [right; exact I|exact G]|auto].
    + right. intros u I. apply Q. right. apply in_or_app. right. exact I.
Qed.

Lemma all_quiet_undisturbed tr : all_quiet tr -> undisturbed tr.
Proof.
  intros Q a i id b v c -> Nv. induction a as [|w a IH]; cbn [app all_quiet] in Q; destruct Q as [Q1 Q2].
  - eapply quiet_undisturbed; eassumption.
  - apply IH. exact Q2.
Qed.

(** Insertion after an event of the same task. *)
Lemma quiet_insert j id h u v b : quiet j id (h ++ u :: b) -> index u = index v -> quiet j id (h ++ u :: v :: b).
Proof.
  intros Q E. assert (T : of_task j v = of_task j u) by (rewrite !of_task_index, E; reflexivity).
  induction h as [|w h IH]; cbn [app quiet] in *.
  - rewrite T. destruct (of_task j u) eqn:Tu; [destruct Q; auto|].
    intros x [<-|[<-|I]]; [exact Tu|congruence|]. apply Q. right. exact I.
  - destruct (of_task j w) eqn:Tw; [destruct Q as [Q|Q]; [auto|right; apply IH; exact Q]|].
    intros x [<-|I]; [exact Tw|]. apply in_app_or in I. destruct I as [I|[<-|[<-|I]]].
    + apply Q. right. apply in_or_app. auto.
    + apply Q. right. apply in_or_app. right. left. reflexivity.
    + rewrite T. apply Q. right. apply in_or_app. right. left. reflexivity.
    + apply Q. right. apply in_or_app. right. right. exact I.
Qed.

Lemma all_quiet_insert h u v b : all_quiet (h ++ u :: b) -> index u = index v -> (forall i id, v <> GDo i (VLock id)) ->
  all_quiet (h ++ u :: v :: b).
Proof.
  intros Q E N. induction h as [|w h IH]; cbn [app all_quiet] in *; destruct Q as [Q1 Q2].
  - split.
    + destruct u as [| |i e|]; try exact Logic.I. destruct e as [| |id| | |]; try exact Logic.I.
      cbn [quiet]. rewrite of_task_index, <- E. cbn [index]. rewrite Nat.eqb_refl. right. exact Q1.
    + split; [|exact Q2]. destruct v as [| |i e|]; try exact Logic.I. destruct e as [| |id| | |]; try exact Logic.I. destruct (N _ _ eq_refl).
  - split; [|apply IH; exact Q2]. destruct w as [| |i e|]; try exact Logic.I. destruct e as [| |id| | |]; try exact Logic.I.
    apply quiet_insert; assumption.
Qed.

(** Appending an event of a task that holds no lock. *)
Lemma quiet_snoc j id b v : quiet j id b -> ((forall w, In w b -> gives_backb j id w = false) -> of_task j v = false) -> quiet j id (b ++ [v]).
Proof.
  intros Q H. induction b as [|w b IH]; cbn [app quiet] in *.
  - rewrite H by (intros w []). intros u [<-|[]]. apply H. intros w [].
  - destruct (of_task j w) eqn:T.
    + destruct (gives_backb j id w) eqn:G; [auto|]. destruct Q as [Q|Q]; [discriminate Q|]. right. apply IH; [exact Q|].
      intros F. apply H. intros x [<-|I]; [exact G|apply F; exact I].
    + intros u [<-|I]; [exact T|]. apply in_snoc in I. destruct I as [I| ->]; [apply Q; right; exact I|].
      apply H. intros x I. specialize (Q x I). destruct (gives_backb j id x) eqn:G; [|reflexivity]. apply gives_back_task in G. congruence.
Qed.

Lemma all_quiet_snoc tr v : all_quiet tr -> (forall j id, holding tr j id -> of_task j v = false) -> all_quiet (tr ++ [v]).
Proof.
  intros Q H.
  assert (G : forall pre, (forall j id, holding (pre ++ tr) j id -> of_task j v = false) -> all_quiet (tr ++ [v])).
  { clear H. induction tr as [|w tr IH]; intros pre H; cbn [app all_quiet] in *.
    - split; [|exact Logic.I]. destruct v as [| |i e|]; try exact Logic.I. destruct e; exact Logic.I.
    - destruct Q as [Q1 Q2]. split.
      + destruct w as [| |i e|]; try exact Logic.I. destruct e as [| |id| | |]; try exact Logic.I.
        apply quiet_snoc; [exact Q1|]. intros F. apply (H i id). exists pre, tr. split; [reflexivity|]. split.
        * intros I. apply F in I. cbn in I. rewrite Nat.eqb_refl, N.eqb_refl in I. discriminate I.
        * intros [e I]. apply F in I. cbn in I. rewrite Nat.eqb_refl in I. discriminate I.
      + apply (IH Q2 (pre ++ [w])). intros j id Hj. apply (H j id). rewrite <- app_assoc in Hj. exact Hj. }
  apply (G []). exact H.
Qed.

(** The last event of a task. *)
Lemma last_of {A} (f : A -> bool) l : (exists x, In x l /\ f x = true) ->
  exists h u b, l = h ++ u :: b /\ f u = true /\ forall w, In w b -> f w = false.
Proof.
  induction l as [|y l IH] using rev_ind; intros (x & I & F); [destruct I|].
  destruct (f y) eqn:Fy; [exists l, y, []; split; [reflexivity|split; [exact Fy|intros w []]]|].
  apply in_snoc in I. destruct I as [I| ->]; [|congruence]. destruct IH as (h & u & b & -> & Fu & N); [eauto|].
  exists h, u, (b ++ [y]). split; [rewrite <- app_assoc; reflexivity|]. split; [exact Fu|]. intros w Iw. apply in_snoc in Iw. destruct Iw as [Iw| ->]; auto.
Qed.

Lemma serial d base tr cfg : runs d base tr cfg -> exists tr', history d base tr' /\ same tr tr' /\ all_quiet tr'.
Proof.
  induction 1 as [|tr cfg v cfg' H (tr' & H' & S & Q) St].
  { exists []. split; [|split; [split; reflexivity|exact Logic.I]]. apply (runs_history _ _ _ initial). constructor. }
  assert (Hv : history d base (tr ++ [v])) by (apply (runs_history _ _ _ cfg'); econstructor; eassumption).
  pose proof (history_snoc _ _ _ _ _ Hv H' S) as Hv'. pose proof (same_snoc _ _ v S) as Sv.
  destruct (history_runs _ _ _ H') as [c' R'].
  assert (D : (exists id, holding tr (index v) id) \/ forall id, ~ holding tr (index v) id).
  { destruct (nth_error (tasks cfg) (index v)) as [[c s]|] eqn:E.
    - destruct (key_dec c) as [[bt K]|K].
      + destruct (owner cfg (bt_id bt)) as [j|] eqn:O.
        * destruct (Nat.eq_dec j (index v)) as [->|N]; [left; exists (bt_id bt); apply (holding_owner _ _ _ _ _ _ H); exact O|].
          right. intros id X. apply (holding_owner _ _ _ _ _ _ H) in X. pose proof X as X0. apply (runs_lock _ _ _ _ H) in X. destruct X as (c0 & s0 & A & _ & (bt' & K' & <-) & _).
          destruct (at_fun _ _ _ _ _ _ E A) as [-> ->]. rewrite K in K'. injection K' as <-. congruence.
        * right. intros id X. apply (holding_owner _ _ _ _ _ _ H) in X. pose proof X as X0. apply (runs_lock _ _ _ _ H) in X. destruct X as (c0 & s0 & A & _ & (bt' & K' & <-) & _).
          destruct (at_fun _ _ _ _ _ _ E A) as [-> ->]. rewrite K in K'. injection K' as <-. congruence.
      + right. intros id X. apply (holding_owner _ _ _ _ _ _ H) in X. apply (runs_lock _ _ _ _ H) in X. destruct X as (c0 & s0 & A & _ & (bt' & K' & _) & _).
        destruct (at_fun _ _ _ _ _ _ E A) as [-> ->]. exact (K _ K').
    - right. intros id X. apply (holding_owner _ _ _ _ _ _ H) in X. apply (runs_lock _ _ _ _ H) in X. destruct X as (c0 & s0 & A & _). unfold at_ in A. congruence. }
  destruct D as [[id Hi]|Nh].
  2:{ exists (tr' ++ [v]). split; [exact Hv'|]. split; [exact Sv|]. apply all_quiet_snoc; [exact Q|].
      intros j id Hj. apply (same_holding _ _ _ _ S) in Hj. rewrite of_task_index. apply Nat.eqb_neq. intros <-. exact (Nh id Hj). }
  (* the task holds a lock: its event goes behind its last one *)
  pose proof (proj1 (holding_owner _ _ _ _ _ _ H) Hi) as Oi.
  assert (Hi' : holding tr' (index v) id) by (apply (same_holding _ _ _ _ S); exact Hi).
  destruct (last_of (of_task (index v)) tr') as (h & u & b & E & Tu & Nb).
  { destruct Hi' as (a & b & -> & _). eexists. split; [apply in_or_app; right; left; reflexivity|apply Nat.eqb_refl]. }
  assert (Eu : index u = index v) by (rewrite of_task_index in Tu; apply Nat.eqb_eq; exact Tu).
  assert (Ns : is_spawn v = false).
  { destruct v as [i c| | |]; try reflexivity. exfalso. destruct (h_spawn _ _ _ Hv tr i c [] eq_refl) as [Ei _]. cbn [index] in *.
    rewrite (runs_spawns _ _ _ _ H) in Ei. destruct (runs_lock _ _ _ _ H id i) as [L _]. destruct (L Oi) as (c0 & s0 & A & _).
    apply at_lt in A. lia. }
  assert (Nl : forall i id', v <> GDo i (VLock id')).
  { intros i id' ->. cbn [index] in *. pose proof (do_next _ _ _ _ _ _ _ H St) as (c0 & s0 & A & _ & X). cbn [next_ok] in X. destruct X as [X _].
    pose proof (runs_lock _ _ _ _ H) as L. apply L in Oi. destruct Oi as (_ & _ & _ & _ & _ & X'). congruence. }
  assert (Nk : forall w id', In w b -> ekey v = Some id' -> on_key id' w = false).
  { intros w id' I Ev. assert (id' = id) as ->.
    { destruct v as [| |i e|]; try discriminate Ev. cbn [ekey index] in *.
      assert (X : owner cfg id' = Some i).
      { apply (lock_event _ _ _ _ _ _ _ id' H St). destruct e; try discriminate Ev; try (injection Ev as ->; reflexivity). injection Ev as ->. destruct (Nl _ _ eq_refl). }
      apply (runs_lock _ _ _ _ H) in X. destruct X as (c0 & s0 & A0 & _ & K0 & _).
      apply (runs_lock _ _ _ _ H) in Oi. destruct Oi as (c1 & s1 & A1 & _ & K1 & _). destruct (at_fun _ _ _ _ _ _ A0 A1) as [-> _].
      eapply key_is_fun; eassumption. }
    destruct (on_key id w) eqn:K; [exfalso|reflexivity]. apply on_key_ekey in K.
    apply in_split in I. destruct I as (b1 & b2 & ->).
    assert (Ew : tr' = (h ++ u :: b1) ++ w :: b2) by (rewrite E, <- app_assoc; reflexivity).
    destruct (runs_split _ _ _ _ _ _ _ R' Ew) as (c1 & c2 & R1 & S1 & _).
    assert (Hh : holding (h ++ u :: b1) (index v) id).
    { apply holding_filter. apply holding_filter in Hi'. rewrite Ew, filter_app in Hi'.
      rewrite (filter_nothing (of_task (index v)) (w :: b2)), app_nil_r in Hi'; [exact Hi'|].
      intros y Iy. apply Nb. apply in_or_app. right. exact Iy. }
    apply (holding_owner _ _ _ _ _ _ R1) in Hh. destruct w as [| |j e|]; try discriminate K. cbn [ekey] in K.
    assert (Nj : Nat.eqb j (index v) = false) by (apply (Nb (GDo j e)); apply in_or_app; right; left; reflexivity).
    assert (X : owner c1 id = Some j \/ e = VLock id).
    { destruct e as [| |x|x|x y|x y]; try discriminate K; injection K as ->; [right; reflexivity|left|left|left]; apply (lock_event _ _ _ _ _ _ _ id R1 S1); reflexivity. }
    destruct X as [X| ->]; [rewrite X in Hh; injection Hh as ->; rewrite Nat.eqb_refl in Nj; discriminate Nj|].
    inversion S1; subst. congruence. }
  rewrite E in Hv', Sv. rewrite <- app_assoc in Hv', Sv. cbn [app] in Hv', Sv.
  destruct (history_move d base (h ++ [u]) b v) as [Hm Sm]; try assumption.
  { rewrite <- app_assoc. exact Hv'. }
  assert (As : forall l, (h ++ [u]) ++ l = h ++ u :: l) by (intros l; rewrite <- app_assoc; reflexivity).
  rewrite As in Hm. rewrite (As (b ++ [v])), (As (v :: b)) in Sm. clear As. exists (h ++ u :: v :: b). split; [exact Hm|]. split.
  - destruct Sv as [T1 K1 P1], Sm as [T2 K2 P2]. split; [intros i; rewrite T2; apply T1|intros i; rewrite K2; apply K1|rewrite P2; exact P1].
  - apply all_quiet_insert; [rewrite <- E; exact Q|exact Eu|exact Nl].
Qed.

(** Every execution can be reordered, keeping the order of events of every task, of every key and of the starts, into an execution in
    which no lookup is disturbed by another task; every task ends up at the same point, with the same locks and caches. *)
Theorem C64_serial d base tr cfg : runs d base tr cfg ->
  exists tr' cfg', runs d base tr' cfg' /\ undisturbed tr' /\
    (forall i, filter (of_task i) tr' = filter (of_task i) tr) /\
    (forall id, filter (on_key id) tr' = filter (on_key id) tr) /\
    filter is_spawn tr' = filter is_spawn tr /\
    tasks cfg' = tasks cfg /\ (forall id, owner cfg' id = owner cfg id) /\ forall id, caches cfg' id = caches cfg id.
Proof.
  intros H. destruct (serial _ _ _ _ H) as (tr' & H' & S & Q). destruct (history_runs _ _ _ H') as [cfg' R]. exists tr', cfg'.
  split; [exact R|]. split; [apply all_quiet_undisturbed; exact Q|]. split; [apply (s_task _ _ S)|]. split; [apply (s_key _ _ S)|]. split; [apply (s_spawn _ _ S)|].
  split; [|split].
  - apply nth_error_ext. intros i.
    assert (L : length (tasks cfg') = length (tasks cfg)) by (rewrite <- (runs_spawns _ _ _ _ R), (s_spawn _ _ S); apply (runs_spawns _ _ _ _ H)).
    destruct (nth_error (tasks cfg) i) as [[c s]|] eqn:E1.
    + destruct (nth_error (tasks cfg') i) as [[c' s']|] eqn:E2.
      * destruct (runs_at_lsteps _ _ _ _ _ _ _ H E1) as (l & El & Ls).
        destruct (runs_at_lsteps _ _ _ _ _ _ _ R E2) as (l' & El' & Ls'). rewrite (s_task _ _ S), El in El'. injection El' as <- <-.
        rewrite (lsteps_fun _ _ _ _ _ Ls Ls'). reflexivity.
      * apply nth_error_None in E2. assert (nth_error (tasks cfg) i <> None) as N by (rewrite E1; discriminate). apply nth_error_Some in N. lia.
    + apply nth_error_None. apply nth_error_None in E1. lia.
  - intros id. destruct (owner cfg id) as [i|] eqn:O1.
    + apply (holding_owner _ _ _ _ _ _ R). apply (same_holding _ _ _ _ S). apply (holding_owner _ _ _ _ _ _ H). exact O1.
    + destruct (owner cfg' id) as [i|] eqn:O2; [|reflexivity]. apply (holding_owner _ _ _ _ _ _ R) in O2. apply (same_holding _ _ _ _ S) in O2.
      apply (holding_owner _ _ _ _ _ _ H) in O2. congruence.
  - intros id. destruct (runs_cache _ _ _ _ R id) as [[W ->]|W]; destruct (runs_cache _ _ _ _ H id) as [[V ->]|V]; try reflexivity.
    + exfalso. apply never_filter in W. rewrite (s_key _ _ S) in W. apply never_filter in W. exact (written_never _ _ _ V W).
    + exfalso. apply never_filter in V. rewrite <- (s_key _ _ S) in V. apply never_filter in V. exact (written_never _ _ _ W V).
    + apply written_filter in W. rewrite (s_key _ _ S) in W. apply written_filter in W. exact (written_fun _ _ _ _ W V).
Qed.

(** The history of [C63_case] is disturbed: the second task's refresh falls between the first one's lock and unlock. *)
Transparent demo_three_history.
Lemma demo_three_shape :
  demo_three_history = firstn 3 demo_three_history ++ GDo 0 (VLock 7) :: [] ++ GDo 1 (VLock 8) :: skipn 5 demo_three_history.
Proof. vm_compute. reflexivity. Qed.
Lemma demo_three_later : existsb (of_task 0) (skipn 5 demo_three_history) = true.
Proof. vm_compute. reflexivity. Qed.
Opaque demo_three_history.
Example C64_case : exists cfg, runs demo_deps demo_base demo_three_history cfg /\ ~ undisturbed demo_three_history.
Proof.
  destruct demo_three_runs as (cfg & H & _). exists cfg. split; [exact H|]. intros U.
  destruct (U _ _ _ _ _ _ demo_three_shape eq_refl) as [(w & [] & _)|N].
  pose proof demo_three_later as X. apply existsb_exists in X. destruct X as (w & I & T).
  rewrite (N w (or_intror I)) in T. discriminate T.
Qed.
