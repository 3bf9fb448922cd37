(** Configurations and histories describe the same executions. *)
From Verif Require Import Base Time Effects EffectsFacts Keys Calls SpecTrace Conc SpecConc ConcFacts SpecHistory.

(** One step of one task, without locks and caches. *)
Inductive lstep (i : nat) : status -> gevent -> status -> Prop :=
| ls_act e k (x : resp e) : (forall r, e <> EHttp r) -> lstep i (Running (Act e k)) (GDo i (event_of e x)) (Running (k x))
| ls_send r k : lstep i (Running (Act (EHttp r) k)) (GSend i r) (InFlight r k)
| ls_answer r k o : lstep i (InFlight r k) (GDo i (VHttp r o)) (Running (k o))
| ls_return a : lstep i (Running (Ret a)) (GEnd i (Returned a)) (Ended (Returned a))
| ls_panic s : lstep i (Running (Panic s)) (GEnd i (Panicked s)) (Ended (Panicked s))
| ls_cancel s : live s -> lstep i s (GEnd i Cancelled) (Ended Cancelled).

Inductive lsteps (i : nat) : status -> list gevent -> status -> Prop :=
| ls_nil s : lsteps i s [] s
| ls_cons s v s' l s'' : lstep i s v s' -> lsteps i s' l s'' -> lsteps i s (v :: l) s''.

Lemma lsteps_snoc i s l v s' : lsteps i s (l ++ [v]) s' <-> exists m, lsteps i s l m /\ lstep i m v s'.
Proof.
  revert s. induction l as [|w l IH]; intros s; cbn [app].
  - split.
    + intros H. inversion H as [|? ? m ? ? H1 H2]; subst. inversion H2; subst. exists s. split; [constructor|exact H1].
    + intros (m & H1 & H2). inversion H1; subst. econstructor; [exact H2|constructor].
  - split.
    + intros H. inversion H as [|? ? m ? ? H1 H2]; subst. apply IH in H2. destruct H2 as (m' & H2 & H3). exists m'. split; [|exact H3]. econstructor; eassumption.
    + intros (m & H1 & H2). inversion H1 as [|? ? m' ? ? H3 H4]; subst. econstructor; [exact H3|]. apply IH. eauto.
Qed.

Lemma lsteps_ended i e l s : lsteps i (Ended e) l s -> l = [].
Proof. intros H. inversion H as [|? ? m ? ? H1 H2]; [reflexivity|]. subst. inversion H1 as [| | | | |? L]; subst. destruct (L e eq_refl). Qed.

Lemma behaves_lsteps i p l : behaves i p l <-> exists s, lsteps i (Running p) l s.
Proof.
  split.
  - induction 1 as [p|p|a|s|e k x l N H [s IH]|r k|r k|r k o l H [s IH]].
    + eexists. constructor.
    + eexists. econstructor; [apply ls_cancel; discriminate|constructor].
    + eexists. econstructor; [apply ls_return|constructor].
    + eexists. econstructor; [apply ls_panic|constructor].
    + exists s. econstructor; [apply ls_act; exact N|exact IH].
    + eexists. econstructor; [apply ls_send|constructor].
    + eexists. econstructor; [apply ls_send|econstructor; [apply ls_cancel; discriminate|constructor]].
    + exists s. econstructor; [apply ls_send|]. econstructor; [apply ls_answer|exact IH].
  - intros [s H]. remember (length l) as n eqn:En. revert p l s H En. induction n as [n IH] using lt_wf_ind. intros p l s H En.
    remember (Running p) as st eqn:Es. destruct H as [st|st v st' l s H1 H2]; [constructor|].
    destruct H1 as [e k x Nh|r k|r k o|a|x|st L]; try discriminate Es.
    + injection Es as <-. apply b_act; [exact Nh|]. eapply (IH (length l)); [subst n; cbn; lia|exact H2|reflexivity].
    + injection Es as <-. remember (InFlight r k) as st eqn:E'. destruct H2 as [st|st v st' l s H1 H2]; [constructor|].
      destruct H1 as [e k' x Nh|r' k'|r' k' o|a|x|st L]; try discriminate E'.
      * injection E' as -> ->. apply b_answer. eapply (IH (length l)); [subst n; cbn; lia|exact H2|reflexivity].
      * apply lsteps_ended in H2. subst l. apply b_send_cancel.
    + injection Es as <-. apply lsteps_ended in H2. subst l. constructor.
    + injection Es as <-. apply lsteps_ended in H2. subst l. constructor.
    + apply lsteps_ended in H2. subst l. constructor.
Qed.

(** The same as a function of status and event, up to the response. *)
Definition moves_to (i : nat) (s : status) (v : gevent) (s' : status) : Prop :=
  (v = GEnd i Cancelled /\ s' = Ended Cancelled) \/
  match s with
  | Ended _ => False
  | InFlight r k => exists o, v = GDo i (VHttp r o) /\ s' = Running (k o)
  | Running (Ret a) => v = GEnd i (Returned a) /\ s' = Ended (Returned a)
  | Running (Panic x) => v = GEnd i (Panicked x) /\ s' = Ended (Panicked x)
  | Running (Act e k) =>
      match e return (resp e -> prog answer) -> Prop with
      | EHttp r => fun k => v = GSend i r /\ s' = InFlight r k
      | e => fun k => exists x, v = GDo i (event_of e x) /\ s' = Running (k x)
      end k
  end.

Lemma lstep_moves i s v s' : lstep i s v s' -> moves_to i s v s'.
Proof.
  intros H. destruct H as [e k x Nh|r k|r k o|a|x|st L]; [right|right|right|right|right|left]; cbn; eauto.
  destruct e; cbn; eauto. destruct (Nh r eq_refl).
Qed.

Lemma event_of_inj e (x y : resp e) : event_of e x = event_of e y -> x = y.
Proof. destruct e; cbn in *; try (destruct x, y; reflexivity); congruence. Qed.

Lemma lstep_fun i s v s1 s2 : lstep i s v s1 -> lstep i s v s2 -> s1 = s2.
Proof.
  intros H1 H2. apply lstep_moves in H1, H2.
  destruct H1 as [[-> ->]|H1], H2 as [[E ->]|H2]; try reflexivity.
  - destruct s as [[a|x|e k]|r k|e]; cbn in H2; [destruct H2 as [X _]; discriminate X|destruct H2 as [X _]; discriminate X| |destruct H2 as (o & X & _); discriminate X|destruct H2].
    destruct e; try (destruct H2 as (o & X & _); discriminate X). destruct H2 as [X _]; discriminate X.
  - subst v. destruct s as [[a|x|e k]|r k|e]; cbn in H1; [destruct H1 as [X _]; discriminate X|destruct H1 as [X _]; discriminate X| |destruct H1 as (o & X & _); discriminate X|destruct H1].
    destruct e; try (destruct H1 as (o & X & _); discriminate X). destruct H1 as [X _]; discriminate X.
  - destruct s as [[a|x|e k]|r k|e]; cbn in H1, H2.
    + destruct H1 as [_ ->], H2 as [_ ->]. reflexivity.
    + destruct H1 as [_ ->], H2 as [_ ->]. reflexivity.
    + destruct e.
      * destruct H1 as (x & -> & ->), H2 as (y & E & ->). injection E as ->. reflexivity.
      * destruct H1 as [_ ->], H2 as [_ ->]. reflexivity.
      * destruct H1 as (x & -> & ->), H2 as (y & E & ->). destruct x, y. reflexivity.
      * destruct H1 as (x & -> & ->), H2 as (y & E & ->). destruct x, y. reflexivity.
      * destruct H1 as (x & -> & ->), H2 as (y & E & ->). injection E as ->. reflexivity.
      * destruct H1 as (x & -> & ->), H2 as (y & E & ->). destruct x, y. reflexivity.
    + destruct H1 as (x & -> & ->), H2 as (y & E & ->). injection E as ->. reflexivity.
    + destruct H1.
Qed.

Lemma lsteps_fun i s l s1 s2 : lsteps i s l s1 -> lsteps i s l s2 -> s1 = s2.
Proof.
  intros H. revert s2. induction H as [s|s v s' l s'' H1 H2 IH]; intros s2 K.
  - inversion K. reflexivity.
  - inversion K as [|? ? m ? ? K1 K2]; subst. pose proof (lstep_fun _ _ _ _ _ H1 K1) as <-. apply IH. exact K2.
Qed.

(** * From configurations to histories *)

Lemma runs_at_lsteps d base tr cfg i c s : runs d base tr cfg -> at_ cfg i c s ->
  exists l, filter (of_task i) tr = GSpawn i c :: l /\ lsteps i (Running (run_call d c)) l s.
Proof.
  intros H. revert i c s. induction H as [|tr cfg v cfg' H IH S]; intros i c s A; [unfold at_ in A; destruct i; discriminate A|].
  rewrite filter_app. cbn [filter]. destruct (of_task i v) eqn:Ev.
  2:{ rewrite app_nil_r. apply IH. apply (step_frame _ _ _ _ _ _ _ _ S Ev). exact A. }
  assert (P : forall c0 s0 s1, at_ cfg i c0 s0 -> at_ (put cfg i c0 s1) i c s -> c = c0 /\ s = s1).
  { intros c0 s0 s1 A0 A1. apply (at_put _ _ _ _ _ _ _ _ _ A0) in A1. destruct A1 as [(_ & X & Y)|[X _]]; [auto|congruence]. }
  assert (Q : forall c0 s0, at_ cfg i c0 s0 -> c = c0 -> lstep i s0 v s ->
    exists l, filter (of_task i) tr ++ [v] = GSpawn i c :: l /\ lsteps i (Running (run_call d c)) l s).
  { intros c0 s0 A0 -> L. destruct (IH _ _ _ A0) as (l & -> & Ls). exists (l ++ [v]). split; [reflexivity|]. apply lsteps_snoc. eauto. }
  destruct S as [cfg c0 F|cfg j c0 k t A0|cfg j c0 r k A0|cfg j c0 r k o A0|cfg j c0 id k A0 O|cfg j c0 id k A0|cfg j c0 id k A0|cfg j c0 id x k A0|cfg j c0 a A0|cfg j c0 x A0|cfg j c0 x A0 L];
    cbn [of_task] in Ev; apply Nat.eqb_eq in Ev.
  - subst i. assert (E : filter (of_task (length (tasks cfg))) tr = []).
    { pose proof (li_new _ _ _ _ (runs_local _ _ _ _ H) (length (tasks cfg)) (le_n _)) as N.
      clear - N. induction tr as [|w tr IH]; [reflexivity|]. cbn [filter]. rewrite (N w (or_introl eq_refl)). apply IH. intros x I. apply N. right. exact I. }
    rewrite E. exists []. unfold at_ in A. cbn [tasks] in A. rewrite nth_error_app2, Nat.sub_diag in A by lia. cbn in A. injection A as <- <-.
    split; [reflexivity|constructor].
  - subst j. destruct (P _ _ _ A0 A) as [-> ->]. apply (Q _ _ A0 eq_refl). apply (ls_act i ENow). discriminate.
  - subst j. destruct (P _ _ _ A0 A) as [-> ->]. apply (Q _ _ A0 eq_refl). apply ls_send.
  - subst j. destruct (P _ _ _ A0 A) as [-> ->]. apply (Q _ _ A0 eq_refl). apply ls_answer.
  - subst j. apply at_set_owner in A. destruct (P _ _ _ A0 A) as [-> ->]. apply (Q _ _ A0 eq_refl). apply (ls_act i (ELock id) k tt). discriminate.
  - subst j. apply at_set_owner in A. destruct (P _ _ _ A0 A) as [-> ->]. apply (Q _ _ A0 eq_refl). apply (ls_act i (EUnlock id) k tt). discriminate.
  - subst j. destruct (P _ _ _ A0 A) as [-> ->]. apply (Q _ _ A0 eq_refl). apply (ls_act i (EGet id)). discriminate.
  - subst j. apply at_set_cache in A. destruct (P _ _ _ A0 A) as [-> ->]. apply (Q _ _ A0 eq_refl). apply (ls_act i (ESet id x) k tt). discriminate.
  - subst j. destruct (P _ _ _ A0 A) as [-> ->]. apply (Q _ _ A0 eq_refl). apply ls_return.
  - subst j. apply at_release in A. destruct (P _ _ _ A0 A) as [-> ->]. apply (Q _ _ A0 eq_refl). apply ls_panic.
  - subst j. apply at_release in A. destruct (P _ _ _ A0 A) as [-> ->]. apply (Q _ _ A0 eq_refl). apply ls_cancel. exact L.
Qed.

Lemma runs_spawns d base tr cfg : runs d base tr cfg -> length (filter is_spawn tr) = length (tasks cfg).
Proof.
  induction 1 as [|tr cfg v cfg' H IH S]; [reflexivity|]. rewrite filter_app, app_length, IH.
  destruct S; cbn; rewrite ?app_length, ?replace_length; cbn; lia.
Qed.

Lemma runs_history d base tr cfg : runs d base tr cfg -> history d base tr.
Proof.
  intros H. split.
  - intros a i c b E. destruct (runs_split _ _ _ _ _ _ _ H E) as (c1 & c2 & H1 & S & H2). rewrite (runs_spawns _ _ _ _ H1).
    inversion S; subst. auto.
  - intros i. destruct (nth_error (tasks cfg) i) as [[c s]|] eqn:E.
    + right. destruct (runs_at_lsteps _ _ _ _ _ _ _ H E) as (l & El & Ls). exists c, l. split; [exact El|]. apply behaves_lsteps. eauto.
    + left. apply nth_error_None in E. pose proof (li_new _ _ _ _ (runs_local _ _ _ _ H) i E) as N.
      clear - N. induction tr as [|w tr IH]; [reflexivity|]. cbn [filter]. rewrite (N w (or_introl eq_refl)). apply IH. intros x I. apply N. right. exact I.
  - intros a i id b E j Hj. destruct (runs_split _ _ _ _ _ _ _ H E) as (c1 & c2 & H1 & S & H2).
    apply (holding_owner _ _ _ _ _ _ H1) in Hj. inversion S; subst. congruence.
  - intros a i id c b E. destruct (runs_split _ _ _ _ _ _ _ H E) as (c1 & c2 & H1 & S & H2).
    rewrite (step_get _ _ _ _ _ _ _ S). destruct (runs_cache _ _ _ _ H1 id) as [[W C]|W]; auto.
Qed.

(** * From histories to configurations *)

Lemma history_prefix d base tr v : history d base (tr ++ [v]) -> history d base tr.
Proof.
  intros [S T L R]. split.
  - intros a i c b E. apply (S a i c (b ++ [v])). rewrite E, <- app_assoc. reflexivity.
  - intros i. specialize (T i). rewrite filter_app in T. cbn [filter] in T. destruct (of_task i v); [|rewrite app_nil_r in T; exact T].
    destruct T as [T|(c & l & E & Bh)]; [destruct (filter (of_task i) tr); discriminate T|].
    destruct (filter (of_task i) tr) as [|w l']; [auto|]. injection E as -> E. right. exists c, l'. split; [reflexivity|].
    subst l. apply behaves_lsteps in Bh. destruct Bh as [s Bh]. apply lsteps_snoc in Bh. destruct Bh as (m & Bh & _). apply behaves_lsteps. eauto.
  - intros a i id b E. apply (L a i id (b ++ [v])). rewrite E, <- app_assoc. reflexivity.
  - intros a i id c b E. apply (R a i id c (b ++ [v])). rewrite E, <- app_assoc. reflexivity.
Qed.

Lemma written_fun tr id c1 c2 : written tr id c1 -> written tr id c2 -> c1 = c2.
Proof.
  intros (a1 & i1 & b1 & E1 & N1) (a2 & i2 & b2 & E2 & N2).
  assert (G : forall a1 a2 (x1 x2 : gevent) b1 b2, a1 ++ x1 :: b1 = a2 ++ x2 :: b2 -> ~ In x2 b1 -> ~ In x1 b2 -> x1 = x2).
  { clear. induction a1 as [|y a1 IH]; intros [|z a2] x1 x2 b1 b2 E M1 M2; cbn in E; injection E as E0 E.
    - exact E0.
    - destruct M1. rewrite E. apply in_or_app. right. left. reflexivity.
    - destruct M2. rewrite <- E. apply in_or_app. right. left. reflexivity.
    - eapply IH; eassumption. }
  rewrite E1 in E2. apply G in E2; [congruence|apply N1|apply N2].
Qed.

Lemma written_never tr id c : written tr id c -> never_written tr id -> False.
Proof. intros (a & i & b & -> & _) N. apply (N i c). apply in_or_app. right. left. reflexivity. Qed.

Lemma history_runs d base tr : history d base tr -> exists cfg, runs d base tr cfg.
Proof.
  induction tr as [|v tr IH] using rev_ind; intros H; [exists initial; constructor|].
  destruct (IH (history_prefix _ _ _ _ H)) as [cfg Hr]. clear IH.
  assert (K : (exists i c, v = GSpawn i c) \/ exists i, of_task i v = true /\ forall j c, v <> GSpawn j c).
  { destruct v as [i c|i r|i e|i e]; [eauto| | |]; right; exists i; (split; [apply Nat.eqb_refl|discriminate]). }
  destruct K as [(i & c & ->)|(i & Ei & Ns)].
  { destruct (h_spawn _ _ _ H tr i c [] eq_refl) as [E F]. rewrite (runs_spawns _ _ _ _ Hr) in E. subst i.
    eexists. econstructor; [exact Hr|]. constructor. exact F. }
  destruct (h_task _ _ _ H i) as [T|(c & l & T & Bh)]; rewrite filter_app in T; cbn [filter] in T; rewrite Ei in T.
  { destruct (filter (of_task i) tr); discriminate T. }
  destruct (filter (of_task i) tr) as [|w l'] eqn:Ef; [injection T as T _; destruct (Ns _ _ T)|].
  injection T as -> <-. apply behaves_lsteps in Bh. destruct Bh as [s' Bh]. apply lsteps_snoc in Bh. destruct Bh as (s & Bh & St).
  assert (A : at_ cfg i c s).
  { assert (R : runs_call tr i c).
    { unfold runs_call. apply (filter_In (of_task i)). rewrite Ef. left. reflexivity. }
    apply (li_spawn _ _ _ _ (runs_local _ _ _ _ Hr)) in R. destruct R as [s0 A].
    destruct (runs_at_lsteps _ _ _ _ _ _ _ Hr A) as (l0 & E0 & L0). rewrite Ef in E0. injection E0 as <-.
    rewrite (lsteps_fun _ _ _ _ _ Bh L0). exact A. }
  enough (X : exists cfg', cstep d base cfg v cfg') by (destruct X as [cfg' X]; exists cfg'; econstructor; eassumption).
  destruct St as [e k x Nh|r k|r k o|a|x|st L].
  - destruct e; cbn [event_of resp] in *.
    + eexists. eapply cs_now. exact A.
    + destruct (Nh _ eq_refl).
    + eexists. eapply cs_lock; [exact A|]. destruct (owner cfg id) as [j|] eqn:O; [|reflexivity].
      apply (holding_owner _ _ _ _ _ _ Hr) in O. destruct (h_lock _ _ _ H tr i id [] eq_refl j O).
    + eexists. eapply cs_unlock. exact A.
    + assert (Ec : x = caches cfg id).
      { destruct (runs_cache _ _ _ _ Hr id) as [[W C]|W]; destruct (h_read _ _ _ H tr i id x [] eq_refl) as [W'|[W' C']].
        - destruct (written_never _ _ _ W' W).
        - congruence.
        - eapply written_fun; eassumption.
        - destruct (written_never _ _ _ W W'). }
      subst x. eexists. eapply cs_get. exact A.
    + eexists. eapply cs_set. exact A.
  - eexists. eapply cs_send. exact A.
  - eexists. eapply cs_receive. exact A.
  - eexists. eapply cs_return. exact A.
  - eexists. eapply cs_panic. exact A.
  - eexists. eapply cs_cancel; [exact A|exact L].
Qed.
