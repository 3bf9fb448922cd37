(** Properties of many concurrent operations: the shared cache, refreshes, locks, progress (C32, C34, C35, C36, C39). *)
From Verif Require Import Base BaseFacts Time Effects EffectsFacts Keys Calls SpecToken SpecTrace KeysFacts CallFacts Discipline Obeys Conc
  SpecConc ConcFacts Prop_Keys HtmlForm Prop_Form TokenFacts Demo Sim.
Local Open Scope Z_scope.

(** * C32 *)

(** Every write to a cache ends a successful refresh of the task that writes. *)
Lemma write_refreshed d base tr cfg a i id v b : runs d base tr cfg -> tr = a ++ GDo i (VSet id v) :: b ->
  exists email token expires x l, v = Some (email, token, expires) /\ uses_key tr i id /\
    did i (a ++ [GDo i (VSet id v)]) = x ++ l /\ refreshed id (base id) email token expires l.
Proof.
  intros H E. destruct (runs_split _ _ _ _ _ _ _ H E) as (c1 & c2 & H1 & S & H2).
  pose proof (do_next _ _ _ _ _ _ _ H1 S) as (c & s & A & L & X). cbn [next_ok] in X. destruct X as [Hh (bt & K & Ei)].
  pose proof (step_task _ _ _ _ _ S) as (c' & s' & e & k & r & A' & L' & R & Ev).
  destruct (at_fun _ _ _ _ _ _ A A') as [-> ->].
  assert (O : obeys (write_ok (base id)) record (fun _ => True) (fold_left record (did i a) []) (Act e k)).
  { eapply task_obeys; [exact H1|exact A|exact R|]. apply write_call. intros bt' K'. rewrite K in K'. injection K' as <-.
    rewrite <- Ei. exact (li_fits _ _ _ _ (runs_local _ _ _ _ H1) _ _ _ A _ K). }
  assert (F : forall l h, fold_left record l h = h ++ l).
  { induction l as [|y l IH]; intros h; cbn [fold_left]; [symmetry; apply app_nil_r|]. rewrite IH. unfold record. rewrite <- app_assoc. reflexivity. }
  destruct O as [O _]. rewrite F in O. cbn [app] in O. destruct e; try discriminate Ev. injection Ev as <- <-. cbn [write_ok] in O.
  destruct O as (h0 & email & token & expires & l & -> & Rf & El). exists email, token, expires, h0, l. split; [reflexivity|]. split.
  - rewrite E. apply uses_key_mono. apply (uses_key_is _ _ _ _ _ _ H1). exists c, s. split; [exact A|]. exists bt. auto.
  - split; [|exact Rf]. rewrite did_snoc, Nat.eqb_refl. exact El.
Qed.

(** At any time the cache of a key is empty and was never written, or holds what the last write wrote: the
    email and token of two consecutive successful metadata responses to one task on that key, with the expiry
    computed from that task's next clock reading. *)
Theorem C32_cache d base tr cfg id : runs d base tr cfg ->
  (caches cfg id = None /\ never_written tr id) \/
  exists email token expires a i b x l,
    caches cfg id = Some (email, token, expires) /\
    tr = a ++ GDo i (VSet id (Some (email, token, expires))) :: b /\ never_written b id /\
    uses_key tr i id /\
    did i (a ++ [GDo i (VSet id (Some (email, token, expires)))]) = x ++ l /\
    refreshed id (base id) email token expires l.
Proof.
  intros H. destruct (runs_cache _ _ _ _ H id) as [[W C]|(a & i & b & E & W)]; [left; auto|]. right.
  destruct (write_refreshed _ _ _ _ _ _ _ _ _ H E) as (email & token & expires & x & l & Ev & U & D & R).
  rewrite Ev in *. exists email, token, expires, a, i, b, x, l. auto 8.
Qed.

(** Every lookup reads just that. *)
Theorem C32_read d base tr cfg a j id c b : runs d base tr cfg -> tr = a ++ GDo j (VGet id c) :: b ->
  (c = None /\ never_written a id) \/ written a id c.
Proof.
  intros H E. destruct (runs_split _ _ _ _ _ _ _ H E) as (c1 & c2 & H1 & S & H2).
  rewrite (step_get _ _ _ _ _ _ _ S). destruct (runs_cache _ _ _ _ H1 id) as [[W C]|W]; auto.
Qed.

(** * C34 *)

Lemma refreshing_owner d base tr cfg i id : runs d base tr cfg -> refreshing tr i id -> owner cfg id = Some i.
Proof.
  intros H (a & r & b & E & M & U & Nu & Ne). destruct (runs_split _ _ _ _ _ _ _ H E) as (c1 & c2 & H1 & S & H2).
  assert (U1 : uses_key a i id).
  { apply (uses_key_is _ _ _ _ _ _ H) in U. destruct U as (c & s & A & K).
    pose proof (send_next _ _ _ _ _ _ _ H1 S) as (c' & s' & A' & _). apply (uses_key_is _ _ _ _ _ _ H1). exists c', s'. split; [exact A'|].
    assert (R : runs_call a i c') by (apply (li_spawn _ _ _ _ (runs_local _ _ _ _ H1)); eauto).
    assert (R' : runs_call tr i c') by (unfold runs_call in *; rewrite E; apply in_or_app; auto).
    apply (li_spawn _ _ _ _ (runs_local _ _ _ _ H)) in R'. destruct R' as [s2 A2]. destruct (at_fun _ _ _ _ _ _ A A2) as [-> _]. exact K. }
  pose proof (lock_send _ _ _ _ _ _ _ _ H1 S M U1) as O1.
  assert (O2 : owner c2 id = Some i) by (eapply owner_kept; [exact H1|exact S|exact O1|discriminate|discriminate]).
  eapply (kept_through _ _ _ _ _ _ H2 O2 b); [|exact Nu|exact Ne]. rewrite <- app_assoc. cbn [app]. rewrite <- E. exact H.
Qed.

(** At most one task is refreshing a key. *)
Theorem C34_one d base tr cfg i j id : runs d base tr cfg -> refreshing tr i id -> refreshing tr j id -> i = j.
Proof.
  intros H Ri Rj. apply (refreshing_owner _ _ _ _ _ _ H) in Ri. apply (refreshing_owner _ _ _ _ _ _ H) in Rj. congruence.
Qed.

(** Between two metadata requests of different tasks on one key the first task gave back the lock or ended. *)
Theorem C34_no_overlap d base tr cfg a i r b j r' c id : runs d base tr cfg ->
  tr = a ++ GSend i r :: b ++ GSend j r' :: c -> i <> j -> is_metadata r -> is_metadata r' ->
  uses_key tr i id -> uses_key tr j id ->
  In (GDo i (VUnlock id)) b \/ has_ended b i.
Proof.
  intros H E N M M' U U'.
  assert (D : In (GDo i (VUnlock id)) b \/ ~ In (GDo i (VUnlock id)) b).
  { clear. induction b as [|v b [IH|IH]]; [right; intros []|left; right; exact IH|].
    assert (X : v = GDo i (VUnlock id) \/ v <> GDo i (VUnlock id)).
    { destruct v as [| |k e|]; try (right; discriminate). destruct e as [| | |id'| |]; try (right; discriminate).
      destruct (Nat.eq_dec k i) as [->|]; [|right; congruence]. destruct (N.eq_dec id' id) as [->|]; [auto|right; congruence]. }
    destruct X as [->|X]; [left; left; reflexivity|right]. intros [Y|Y]; [congruence|exact (IH Y)]. }
  assert (D' : has_ended b i \/ ~ has_ended b i).
  { clear. induction b as [|v b [[e IH]|IH]]; [right; intros [e []]|left; exists e; right; exact IH|].
    assert (X : (exists e, v = GEnd i e) \/ forall e, v <> GEnd i e).
    { destruct v as [| | |k e]; try (right; discriminate). destruct (Nat.eq_dec k i) as [->|]; [left; eauto|right; congruence]. }
    destruct X as [[e ->]|X]; [left; exists e; left; reflexivity|right]. intros [e [Y|Y]]; [exact (X e Y)|apply IH; exists e; exact Y]. }
  destruct D as [D|D]; [auto|]. destruct D' as [D'|D']; [auto|]. exfalso.
  assert (E' : tr = (a ++ GSend i r :: b) ++ GSend j r' :: c) by (rewrite E, <- app_assoc; reflexivity).
  destruct (runs_split _ _ _ _ _ _ _ H E') as (c1 & c2 & H1 & S & H2).
  pose proof (send_next _ _ _ _ _ _ _ H1 S) as (cj & sj & Aj & _).
  assert (Back : forall k, uses_key tr k id -> (exists c0 s0, at_ c1 k c0 s0) -> uses_key (a ++ GSend i r :: b) k id).
  { intros k Uk (c0 & s0 & A0). apply (uses_key_is _ _ _ _ _ _ H) in Uk. destruct Uk as (c' & s & A & K).
    apply (uses_key_is _ _ _ _ _ _ H1). exists c0, s0. split; [exact A0|].
    assert (R : runs_call (a ++ GSend i r :: b) k c0) by (apply (li_spawn _ _ _ _ (runs_local _ _ _ _ H1)); eauto).
    assert (R' : runs_call tr k c0) by (unfold runs_call in *; rewrite E'; apply in_or_app; auto).
    apply (li_spawn _ _ _ _ (runs_local _ _ _ _ H)) in R'. destruct R' as [s2 A2]. destruct (at_fun _ _ _ _ _ _ A A2) as [-> _]. exact K. }
  assert (Oj : owner c1 id = Some j) by (eapply lock_send; [exact H1|exact S|exact M'|]; apply Back; eauto).
  assert (Oi : owner c1 id = Some i).
  { eapply refreshing_owner; [exact H1|]. exists a, r, b. split; [reflexivity|]. split; [exact M|]. split; [|auto]. apply Back; [exact U|].
    destruct (runs_split _ _ _ _ a (GSend i r) b H1 eq_refl) as (c3 & c4 & H3 & S3 & _).
    pose proof (send_next _ _ _ _ _ _ _ H3 S3) as (ci & si & Ai & _).
    assert (R : runs_call a i ci) by (apply (li_spawn _ _ _ _ (runs_local _ _ _ _ H3)); eauto).
    assert (R' : runs_call (a ++ GSend i r :: b) i ci) by (unfold runs_call in *; apply in_or_app; auto).
    apply (li_spawn _ _ _ _ (runs_local _ _ _ _ H1)) in R'. destruct R'. eauto. }
  congruence.
Qed.

(** * C35 *)

(** After a refresh recorded expiry [e], as long as every clock reading of a task that holds the lock is more
    than thirty seconds before [e]: no metadata request for the key is sent, and nothing but the recorded
    entry is read, and nothing is written. *)
Theorem C35_serves d base tr cfg a i id email token e b : runs d base tr cfg ->
  tr = a ++ GDo i (VSet id (Some (email, token, e))) :: b ->
  (forall b1 j t b2, b = b1 ++ GDo j (VNow t) :: b2 ->
     holding (a ++ GDo i (VSet id (Some (email, token, e))) :: b1) j id -> t + 30 * 1000000000 < e) ->
  (forall j r, In (GSend j r) b -> uses_key tr j id -> ~ is_metadata r) /\
  (forall j c, In (GDo j (VGet id c)) b -> c = Some (email, token, e)) /\
  never_written b id /\ caches cfg id = Some (email, token, e).
Proof.
  intros H E Hyp. set (v0 := GDo i (VSet id (Some (email, token, e)))) in *.
  assert (Main : forall b' rest, b = b' ++ rest -> forall cfg', runs d base (a ++ v0 :: b') cfg' ->
     caches cfg' id = Some (email, token, e) /\
     (forall j c s, at_ cfg' j c s -> live s -> key_is c id ->
        phase_of j (a ++ v0 :: b') <> Busy /\ forall x, phase_of j (a ++ v0 :: b') = Got x -> x = e) /\
     (forall j r, In (GSend j r) b' -> uses_key (a ++ v0 :: b') j id -> ~ is_metadata r) /\
     (forall j c, In (GDo j (VGet id c)) b' -> c = Some (email, token, e)) /\ never_written b' id).
  { induction b' as [|v b' IH] using rev_ind; intros rest Eb cfg' H'.
    - inversion H' as [E0|tr0 cfg0 w cfg1 H0 S E0]; [destruct a; discriminate E0|]. subst cfg1. apply app_inj_tail in E0. destruct E0 as [-> ->].
      split; [eapply step_set; exact S|]. split; [|split; [intros j r []|split; [intros j c []|intros j x []]]].
      intros j c s A L K. rewrite phase_snoc. subst v0. cbn. destruct (Nat.eqb_spec i j) as [<-|N]; [split; discriminate|].
      pose proof (lock_event _ _ _ _ _ _ _ id H0 S eq_refl) as O.
      assert (Hf : held j a = false).
      { destruct (held j a) eqn:Hh; [|reflexivity]. exfalso.
        apply (step_frame _ _ _ _ _ _ _ _ S) in A; [|cbn; apply Nat.eqb_neq; congruence].
        assert (owner cfg0 id = Some j) by (apply (runs_lock _ _ _ _ H0); eauto 6). congruence. }
      rewrite (phase_unlocked _ _ _ _ H0 _ Hf). split; discriminate.
    - change (a ++ v0 :: b' ++ [v]) with (a ++ (v0 :: b') ++ [v]) in *. rewrite app_assoc in *.
      inversion H' as [E0|tr0 cfg0 w cfg1 H0 S E0]; [destruct (a ++ v0 :: b'); discriminate E0|]. subst cfg1. apply app_inj_tail in E0. destruct E0 as [-> ->].
      rewrite <- app_assoc in Eb. cbn [app] in Eb.
      destruct (IH _ Eb cfg0 H0) as (I1 & I2 & I3 & I4 & I5).
      (* the phase of the task that moves *)
      assert (Ph : forall j ev, v = GDo j ev -> exists c s x (r : resp x), at_ cfg0 j c s /\ live s /\ ev = event_of x r /\
         next_ok c (held j (a ++ v0 :: b')) ev /\ phase_ok (phase_of j (a ++ v0 :: b')) x).
      { intros j ev ->. pose proof (step_task _ _ _ _ _ S) as (c & s & x & k & r & A & L & R & Ev).
        exists c, s, x, r. split; [exact A|]. split; [exact L|]. split; [exact Ev|]. split.
        - destruct (do_next _ _ _ _ _ _ _ H0 S) as (c' & s' & A' & _ & X). destruct (at_fun _ _ _ _ _ _ A A') as [-> _]. exact X.
        - destruct (task_phase _ _ _ _ _ _ _ _ H0 A R) as [X _]. exact X. }
      assert (Nset : forall j x, v <> GDo j (VSet id x)).
      { intros j x Ev. destruct (Ph _ _ Ev) as (c & s & y & r & A & L & E1 & X & P). destruct y; try discriminate E1. injection E1 as <- <-.
        cbn [next_ok] in X. destruct X as [_ K]. cbn [phase_ok] in P. destruct (I2 _ _ _ A L K) as [Q _]. exact (Q P). }
      assert (Nsend : forall j r, v = GSend j r -> uses_key ((a ++ v0 :: b') ++ [v]) j id -> ~ is_metadata r).
      { intros j r Ev U M. subst v. pose proof (step_task _ _ _ _ _ S) as (c & k & A).
        assert (K : key_is c id).
        { apply (uses_key_is _ _ _ _ _ _ H') in U. destruct U as (c' & s' & A' & K).
          destruct (step_self _ _ _ _ _ _ _ _ S (Nat.eqb_refl j) A') as [[X _]|(s0 & A0 & _)]; [discriminate X|].
          destruct (at_fun _ _ _ _ _ _ A A0) as [-> _]. exact K. }
        destruct (task_phase _ _ _ _ _ _ _ _ H0 A eq_refl) as [P _]. cbn [phase_ok] in P.
        assert (L : live (Running (Act (EHttp r) k))) by discriminate.
        destruct (I2 _ _ _ A L K) as [Q _]. exact (Q (P M)). }
      assert (Nget : forall j c, v = GDo j (VGet id c) -> c = Some (email, token, e)).
      { intros j c ->. rewrite (step_get _ _ _ _ _ _ _ S). exact I1. }
      split; [rewrite (step_cache _ _ _ _ _ _ S Nset); exact I1|]. split; [|split; [|split]].
      + intros j c s A L K. rewrite phase_snoc.
        destruct (of_task j v) eqn:Ej.
        * destruct (step_self _ _ _ _ _ _ _ _ S Ej A) as [[-> _]|(s0 & A0 & L0)].
          { apply step_task in S. cbn in S. rewrite (phase_unlocked _ _ _ _ H0); [split; discriminate|]. unfold held.
            rewrite did_new; [reflexivity|]. apply (li_new _ _ _ _ (runs_local _ _ _ _ H0)). lia. }
          destruct (I2 _ _ _ A0 L0 K) as [Q1 Q2].
          destruct v as [| |j' ev|]; try (split; assumption). cbn [of_task] in Ej. rewrite Ej. apply Nat.eqb_eq in Ej. subst j'.
          destruct (Ph _ _ eq_refl) as (c' & s' & y & r & A' & L' & E1 & X & P).
          destruct (at_fun _ _ _ _ _ _ A0 A') as [-> ->].
          destruct ev as [t|q o|id'|id'|id' x|id' x]; cbn [phase_next].
          -- destruct (phase_of j (a ++ v0 :: b')) as [| |x| | |] eqn:Ep; try (split; discriminate); [|congruence].
             pose proof (Q2 _ eq_refl) as ->.
             assert (Ho : holding (a ++ v0 :: b') j id).
             { apply (holding_owner _ _ _ _ _ _ H0). apply (runs_lock _ _ _ _ H0). exists c, s0. split; [exact A0|]. split; [exact L0|]. split; [exact K|].
               destruct (held j (a ++ v0 :: b')) eqn:Hh; [reflexivity|]. rewrite (phase_unlocked _ _ _ _ H0 _ Hh) in Ep. discriminate Ep. }
             pose proof (Hyp _ _ _ _ Eb Ho) as Ht. unfold NS. change (1000000000) with (10 ^ 9)%Z in *.
             destruct (Z.ltb_spec (t + 30 * 10 ^ 9) e) as [_|Hl]; [split; discriminate|lia].
          -- split; assumption.
          -- split; discriminate.
          -- split; discriminate.
          -- cbn [next_ok] in X. destruct X as [_ K']. rewrite (key_is_fun _ _ _ K' K) in *. rewrite (Nget _ _ eq_refl). split; [discriminate|].
             intros z Ez. injection Ez as <-. reflexivity.
          -- split; discriminate.
        * apply (step_frame _ _ _ _ _ _ _ _ S Ej) in A. destruct (I2 _ _ _ A L K) as [Q1 Q2].
          destruct v as [| |j' ev|]; try (split; assumption). cbn [of_task] in Ej. rewrite Ej. split; assumption.
      + intros j r I U. apply in_snoc in I. destruct I as [I|I]; [|eapply Nsend; [symmetry; exact I|exact U]].
        apply (I3 j r I). apply in_split in I. destruct I as (b1 & b2 & ->).
        destruct (runs_split _ _ _ _ (a ++ v0 :: b1) (GSend j r) b2 H0) as (c3 & c4 & H3 & S3 & _); [rewrite <- app_assoc; reflexivity|].
        pose proof (send_next _ _ _ _ _ _ _ H3 S3) as (cj & sj & Aj & _).
        assert (R : runs_call (a ++ v0 :: b1) j cj) by (apply (li_spawn _ _ _ _ (runs_local _ _ _ _ H3)); eauto).
        assert (R1 : runs_call (a ++ v0 :: b1 ++ GSend j r :: b2) j cj).
        { unfold runs_call in *. change (a ++ v0 :: b1 ++ GSend j r :: b2) with (a ++ (v0 :: b1) ++ GSend j r :: b2). rewrite app_assoc. apply in_or_app. auto. }
        assert (R2 : runs_call ((a ++ v0 :: b1 ++ GSend j r :: b2) ++ [v]) j cj) by (unfold runs_call in *; apply in_or_app; auto).
        apply (uses_key_is _ _ _ _ _ _ H') in U. destruct U as (c' & s' & A' & K).
        apply (li_spawn _ _ _ _ (runs_local _ _ _ _ H')) in R2. destruct R2 as [s2 A2]. destruct (at_fun _ _ _ _ _ _ A' A2) as [-> _].
        apply (li_spawn _ _ _ _ (runs_local _ _ _ _ H0)) in R1. destruct R1 as [s1 A1].
        apply (uses_key_is _ _ _ _ _ _ H0). eauto.
      + intros j c I. apply in_snoc in I. destruct I as [I|I]; [eauto|]. eapply Nget. symmetry. exact I.
      + intros j x I. apply in_snoc in I. destruct I as [I|I]; [exact (I5 j x I)|]. exact (Nset j x (eq_sym I)). }
  rewrite E in H. destruct (Main b [] (eq_sym (app_nil_r b)) cfg H) as (M1 & _ & M3 & M4 & M5). rewrite E. auto.
Qed.

(** * C36 *)

(** Task [i] can make a step of its own. *)
Definition can_move (d : deps) (base : N -> str) (cfg : config) (i : nat) : Prop :=
  exists v cfg', cstep d base cfg v cfg' /\ of_task i v = true /\ ~ external v.

(** The lock is free or held by a task that has not ended. *)
Theorem C36_lock d base tr cfg id i : runs d base tr cfg -> owner cfg id = Some i ->
  holding tr i id /\ uses_key tr i id /\ ~ has_ended tr i.
Proof.
  intros H O. split; [apply (holding_owner _ _ _ _ _ _ H); exact O|].
  apply (runs_lock _ _ _ _ H) in O. destruct O as (c & s & A & L & K & _). split.
  - apply (uses_key_is _ _ _ _ _ _ H). eauto.
  - apply (live_not_ended _ _ _ _ _ _ _ H A). exact L.
Qed.

(** A live task can move unless it waits for a lock. *)
Lemma moves d base cfg i c s : at_ cfg i c s -> live s ->
  can_move d base cfg i \/ exists id k, s = Running (Act (ELock id) k) /\ owner cfg id <> None.
Proof.
  intros A L. destruct s as [p|r k|e]; [|left|destruct (L _ eq_refl)].
  2:{ do 2 eexists. split; [apply (cs_receive _ _ _ _ _ _ _ HttpFailed A)|]. split; [apply Nat.eqb_refl|intros []]. }
  destruct p as [a|x|e k].
  - left. do 2 eexists. split; [apply (cs_return _ _ _ _ _ _ A)|]. split; [apply Nat.eqb_refl|intros []].
  - left. do 2 eexists. split; [apply (cs_panic _ _ _ _ _ _ A)|]. split; [apply Nat.eqb_refl|intros []].
  - destruct e as [|r|id|id|id|id x].
    + left. do 2 eexists. split; [apply (cs_now _ _ _ _ _ _ 0 A)|]. split; [apply Nat.eqb_refl|intros []].
    + left. do 2 eexists. split; [apply (cs_send _ _ _ _ _ _ _ A)|]. split; [apply Nat.eqb_refl|intros []].
    + destruct (owner cfg id) as [j|] eqn:O; [right; exists id, k; split; [reflexivity|congruence]|left].
      do 2 eexists. split; [apply (cs_lock _ _ _ _ _ _ _ A O)|]. split; [apply Nat.eqb_refl|intros []].
    + left. do 2 eexists. split; [apply (cs_unlock _ _ _ _ _ _ _ A)|]. split; [apply Nat.eqb_refl|intros []].
    + left. do 2 eexists. split; [apply (cs_get _ _ _ _ _ _ _ A)|]. split; [apply Nat.eqb_refl|intros []].
    + left. do 2 eexists. split; [apply (cs_set _ _ _ _ _ _ _ _ A)|]. split; [apply Nat.eqb_refl|intros []].
Qed.

(** An unfinished task can move, or waits for a lock that another unfinished task holds, which can move. *)
Theorem C36_progress d base tr cfg i c : runs d base tr cfg -> runs_call tr i c -> ~ has_ended tr i ->
  can_move d base cfg i \/
  exists id j, uses_key tr i id /\ holding tr j id /\ j <> i /\ ~ has_ended tr j /\ can_move d base cfg j.
Proof.
  intros H R N. apply (li_spawn _ _ _ _ (runs_local _ _ _ _ H)) in R. destruct R as [s A].
  pose proof (proj2 (live_not_ended _ _ _ _ _ _ _ H A) N) as L.
  destruct (moves d base _ _ _ _ A L) as [M|(id & k & -> & O)]; [left; exact M|right].
  destruct (owner cfg id) as [j|] eqn:Oj; [|congruence].
  destruct (task_next d base tr cfg i c _ _ (ELock id) k tt H A eq_refl eq_refl) as [Hf K].
  destruct (C36_lock _ _ _ _ _ _ H Oj) as (Hj & _ & Nj).
  exists id, j. split; [apply (uses_key_is _ _ _ _ _ _ H); eauto|]. split; [exact Hj|].
  apply (runs_lock _ _ _ _ H) in Oj. destruct Oj as (c' & s' & A' & L' & K' & Hd).
  split; [intros ->; congruence|]. split; [exact Nj|].
  destruct (moves d base _ _ _ _ A' L') as [M|(id' & k' & -> & O')]; [exact M|exfalso].
  destruct (task_next d base tr cfg j c' _ _ (ELock id') k' tt H A' eq_refl eq_refl) as [Hf' _]. congruence.
Qed.

(** Number of events of one task. *)
Definition count (i : nat) (tr : list gevent) : nat := length (filter (of_task i) tr).
Definition spent (l : list event) : nat := list_sum (map cost l).

Lemma spent_app a b : spent (a ++ b) = (spent a + spent b)%nat.
Proof. unfold spent. rewrite map_app, list_sum_app. reflexivity. Qed.

Lemma cost_steps {A} (p q : prog A) tr : steps p tr q -> forall n, obeys cost_ok cost_next (fun _ => True) n p ->
  (spent tr <= n)%nat /\ obeys cost_ok cost_next (fun _ => True) (n - spent tr)%nat q.
Proof.
  induction 1 as [p|e k r tr q H IH]; intros n O; [cbn; rewrite Nat.sub_0_r; split; [lia|exact O]|].
  destruct O as [O1 O]. destruct (IH _ (O r)) as [L Q].
  assert (E : spent (event_of e r :: tr) = (cost (event_of e r) + spent tr)%nat) by reflexivity.
  assert (C : (cost (event_of e r) <= n)%nat) by (destruct e; exact O1). unfold cost_next in *. rewrite E. split; [lia|].
  replace (n - (cost (event_of e r) + spent tr))%nat with (n - cost (event_of e r) - spent tr)%nat by lia. exact Q.
Qed.

Lemma count_snoc i tr v : count i (tr ++ [v]) = (count i tr + if of_task i v then 1 else 0)%nat.
Proof. unfold count. rewrite filter_app, app_length. cbn. destruct (of_task i v); reflexivity. Qed.

Lemma count_status d base tr cfg : runs d base tr cfg -> forall i c s, at_ cfg i c s ->
  match s with
  | Running _ => count i tr = (1 + spent (did i tr))%nat
  | InFlight _ _ => count i tr = (2 + spent (did i tr))%nat
  | Ended _ => (count i tr <= 25)%nat
  end.
Proof.
  induction 1 as [|tr cfg v cfg' H IH S]; intros i c s A; [unfold at_ in A; destruct i; discriminate A|].
  assert (B : forall c s p, at_ cfg i c s -> rest_of s = Some p -> (spent (did i tr) <= 23)%nat /\ obeys cost_ok cost_next (fun _ => True) (23 - spent (did i tr))%nat p).
  { intros c0 s0 p A0 R. destruct (li_steps _ _ _ _ (runs_local _ _ _ _ H) _ _ _ A0) as (p' & St & X).
    destruct X as [X|X]; [|rewrite X in R; discriminate R]. rewrite R in X. injection X as <-. apply (cost_steps _ _ _ St). apply cost_call. }
  rewrite count_snoc. destruct (of_task i v) eqn:Ei.
  2:{ apply (step_frame _ _ _ _ _ _ _ _ S Ei) in A. specialize (IH _ _ _ A).
      assert (D : did i (tr ++ [v]) = did i tr).
      { rewrite did_snoc. destruct v as [| |j e|]; try apply app_nil_r. cbn [of_task] in Ei. rewrite Ei. apply app_nil_r. }
      rewrite D, Nat.add_0_r. exact IH. }
  destruct S as [cfg c0 F|cfg j c0 k t A0|cfg j c0 r k A0|cfg j c0 r k o A0|cfg j c0 id k A0 O|cfg j c0 id k A0|cfg j c0 id k A0|cfg j c0 id x k A0|cfg j c0 a A0|cfg j c0 s0 A0|cfg j c0 s0 A0 L];
    cbn [of_task] in Ei; apply Nat.eqb_eq in Ei; subst i;
    rewrite ?at_set_owner, ?at_set_cache, ?at_release in A;
    try (apply (at_put _ _ _ _ _ _ _ _ _ A0) in A; destruct A as [(_ & -> & ->)|[N _]]; [|congruence];
         pose proof (IH _ _ _ A0) as C; rewrite ?did_snoc, ?Nat.eqb_refl, ?spent_app; cbn [spent map list_sum cost fold_right] in *; try lia).
  - unfold at_ in A. cbn [tasks] in A. rewrite nth_error_app2, Nat.sub_diag in A by lia. cbn in A. injection A as <- <-.
    rewrite did_snoc, app_nil_r. pose proof (li_new _ _ _ _ (runs_local _ _ _ _ H) (length (tasks cfg)) (le_n _)) as Nn.
    rewrite (did_new _ _ Nn). assert (E : count (length (tasks cfg)) tr = 0%nat).
    { unfold count. clear - Nn. induction tr as [|v tr IHt]; [reflexivity|]. cbn. rewrite (Nn v (or_introl eq_refl)). apply IHt. intros w I. apply Nn. right. exact I. }
    rewrite E. reflexivity.
  - destruct (B _ _ _ A0 eq_refl) as [Bs _]. lia.
  - destruct (B _ _ _ A0 eq_refl) as [Bs _]. lia.
  - destruct s0 as [p|r k|e]; [| |destruct (L _ eq_refl)].
    + destruct (B _ _ _ A0 eq_refl) as [Bs _]. lia.
    + destruct (B _ _ _ A0 eq_refl) as [Bs [Bo _]]. unfold cost_ok in Bo. lia.
Qed.

(** Every operation ends after finitely many steps: a task takes part in at most 25 events. *)
Theorem C36_bound d base tr cfg i : runs d base tr cfg -> (length (filter (of_task i) tr) <= 25)%nat.
Proof.
  intros H. change (count i tr <= 25)%nat.
  destruct (nth_error (tasks cfg) i) as [[c s]|] eqn:E.
  - assert (A : at_ cfg i c s) by exact E. pose proof (count_status _ _ _ _ H _ _ _ A) as C.
    assert (B : forall p, rest_of s = Some p -> (spent (did i tr) <= 23)%nat).
    { intros p R. destruct (li_steps _ _ _ _ (runs_local _ _ _ _ H) _ _ _ A) as (p' & St & X). apply (cost_steps _ _ _ St). apply cost_call. }
    destruct s as [p|r k|e]; [specialize (B _ eq_refl); lia|specialize (B _ eq_refl); lia|exact C].
  - apply nth_error_None in E. pose proof (li_new _ _ _ _ (runs_local _ _ _ _ H) _ E) as N.
    unfold count. clear - N. induction tr as [|v tr IH]; [cbn; lia|]. cbn. rewrite (N v (or_introl eq_refl)). apply IH. intros w I. apply N. right. exact I.
Qed.

Lemma spawned d base tr cfg : runs d base tr cfg ->
  length (tasks cfg) = length (filter (fun v => match v with GSpawn _ _ => true | _ => false end) tr).
Proof.
  induction 1 as [|tr cfg v cfg' H IH S]; [reflexivity|]. rewrite filter_app, app_length, <- IH.
  destruct S; cbn; rewrite ?app_length, ?replace_length; cbn; lia.
Qed.

Lemma counts n (tr : list gevent) : (forall v, In v tr -> exists i, (i < n)%nat /\ of_task i v = true) ->
  length tr = list_sum (map (fun i => count i tr) (seq 0 n)).
Proof.
  induction tr as [|v tr IH]; intros H.
  - cbn. induction (seq 0 n) as [|x l IHl]; [reflexivity|exact IHl].
  - cbn [length]. rewrite IH by (intros w I; apply H; right; exact I). destruct (H v (or_introl eq_refl)) as (i & Hi & E). clear - Hi E.
    assert (Q : forall j, of_task j v = Nat.eqb i j).
    { intros j. destruct v; cbn in *; apply Nat.eqb_eq in E; subst; reflexivity. }
    assert (K : forall l, NoDup l -> list_sum (map (fun j => count j (v :: tr)) l) =
       (list_sum (map (fun j => count j tr) l) + if in_dec Nat.eq_dec i l then 1 else 0)%nat).
    { intros l Nd. induction Nd as [|x l Nx Nd IHl]; [reflexivity|]. cbn [map list_sum fold_right]. change (fold_right Nat.add 0%nat) with list_sum. rewrite IHl.
      assert (C : count x (v :: tr) = (count x tr + if Nat.eqb i x then 1 else 0)%nat).
      { unfold count. cbn [filter]. rewrite Q. destruct (Nat.eqb i x); cbn [length]; lia. }
      rewrite C. destruct (Nat.eqb_spec i x) as [Ex|Nx'], (in_dec Nat.eq_dec i l) as [I|I], (in_dec Nat.eq_dec i (x :: l)) as [I'|I'];
        try lia; exfalso; try (subst x; contradiction); cbn [In] in I'; try (destruct I' as [I'|I']; [congruence|contradiction]); apply I'; auto. }
    rewrite K by apply seq_NoDup. destruct (in_dec Nat.eq_dec i (seq 0 n)) as [_|N]; [lia|]. destruct N. apply in_seq. lia.
Qed.

(** All in all at most 25 events per call started. *)
Theorem C36_total d base tr cfg : runs d base tr cfg ->
  (length tr <= 25 * length (filter (fun v => match v with GSpawn _ _ => true | _ => false end) tr))%nat.
Proof.
  intros H. rewrite <- (spawned _ _ _ _ H). rewrite (counts (length (tasks cfg))).
  - assert (K : forall l, (list_sum (map (fun i => count i tr) l) <= 25 * length l)%nat).
    { induction l as [|x l IH]; [cbn; lia|]. cbn [map list_sum fold_right length]. change (fold_right Nat.add 0%nat) with list_sum.
      pose proof (C36_bound d base tr cfg x H) as Bx. unfold count at 1. lia. }
    specialize (K (seq 0 (length (tasks cfg)))). rewrite seq_length in K. exact K.
  - intros v I. set (i := match v with GSpawn i _ | GSend i _ | GDo i _ | GEnd i _ => i end).
    assert (E : of_task i v = true) by (destruct v; apply Nat.eqb_refl). exists i. split; [|exact E].
    destruct (Nat.lt_ge_cases i (length (tasks cfg))) as [X|X]; [exact X|].
    rewrite (li_new _ _ _ _ (runs_local _ _ _ _ H) _ X _ I) in E. discriminate E.
Qed.

Lemma live_or_all (l : list task) : (exists i c s, nth_error l i = Some {| t_call := c; t_status := s |} /\ live s) \/
  (forall i c s, nth_error l i = Some {| t_call := c; t_status := s |} -> exists e, s = Ended e).
Proof.
  induction l as [|[c s] l [(i & c' & s' & E & L)|IH]].
  - right. intros [|i] c s E; discriminate E.
  - left. exists (Datatypes.S i), c', s'. auto.
  - destruct (live_dec s) as [L|[e ->]]; [left; exists 0%nat, c, s; auto|right].
    intros [|i] c' s' E; [injection E as <- <-; eauto|eapply IH; exact E].
Qed.

(** From any state, all calls started so far can be run to their ends, without cancelling any and without
    starting new ones; together with [C36_total] no schedule can avoid that for ever. *)
Theorem C36_completes d base tr cfg : runs d base tr cfg ->
  exists more cfg', runs d base (tr ++ more) cfg' /\ Forall (fun v => ~ external v) more /\
    forall i c, runs_call tr i c -> has_ended (tr ++ more) i.
Proof.
  intros H. remember (25 * length (tasks cfg) - length tr)%nat as m eqn:Em. revert tr cfg H Em.
  induction m as [m IH] using lt_wf_ind. intros tr cfg H Em.
  destruct (live_or_all (tasks cfg)) as [(i & c & s & A & L)|All].
  - assert (M : exists j, can_move d base cfg j).
    { assert (R : runs_call tr i c) by (apply (li_spawn _ _ _ _ (runs_local _ _ _ _ H)); exists s; exact A).
      destruct (C36_progress _ _ _ _ _ _ H R) as [M|(id & j & _ & _ & _ & _ & M)]; [|eauto|eauto].
      apply (live_not_ended _ _ _ _ _ _ _ H A). exact L. }
    destruct M as (j & v & cfg1 & S & _ & Nx).
    assert (H1 : runs d base (tr ++ [v]) cfg1) by (econstructor; eassumption).
    assert (Len : length (tasks cfg1) = length (tasks cfg)).
    { destruct S; cbn; rewrite ?replace_length; try reflexivity. destruct Nx. exact Logic.I. }
    pose proof (C36_total _ _ _ _ H1) as T. rewrite <- (spawned _ _ _ _ H1), app_length in T. cbn in T.
    destruct (IH (25 * length (tasks cfg1) - length (tr ++ [v]))%nat) with (tr := tr ++ [v]) (cfg := cfg1) as (more & cfg' & R & F & E);
      [rewrite app_length; cbn; lia|exact H1|reflexivity|].
    exists (v :: more), cfg'. rewrite <- app_assoc in *. cbn [app] in *. split; [exact R|]. split; [constructor; assumption|].
    intros i' c' X. apply (E i' c'). unfold runs_call in *. apply in_or_app. auto.
  - exists [], cfg. rewrite app_nil_r. split; [exact H|]. split; [constructor|]. intros i c R.
    apply (li_spawn _ _ _ _ (runs_local _ _ _ _ H)) in R. destruct R as [s A]. destruct (All _ _ _ A) as [e ->].
    apply (has_ended_at _ _ _ _ _ H). eauto.
Qed.

(** * C39 *)

Lemma panicked d base tr cfg i s : runs d base tr cfg -> In (GEnd i (Panicked s)) tr ->
  exists c, runs_call tr i c /\ fits base c /\ panics (run_call d c) (did i tr) s.
Proof.
  intros H I. apply (li_ended _ _ _ _ (runs_local _ _ _ _ H)) in I. destruct I as [c A]. exists c.
  split; [apply (li_spawn _ _ _ _ (runs_local _ _ _ _ H)); eauto|]. split; [exact (li_fits _ _ _ _ (runs_local _ _ _ _ H) _ _ _ A)|].
  destruct (li_steps _ _ _ _ (runs_local _ _ _ _ H) _ _ _ A) as (p & S & [X|X]); [|discriminate X]. injection X as <-. exact S.
Qed.

(** When no clock reading is before 1970 and every expiry that it computes itself from a token response stays in range, no
    operation with a bound-token key panics in a token lookup, whatever the schedule: what panics remain are
    those of its form field names and of its headers, which C09 and C27 describe. *)
Theorem C39_no_panic d base tr cfg i s id : runs d base tr cfg ->
  (forall j t, In (GDo j (VNow t)) tr -> 0 <= t) ->
  (forall o body token n t, In (GDo i (VHttp (metadata_request (base id) (B "token")) o)) tr -> answered o body -> token_body body token n (B "Bearer") ->
     In (GDo i (VNow t)) tr -> t + Z.of_N n * 1000000000 < two63 * 1000000000) ->
  uses_key tr i id -> In (GEnd i (Panicked s)) tr -> In s [PFieldName; PHeaderMap; PUri].
Proof.
  intros H Clock Range (c & bt & R & K & Ei) I. destruct (panicked _ _ _ _ _ _ H I) as (c' & R' & F & P).
  assert (c' = c) as ->.
  { apply (li_spawn _ _ _ _ (runs_local _ _ _ _ H)) in R, R'. destruct R as [s1 A1], R' as [s2 A2]. apply (at_fun _ _ _ _ _ _ A1 A2). }
  destruct (C39_panic_cause _ _ _ _ _ P K) as [X|(tr0 & c0 & mid & E & _ & X)]; [exact X|exfalso].
  destruct X as [(email & token & expires & -> & Neg & ->)|[(now & -> & Neg)|(mid' & o & body & token & n & now & -> & An & Tb & O)]].
  - change (tr0 ++ [VLock (bt_id bt); VGet (bt_id bt) (Some (email, token, expires))])
      with (tr0 ++ [VLock (bt_id bt)] ++ VGet (bt_id bt) (Some (email, token, expires)) :: []) in E. rewrite app_assoc in E.
    apply did_split in E. destruct E as (a & b & Et & _ & _).
    destruct (C32_read _ _ _ _ _ _ _ _ _ H Et) as [[Y _]|(a' & j & b' & Ea & _)]; [discriminate Y|].
    assert (Ej : tr = a' ++ GDo j (VSet (bt_id bt) (Some (email, token, expires))) :: b' ++ GDo i (VGet (bt_id bt) (Some (email, token, expires))) :: b).
    { rewrite Et, Ea, <- app_assoc. reflexivity. }
    destruct (write_refreshed _ _ _ _ _ _ _ _ _ H Ej) as (em & tk & ex & x & l & Ev & _ & D & Rf).
    injection Ev as <- <- <-. destruct Rf as (o1 & o2 & body & n & now & _ & _ & _ & Ex & El).
    assert (0 <= now); [|lia]. apply (Clock j). rewrite Ej. apply in_or_app. left.
    assert (Y : In (VNow now) (did j (a' ++ [GDo j (VSet (bt_id bt) (Some (email, token, expires)))]))).
    { rewrite D. apply in_or_app. right. rewrite El. cbn. auto. }
    apply did_in in Y. apply in_snoc in Y. destruct Y as [Y|Y]; [exact Y|discriminate Y].
  - assert (0 <= now); [|lia]. apply (Clock i). apply did_in. rewrite E. apply in_or_app. right. cbn. auto.
  - assert (now + Z.of_N n * 1000000000 < two63 * 1000000000); [|lia].
    rewrite (F bt K), Ei in E. apply (Range o body token n); [|exact An|exact Tb|].
    + apply did_in. rewrite E. apply in_or_app. right. right. right. apply in_or_app. right. cbn. auto.
    + apply did_in. rewrite E. apply in_or_app. right. right. right. apply in_or_app. right. cbn. auto.
Qed.

(** In particular no form made by the public builder then panics. *)
Theorem C39_no_panic_form d base tr cfg i s id calls : runs d base tr cfg ->
  (forall j t, In (GDo j (VNow t)) tr -> 0 <= t) ->
  (forall o body token n t, In (GDo i (VHttp (metadata_request (base id) (B "token")) o)) tr -> answered o body -> token_body body token n (B "Bearer") ->
     In (GDo i (VNow t)) tr -> t + Z.of_N n * 1000000000 < two63 * 1000000000) ->
  runs_call tr i (CallForm (builder_of calls)) -> uses_key tr i id -> ~ In (GEnd i (Panicked s)) tr.
Proof.
  intros H Clock Range R U I. pose proof (C39_no_panic _ _ _ _ _ _ _ H Clock Range U I) as P.
  destruct (panicked _ _ _ _ _ _ H I) as (c' & R' & _ & Q).
  assert (c' = CallForm (builder_of calls)) as ->.
  { apply (li_spawn _ _ _ _ (runs_local _ _ _ _ H)) in R, R'. destruct R as [s1 A1], R' as [s2 A2]. apply (at_fun _ _ _ _ _ _ A1 A2). }
  cbn [run_call] in Q. apply panics_bind_inv in Q. destruct Q as [Q|(r & t1 & t2 & _ & Q & _)]; [|exact (panics_ret_inv _ _ _ Q)].
  destruct (C09_panics _ _ _ _ Q) as (o & t & pre & rest & _ & _ & _ & _ & C).
  assert (S : In s [PServiceAccountSignBlob; PExpiresBeforeEpoch; PNowBeforeEpoch; PExpiresOverflow]).
  { destruct C as [(em & key & _ & _ & -> & _)|(bt & _ & S)]; [left; reflexivity|right; exact S]. }
  cbn in S, P. destruct S as [<-|[<-|[<-|[<-|[]]]]]; destruct P as [P|[P|[P|[]]]]; discriminate P.
Qed.

(** A panic, wherever it happens, leaves every lock that the task held free, every other lock with its owner,
    and every cache as it is. *)
Theorem C39_after_panic d base tr cfg a i s : runs d base tr cfg -> tr = a ++ [GEnd i (Panicked s)] ->
  exists before, runs d base a before /\
    (forall id, caches cfg id = caches before id) /\
    (forall id, holding a i id -> owner cfg id = None) /\
    (forall id j, j <> i -> owner before id = Some j -> owner cfg id = Some j) /\
    (forall id, owner cfg id <> Some i).
Proof.
  intros H E. destruct (runs_split _ _ _ _ a _ [] H E) as (c1 & c2 & H1 & S & H2). subst tr.
  inversion H as [E0|tr0 cfg0 w cfg1 H0 S0 E0]; [destruct a; discriminate E0|]. subst cfg1. apply app_inj_tail in E0. destruct E0 as [-> ->].
  exists cfg0. split; [exact H0|]. clear c1 c2 H1 S H2.
  assert (O : forall id, owner cfg id = match owner cfg0 id with Some j => if Nat.eqb j i then None else Some j | None => None end).
  { intros id. inversion S0; subst. reflexivity. }
  split; [intros id; eapply step_cache; [exact S0|discriminate]|]. split; [|split].
  - intros id Ho. apply (holding_owner _ _ _ _ _ _ H0) in Ho. rewrite O, Ho, Nat.eqb_refl. reflexivity.
  - intros id j N Oj. rewrite O, Oj. destruct (Nat.eqb_spec j i) as [Ej|_]; [congruence|reflexivity].
  - intros id Oi. rewrite O in Oi. destruct (owner cfg0 id) as [j|]; [|discriminate Oi]. destruct (Nat.eqb_spec j i) as [Ej|Nj]; [discriminate Oi|congruence].
Qed.

(** A task that panics in a token lookup leaves in the cache what it read from it. *)
Theorem C39_cache_unchanged d base tr cfg a i s id : runs d base tr cfg -> tr = a ++ [GEnd i (Panicked s)] -> uses_key a i id ->
  ~ In s [PFieldName; PHeaderMap; PUri] ->
  exists a1 c a2, a = a1 ++ GDo i (VGet id c) :: a2 /\ caches cfg id = c /\ never_written a2 id /\ holding a i id.
Proof.
  intros H E U N. destruct (C39_after_panic _ _ _ _ _ _ _ H E) as (before & H0 & Ec & _). rewrite Ec. subst tr.
  assert (P : exists c bt, runs_call a i c /\ call_key c = Some (KBoundToken bt) /\ bt_id bt = id /\ panics (run_call d c) (did i a) s).
  { destruct U as (c & bt & R & K & Ei). exists c, bt. split; [exact R|]. split; [exact K|]. split; [exact Ei|].
    destruct (panicked _ _ _ _ i s H) as (c' & R' & F & P); [apply in_snoc; auto|].
    assert (c' = c) as ->.
    { assert (R2 : runs_call (a ++ [GEnd i (Panicked s)]) i c) by (unfold runs_call in *; apply in_or_app; auto).
      apply (li_spawn _ _ _ _ (runs_local _ _ _ _ H)) in R2, R'. destruct R2 as [s1 A1], R' as [s2 A2]. apply (at_fun _ _ _ _ _ _ A1 A2). }
    rewrite did_snoc, app_nil_r in P. exact P. }
  destruct P as (c & bt & R & K & Ei & P). destruct (C39_panic_cause _ _ _ _ _ P K) as [X|(tr0 & c0 & mid & D & Out & _)]; [destruct (N X)|].
  rewrite Ei in D.
  destruct (did_split _ _ _ _ _ D) as (b1 & b2 & Ea & D1 & D2).
  destruct (did_split _ _ [] _ _ D2) as (b3 & b4 & Eb & D3 & D4).
  assert (Ne : ~ has_ended a i).
  { intros X. apply (has_ended_at _ _ _ _ _ H0) in X. destruct X as (c' & e & A').
    inversion H as [E0|tr0' cfg0 w cfg1 H1 S0 E0]; [destruct a; discriminate E0|]. subst cfg1. apply app_inj_tail in E0. destruct E0 as [-> ->].
    assert (X : has_ended a i) by (apply (has_ended_at _ _ _ _ _ H0); eauto).
    apply step_task in S0. destruct S0 as (c2 & s2 & A2 & L2). apply (live_not_ended _ _ _ _ _ _ _ H1 A2) in L2. exact (L2 X). }
  assert (Nu : ~ In (GDo i (VUnlock id)) b2).
  { intros X. apply did_in in X. rewrite D2 in X. destruct X as [X|X]; [discriminate X|].
    rewrite Forall_forall in Out. apply Out in X. discriminate X. }
  assert (Ne2 : ~ has_ended b2 i).
  { intros [e X]. apply Ne. exists e. rewrite Ea. apply in_or_app. right. right. exact X. }
  assert (Ho : holding a i id) by (exists b1, b2; auto).
  (* at the read *)
  assert (Ea' : a = (b1 ++ GDo i (VLock id) :: b3) ++ GDo i (VGet id c0) :: b4) by (rewrite Ea, Eb, <- app_assoc; reflexivity).
  destruct (runs_split _ _ _ _ _ _ _ H0 Ea') as (c1 & c2 & H1 & S1 & H2).
  pose proof (step_get _ _ _ _ _ _ _ S1) as Ec0.
  pose proof (lock_event _ _ _ _ _ _ _ id H1 S1 eq_refl) as O1.
  assert (O2 : owner c2 id = Some i) by (eapply owner_kept; [exact H1|exact S1|exact O1|discriminate|discriminate]).
  assert (Ec2 : caches c2 id = c0) by (rewrite (step_cache _ _ _ _ _ _ S1) by discriminate; symmetry; exact Ec0).
  destruct (cache_kept _ _ _ _ _ _ H2 O2 b4 before) as [(c3 & H3 & Ec3) Nw].
  - rewrite <- app_assoc. cbn [app]. rewrite <- Ea'. exact H0.
  - intros X. apply Nu. rewrite Eb. apply in_or_app. right. right. exact X.
  - intros [e X]. apply Ne2. exists e. rewrite Eb. apply in_or_app. right. right. exact X.
  - intros x X. apply did_in in X. rewrite D4 in X. rewrite Forall_forall in Out. apply Out in X. discriminate X.
  - exists (b1 ++ GDo i (VLock id) :: b3), c0, b4. split; [exact Ea'|]. split; [|split; [exact Nw|exact Ho]].
    rewrite Ec3, <- Ec2. apply (cache_fun _ _ _ _ _ H3 H2).
Qed.

(** * Cases *)

Definition demo_base : N -> str := fun _ => B "http://metadata.google.internal".
Definition email_ok : reply := ok_response (B "sa@example.com").
Definition token_ok : reply := ok_response demo_token_body.

(** Two forms on one key: the first refreshes while the second waits; then the second is served from the cache. *)
Definition demo_two : list move :=
  [MSpawn demo_bound_form; MSpawn demo_bound_form;
   MStep 0 RUnit; MStep 0 RUnit; MStep 0 RUnit; MStep 0 email_ok; MStep 0 RUnit; MStep 0 token_ok; MStep 0 (RNow demo_time)].
Definition demo_two_rest : list move :=
  [MStep 0 RUnit;
   MStep 1 RUnit; MStep 1 RUnit; MStep 1 (RNow (demo_time + 5 * NS)); MStep 1 RUnit;
   MStep 1 RUnit; MStep 1 RUnit; MStep 1 (RNow (demo_time + 6 * NS)); MStep 1 RUnit;
   MStep 1 RUnit; MStep 1 (ok_response demo_blob_body); MStep 1 RUnit].
Definition demo_entry : cache := Some (B "sa@example.com", B "tok1", demo_time + 3599 * NS).

Lemma runs_eq d base tr tr' cfg : runs d base tr cfg -> tr = tr' -> runs d base tr' cfg.
Proof. intros H <-. exact H. Qed.

(** A written cache. *)
Example C32_case : exists cfg, runs demo_deps demo_base (sim demo_deps demo_base (demo_two ++ [MStep 0 RUnit])) cfg /\ caches cfg 7%N = demo_entry.
Proof.
  apply (sim_state _ _ _ (fun cfg => caches cfg 7%N)). vm_compute. reflexivity.
Qed.

(** A read of an entry that another task wrote. *)
Example C32_read_case : exists cfg a b, runs demo_deps demo_base (a ++ GDo 1 (VGet 7 demo_entry) :: b) cfg /\ never_written b 7.
Proof.
  destruct (sim_history demo_deps demo_base (demo_two ++ [MStep 0 RUnit] ++ firstn 3 demo_two_rest)) as [cfg H]; [vm_compute; exact Logic.I|].
  exists cfg, (firstn 12 (sim demo_deps demo_base (demo_two ++ [MStep 0 RUnit] ++ firstn 3 demo_two_rest))), [].
  split; [|intros j x []]. eapply runs_eq; [exact H|]. vm_compute. reflexivity.
Qed.

Lemma metadata_is base attribute : In attribute [B "email"; B "token"] -> is_metadata (metadata_request base attribute).
Proof. intros I. exists base, attribute. split; [exact I|reflexivity]. Qed.

(** A task that is refreshing. *)
Example C34_one_case : exists tr cfg, runs demo_deps demo_base tr cfg /\ refreshing tr 0 7.
Proof.
  destruct (sim_history demo_deps demo_base (firstn 5 demo_two)) as [cfg H]; [vm_compute; exact Logic.I|].
  eexists. exists cfg. split; [exact H|].
  exists [GSpawn 0 demo_bound_form; GSpawn 1 demo_bound_form; GDo 0 (VLock 7); GDo 0 (VGet 7 None)], (metadata_request (bt_base_url demo_token) (B "email")), [].
  split; [vm_compute; reflexivity|]. split; [apply metadata_is; cbn; auto|]. split; [|split; [intros []|intros [e []]]].
  exists demo_bound_form, demo_token. split; [vm_compute; auto|]. split; reflexivity.
Qed.

(** A refresh that is cancelled, and the refresh of the task that waited. *)
Example C34_no_overlap_case : exists a r b r' cfg, runs demo_deps demo_base (a ++ GSend 0 r :: b ++ [GSend 1 r']) cfg /\
  is_metadata r /\ is_metadata r' /\
  uses_key (a ++ GSend 0 r :: b ++ [GSend 1 r']) 0 7 /\ uses_key (a ++ GSend 0 r :: b ++ [GSend 1 r']) 1 7.
Proof.
  destruct (sim_history demo_deps demo_base (firstn 5 demo_two ++ [MCancel 0; MStep 1 RUnit; MStep 1 RUnit; MStep 1 RUnit])) as [cfg H]; [vm_compute; exact Logic.I|].
  set (r := metadata_request (bt_base_url demo_token) (B "email")).
  exists [GSpawn 0 demo_bound_form; GSpawn 1 demo_bound_form; GDo 0 (VLock 7); GDo 0 (VGet 7 None)], r, [GEnd 0 Cancelled; GDo 1 (VLock 7); GDo 1 (VGet 7 None)], r, cfg.
  split; [eapply runs_eq; [exact H|]; vm_compute; reflexivity|].
  split; [apply metadata_is; cbn; auto|]. split; [apply metadata_is; cbn; auto|]. split.
  - exists demo_bound_form, demo_token. split; [left; reflexivity|split; reflexivity].
  - exists demo_bound_form, demo_token. split; [right; left; reflexivity|split; reflexivity].
Qed.

(** A refresh, then all of another task's call with clock readings long before the expiry; it sends a
    request, to sign. *)
Example C35_case : exists a b cfg, let tr := a ++ GDo 0 (VSet 7 demo_entry) :: b in
  runs demo_deps demo_base tr cfg /\
  (forall b1 j t b2, b = b1 ++ GDo j (VNow t) :: b2 -> holding (a ++ GDo 0 (VSet 7 demo_entry) :: b1) j 7 -> t + 30 * 1000000000 < demo_time + 3599 * NS) /\
  (exists r, In (GSend 1 r) b) /\ uses_key tr 1 7 /\ has_ended b 1.
Proof.
  destruct (sim_history demo_deps demo_base (demo_two ++ [MStep 0 RUnit] ++ demo_two_rest)) as [cfg H]; [vm_compute; exact Logic.I|].
  remember (sim demo_deps demo_base (demo_two ++ [MStep 0 RUnit] ++ demo_two_rest)) as tr eqn:Et.
  assert (Es : tr = firstn 9 tr ++ GDo 0 (VSet 7 demo_entry) :: skipn 10 tr) by (subst tr; vm_compute; reflexivity).
  exists (firstn 9 tr), (skipn 10 tr), cfg. cbv zeta. rewrite <- Es. split; [exact H|]. split; [|split; [|split]].
  - intros b1 j t b2 E _.
    assert (F : forallb (fun v => match v with GDo _ (VNow t) => t + 30 * 1000000000 <? demo_time + 3599 * NS | _ => true end) (skipn 10 tr) = true)
      by (subst tr; vm_compute; reflexivity).
    rewrite forallb_forall in F. apply Z.ltb_lt. apply (F (GDo j (VNow t))). rewrite E. apply in_or_app. right. left. reflexivity.
  - assert (X : existsb (fun v => match v with GSend 1 _ => true | _ => false end) (skipn 10 tr) = true) by (subst tr; vm_compute; reflexivity).
    apply existsb_exists in X. destruct X as (v & I & X). destruct v as [| [|[|n]] r | |]; try discriminate X. eauto.
  - exists demo_bound_form, demo_token. split; [subst tr; unfold runs_call; vm_compute; auto|split; reflexivity].
  - assert (X : existsb (fun v => match v with GEnd 1 _ => true | _ => false end) (skipn 10 tr) = true) by (subst tr; vm_compute; reflexivity).
    apply existsb_exists in X. destruct X as (v & I & X). destruct v as [| | | [|[|n]] e]; try discriminate X. exists e. exact I.
Qed.

(** A task that waits for the lock of a task that waits for a response. *)
Example C36_case : exists tr cfg, runs demo_deps demo_base tr cfg /\ runs_call tr 1 demo_bound_form /\ ~ has_ended tr 1 /\ owner cfg 7%N = Some 0%nat.
Proof.
  destruct (sim_state demo_deps demo_base (firstn 5 demo_two) (fun cfg => owner cfg 7%N) (Some 0%nat)) as (cfg & H & O); [vm_compute; reflexivity|].
  eexists. exists cfg. split; [exact H|]. split; [unfold runs_call; vm_compute; auto|]. split; [|exact O].
  intros [e I]. vm_compute in I. repeat (destruct I as [I|I]; [discriminate I|]). destruct I.
Qed.

(** A panic of a task that holds the lock, while another waits for it. *)
Example C39_panic_case : exists a cfg, runs demo_deps demo_base (a ++ [GEnd 0 (Panicked PExpiresOverflow)]) cfg /\
  uses_key a 0 7 /\ holding a 0 7 /\ runs_call a 1 demo_bound_form.
Proof.
  set (ms := firstn 7 demo_two ++ [MStep 0 (nth 3 demo_overflow_run RUnit); MStep 0 (RNow demo_time)]).
  destruct (sim_history demo_deps demo_base (ms ++ [MStep 0 RUnit])) as [cfg H]; [vm_compute; exact Logic.I|].
  exists (sim demo_deps demo_base ms), cfg. split; [eapply runs_eq; [exact H|]; vm_compute; reflexivity|]. split; [|split].
  - exists demo_bound_form, demo_token. split; [unfold runs_call; vm_compute; auto|split; reflexivity].
  - exists [GSpawn 0 demo_bound_form; GSpawn 1 demo_bound_form], (skipn 3 (sim demo_deps demo_base ms)). split; [vm_compute; reflexivity|]. split.
    + intros I. vm_compute in I. repeat (destruct I as [I|I]; [discriminate I|]). destruct I.
    + intros [e I]. vm_compute in I. repeat (destruct I as [I|I]; [discriminate I|]). destruct I.
  - unfold runs_call. vm_compute. auto.
Qed.

Definition small_deps : deps := {|
  d_path_caret := false; d_quote_in_header_name := false; d_num_ok := fun _ => true;
  d_rsa_sign := fun key message => Ok (key ++ message);
  d_hm_iter := fun l => l; d_hm_overflow := fun l => Nat.leb 1 (length l); d_url_ok := fun _ => true
|}.

(** A history within the bounds of [C39_no_panic] in which a bound-token operation panics all the same: its
    headers exceed what a header map can hold. *)
Example C39_no_panic_case : exists tr cfg, runs small_deps demo_base tr cfg /\ uses_key tr 1 7 /\ In (GEnd 1 (Panicked PHeaderMap)) tr /\
  (exists j t, In (GDo j (VNow t)) tr) /\
  (forall j t, In (GDo j (VNow t)) tr -> 0 <= t) /\
  (forall o body token n t, In (GDo 1 (VHttp (metadata_request (demo_base 7) (B "token")) o)) tr -> answered o body -> token_body body token n (B "Bearer") ->
     In (GDo 1 (VNow t)) tr -> t + Z.of_N n * 1000000000 < two63 * 1000000000).
Proof.
  set (c := CallUrl (demo_url_with (B "bucket1") (B "a") None [(B "x-a", B "1")] [] (KBoundToken demo_token) true)).
  set (ms := MSpawn demo_bound_form :: MSpawn c :: skipn 2 demo_two ++ [MStep 0 RUnit] ++ [MStep 0 RUnit; MStep 1 RUnit]).
  destruct (sim_history small_deps demo_base ms) as [cfg H]; [vm_compute; exact Logic.I|].
  remember (sim small_deps demo_base ms) as tr eqn:Et. exists tr, cfg. split; [exact H|]. split; [|split; [|split; [|split]]].
  - exists c, demo_token. split; [subst tr; unfold runs_call; vm_compute; auto|split; reflexivity].
  - assert (X : existsb (fun v => match v with GEnd 1 (Panicked PHeaderMap) => true | _ => false end) tr = true) by (subst tr; vm_compute; reflexivity).
    apply existsb_exists in X. destruct X as (v & I & X). destruct v as [| | | [|[|n]] [|[]|]]; try discriminate X. exact I.
  - assert (X : existsb (fun v => match v with GDo _ (VNow _) => true | _ => false end) tr = true) by (subst tr; vm_compute; reflexivity).
    apply existsb_exists in X. destruct X as (v & I & X). destruct v as [| |j [t| | | | |]|]; try discriminate X. eauto.
  - intros j t I. assert (F : forallb (fun v => match v with GDo _ (VNow t) => 0 <=? t | _ => true end) tr = true) by (subst tr; vm_compute; reflexivity).
    rewrite forallb_forall in F. apply F in I. apply Z.leb_le. exact I.
  - intros o body token n t I A T I'.
    assert (F : forallb (fun v => match v with GDo _ (VNow t) => t + 3599 * 1000000000 <? two63 * 1000000000 | _ => true end) tr = true) by (subst tr; vm_compute; reflexivity).
    rewrite forallb_forall in F. apply F in I'. apply Z.ltb_lt in I'.
    assert (G : forallb (fun v => match v with GDo _ (VHttp _ (HttpResponse _ (Some body))) =>
       match access_token_from_str body with Some tok => N.leb (at_expires_in tok) 3599 | None => true end | _ => true end) tr = true) by (subst tr; vm_compute; reflexivity).
    rewrite forallb_forall in G. apply G in I. destruct A as (s & _ & ->). cbn in I. apply token_body_spec in T. rewrite T in I. cbn in I. apply N.leb_le in I. lia.
Qed.
