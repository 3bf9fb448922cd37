(** Invariants of every history of many tasks. *)
From Verif Require Import Base BaseFacts Time Effects EffectsFacts Keys Calls SpecTrace KeysFacts CallFacts Discipline Obeys Conc SpecConc.

(** * Lists of tasks *)

Lemma replace_length {A} (l : list A) i x : length (replace l i x) = length l.
Proof. revert i. induction l as [|y l IH]; intros [|i]; cbn; auto. Qed.

Lemma nth_replace {A} (l : list A) i x j y : nth_error l i = Some y ->
  nth_error (replace l i x) j = if Nat.eqb j i then Some x else nth_error l j.
Proof.
  revert i j. induction l as [|z l IH]; intros [|i] [|j] H; cbn in *; try discriminate H; try reflexivity. apply IH. exact H.
Qed.

Lemma at_put cfg i c s i' c' s' c0 s0 : at_ cfg i c0 s0 ->
  at_ (put cfg i c s) i' c' s' <-> (i' = i /\ c' = c /\ s' = s) \/ (i' <> i /\ at_ cfg i' c' s').
Proof.
  unfold at_, put. cbn [tasks]. intros H. rewrite (nth_replace _ _ _ _ _ H). destruct (Nat.eqb_spec i' i) as [->|N]; split.
  - intros E. injection E as -> ->. auto.
  - intros [(_ & -> & ->)|[N _]]; [reflexivity|congruence].
  - intros E. auto.
  - intros [(N' & _)|[_ E]]; [congruence|exact E].
Qed.

Lemma at_fun cfg i c s c' s' : at_ cfg i c s -> at_ cfg i c' s' -> c' = c /\ s' = s.
Proof. unfold at_. intros H H'. rewrite H in H'. injection H' as -> ->. auto. Qed.

Lemma at_lt cfg i c s : at_ cfg i c s -> i < length (tasks cfg).
Proof. intros H. apply nth_error_Some. unfold at_ in H. rewrite H. discriminate. Qed.

(** Lock owner and caches do not matter for [at_]. *)
Lemma at_set_owner cfg id o i c s : at_ (set_owner cfg id o) i c s <-> at_ cfg i c s.
Proof. reflexivity. Qed.
Lemma at_set_cache cfg id x i c s : at_ (set_cache cfg id x) i c s <-> at_ cfg i c s.
Proof. reflexivity. Qed.
Lemma at_release cfg j i c s : at_ (release cfg j) i c s <-> at_ cfg i c s.
Proof. reflexivity. Qed.

(** * Histories *)

Lemma did_app i a b : did i (a ++ b) = did i a ++ did i b.
Proof. apply flat_map_app. Qed.
Lemma did_snoc i a v : did i (a ++ [v]) = did i a ++ match v with GDo j e => if Nat.eqb j i then [e] else [] | _ => [] end.
Proof. rewrite did_app. cbn. rewrite app_nil_r. reflexivity. Qed.

Lemma did_in i e tr : In e (did i tr) <-> In (GDo i e) tr.
Proof.
  unfold did. rewrite in_flat_map. split.
  - intros (v & Hv & H). destruct v as [| |j x|]; try destruct H. destruct (Nat.eqb_spec j i) as [->|]; [|destruct H].
    destruct H as [->|[]]. exact Hv.
  - intros H. exists (GDo i e). rewrite Nat.eqb_refl. split; [exact H|left; reflexivity].
Qed.

(** Splitting what one task did splits the history. *)
Lemma did_split i tr x e y : did i tr = x ++ e :: y ->
  exists a b, tr = a ++ GDo i e :: b /\ did i a = x /\ did i b = y.
Proof.
  revert x. induction tr as [|v tr IH]; intros x H; [destruct x; discriminate H|].
  assert (S : did i (v :: tr) = match v with GDo j e => if Nat.eqb j i then [e] else [] | _ => [] end ++ did i tr) by reflexivity.
  rewrite S in H. clear S.
  assert (K : forall x', match v with GDo j e => if Nat.eqb j i then [e] else [] | _ => [] end ++ x' = x -> did i tr = x' ++ e :: y ->
     exists a b, v :: tr = a ++ GDo i e :: b /\ did i a = x /\ did i b = y).
  { intros x' Ex H'. destruct (IH _ H') as (a & b & -> & Ha & Hb). exists (v :: a), b. split; [reflexivity|]. split; [|exact Hb].
    rewrite <- Ex, <- Ha. reflexivity. }
  destruct v as [j c|j r|j e'|j e']; try (apply (K x eq_refl H)).
  destruct (Nat.eqb_spec j i) as [->|N]; [|apply (K x eq_refl H)].
  destruct x as [|e0 x]; cbn [app] in H.
  - injection H as -> <-. exists [], tr. auto.
  - injection H as -> H. apply (K x eq_refl H).
Qed.

Lemma runs_prefix d base tr cfg : runs d base tr cfg -> forall a b, tr = a ++ b -> exists cfg', runs d base a cfg'.
Proof.
  induction 1 as [|tr cfg v cfg' H IH S]; intros a b E.
  - destruct a; [|discriminate E]. exists initial. constructor.
  - destruct b as [|w b'] using rev_ind; [|clear IHb'].
    + rewrite app_nil_r in E. subst a. exists cfg'. econstructor; eassumption.
    + rewrite app_assoc in E. apply app_inj_tail in E. destruct E as [E _]. eapply IH. exact E.
Qed.

(** A step inside a history. *)
Lemma runs_split d base tr cfg a v b : runs d base tr cfg -> tr = a ++ v :: b ->
  exists c1 c2, runs d base a c1 /\ cstep d base c1 v c2 /\ runs d base (a ++ [v]) c2.
Proof.
  intros H. revert a v b. induction H as [|tr cfg w cfg' H IH S]; intros a v b E; [destruct a; discriminate E|].
  destruct b as [|x b'] using rev_ind; [|clear IHb'].
  - apply app_inj_tail in E. destruct E as [-> ->]. exists cfg, cfg'. split; [exact H|]. split; [exact S|econstructor; eassumption].
  - change (a ++ v :: b' ++ [x]) with (a ++ (v :: b') ++ [x]) in E. rewrite app_assoc in E. apply app_inj_tail in E. destruct E as [E _].
    eapply IH. exact E.
Qed.

(** What is left of a task. *)
Definition rest_of (s : status) : option (prog answer) :=
  match s with
  | Running p => Some p
  | InFlight r k => Some (Act (EHttp r) k)
  | Ended (Returned a) => Some (Ret a)
  | Ended (Panicked x) => Some (Panic x)
  | Ended Cancelled => None
  end.
Definition live (s : status) : Prop := forall e, s <> Ended e.

Lemma live_dec s : live s \/ exists e, s = Ended e.
Proof. destruct s; [left; discriminate|left; discriminate|right; eauto]. Qed.

(** Every task is an execution of its call. *)
Record local_inv (d : deps) (base : N -> str) (tr : list gevent) (cfg : config) : Prop := {
  li_steps i c s : at_ cfg i c s -> exists p, steps (run_call d c) (did i tr) p /\ (rest_of s = Some p \/ s = Ended Cancelled);
  li_new i : length (tasks cfg) <= i -> forall v, In v tr -> of_task i v = false;
  li_spawn i c : runs_call tr i c <-> exists s, at_ cfg i c s;
  li_ended i e : In (GEnd i e) tr <-> exists c, at_ cfg i c (Ended e);
  li_fits i c s : at_ cfg i c s -> fits base c
}.

Lemma did_new i tr : (forall v, In v tr -> of_task i v = false) -> did i tr = [].
Proof.
  intros H. destruct (did i tr) as [|e l] eqn:E; [reflexivity|]. exfalso.
  assert (I : In e (did i tr)) by (rewrite E; left; reflexivity). apply did_in in I. apply H in I. cbn in I. rewrite Nat.eqb_refl in I. discriminate I.
Qed.

Lemma in_snoc {A} (x : A) l y : In x (l ++ [y]) <-> In x l \/ x = y.
Proof. rewrite in_app_iff. cbn. intuition. Qed.

(** A step of an existing task: what a change of one task preserves. *)
Lemma local_put d base tr cfg i c s v s' cfg' : local_inv d base tr cfg -> at_ cfg i c s -> live s ->
  (forall i' c' s'', at_ cfg' i' c' s'' <-> at_ (put cfg i c s') i' c' s'') -> length (tasks cfg') = length (tasks cfg) ->
  match v with
  | GSend j _ => j = i /\ live s' /\ rest_of s' = rest_of s
  | GDo j e => j = i /\ live s' /\ (forall p, rest_of s = Some p -> exists q, rest_of s' = Some q /\ steps p [e] q)
  | GEnd j e => j = i /\ s' = Ended e /\ (rest_of s' = rest_of s \/ e = Cancelled)
  | GSpawn _ _ => False
  end ->
  local_inv d base (tr ++ [v]) cfg'.
Proof.
  intros [L1 L2 L3 L4 L5] A Lv A' Len V.
  assert (P : forall i' c' s'', at_ cfg' i' c' s'' <-> (i' = i /\ c' = c /\ s'' = s') \/ (i' <> i /\ at_ cfg i' c' s'')).
  { intros i' c' s''. rewrite A'. apply (at_put cfg i c s' i' c' s'' c s A). }
  assert (Vi : of_task i v = true) by (destruct v; [destruct V|..]; destruct V as [-> _]; cbn; apply Nat.eqb_refl).
  assert (Dn : forall j, j <> i -> did j (tr ++ [v]) = did j tr).
  { intros j N. rewrite did_snoc. destruct v as [| |x e|]; try apply app_nil_r. destruct V as [-> _].
    destruct (Nat.eqb_spec i j) as [->|_]; [congruence|apply app_nil_r]. }
  split.
  - intros i' c' s'' H. apply P in H. destruct H as [(-> & -> & ->)|[N H]].
    + destruct (L1 _ _ _ A) as (p & S & R). destruct R as [R|R]; [|destruct (Lv _ R)].
      destruct v as [j x|j r|j e|j e]; [destruct V|..].
      * destruct V as (-> & _ & V). exists p. rewrite did_snoc, app_nil_r. split; [exact S|]. left. congruence.
      * destruct V as (-> & _ & V). destruct (V _ R) as (q & Rq & Sq). exists q. rewrite did_snoc, Nat.eqb_refl.
        split; [eapply steps_app; eassumption|auto].
      * destruct V as (-> & E & V). exists p. rewrite did_snoc, app_nil_r. split; [exact S|].
        destruct V as [V| ->]; [left; congruence|right; exact E].
    + rewrite (Dn _ N). eauto.
  - intros j Hj w Hw. rewrite Len in Hj. apply in_snoc in Hw. destruct Hw as [Hw| ->]; [eauto|].
    pose proof (at_lt _ _ _ _ A) as Hi. destruct v; [destruct V|..]; destruct V as [-> _]; cbn; apply Nat.eqb_neq; lia.
  - intros j c'. unfold runs_call. rewrite in_snoc. split.
    + intros [H|H]; [|subst v; destruct V]. apply L3 in H. destruct H as [s0 H]. destruct (Nat.eq_dec j i) as [->|N].
      * destruct (at_fun _ _ _ _ _ _ A H) as [-> ->]. exists s'. apply P. auto.
      * exists s0. apply P. auto.
    + intros [s0 H]. left. apply L3. apply P in H. destruct H as [(-> & -> & ->)|[N H]]; eauto.
  - intros j e. rewrite in_snoc. split.
    + intros [H| <-].
      * apply L4 in H. destruct H as [c' H]. destruct (Nat.eq_dec j i) as [->|N].
        { destruct (at_fun _ _ _ _ _ _ A H) as [-> E]. destruct (Lv _ (eq_sym E)). }
        exists c'. apply P. auto.
      * destruct V as (-> & -> & _). exists c. apply P. auto.
    + intros [c' H]. apply P in H. destruct H as [(-> & -> & E)|[N H]].
      * destruct v as [j x|j r|j e'|j e']; [destruct V|..].
        -- destruct V as (_ & L & _). destruct (L e (eq_sym E)).
        -- destruct V as (_ & L & _). destruct (L e (eq_sym E)).
        -- destruct V as (-> & E' & _). right. congruence.
      * left. apply L4. eauto.
  - intros j c' s'' H. apply P in H. destruct H as [(-> & -> & ->)|[N H]]; eauto.
Qed.

Lemma steps_one {A} e (k : resp e -> prog A) (r : resp e) : steps (Act e k) [event_of e r] (k r).
Proof. constructor. constructor. Qed.

Lemma runs_local d base tr cfg : runs d base tr cfg -> local_inv d base tr cfg.
Proof.
  induction 1 as [|tr cfg v cfg' H IH S].
  { split; cbn.
    - intros i c s A. unfold at_ in A. destruct i; discriminate A.
    - intros i _ v [].
    - intros i c. split; [intros []|]. intros [s A]. unfold at_ in A. destruct i; discriminate A.
    - intros i e. split; [intros []|]. intros [c A]. unfold at_ in A. destruct i; discriminate A.
    - intros i c s A. unfold at_ in A. destruct i; discriminate A. }
  destruct S as [cfg c F|cfg i c k t A|cfg i c r k A|cfg i c r k o A|cfg i c id k A O|cfg i c id k A|cfg i c id k A|cfg i c id x k A|cfg i c a A|cfg i c s A|cfg i c s A L].
  - destruct IH as [L1 L2 L3 L4 L5].
    assert (P : forall i c' s, nth_error (tasks cfg ++ [{| t_call := c; t_status := Running (run_call d c) |}]) i = Some {| t_call := c'; t_status := s |} <->
       at_ cfg i c' s \/ (i = length (tasks cfg) /\ c' = c /\ s = Running (run_call d c))).
    { intros i c' s. unfold at_. destruct (Nat.lt_ge_cases i (length (tasks cfg))) as [Hi|Hi].
      - rewrite nth_error_app1 by exact Hi. split; [auto|]. intros [X|(X & _)]; [exact X|lia].
      - rewrite nth_error_app2 by exact Hi. assert (Nn : nth_error (tasks cfg) i = None) by (apply nth_error_None; exact Hi). rewrite Nn.
        destruct (i - length (tasks cfg)) as [|m] eqn:Em; cbn.
        + assert (i = length (tasks cfg)) as -> by lia. split.
          * intros X. injection X as <- <-. auto.
          * intros [X|(_ & -> & ->)]; [discriminate X|reflexivity].
        + split; [destruct m; discriminate|]. intros [X|(X & _)]; [discriminate X|lia]. }
    assert (D : forall i, did i (tr ++ [GSpawn (length (tasks cfg)) c]) = did i tr) by (intros i; rewrite did_snoc; apply app_nil_r).
    split; unfold at_; cbn [tasks].
    + intros i c' s X. apply P in X. rewrite D. destruct X as [X|(-> & -> & ->)]; [eauto|].
      exists (run_call d c). rewrite did_new by (apply L2; lia). split; [constructor|left; reflexivity].
    + intros i Hi w Hw. rewrite app_length in Hi. cbn in Hi. apply in_snoc in Hw. destruct Hw as [Hw| ->]; [apply (L2 i); [lia|exact Hw]|].
      cbn. apply Nat.eqb_neq. lia.
    + intros i c'. unfold runs_call. rewrite in_snoc. split.
      * intros [X|X]; [apply L3 in X; destruct X as [s X]; exists s; apply P; auto|]. injection X as -> ->. eexists. apply P. auto.
      * intros [s X]. apply P in X. destruct X as [X|(-> & -> & _)]; [left; apply L3; eauto|auto].
    + intros i e. rewrite in_snoc. split.
      * intros [X|X]; [|discriminate X]. apply L4 in X. destruct X as [c' X]. exists c'. apply P. auto.
      * intros [c' X]. apply P in X. destruct X as [X|(_ & _ & X)]; [left; apply L4; eauto|discriminate X].
    + intros i c' s X. apply P in X. destruct X as [X|(_ & -> & _)]; [eauto|exact F].
  - eapply (local_put _ _ _ cfg i c _ _ (Running (k t))); [exact IH|exact A|discriminate|intros; reflexivity|apply replace_length|]. split; [reflexivity|]. split; [discriminate|].
    intros p E. injection E as <-. eexists. split; [reflexivity|]. apply (steps_one ENow).
  - eapply (local_put _ _ _ cfg i c _ _ (InFlight r k)); [exact IH|exact A|discriminate|intros; reflexivity|apply replace_length|]. split; [reflexivity|]. split; [discriminate|]. reflexivity.
  - eapply (local_put _ _ _ cfg i c _ _ (Running (k o))); [exact IH|exact A|discriminate|intros; reflexivity|apply replace_length|]. split; [reflexivity|]. split; [discriminate|].
    intros p E. injection E as <-. eexists. split; [reflexivity|]. apply (steps_one (EHttp r)).
  - eapply (local_put _ _ _ cfg i c _ _ (Running (k tt))); [exact IH|exact A|discriminate|intros; reflexivity|apply replace_length|]. split; [reflexivity|]. split; [discriminate|].
    intros p E. injection E as <-. eexists. split; [reflexivity|]. apply (steps_one (ELock id) k tt).
  - eapply (local_put _ _ _ cfg i c _ _ (Running (k tt))); [exact IH|exact A|discriminate|intros; reflexivity|apply replace_length|]. split; [reflexivity|]. split; [discriminate|].
    intros p E. injection E as <-. eexists. split; [reflexivity|]. apply (steps_one (EUnlock id) k tt).
  - eapply (local_put _ _ _ cfg i c _ _ (Running (k (caches cfg id)))); [exact IH|exact A|discriminate|intros; reflexivity|apply replace_length|]. split; [reflexivity|]. split; [discriminate|].
    intros p E. injection E as <-. eexists. split; [reflexivity|]. apply (steps_one (EGet id)).
  - eapply (local_put _ _ _ cfg i c _ _ (Running (k tt))); [exact IH|exact A|discriminate|intros; reflexivity|apply replace_length|]. split; [reflexivity|]. split; [discriminate|].
    intros p E. injection E as <-. eexists. split; [reflexivity|]. apply (steps_one (ESet id x) k tt).
  - eapply (local_put _ _ _ cfg i c _ _ (Ended (Returned a))); [exact IH|exact A|discriminate|intros; reflexivity|apply replace_length|]. split; [reflexivity|]. split; [reflexivity|]. left. reflexivity.
  - eapply (local_put _ _ _ cfg i c _ _ (Ended (Panicked s))); [exact IH|exact A|discriminate|intros; reflexivity|apply replace_length|]. split; [reflexivity|]. split; [reflexivity|]. left. reflexivity.
  - eapply (local_put _ _ _ cfg i c _ _ (Ended Cancelled)); [exact IH|exact A|exact L|intros; reflexivity|apply replace_length|]. split; [reflexivity|]. split; [reflexivity|]. right. reflexivity.
Qed.

(** * Locks *)

(** Whether the last lock event of task [i] took the lock. *)
Definition held (i : nat) (tr : list gevent) : bool := fold_left held_after (did i tr) false.

(** The call's key is the bound token [id]. *)
Definition key_is (c : call) (id : N) : Prop := exists bt, call_key c = Some (KBoundToken bt) /\ bt_id bt = id.

Lemma key_is_fun c i j : key_is c i -> key_is c j -> i = j.
Proof. intros (b & K & <-) (b' & K' & <-). congruence. Qed.

Lemma key_dec c : (exists bt, call_key c = Some (KBoundToken bt)) \/ (forall bt, call_key c <> Some (KBoundToken bt)).
Proof. destruct (call_key c) as [[bt| |]|]; [left; eauto|right; discriminate|right; discriminate|right; discriminate]. Qed.

(** What the next event of a task may be. *)
Definition next_ok (c : call) (h : bool) (v : event) : Prop :=
  match v with
  | VNow _ => True
  | VHttp r _ => is_metadata r -> h = true /\ exists id, key_is c id
  | VLock id => h = false /\ key_is c id
  | VUnlock id | VGet id _ | VSet id _ => h = true /\ key_is c id
  end.

Lemma task_next d base tr cfg i c s p e k r : runs d base tr cfg -> at_ cfg i c s -> rest_of s = Some p -> p = Act e k ->
  next_ok c (held i tr) (event_of e r).
Proof.
  intros H A R E. destruct (li_steps _ _ _ _ (runs_local _ _ _ _ H) _ _ _ A) as (p' & S & X). destruct X as [X|X]; [|rewrite X in R; discriminate R].
  rewrite R in X. injection X as <-. subst p. destruct (key_dec c) as [[bt K]|K].
  - pose proof (disc_steps _ _ _ _ _ S false (disc_call d c bt K)) as D. fold (held i tr) in D.
    destruct (disc_step _ _ _ _ _ r D) as [D1 _].
    assert (Kb : forall j, j = bt_id bt -> key_is c j) by (intros j ->; exists bt; auto).
    destruct e; cbn [event_of next_ok disc_event] in *; try exact I; try (destruct D1; split; [assumption|apply Kb; assumption]).
    intros M. split; [exact (D1 M)|]. exists (bt_id bt). apply Kb. reflexivity.
  - assert (D : forall id, disc_event id (held i tr) (event_of e r)).
    { intros id. pose proof (disc_steps _ _ _ _ _ S false (disc_call_local d c id K)) as D. destruct (disc_step _ _ _ _ _ r D) as [D1 _]. exact D1. }
    destruct e as [|q|j|j|j|j x]; cbn [event_of next_ok disc_event] in *; try exact I;
      try (exfalso; destruct (D j) as [_ _]; destruct (D (j + 1)%N) as [D1 _]; lia).
    intros M. exfalso. assert (S' : steps (run_call d c) (did i tr ++ [VHttp q r]) (k r)) by (eapply steps_app; [exact S|apply (steps_one (EHttp q))]).
    apply call_parts in S'. destruct S' as (pre & t1 & t2 & E & P & B). destruct B as [[-> ->]|(bt & K' & _)]; [|exact (K bt K')].
    cbn [app] in E. rewrite app_nil_r in E.
    destruct P as [->|[_ [t ->]]]; [destruct (did i tr); discriminate E|]. destruct (did i tr) as [|? [|? ?]]; discriminate E.
Qed.

(** A task whose call is over holds no lock. *)
Lemma task_returned d base tr cfg i c s a : runs d base tr cfg -> at_ cfg i c s -> rest_of s = Some (Ret a) -> held i tr = false.
Proof.
  intros H A R. destruct (li_steps _ _ _ _ (runs_local _ _ _ _ H) _ _ _ A) as (p' & S & X). destruct X as [X|X]; [|rewrite X in R; discriminate R].
  rewrite R in X. injection X as <-. destruct (key_dec c) as [[bt K]|K].
  - exact (disc_steps _ _ _ _ _ S false (disc_call d c bt K)).
  - exact (disc_steps _ _ _ _ _ S false (disc_call_local d c 0%N K)).
Qed.

Definition lock_inv (tr : list gevent) (cfg : config) : Prop :=
  forall id i, owner cfg id = Some i <-> exists c s, at_ cfg i c s /\ live s /\ key_is c id /\ held i tr = true.

Lemma lock_at tr cfg id i : lock_inv tr cfg -> owner cfg id = Some i <-> exists c s, at_ cfg i c s /\ live s /\ key_is c id /\ held i tr = true.
Proof. intros L. apply L. Qed.

Lemma held_snoc i tr v : held i (tr ++ [v]) = match v with GDo j e => if Nat.eqb j i then held_after (held i tr) e else held i tr | _ => held i tr end.
Proof.
  unfold held. rewrite did_snoc, fold_left_app. destruct v as [| |j e|]; try reflexivity. destruct (Nat.eqb j i); reflexivity.
Qed.

(** A step that changes neither owners nor lock states. *)
Lemma lock_keep tr cfg i c s s' v cfg' : lock_inv tr cfg -> at_ cfg i c s -> live s -> live s' ->
  (forall i' c' s'', at_ cfg' i' c' s'' <-> at_ (put cfg i c s') i' c' s'') -> (forall id, owner cfg' id = owner cfg id) ->
  (forall j, held j (tr ++ [v]) = held j tr) -> lock_inv (tr ++ [v]) cfg'.
Proof.
  intros L A Ls Ls' P O Hh id j. rewrite O, (lock_at _ _ id j L), Hh. split; intros (c0 & s0 & A0 & L0 & K & Hd).
  - destruct (Nat.eq_dec j i) as [->|N].
    + destruct (at_fun _ _ _ _ _ _ A A0) as [-> ->]. exists c, s'. split; [apply P, (at_put _ _ _ _ _ _ _ _ _ A); auto|auto].
    + exists c0, s0. split; [apply P, (at_put _ _ _ _ _ _ _ _ _ A); auto|auto].
  - apply P, (at_put _ _ _ _ _ _ _ _ _ A) in A0. destruct A0 as [(-> & -> & ->)|[N A0]].
    + exists c, s. auto.
    + exists c0, s0. auto.
Qed.

(** A task ends and its guards are dropped. *)
Lemma lock_end tr cfg i c s e : lock_inv tr cfg -> at_ cfg i c s ->
  lock_inv (tr ++ [GEnd i e]) (release (put cfg i c (Ended e)) i).
Proof.
  intros L A id j. rewrite held_snoc. cbn [release owner put].
  assert (X : (match owner cfg id with Some j0 => if (j0 =? i)%nat then None else Some j0 | None => None end) = Some j <-> owner cfg id = Some j /\ j <> i).
  { destruct (owner cfg id) as [j0|]; [|split; [discriminate|intros [E _]; discriminate E]].
    destruct (Nat.eqb_spec j0 i) as [->|N]; split; try discriminate.
    - intros [E N]. congruence.
    - intros E. injection E as ->. auto.
    - intros [E _]. exact E. }
  rewrite X, (lock_at _ _ id j L). split.
  - intros ((c0 & s0 & A0 & R) & N). exists c0, s0. split; [|exact R]. apply (at_put _ _ _ _ _ _ _ _ _ A). auto.
  - intros (c0 & s0 & A0 & L0 & R). apply (at_put _ _ _ _ _ _ _ _ _ A) in A0. destruct A0 as [(-> & -> & ->)|[N A0]]; [destruct (L0 _ eq_refl)|].
    split; [eauto|exact N].
Qed.

Lemma runs_lock d base tr cfg : runs d base tr cfg -> lock_inv tr cfg.
Proof.
  induction 1 as [|tr cfg v cfg' H IH S].
  { intros id i. split; [discriminate|]. intros (c & s & A & _). unfold at_ in A. destruct i; discriminate A. }
  destruct S as [cfg c F|cfg i c k t A|cfg i c r k A|cfg i c r k o A|cfg i c id k A O|cfg i c id k A|cfg i c id k A|cfg i c id x k A|cfg i c a A|cfg i c s A|cfg i c s A L].
  - intros id i. rewrite held_snoc. cbn [owner]. rewrite (lock_at _ _ id i IH). split.
    + intros (c0 & s0 & A0 & R). exists c0, s0. split; [|exact R]. unfold at_ in *. cbn [tasks]. rewrite nth_error_app1; [exact A0|]. apply nth_error_Some. congruence.
    + intros (c0 & s0 & A0 & Ls & K & Hd). exists c0, s0. split; [|auto]. unfold at_ in *. cbn [tasks] in A0.
      destruct (Nat.lt_ge_cases i (length (tasks cfg))) as [Hi|Hi]; [rewrite nth_error_app1 in A0 by exact Hi; exact A0|].
      exfalso. unfold held in Hd. rewrite did_new in Hd; [discriminate Hd|]. apply (li_new _ _ _ _ (runs_local _ _ _ _ H)). exact Hi.
  - eapply (lock_keep _ _ i c _ (Running (k t))); [exact IH|exact A|discriminate|discriminate|reflexivity|reflexivity|].
    intros j. rewrite held_snoc. destruct (Nat.eqb i j); reflexivity.
  - eapply (lock_keep _ _ i c _ (InFlight r k)); [exact IH|exact A|discriminate|discriminate|reflexivity|reflexivity|].
    intros j. rewrite held_snoc. reflexivity.
  - eapply (lock_keep _ _ i c _ (Running (k o))); [exact IH|exact A|discriminate|discriminate|reflexivity|reflexivity|].
    intros j. rewrite held_snoc. destruct (Nat.eqb i j); reflexivity.
  - (* lock *)
    destruct (task_next d base tr cfg i c _ _ (ELock id) k tt H A eq_refl eq_refl) as [Hf K].
    intros id' j. rewrite held_snoc. cbn [set_owner owner put]. destruct (N.eqb_spec id' id) as [->|Nid].
    + split.
      * intros E. injection E as <-. exists c, (Running (k tt)). split; [apply (at_put _ _ _ _ _ _ _ _ _ A); auto|]. split; [discriminate|]. split; [exact K|].
        rewrite Nat.eqb_refl. reflexivity.
      * intros (c0 & s0 & A0 & L0 & K0 & Hd). apply (at_put _ _ _ _ _ _ _ _ _ A) in A0. destruct A0 as [(-> & _ & _)|[N A0]]; [reflexivity|].
        destruct (Nat.eqb_spec i j) as [E|_]; [congruence|]. assert (X : owner cfg id = Some j) by (apply IH; eauto 6). congruence.
    + rewrite (lock_at _ _ id' j IH). split.
      * intros (c0 & s0 & A0 & L0 & K0 & Hd). destruct (Nat.eqb_spec i j) as [<-|N].
        -- destruct (at_fun _ _ _ _ _ _ A A0) as [-> ->]. congruence.
        -- exists c0, s0. split; [apply (at_put _ _ _ _ _ _ _ _ _ A); auto|auto].
      * intros (c0 & s0 & A0 & L0 & K0 & Hd). apply (at_put _ _ _ _ _ _ _ _ _ A) in A0. destruct A0 as [(-> & -> & _)|[N A0]].
        -- destruct Nid. eapply key_is_fun; eassumption.
        -- destruct (Nat.eqb_spec i j) as [E|_]; [congruence|]. exists c0, s0. auto.
  - (* unlock *)
    destruct (task_next d base tr cfg i c _ _ (EUnlock id) k tt H A eq_refl eq_refl) as [Ht K].
    assert (Oi : owner cfg id = Some i) by (apply IH; exists c, (Running (Act (EUnlock id) k)); split; [exact A|split; [discriminate|auto]]).
    intros id' j. rewrite held_snoc. cbn [set_owner owner put]. destruct (N.eqb_spec id' id) as [->|Nid].
    + split; [discriminate|]. intros (c0 & s0 & A0 & L0 & K0 & Hd). exfalso. apply (at_put _ _ _ _ _ _ _ _ _ A) in A0.
      destruct A0 as [(-> & -> & _)|[N A0]].
      * rewrite Nat.eqb_refl in Hd. discriminate Hd.
      * destruct (Nat.eqb_spec i j) as [E|_]; [congruence|]. assert (X : owner cfg id = Some j) by (apply IH; eauto 6). congruence.
    + rewrite (lock_at _ _ id' j IH). split.
      * intros (c0 & s0 & A0 & L0 & K0 & Hd). destruct (Nat.eqb_spec i j) as [<-|N].
        -- destruct (at_fun _ _ _ _ _ _ A A0) as [-> ->]. destruct Nid. eapply key_is_fun; eassumption.
        -- exists c0, s0. split; [apply (at_put _ _ _ _ _ _ _ _ _ A); auto|auto].
      * intros (c0 & s0 & A0 & L0 & K0 & Hd). apply (at_put _ _ _ _ _ _ _ _ _ A) in A0. destruct A0 as [(-> & -> & _)|[N A0]].
        -- rewrite Nat.eqb_refl in Hd. discriminate Hd.
        -- destruct (Nat.eqb_spec i j) as [E|_]; [congruence|]. exists c0, s0. auto.
  - eapply (lock_keep _ _ i c _ (Running (k (caches cfg id)))); [exact IH|exact A|discriminate|discriminate|reflexivity|reflexivity|].
    intros j. rewrite held_snoc. destruct (Nat.eqb i j); reflexivity.
  - eapply (lock_keep _ _ i c _ (Running (k tt))); [exact IH|exact A|discriminate|discriminate|reflexivity|reflexivity|].
    intros j. rewrite held_snoc. destruct (Nat.eqb i j); reflexivity.
  - pose proof (task_returned d base tr cfg i c _ a H A eq_refl) as Hf.
    intros id j. rewrite held_snoc. cbn [put owner]. rewrite (lock_at _ _ id j IH). split; intros (c0 & s0 & A0 & L0 & K0 & Hd).
    + destruct (Nat.eq_dec j i) as [->|N]; [congruence|]. exists c0, s0. split; [apply (at_put _ _ _ _ _ _ _ _ _ A); auto|auto].
    + apply (at_put _ _ _ _ _ _ _ _ _ A) in A0. destruct A0 as [(-> & -> & ->)|[N A0]]; [destruct (L0 _ eq_refl)|]. exists c0, s0. auto.
  - eapply lock_end; eassumption.
  - eapply lock_end; eassumption.
Qed.

(** * Caches *)

Lemma runs_cache d base tr cfg : runs d base tr cfg ->
  forall id, (never_written tr id /\ caches cfg id = None) \/ written tr id (caches cfg id).
Proof.
  induction 1 as [|tr cfg v cfg' H IH S]; intros id; [left; split; [intros j x []|reflexivity]|].
  assert (K : (forall j x, v <> GDo j (VSet id x)) -> caches cfg' id = caches cfg id ->
    (never_written (tr ++ [v]) id /\ caches cfg' id = None) \/ written (tr ++ [v]) id (caches cfg' id)).
  { intros N E. rewrite E. destruct (IH id) as [[W C]|(a & i & b & E' & W)].
    - left. split; [|exact C]. intros j x I. apply in_snoc in I. destruct I as [I|I]; [exact (W j x I)|]. exact (N j x (eq_sym I)).
    - right. exists a, i, (b ++ [v]). rewrite E', <- app_assoc. split; [reflexivity|]. intros j x I. apply in_snoc in I.
      destruct I as [I|I]; [exact (W j x I)|]. exact (N j x (eq_sym I)). }
  destruct S as [cfg c F|cfg i c k t A|cfg i c r k A|cfg i c r k o A|cfg i c id' k A O|cfg i c id' k A|cfg i c id' k A|cfg i c id' x k A|cfg i c a A|cfg i c s A|cfg i c s A L];
    try (apply K; [intros; discriminate|reflexivity]).
  cbn [set_cache caches put] in *. destruct (N.eqb_spec id id') as [Ei|N].
  - right. exists tr, i, []. rewrite Ei. split; [reflexivity|]. intros j y [].
  - apply K; [|reflexivity]. intros j y E. injection E as _ E _. congruence.
Qed.

(** * Tasks and automata *)

Lemma task_obeys {S} d base tr cfg i c s p ok next fin (s0 : S) : runs d base tr cfg -> at_ cfg i c s -> rest_of s = Some p ->
  obeys ok next fin s0 (run_call d c) -> obeys ok next fin (fold_left next (did i tr) s0) p.
Proof.
  intros H A R O. destruct (li_steps _ _ _ _ (runs_local _ _ _ _ H) _ _ _ A) as (p' & St & X). destruct X as [X|X]; [|rewrite X in R; discriminate R].
  rewrite R in X. injection X as <-. eapply obeys_steps; eassumption.
Qed.

(** A task that can act: what it is and where. *)
Lemma step_task d base cfg v cfg' : cstep d base cfg v cfg' ->
  match v with
  | GSpawn i c => i = length (tasks cfg)
  | GSend i r => exists c k, at_ cfg i c (Running (Act (EHttp r) k))
  | GDo i e => exists c s x k r, at_ cfg i c s /\ live s /\ rest_of s = Some (Act x k) /\ e = event_of x r
  | GEnd i e => exists c s, at_ cfg i c s /\ live s
  end.
Proof.
  destruct 1 as [cfg c F|cfg i c k t A|cfg i c r k A|cfg i c r k o A|cfg i c id k A O|cfg i c id k A|cfg i c id k A|cfg i c id x k A|cfg i c a A|cfg i c s A|cfg i c s A L].
  - reflexivity.
  - exists c; eexists; exists ENow, k, t. split; [exact A|]. split; [discriminate|]. split; reflexivity.
  - eauto.
  - exists c; eexists; exists (EHttp r), k, o. split; [exact A|]. split; [discriminate|]. split; reflexivity.
  - exists c; eexists; exists (ELock id), k, tt. split; [exact A|]. split; [discriminate|]. split; reflexivity.
  - exists c; eexists; exists (EUnlock id), k, tt. split; [exact A|]. split; [discriminate|]. split; reflexivity.
  - exists c; eexists; exists (EGet id), k, (caches cfg id). split; [exact A|]. split; [discriminate|]. split; reflexivity.
  - exists c; eexists; exists (ESet id x), k, tt. split; [exact A|]. split; [discriminate|]. split; reflexivity.
  - exists c; eexists; split; [exact A|discriminate].
  - exists c; eexists; split; [exact A|discriminate].
  - exists c, s. auto.
Qed.

(** Events of a task are allowed by its key. *)
Lemma do_next d base tr cfg i e cfg' : runs d base tr cfg -> cstep d base cfg (GDo i e) cfg' ->
  exists c s, at_ cfg i c s /\ live s /\ next_ok c (held i tr) e.
Proof.
  intros H S. apply step_task in S. destruct S as (c & s & x & k & r & A & L & R & ->). exists c, s. split; [exact A|]. split; [exact L|].
  eapply task_next; try eassumption. reflexivity.
Qed.
Lemma send_next d base tr cfg i r cfg' : runs d base tr cfg -> cstep d base cfg (GSend i r) cfg' ->
  exists c s, at_ cfg i c s /\ live s /\ (is_metadata r -> held i tr = true /\ exists id, key_is c id).
Proof.
  intros H S. apply step_task in S. destruct S as (c & k & A). exists c; eexists; split; [exact A|]. split; [discriminate|].
  exact (task_next d base tr cfg i c _ _ (EHttp r) k HttpFailed H A eq_refl eq_refl).
Qed.

Lemma uses_key_is d base tr cfg i id : runs d base tr cfg -> uses_key tr i id <-> exists c s, at_ cfg i c s /\ key_is c id.
Proof.
  intros H. pose proof (li_spawn _ _ _ _ (runs_local _ _ _ _ H)) as L. split.
  - intros (c & bt & R & K & E). apply L in R. destruct R as [s A]. exists c, s. split; [exact A|]. exists bt. auto.
  - intros (c & s & A & bt & K & E). exists c, bt. split; [|auto]. apply L. eauto.
Qed.

Lemma uses_key_mono a b i id : uses_key a i id -> uses_key (a ++ b) i id.
Proof. intros (c & bt & R & K). exists c, bt. split; [|exact K]. unfold runs_call in *. apply in_or_app. auto. Qed.

Lemma has_ended_at d base tr cfg i : runs d base tr cfg -> has_ended tr i <-> exists c e, at_ cfg i c (Ended e).
Proof.
  intros H. pose proof (li_ended _ _ _ _ (runs_local _ _ _ _ H)) as L. split.
  - intros [e I]. apply L in I. destruct I as [c A]. eauto.
  - intros (c & e & A). exists e. apply L. eauto.
Qed.

Lemma live_not_ended d base tr cfg i c s : runs d base tr cfg -> at_ cfg i c s -> live s <-> ~ has_ended tr i.
Proof.
  intros H A. rewrite (has_ended_at _ _ _ _ _ H). split.
  - intros L (c' & e & A'). destruct (at_fun _ _ _ _ _ _ A A') as [_ E]. exact (L e (eq_sym E)).
  - intros N e ->. apply N. eauto.
Qed.

(** An owner stays owner until it unlocks or ends. *)
Lemma owner_kept d base tr cfg v cfg' id i : runs d base tr cfg -> cstep d base cfg v cfg' -> owner cfg id = Some i ->
  v <> GDo i (VUnlock id) -> (forall e, v <> GEnd i e) -> owner cfg' id = Some i.
Proof.
  intros H S O Nu Ne. pose proof (runs_lock _ _ _ _ H) as L.
  destruct S as [cfg c F|cfg j c k t A|cfg j c r k A|cfg j c r k o A|cfg j c id' k A O'|cfg j c id' k A|cfg j c id' k A|cfg j c id' x k A|cfg j c a A|cfg j c s A|cfg j c s A Lv];
    cbn [put set_owner set_cache release owner]; try exact O.
  - destruct (N.eqb_spec id id') as [->|_]; [congruence|exact O].
  - destruct (N.eqb_spec id id') as [->|_]; [|exact O]. exfalso.
    destruct (task_next d base tr cfg j c _ _ (EUnlock id') k tt H A eq_refl eq_refl) as [Hh K].
    assert (owner cfg id' = Some j) by (apply L; exists c, (Running (Act (EUnlock id') k)); split; [exact A|split; [discriminate|auto]]).
    congruence.
  - rewrite O. destruct (Nat.eqb_spec i j) as [->|_]; [destruct (Ne _ eq_refl)|reflexivity].
  - rewrite O. destruct (Nat.eqb_spec i j) as [->|_]; [destruct (Ne _ eq_refl)|reflexivity].
Qed.

(** Who the owner is after a step. *)
Lemma owner_new d base tr cfg v cfg' id i : runs d base tr cfg -> cstep d base cfg v cfg' -> owner cfg' id = Some i ->
  v = GDo i (VLock id) \/ (owner cfg id = Some i /\ v <> GDo i (VUnlock id) /\ forall e, v <> GEnd i e).
Proof.
  intros H S O.
  destruct S as [cfg c F|cfg j c k t A|cfg j c r k A|cfg j c r k o A|cfg j c id' k A O'|cfg j c id' k A|cfg j c id' k A|cfg j c id' x k A|cfg j c a A|cfg j c s A|cfg j c s A Lv];
    cbn [put set_owner set_cache release owner] in O;
    try (right; split; [exact O|split; discriminate]).
  - destruct (N.eqb_spec id id') as [->|_].
    + injection O as ->. left. reflexivity.
    + right. split; [exact O|]. split; discriminate.
  - destruct (N.eqb_spec id id') as [->|Nid]; [discriminate O|]. right. split; [exact O|]. split; [|discriminate]. intros E. congruence.
  - right. split; [exact O|]. split; [discriminate|]. intros e E. injection E as -> _.
    pose proof (runs_lock _ _ _ _ H) as L. apply L in O. destruct O as (c0 & s0 & A0 & _ & _ & Hd).
    rewrite (task_returned _ _ _ _ _ _ _ _ H A eq_refl) in Hd. discriminate Hd.
  - destruct (owner cfg id) as [j0|]; [|discriminate O]. destruct (Nat.eqb_spec j0 j) as [Ej|Nj]; [discriminate O|]. injection O as ->.
    right. split; [reflexivity|]. split; [discriminate|]. intros e E. congruence.
  - destruct (owner cfg id) as [j0|]; [|discriminate O]. destruct (Nat.eqb_spec j0 j) as [Ej|Nj]; [discriminate O|]. injection O as ->.
    right. split; [reflexivity|]. split; [discriminate|]. intros e E. congruence.
Qed.

Lemma has_ended_snoc b v i : has_ended (b ++ [v]) i <-> has_ended b i \/ exists e, v = GEnd i e.
Proof.
  unfold has_ended. split.
  - intros [e I]. apply in_snoc in I. destruct I as [I|I]; [left; eauto|right; eauto].
  - intros [[e I]|[e E]]; exists e; apply in_snoc; auto.
Qed.

(** Owners, read off the history. *)
Lemma kept_through d base a c1 id i : runs d base a c1 -> owner c1 id = Some i ->
  forall b cfg, runs d base (a ++ b) cfg -> ~ In (GDo i (VUnlock id)) b -> ~ has_ended b i -> owner cfg id = Some i.
Proof.
  intros Ha Oa b. induction b as [|v b IH] using rev_ind; intros cfg H Nu Ne.
  - assert (E : forall tr c, runs d base tr c -> tr = a -> owner c id = Some i).
    { intros tr c Hr ->. apply (runs_lock _ _ _ _ Ha) in Oa. destruct Oa as (c0 & s0 & A0 & L0 & K0 & Hd). apply (runs_lock _ _ _ _ Hr).
      assert (R : runs_call a i c0) by (apply (li_spawn _ _ _ _ (runs_local _ _ _ _ Ha)); eauto).
      apply (li_spawn _ _ _ _ (runs_local _ _ _ _ Hr)) in R. destruct R as [s A]. exists c0, s. split; [exact A|]. split; [|auto].
      apply (live_not_ended _ _ _ _ _ _ _ Hr A). apply (live_not_ended _ _ _ _ _ _ _ Ha A0). exact L0. }
    eapply E; [exact H|apply app_nil_r].
  - rewrite app_assoc in H. inversion H as [E|tr cfg0 v0 cfg' H0 S E].
    { destruct (a ++ b); discriminate E. }
    subst cfg'. apply app_inj_tail in E. destruct E as [-> ->].
    eapply owner_kept; [exact H0|exact S| | |].
    + apply IH; [exact H0| |].
      * intros I. apply Nu. apply in_snoc. auto.
      * intros I. apply Ne. apply has_ended_snoc. auto.
    + intros ->. apply Nu. apply in_snoc. auto.
    + intros e ->. apply Ne. apply has_ended_snoc. right. eauto.
Qed.

Lemma holding_owner d base tr cfg i id : runs d base tr cfg -> holding tr i id <-> owner cfg id = Some i.
Proof.
  intros H. split.
  - intros (a & b & E & Nu & Ne). destruct (runs_split _ _ _ _ _ _ _ H E) as (c1 & c2 & H1 & S & H2).
    assert (O : owner c2 id = Some i).
    { inversion S; subst. cbn. rewrite N.eqb_refl. reflexivity. }
    eapply (kept_through _ _ _ _ _ _ H2 O b); [|exact Nu|exact Ne]. rewrite <- app_assoc. cbn [app]. rewrite <- E. exact H.
  - induction H as [|tr cfg v cfg' H IH S]; intros O; [discriminate O|].
    apply (owner_new _ _ _ _ _ _ _ _ H S) in O. destruct O as [->|(O & Nu & Ne)].
    + exists tr, []. split; [reflexivity|]. split; [intros []|intros [e []]].
    + destruct (IH O) as (a & b & -> & Nub & Neb). exists a, (b ++ [v]). split; [rewrite <- app_assoc; reflexivity|]. split.
      * intros I. apply in_snoc in I. destruct I as [I|I]; [exact (Nub I)|congruence].
      * intros I. apply has_ended_snoc in I. destruct I as [I|[e I]]; [exact (Neb I)|exact (Ne e I)].
Qed.

(** * Phases *)

Definition phase_of (i : nat) (tr : list gevent) : phase := fold_left phase_next (did i tr) Out.

Lemma task_phase d base tr cfg i c s p : runs d base tr cfg -> at_ cfg i c s -> rest_of s = Some p ->
  obeys phase_ok phase_next (fun s => s = Out) (phase_of i tr) p.
Proof. intros H A R. eapply task_obeys; try eassumption. apply phase_call. Qed.

Lemma phase_snoc i tr v : phase_of i (tr ++ [v]) = match v with GDo j e => if Nat.eqb j i then phase_next (phase_of i tr) e else phase_of i tr | _ => phase_of i tr end.
Proof.
  unfold phase_of. rewrite did_snoc, fold_left_app. destruct v as [| |j e|]; try reflexivity. destruct (Nat.eqb j i); reflexivity.
Qed.

(** Outside of the lock, the phase is [Out]. *)
Lemma phase_unlocked d base tr cfg : runs d base tr cfg -> forall i, held i tr = false -> phase_of i tr = Out.
Proof.
  induction 1 as [|tr cfg v cfg' H IH S]; intros i Hd; [reflexivity|].
  rewrite phase_snoc. rewrite held_snoc in Hd. destruct v as [|  |j e|]; try (apply IH; exact Hd).
  destruct (Nat.eqb_spec j i) as [->|N]; [|apply IH; exact Hd].
  apply (do_next _ _ _ _ _ _ _ H) in S. destruct S as (c & s & A & L & X).
  destruct e as [t|r o|id|id|id x|id x]; cbn [held_after next_ok] in *; try discriminate Hd; try reflexivity; try (destruct X; congruence).
  - rewrite (IH i Hd). reflexivity.
  - exact (IH i Hd).
Qed.

(** Steps of other tasks leave a task alone. *)
Lemma step_frame d base cfg v cfg' i c s : cstep d base cfg v cfg' -> of_task i v = false -> at_ cfg' i c s <-> at_ cfg i c s.
Proof.
  destruct 1 as [cfg c0 F|cfg j c0 k t A|cfg j c0 r k A|cfg j c0 r k o A|cfg j c0 id k A O|cfg j c0 id k A|cfg j c0 id k A|cfg j c0 id x k A|cfg j c0 a A|cfg j c0 s0 A|cfg j c0 s0 A L];
    cbn [of_task]; intros E; apply Nat.eqb_neq in E; rewrite ?at_set_owner, ?at_set_cache, ?at_release;
    try (rewrite (at_put _ _ _ _ _ _ _ _ _ A); split; [intros [(E' & _)|[_ X]]; [congruence|exact X]|auto]).
  unfold at_. cbn [tasks]. destruct (Nat.lt_ge_cases i (length (tasks cfg))) as [Hi|Hi].
  - rewrite nth_error_app1 by exact Hi. reflexivity.
  - rewrite nth_error_app2 by exact Hi. assert (X : nth_error (tasks cfg) i = None) by (apply nth_error_None; exact Hi). rewrite X.
    destruct (i - length (tasks cfg)) as [|[|m]] eqn:Em; cbn; split; try discriminate; lia.
Qed.

(** A task that made a step was there and live before. *)
Lemma step_self d base cfg v cfg' i c s : cstep d base cfg v cfg' -> of_task i v = true -> at_ cfg' i c s ->
  (v = GSpawn i c /\ s = Running (run_call d c)) \/ exists s0, at_ cfg i c s0 /\ live s0.
Proof.
  destruct 1 as [cfg c0 F|cfg j c0 k t A|cfg j c0 r k A|cfg j c0 r k o A|cfg j c0 id k A O|cfg j c0 id k A|cfg j c0 id k A|cfg j c0 id x k A|cfg j c0 a A|cfg j c0 s0 A|cfg j c0 s0 A L];
    cbn [of_task]; intros E; apply Nat.eqb_eq in E; subst i; rewrite ?at_set_owner, ?at_set_cache, ?at_release;
    try (rewrite (at_put _ _ _ _ _ _ _ _ _ A); intros [(_ & -> & _)|[N _]]; [|congruence]; right; eexists; split; [exact A|]; (discriminate || exact L)).
  unfold at_. cbn [tasks]. rewrite nth_error_app2 by lia. rewrite Nat.sub_diag. cbn. intros E. injection E as -> <-. auto.
Qed.

(** What a step does to a cache. *)
Lemma step_cache d base cfg v cfg' id : cstep d base cfg v cfg' -> (forall i x, v <> GDo i (VSet id x)) -> caches cfg' id = caches cfg id.
Proof.
  destruct 1; intros N; try reflexivity. cbn [set_cache put caches]. destruct (N.eqb_spec id id0) as [->|]; [|reflexivity].
  destruct (N _ _ eq_refl).
Qed.
Lemma step_set d base cfg i id x cfg' : cstep d base cfg (GDo i (VSet id x)) cfg' -> caches cfg' id = x.
Proof. intros S. inversion S; subst. cbn [set_cache caches]. rewrite N.eqb_refl. reflexivity. Qed.
Lemma step_get d base cfg i id x cfg' : cstep d base cfg (GDo i (VGet id x)) cfg' -> x = caches cfg id.
Proof. intros S. inversion S; subst. reflexivity. Qed.

(** Events of other tasks on a key need its lock. *)
Lemma lock_event d base tr cfg j e cfg' id : runs d base tr cfg -> cstep d base cfg (GDo j e) cfg' ->
  match e with VUnlock id' | VGet id' _ | VSet id' _ => id' = id | _ => False end -> owner cfg id = Some j.
Proof.
  intros H S E. apply (do_next _ _ _ _ _ _ _ H) in S. destruct S as (c & s & A & L & X).
  apply (runs_lock _ _ _ _ H). exists c, s. split; [exact A|]. split; [exact L|].
  destruct e; try destruct E; cbn [next_ok] in X; destruct X as [X1 X2]; auto.
Qed.
Lemma lock_send d base tr cfg j r cfg' id : runs d base tr cfg -> cstep d base cfg (GSend j r) cfg' -> is_metadata r ->
  uses_key tr j id -> owner cfg id = Some j.
Proof.
  intros H S M U. apply (send_next _ _ _ _ _ _ _ H) in S. destruct S as (c & s & A & L & X). destruct (X M) as [Hh _].
  apply (runs_lock _ _ _ _ H). exists c, s. split; [exact A|]. split; [exact L|]. split; [|exact Hh].
  apply (uses_key_is _ _ _ _ _ _ H) in U. destruct U as (c' & s' & A' & K). destruct (at_fun _ _ _ _ _ _ A A') as [<- _]. exact K.
Qed.

(** While a task keeps the lock and does not write, the cache stays. *)
Lemma cache_kept d base a c1 id i : runs d base a c1 -> owner c1 id = Some i ->
  forall b cfg, runs d base (a ++ b) cfg -> ~ In (GDo i (VUnlock id)) b -> ~ has_ended b i -> (forall x, ~ In (GDo i (VSet id x)) b) ->
  (exists c1', runs d base a c1' /\ caches cfg id = caches c1' id) /\ forall j x, ~ In (GDo j (VSet id x)) b.
Proof.
  intros Ha Oa b. induction b as [|v b IH] using rev_ind; intros cfg H Nu Ne Nw.
  - rewrite app_nil_r in H. split; [exists cfg; auto|intros j x []].
  - rewrite app_assoc in H. inversion H as [E|tr cfg0 v0 cfg' H0 S E].
    { destruct (a ++ b); discriminate E. }
    subst cfg'. apply app_inj_tail in E. destruct E as [-> ->].
    assert (Nu' : ~ In (GDo i (VUnlock id)) b) by (intros I; apply Nu; apply in_snoc; auto).
    assert (Ne' : ~ has_ended b i) by (intros I; apply Ne; apply has_ended_snoc; auto).
    destruct (IH cfg0 H0 Nu' Ne') as [(c1' & H1 & Ec) Nb]; [intros x I; apply (Nw x); apply in_snoc; auto|].
    pose proof (kept_through _ _ _ _ _ _ Ha Oa b cfg0 H0 Nu' Ne') as O.
    assert (Nv : forall j x, v <> GDo j (VSet id x)).
    { intros j x ->. pose proof (lock_event _ _ _ _ _ _ _ id H0 S eq_refl) as O'. rewrite O in O'. injection O' as <-.
      apply (Nw x). apply in_snoc. auto. }
    split.
    + exists c1'. split; [exact H1|]. rewrite <- Ec. eapply step_cache; eassumption.
    + intros j x I. apply in_snoc in I. destruct I as [I|I]; [exact (Nb j x I)|exact (Nv j x (eq_sym I))].
Qed.

(** The cache is a function of the history. *)
Lemma cache_fun d base tr c1 c2 : runs d base tr c1 -> runs d base tr c2 -> forall id, caches c1 id = caches c2 id.
Proof.
  intros H1. revert c2. induction H1 as [|tr cfg v cfg' H IH S]; intros c2 H2 id.
  - inversion H2 as [E|tr' cfg v cfg' H S E]; [reflexivity|]. destruct tr'; discriminate E.
  - inversion H2 as [E|tr' cfg2 v' cfg2' H2' S2 E]; [destruct tr; discriminate E|]. subst cfg2'. apply app_inj_tail in E. destruct E as [-> ->].
    assert (D : (exists i x, v = GDo i (VSet id x)) \/ forall i x, v <> GDo i (VSet id x)).
    { destruct v as [| |i e|]; try (right; discriminate). destruct e as [| | | | |id' x]; try (right; discriminate).
      destruct (N.eq_dec id' id) as [->|N]; [left; eauto|right; congruence]. }
    destruct D as [(i & x & ->)|D].
    + rewrite (step_set _ _ _ _ _ _ _ S), (step_set _ _ _ _ _ _ _ S2). reflexivity.
    + rewrite (step_cache _ _ _ _ _ _ S D), (step_cache _ _ _ _ _ _ S2 D). apply IH. exact H2'.
Qed.
