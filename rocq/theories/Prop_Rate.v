(** C105: how often the token of a key is fetched. *)
From Verif Require Import Base BaseFacts Time Effects EffectsFacts Keys HtmlForm SignedUrl Calls SpecToken TokenFacts SpecTrace KeysFacts CallFacts Discipline Obeys Conc
  SpecConc ConcFacts Prop_Keys Prop_Conc SpecHistory Prop_History SpecForm Prop_Form Demo Sim SpecRate.
Local Open Scope Z_scope.

(** * Time between writes *)

Lemma writes_app id a b : writes id (a ++ b) = (writes id a + writes id b)%nat.
Proof. unfold writes. rewrite filter_app, app_length. reflexivity. Qed.
Lemma writes_zero id a : writes id a = 0%nat -> never_written a id.
Proof.
  unfold writes. intros H j x I. apply length_zero_iff_nil in H.
  assert (X : In (GDo j (VSet id x)) []) by (rewrite <- H; apply filter_In; rewrite N.eqb_refl; auto). destruct X.
Qed.
Lemma writes_last id a n : writes id a = S n -> exists a' i c b', a = a' ++ GDo i (VSet id c) :: b' /\ never_written b' id /\ writes id a' = n.
Proof.
  revert n. induction a as [|v a IH] using rev_ind; intros n H; [discriminate H|]. rewrite writes_app in H.
  destruct (match v with GDo _ (VSet x _) => N.eqb x id | _ => false end) eqn:E.
  - destruct v as [| |i e|]; try discriminate E. destruct e as [| | | | |x c]; try discriminate E. apply N.eqb_eq in E. subst x.
    exists a, i, c, []. split; [reflexivity|]. split; [intros j x []|]. unfold writes at 2 in H. cbn in H. rewrite N.eqb_refl in H. cbn in H. lia.
  - unfold writes at 2 in H. cbn [filter] in H. rewrite E in H. cbn [length] in H. rewrite Nat.add_0_r in H.
    destruct (IH _ H) as (a' & i & c & b' & -> & W & Wn). exists a', i, c, (b' ++ [v]). split; [rewrite <- app_assoc; reflexivity|]. split; [|exact Wn].
    intros j x I. apply in_snoc in I. destruct I as [I|<-]; [exact (W j x I)|]. rewrite N.eqb_refl in E. discriminate E.
Qed.

(** A task that holds a lock now and has not taken it since held it before. *)
Lemma holding_before p q i id : holding (p ++ q) i id -> ~ In (VLock id) (did i q) -> holding p i id.
Proof.
  intros (x & y & E & Nu & Ne) N. apply app_eq_app in E. destruct E as (l & [[-> E]|[-> E]]).
  - destruct l as [|w l]; cbn [app] in E.
    + exfalso. apply N. rewrite <- E. apply did_in. left. reflexivity.
    + injection E as <- ->. exists x, l. split; [reflexivity|]. split.
      * intros I. apply Nu, in_or_app. auto.
      * intros [e I]. apply Ne. exists e. apply in_or_app. auto.
  - exfalso. apply N. rewrite E. apply did_in. apply in_or_app. right. left. reflexivity.
Qed.

Section Rate.
Variables (d : deps) (base : N -> str) (tr : list gevent) (cfg : config) (id : N) (least t0 : Z).
Hypotheses (H : runs d base tr cfg) (St : steady tr id) (La : lasting (base id) least tr) (Early : forall a t, reading tr id a t -> t0 <= t).

(** The clock reading behind a write is the latest one, and the entry lives as long as its token. *)
Lemma write_reading a i c b : tr = a ++ GDo i (VSet id c) :: b ->
  exists email token e a1 t, c = Some (email, token, e) /\ reading tr id a1 t /\ t + least * 1000000000 <= e /\
    forall a' t', reading tr id a' t' -> (length a' < length a)%nat -> t' <= t.
Proof.
  intros E. destruct (write_refreshed _ _ _ _ _ _ _ _ _ H E) as (email & token & e & x & l & -> & U & D & R).
  destruct R as (o1 & o2 & body & n & now & A1 & A2 & T & -> & ->).
  destruct (runs_split _ _ _ _ _ _ _ H E) as (c1 & c2 & H1 & S & _).
  pose proof (lock_event _ _ _ _ _ _ _ id H1 S eq_refl) as O. apply (holding_owner _ _ _ _ _ _ H1) in O.
  rewrite did_snoc, Nat.eqb_refl in D.
  change ([VHttp (metadata_request (base id) (B "email")) o1; VHttp (metadata_request (base id) (B "token")) o2; VNow now; VSet id (Some (email, token, now + Z.of_N n * 1000000000))])
    with ([VHttp (metadata_request (base id) (B "email")) o1; VHttp (metadata_request (base id) (B "token")) o2; VNow now] ++ [VSet id (Some (email, token, now + Z.of_N n * 1000000000))]) in D.
  rewrite app_assoc in D. apply app_inj_tail in D. destruct D as [D _].
  assert (Tk : In (GDo i (VHttp (metadata_request (base id) (B "token")) o2)) tr).
  { rewrite E. apply in_or_app. left. apply did_in. rewrite D. apply in_or_app. right. right. left. reflexivity. }
  change ([VHttp (metadata_request (base id) (B "email")) o1; VHttp (metadata_request (base id) (B "token")) o2; VNow now])
    with ([VHttp (metadata_request (base id) (B "email")) o1; VHttp (metadata_request (base id) (B "token")) o2] ++ [VNow now]) in D.
  rewrite app_assoc in D. apply did_split in D. destruct D as (a1 & m & Ea & D1 & D2).
  assert (Hm : forall m1 m2, m = m1 ++ m2 -> holding (a1 ++ GDo i (VNow now) :: m1) i id).
  { intros m1 m2 ->. apply (holding_before _ m2).
    - rewrite <- app_assoc. cbn [app]. rewrite <- Ea. exact O.
    - rewrite did_app in D2. apply app_eq_nil in D2. destruct D2 as [_ ->]. intros []. }
  assert (Ho : holding a1 i id).
  { apply (holding_before _ (GDo i (VNow now) :: m)); [rewrite <- Ea; exact O|]. cbn [did flat_map]. rewrite Nat.eqb_refl. fold (did i m). rewrite D2. intros [X|[]]. discriminate X. }
  assert (Rd : reading tr id a1 now) by (exists i; eexists; split; [|exact Ho]; rewrite E, Ea, <- app_assoc; reflexivity).
  exists email, token, (now + Z.of_N n * 1000000000), a1, now. split; [reflexivity|]. split; [exact Rd|]. split.
  - pose proof (La _ _ _ _ _ Tk A2 T). lia.
  - intros a' t' R' L. apply (St a' t' a1 now R' Rd). destruct R' as (j & b' & E' & Hj).
    destruct (Nat.le_gt_cases (length a') (length a1)) as [?|G]; [assumption|]. exfalso.
    rewrite E in E'. rewrite Ea in E'. rewrite Ea in L.
    (* a' ends within m *)
    assert (X : exists m1 m2, a' = a1 ++ GDo i (VNow now) :: m1 /\ m = m1 ++ GDo j (VNow t') :: m2).
    { rewrite <- app_assoc in E'. cbn [app] in E'. apply app_eq_app in E'. destruct E' as (l & [[E1 E2]|[E1 E2]]).
      - subst a1. rewrite app_length in G. lia.
      - subst a'. destruct l as [|w l]; [rewrite app_nil_r in G; lia|]. cbn [app] in E2. injection E2 as <- E2. exists l.
        rewrite !app_length in L. cbn [length] in L.
        apply app_eq_app in E2. destruct E2 as (l' & [[E1 E2]|[E1 E2]]).
        + destruct l' as [|w l']; cbn [app] in E2; [rewrite app_nil_r in E1; subst l; lia|]. injection E2 as <- E2. exists l'. auto.
        + subst l. rewrite app_length in L. lia. }
    destruct X as (m1 & m2 & -> & Em). assert (j = i) as ->.
    { assert (P : exists cfg', runs d base (a1 ++ GDo i (VNow now) :: m1) cfg').
      { apply (runs_prefix _ _ _ _ H1 _ (GDo j (VNow t') :: m2)). rewrite Ea, Em, <- app_assoc. reflexivity. }
      destruct P as [cfg' P]. pose proof (Hm m1 _ Em) as Hi. apply (holding_owner _ _ _ _ _ _ P) in Hj, Hi. congruence. }
    rewrite Em in D2. rewrite did_app in D2. apply app_eq_nil in D2. destruct D2 as [_ D2]. cbn [did flat_map] in D2. rewrite Nat.eqb_refl in D2. discriminate D2.
Qed.

Lemma write_time : 30 <= least -> forall n a i c b, tr = a ++ GDo i (VSet id c) :: b -> writes id a = n ->
  exists email token e a1 t, c = Some (email, token, e) /\ reading tr id a1 t /\ t + least * 1000000000 <= e /\
    t0 + Z.of_nat n * ((least - 30) * 1000000000) <= t.
Proof.
  intros L30 n. induction n as [|n IH]; intros a i c b E W.
  - destruct (write_reading _ _ _ _ E) as (email & token & e & a1 & t & Ec & R & Le & _). exists email, token, e, a1, t.
    split; [exact Ec|]. split; [exact R|]. split; [exact Le|]. pose proof (Early _ _ R). lia.
  - destruct (write_reading _ _ _ _ E) as (email & token & e & a1 & t & Ec & R & Le & Max).
    destruct (writes_last _ _ _ W) as (a' & i' & c' & b' & Ea & Nb & Wn). subst a. rewrite <- app_assoc in E. cbn [app] in E.
    destruct (IH _ _ _ _ E Wn) as (email' & token' & e' & a1' & t' & -> & _ & Le' & Lt').
    exists email, token, e, a1, t. split; [exact Ec|]. split; [exact R|]. split; [exact Le|].
    destruct (Z.lt_ge_cases (t + 30 * 1000000000) e') as [X|X]; [exfalso|lia].
    assert (P : exists cfg', runs d base (a' ++ GDo i' (VSet id (Some (email', token', e'))) :: b' ++ [GDo i (VSet id c)]) cfg').
    { apply (runs_prefix _ _ _ _ H _ b). rewrite E. rewrite <- app_assoc. cbn [app]. rewrite <- app_assoc. reflexivity. }
    destruct P as [cfg' P].
    destruct (C35_serves d base _ _ a' i' id email' token' e' (b' ++ [GDo i (VSet id c)]) P eq_refl) as (_ & _ & Nw & _).
    + intros b1 j t'' b2 Eb Hj. apply Z.le_lt_trans with (t + 30 * 1000000000); [|exact X]. apply Zplus_le_compat_r.
      assert (Y : exists b3, b' = b1 ++ GDo j (VNow t'') :: b3).
      { destruct b2 as [|w b2 _] using rev_ind; [apply app_inj_tail in Eb; destruct Eb as [_ Eb]; discriminate Eb|].
        exists b2. change (b1 ++ GDo j (VNow t'') :: b2 ++ [w]) with (b1 ++ (GDo j (VNow t'') :: b2) ++ [w]) in Eb. rewrite app_assoc in Eb. apply app_inj_tail in Eb. apply Eb. }
      destruct Y as [b3 ->].
      apply (Max (a' ++ GDo i' (VSet id (Some (email', token', e'))) :: b1)).
      * exists j, (b3 ++ GDo i (VSet id c) :: b). split; [|exact Hj]. rewrite E. repeat (rewrite <- app_assoc; cbn [app]). reflexivity.
      * rewrite !app_length. cbn [length]. rewrite !app_length. cbn [length]. lia.
    + apply (Nw i c). apply in_snoc. auto.
Qed.
End Rate.

(** If tokens live [least] seconds or more and the clock, as seen by tasks that hold the lock of the key, does not go back and stays between
    [t0] and [t1], the token is fetched at most once at the start and once for every [least - 30] seconds after that. *)
Theorem C105_rate d base tr cfg id least t0 t1 : runs d base tr cfg -> steady tr id -> lasting (base id) least tr -> 30 <= least ->
  (forall a t, reading tr id a t -> t0 <= t <= t1) -> (1 <= writes id tr)%nat ->
  (Z.of_nat (writes id tr) - 1) * ((least - 30) * 1000000000) <= t1 - t0.
Proof.
  intros H St La L R W. destruct (writes id tr) as [|n] eqn:E; [lia|]. destruct (writes_last _ _ _ E) as (a & i & c & b & Et & Nb & Wn).
  destruct (write_time d base tr cfg id least t0 H St La (fun a t r => proj1 (R a t r)) L n a i c b Et Wn) as (email & token & e & a1 & t & _ & Rd & _ & Lt).
  pose proof (R _ _ Rd). lia.
Qed.

(** * Requests and writes *)

(** The GET requests and the cache writes of one task. *)
Definition gets (l : list event) : nat := length (filter (fun v => match v with VHttp r _ => str_eqb (rq_method r) (B "GET") | _ => false end) l).
Definition sets (id : N) (l : list event) : nat := length (filter (fun v => match v with VSet x _ => N.eqb x id | _ => false end) l).

Lemma gets_app a b : gets (a ++ b) = (gets a + gets b)%nat.
Proof. unfold gets. rewrite filter_app, app_length. reflexivity. Qed.
Lemma sets_app id a b : sets id (a ++ b) = (sets id a + sets id b)%nat.
Proof. unfold sets. rewrite filter_app, app_length. reflexivity. Qed.
Lemma gets_cons v l : gets (v :: l) = ((match v with VHttp r _ => if str_eqb (rq_method r) (B "GET") then 1 else 0 | _ => 0 end) + gets l)%nat.
Proof. unfold gets. cbn [filter]. destruct v; try reflexivity. destruct (str_eqb _ _); reflexivity. Qed.
Lemma sets_cons id v l : sets id (v :: l) = ((match v with VSet x _ => if N.eqb x id then 1 else 0 | _ => 0 end) + sets id l)%nat.
Proof. unfold sets. cbn [filter]. destruct v; try reflexivity. destruct (N.eqb _ _); reflexivity. Qed.
Lemma gets_nil : gets [] = 0%nat.
Proof. reflexivity. Qed.
Lemma sets_nil id : sets id [] = 0%nat.
Proof. reflexivity. Qed.
Lemma get_method b a : str_eqb (rq_method (metadata_request b a)) (B "GET") = true.
Proof. reflexivity. Qed.
Lemma post_method e t m : str_eqb (rq_method (sign_blob_request e t m)) (B "GET") = false.
Proof. reflexivity. Qed.

Ltac count := rewrite ?email_request_spec, ?token_request_spec in *; repeat (rewrite gets_app || rewrite sets_app || rewrite gets_cons || rewrite sets_cons || rewrite gets_nil || rewrite sets_nil);
  rewrite ?get_method, ?post_method, ?N.eqb_refl; try lia.

Lemma failure_count d e1 e2 e3 e4 e5 r l e : request_failure d e1 e2 e3 e4 e5 r l e -> forall id, (gets l <= 1)%nat /\ sets id l = 0%nat /\ (str_eqb (rq_method r) (B "GET") = false -> gets l = 0%nat).
Proof.
  intros F id. assert (X : l = [] \/ exists o, l = [VHttp r o]) by (destruct F; eauto).
  destruct X as [->|[o ->]]; [split; [cbn; lia|split; reflexivity]|]. count. destruct (str_eqb _ _); (split; [lia|split; [lia|]]); [discriminate|reflexivity].
Qed.

Lemma refreshed_count id b email token e l : refreshed id b email token e l -> gets l = 2%nat /\ sets id l = 1%nat.
Proof. intros (o1 & o2 & body & n & now & _ & _ & _ & _ & ->). count. Qed.

Lemma not_served_count c pre id : not_served c pre -> gets pre = 0%nat /\ sets id pre = 0%nat.
Proof. intros [[_ ->]|(? & ? & ? & ? & _ & -> & _)]; split; reflexivity. Qed.

Lemma lookup_count id b email token l : lookup id b email token l -> gets l = (2 * sets id l)%nat.
Proof.
  intros [e now _|c pre e r Ns R]; [reflexivity|]. destruct (not_served_count _ _ id Ns). destruct (refreshed_count _ _ _ _ _ _ R). count.
Qed.

Lemma refresh_failure_count d bt l e id : refresh_failure d bt l e -> (gets l <= 2)%nat /\ sets id l = 0%nat.
Proof.
  intros [tr e' F|o1 email tr e' _ F|o1 email o2 body _ _ _|o1 email o2 body t n y _ _ _ _].
  - destruct (failure_count _ _ _ _ _ _ _ _ _ F id). lia.
  - destruct (failure_count _ _ _ _ _ _ _ _ _ F id). count.
  - count.
  - count.
Qed.

Lemma get_run_count d bt l q : get_run d bt l q -> (2 * sets (bt_id bt) l <= gets l <= 2 * sets (bt_id bt) l + 2)%nat.
Proof.
  assert (R : forall l q, refresh_run d bt l q -> (2 * sets (bt_id bt) l <= gets l <= 2 * sets (bt_id bt) l + 2)%nat).
  { intros l' q' X. destruct X as [k|o1 email k _|tr e F|o1 email o2 body t n k _ _ _|o1 email o2 body t n now _ _ _ _|o1 email o2 body t n now k _ _ _ _|email t e r X]; try (count; fail).
    - destruct (refresh_failure_count _ _ _ _ (bt_id bt) F). lia.
    - destruct (refreshed_count _ _ _ _ _ _ X). lia. }
  assert (L : forall l q, locked_run d bt l q -> (2 * sets (bt_id bt) l <= gets l <= 2 * sets (bt_id bt) l + 2)%nat).
  { intros l' q' X. destruct X as [k|email token e k _|email token e _|email token e now _ _|email token e now _ _|c pre tr q0 Ns X _ _]; try (count; fail).
    destruct (not_served_count _ _ (bt_id bt) Ns). apply R in X. count. }
  intros X. destruct X as [k|tr q0 X _|tr r X|tr r X]; [count| | |]; apply L in X; count.
Qed.

Lemma sign_run_count d bt m l q : sign_run d bt m l q -> (2 * sets (bt_id bt) l <= gets l <= 2 * sets (bt_id bt) l + 2)%nat /\ (forall s, q = Ret (Ok s) -> gets l = (2 * sets (bt_id bt) l)%nat).
Proof.
  intros X. destruct X as [tr q0 p G _ _ Np _|tr e F|tr email token k L|tr tr' email token e L F|tr email token o body e L _ _ _|tr email token o body s L _ _].
  - split; [exact (get_run_count _ _ _ _ G)|]. intros s ->. destruct (Np _ eq_refl).
  - split; [|discriminate]. destruct F as [c pre tr e Ns F]. destruct (not_served_count _ _ (bt_id bt) Ns). destruct (refresh_failure_count _ _ _ _ (bt_id bt) F). count.
  - apply lookup_count in L. split; [lia|discriminate].
  - apply lookup_count in L. destruct (failure_count _ _ _ _ _ _ _ _ _ F (bt_id bt)) as (_ & Z & G). specialize (G (post_method _ _ _)). split; [count|discriminate].
  - apply lookup_count in L. split; [count|discriminate].
  - apply lookup_count in L. split; [count|intros _ _; count].
Qed.

Lemma call_count d c bt l q : call_key c = Some (KBoundToken bt) -> steps (run_call d c) l q ->
  (2 * sets (bt_id bt) l <= gets l <= 2 * sets (bt_id bt) l + 2)%nat /\ (forall a, q = Ret a -> answer_ok a = true -> gets l = (2 * sets (bt_id bt) l)%nat).
Proof.
  intros K S. split.
  - apply call_parts in S. destruct S as (pre & t1 & t2 & -> & P & B).
    assert (Zp : gets pre = 0%nat /\ sets (bt_id bt) pre = 0%nat) by (destruct P as [->|[_ [t ->]]]; split; reflexivity). destruct Zp.
    destruct B as [[-> ->]|(bt' & K' & B)]; [count|]. rewrite K in K'. injection K' as <-.
    destruct B as [[-> [p G]]|(_ & email & token & m & p & L & R)].
    + apply get_run_count in G. count.
    + apply lookup_count in L. apply sign_run_count in R. destruct R as [R _]. count.
  - intros a -> O. destruct (call_ok _ _ _ _ _ S O K) as (pre & tr' & -> & P & email & sig & m & t1 & t2 & A & G & ->).
    assert (Zp : gets pre = 0%nat /\ sets (bt_id bt) pre = 0%nat) by (destruct P as [->|[_ [t ->]]]; split; reflexivity). destruct Zp.
    apply auth_ok in A. destruct A as [token A]. apply get_ok in A. apply lookup_count in A.
    assert (X : gets t2 = (2 * sets (bt_id bt) t2)%nat); [|count].
    cbn [sign] in G. destruct (call_use_sign_blob c); [|apply returns_ret_inv in G; destruct G as [_ G]; discriminate G].
    apply returns_bind_ok_inv in G. destruct G as [(s & u1 & u2 & G & G2 & ->)|(e & _ & E')]; [|discriminate E']. apply returns_ret_inv in G2. destruct G2 as [-> _].
    rewrite app_nil_r. apply bound_token_sign_steps in G. apply sign_run_count in G. destruct G as [_ G]. exact (G _ eq_refl).
Qed.

(** A task's part of a history, as an execution of its call: a request without an answer counts as failed. *)
Definition sends (l : list gevent) : nat := length (filter (fun v => match v with GSend _ r => str_eqb (rq_method r) (B "GET") | _ => false end) l).
Lemma behaves_count i p l id : behaves i p l -> exists l' q, steps p l' q /\ sends l = gets l' /\ writes id l = sets id l' /\
  (forall a, In (GEnd i (Returned a)) l -> q = Ret a).
Proof.
  intros X. induction X as [p|p|a|s|e k x l N X IH|r k|r k|r k o l X IH].
  - exists [], p. split; [constructor|]. split; [reflexivity|]. split; [reflexivity|]. intros a [].
  - exists [], p. split; [constructor|]. split; [reflexivity|]. split; [reflexivity|]. intros a [E|[]]. discriminate E.
  - exists [], (Ret a). split; [constructor|]. split; [reflexivity|]. split; [reflexivity|]. intros a' [E|[]]. injection E as ->. reflexivity.
  - exists [], (Panic s). split; [constructor|]. split; [reflexivity|]. split; [reflexivity|]. intros a' [E|[]]. discriminate E.
  - destruct IH as (l' & q & S & C1 & C2 & R). exists (event_of e x :: l'), q. split; [constructor; exact S|].
    rewrite gets_cons, sets_cons, <- C1, <- C2. split; [|split].
    + unfold sends. cbn [filter]. destruct e; try reflexivity. destruct (N r eq_refl).
    + unfold writes. cbn [filter]. destruct e as [|r|n|n|n|n c]; try reflexivity. cbn [event_of]. destruct (N.eqb n id); reflexivity.
    + intros a [E|I]; [discriminate E|exact (R a I)].
  - exists [VHttp r HttpFailed], (k HttpFailed). split; [apply (steps_act (EHttp r) k HttpFailed); constructor|]. split; [|split; [reflexivity|intros a [E|[]]; discriminate E]].
    unfold sends, gets. cbn [filter]. destruct (str_eqb _ _); reflexivity.
  - exists [VHttp r HttpFailed], (k HttpFailed). split; [apply (steps_act (EHttp r) k HttpFailed); constructor|]. split; [|split; [reflexivity|intros a [E|[E|[]]]; discriminate E]].
    unfold sends, gets. cbn [filter]. destruct (str_eqb _ _); reflexivity.
  - destruct IH as (l' & q & S & C1 & C2 & R). exists (VHttp r o :: l'), q. split; [apply (steps_act (EHttp r) k o); exact S|]. rewrite gets_cons, sets_cons, <- C1, <- C2. split; [|split].
    + unfold sends. cbn [filter]. destruct (str_eqb _ _); reflexivity.
    + reflexivity.
    + intros a [E|[E|I]]; [discriminate E|discriminate E|exact (R a I)].
Qed.

(** Counting by tasks. *)
Fixpoint total (f : nat -> nat) (n : nat) : nat := match n with O => 0 | S n => total f n + f n end.
Lemma count_by {A} (P : A -> bool) (ix : A -> nat) (l : list A) n : (forall x, In x l -> (ix x < n)%nat) ->
  length (filter P l) = total (fun i => length (filter (fun x => P x && Nat.eqb (ix x) i) l)) n.
Proof.
  assert (Z : forall n, total (fun _ => 0%nat) n = 0%nat) by (intros m; induction m; cbn; lia).
  assert (X : forall m (f g h : nat -> nat), (forall i, f i = g i + h i)%nat -> total f m = (total g m + total h m)%nat).
  { intros m f g h E. induction m; cbn; [reflexivity|]. rewrite IHm, E. lia. }
  assert (One : forall m j (b : bool), total (fun i => if b && Nat.eqb j i then 1%nat else 0%nat) m = (if b && Nat.ltb j m then 1 else 0)%nat).
  { intros m j b. induction m as [|m IH]; [cbn; destruct b; reflexivity|]. cbn [total]. rewrite IH. destruct b; cbn [andb]; [|reflexivity].
    destruct (Nat.ltb_spec j m), (Nat.eqb_spec j m), (Nat.ltb_spec j (S m)); lia. }
  induction l as [|x l IH]; intros H; [cbn [filter length]; rewrite Z; reflexivity|].
  rewrite (X n _ (fun i => if P x && Nat.eqb (ix x) i then 1%nat else 0%nat) (fun i => length (filter (fun y => P y && Nat.eqb (ix y) i) l))).
  - rewrite <- IH by (intros y I; apply H; right; exact I). rewrite One. pose proof (H x (or_introl eq_refl)) as Lt. apply Nat.ltb_lt in Lt. rewrite Lt, andb_true_r.
    cbn [filter]. destruct (P x); reflexivity.
  - intros i. cbn [filter]. destruct (P x && Nat.eqb (ix x) i); reflexivity.
Qed.
Lemma total_le f g n : (forall i, (i < n)%nat -> (f i <= g i)%nat) -> (total f n <= total g n)%nat.
Proof. intros H. induction n as [|n IH]; cbn; [lia|]. pose proof (H n). pose proof (IH (fun i L => H i (Nat.lt_lt_succ_r _ _ L))). lia. Qed.
Lemma total_in (l : list nat) (f : nat -> bool) n : (forall i, f i = true -> In i l) -> (total (fun i => if f i then 1 else 0) n <= length l)%nat.
Proof.
  intros H. assert (E : total (fun i => if f i then 1%nat else 0%nat) n = length (filter f (seq 0 n))).
  { induction n as [|n IH]; [reflexivity|]. cbn [total]. rewrite IH, seq_S, filter_app, app_length. cbn [filter Nat.add]. destruct (f n); cbn; lia. }
  rewrite E. apply NoDup_incl_length; [apply NoDup_filter, seq_NoDup|]. intros i I. apply filter_In in I. apply H, I.
Qed.
Lemma total_lin (a b : nat) f g n : total (fun i => a * f i + b * g i)%nat n = (a * total f n + b * total g n)%nat.
Proof. induction n as [|n IH]; cbn; [lia|]. rewrite IH. lia. Qed.

Lemma on_task_key_iff id tr i : on_task_key id tr i = true <-> uses_key tr i id.
Proof.
  unfold on_task_key. rewrite existsb_exists. split.
  - intros (v & I & E). destruct v as [j c| | |]; try discriminate E. apply andb_true_iff in E. destruct E as [E1 E2]. apply Nat.eqb_eq in E1. subst j.
    destruct (call_key c) as [[bt| |]|] eqn:K; try discriminate E2. apply N.eqb_eq in E2. exists c, bt. auto.
  - intros (c & bt & I & K & <-). exists (GSpawn i c). split; [exact I|]. rewrite Nat.eqb_refl, K, N.eqb_refl. reflexivity.
Qed.

Lemma behaves_no_spawn i p l j c : behaves i p l -> ~ In (GSpawn j c) l.
Proof. intros X. induction X; cbn; intuition discriminate. Qed.

Lemma filter_both {A} (f g : A -> bool) l : filter (fun x => f x && g x) l = filter f (filter g l).
Proof. induction l as [|x l IH]; [reflexivity|]. cbn [filter]. destruct (g x); cbn [filter]; rewrite ?andb_true_r, ?andb_false_r, IH; destruct (f x); reflexivity. Qed.

Lemma filter_none {A} (f : A -> bool) l : (forall x, In x l -> f x = false) -> filter f l = [].
Proof. induction l as [|x l IH]; [reflexivity|]. intros H. cbn [filter]. rewrite (H x (or_introl eq_refl)). apply IH. intros y I. apply H. right. exact I. Qed.

Theorem C105_requests d base tr cfg id (l : list nat) : runs d base tr cfg -> (forall i, uses_key tr i id -> In i l \/ succeeded tr i) ->
  (2 * writes id tr <= metadata_sent id tr <= 2 * writes id tr + 2 * length l)%nat.
Proof.
  intros H L. assert (Hh : history d base tr) by (apply C62_histories; exists cfg; exact H).
  set (n := S (list_max (map index tr))).
  assert (Bn : forall v, In v tr -> (index v < n)%nat).
  { intros v I. unfold n. pose proof (proj1 (list_max_le (map index tr) _) (le_n _)) as F. rewrite Forall_forall in F. specialize (F (index v) (in_map index _ _ I)). lia. }
  unfold metadata_sent. unfold writes. rewrite (count_by _ index tr n Bn). rewrite (count_by (fun v => match v with GSend i r => _ | _ => false end) index tr n Bn).
  set (W := fun i => length (filter (fun v => _ && Nat.eqb (index v) i) tr)). set (M := fun i => length (filter (fun v => (match v with GSend _ _ => _ | _ => _ end) && Nat.eqb (index v) i) tr)).
  set (bad := fun i => existsb (Nat.eqb i) l).
  assert (T : forall i, (2 * W i <= M i <= 2 * W i + 2 * (if bad i then 1 else 0))%nat).
  { intros i. assert (Of : forall v, Nat.eqb (index v) i = of_task i v) by (intros []; reflexivity).
    assert (WE : W i = writes id (filter (of_task i) tr)).
    { unfold W, writes. rewrite filter_both. f_equal. f_equal. apply filter_ext. exact Of. }
    assert (ME : M i = if on_task_key id tr i then sends (filter (of_task i) tr) else 0%nat).
    { unfold M. rewrite filter_both. rewrite (filter_ext _ _ Of). unfold sends.
      assert (Q : forall v, In v (filter (of_task i) tr) -> of_task i v = true) by (intros v I; apply filter_In in I; apply I).
      destruct (on_task_key id tr i) eqn:K.
      - f_equal. apply filter_ext_in. intros v I. apply Q in I. destruct v as [|j r| |]; try reflexivity. apply Nat.eqb_eq in I. subst j. rewrite K. reflexivity.
      - rewrite filter_none; [reflexivity|]. intros v I. apply Q in I. destruct v as [|j r| |]; try reflexivity. apply Nat.eqb_eq in I. subst j. rewrite K. reflexivity. }
    destruct (on_task_key id tr i) eqn:K.
    - apply on_task_key_iff in K. pose proof K as U. destruct K as (c' & bt & I & K & Eid).
      destruct (h_task _ _ _ Hh i) as [X|(c & l' & X & Bh)].
      { exfalso. assert (Y : In (GSpawn i c') []) by (rewrite <- X; apply filter_In; split; [exact I|cbn; apply Nat.eqb_refl]). destruct Y. }
      assert (Y : In (GSpawn i c') (GSpawn i c :: l')) by (rewrite <- X; apply filter_In; split; [exact I|cbn; apply Nat.eqb_refl]).
      destruct Y as [Y|Y]; [injection Y as ->|destruct (behaves_no_spawn _ _ _ _ _ Bh Y)].
      rewrite WE, ME, X. change (sends (GSpawn i c' :: l')) with (sends l'). change (writes id (GSpawn i c' :: l')) with (writes id l').
      destruct (behaves_count _ _ _ id Bh) as (D & q & S & -> & -> & R). rewrite <- Eid. destruct (call_count _ _ _ _ _ K S) as [Le Ok].
      destruct (bad i) eqn:Bd; [lia|].
      destruct (L i U) as [In_|Su]; [exfalso; unfold bad in Bd; assert (Z : existsb (Nat.eqb i) l = true) by (apply existsb_exists; exists i; split; [exact In_|apply Nat.eqb_refl]); congruence|].
      assert (Rt : exists a, In (GEnd i (Returned a)) tr /\ answer_ok a = true) by (destruct Su as [[x Su]|[x Su]]; eexists; split; [exact Su|reflexivity|exact Su|reflexivity]).
      destruct Rt as (a & Ia & Oa). assert (Z : In (GEnd i (Returned a)) (GSpawn i c' :: l')) by (rewrite <- X; apply filter_In; split; [exact Ia|cbn; apply Nat.eqb_refl]).
      destruct Z as [Z|Z]; [discriminate Z|]. rewrite (Ok a (R a Z) Oa). lia.
    - assert (Z : W i = 0%nat); [|rewrite Z, ME; lia]. rewrite WE. unfold writes. rewrite filter_none; [reflexivity|]. intros v I. apply filter_In in I. destruct I as [I Iv].
      destruct v as [| |j e|]; try reflexivity. destruct e as [| | | | |x c]; try reflexivity. apply Nat.eqb_eq in Iv. subst j. destruct (N.eqb_spec x id) as [->|]; [|reflexivity].
      exfalso. apply in_split in I. destruct I as (a & b & E). destruct (write_refreshed _ _ _ _ _ _ _ _ _ H E) as (email & token & e & y & z & _ & U & _).
      assert (U' : uses_key tr i id) by (first [exact U|destruct U as (c0 & bt0 & I0 & K0 & E0); exists c0, bt0; split; [rewrite E; apply in_or_app; left; exact I0|auto]]).
      apply on_task_key_iff in U'. congruence. }
  pose proof (total_le (fun i => 2 * W i + 0 * W i)%nat M n) as X1. pose proof (total_le M (fun i => 2 * W i + 2 * (if bad i then 1 else 0))%nat n) as X2.
  rewrite total_lin in X1. rewrite total_lin in X2.
  pose proof (total_in l bad n) as X3. 
  assert (Bd : forall i, bad i = true -> In i l) by (intros i E; apply existsb_exists in E; destruct E as (x & I & E); apply Nat.eqb_eq in E; subst; exact I). specialize (X3 Bd).
  assert (Y1 := X1 (fun i _ => ltac:(pose proof (T i); lia))). assert (Y2 := X2 (fun i _ => ltac:(pose proof (T i); lia))). lia.
Qed.

(** Together: requests to the metadata server by time. *)
Theorem C105_load d base tr cfg id least t0 t1 (l : list nat) : runs d base tr cfg -> steady tr id -> lasting (base id) least tr -> 30 <= least ->
  t0 <= t1 -> (forall a t, reading tr id a t -> t0 <= t <= t1) -> (forall i, uses_key tr i id -> In i l \/ succeeded tr i) ->
  (Z.of_nat (metadata_sent id tr) - 2 * Z.of_nat (length l) - 2) * ((least - 30) * 1000000000) <= 2 * (t1 - t0).
Proof.
  intros H St La L T R Hl. pose proof (C105_requests d base tr cfg id l H Hl) as [_ M].
  assert (X : (Z.of_nat (writes id tr) - 1) * ((least - 30) * 1000000000) <= t1 - t0).
  { destruct (writes id tr) as [|n] eqn:E; [nia|]. rewrite <- E. apply (C105_rate d base tr cfg id least t0 t1); try assumption. rewrite E. lia. }
  assert (0 <= (least - 30) * 1000000000) by lia. nia.
Qed.

(** * A case *)

(** The first call fetches a token, the second one an hour later another; a third one, two hours later, asks for the email
    address and is cancelled. *)
Definition rate_moves : list move :=
  [MSpawn demo_bound_form;
   MStep 0 RUnit; MStep 0 RUnit; MStep 0 RUnit; MStep 0 email_ok; MStep 0 RUnit; MStep 0 token_ok; MStep 0 (RNow demo_time); MStep 0 RUnit; MStep 0 RUnit;
   MStep 0 RUnit; MStep 0 RUnit; MStep 0 (RNow (demo_time + 1 * NS)); MStep 0 RUnit; MStep 0 RUnit; MStep 0 (ok_response demo_blob_body); MStep 0 RUnit;
   MSpawn demo_bound_form;
   MStep 1 RUnit; MStep 1 RUnit; MStep 1 (RNow (demo_time + 3600 * NS)); MStep 1 RUnit; MStep 1 email_ok; MStep 1 RUnit; MStep 1 token_ok;
   MStep 1 (RNow (demo_time + 3601 * NS)); MStep 1 RUnit; MStep 1 RUnit;
   MStep 1 RUnit; MStep 1 RUnit; MStep 1 (RNow (demo_time + 3602 * NS)); MStep 1 RUnit; MStep 1 RUnit; MStep 1 (ok_response demo_blob_body); MStep 1 RUnit;
   MSpawn demo_bound_form;
   MStep 2 RUnit; MStep 2 RUnit; MStep 2 (RNow (demo_time + 7201 * NS)); MStep 2 RUnit; MCancel 2].

Definition clock (tr : list gevent) : list systime := flat_map (fun v => match v with GDo _ (VNow t) => [t] | _ => [] end) tr.
Fixpoint rising (l : list systime) : bool := match l with [] => true | x :: l => forallb (Z.leb x) l && rising l end.
Lemma rising_app x a t b : rising (a ++ t :: b) = true -> In x b -> t <= x.
Proof.
  induction a as [|y a IH]; cbn [app rising]; intros H I; apply andb_true_iff in H; destruct H as [H1 H2]; [|exact (IH H2 I)].
  rewrite forallb_forall in H1. apply Z.leb_le. exact (H1 _ I).
Qed.
Lemma reading_clock tr id a t : reading tr id a t -> exists b, clock tr = clock a ++ t :: clock b /\ forall j c, nth_error tr (length a) = Some (GDo j (VNow c)) -> c = t.
Proof.
  intros (j & b & -> & _). exists b. split; [unfold clock; rewrite flat_map_app; reflexivity|].
  intros j' c E. rewrite nth_error_app2 in E by lia. rewrite Nat.sub_diag in E. cbn in E. injection E as _ ->. reflexivity.
Qed.
Lemma clock_steady tr id : rising (clock tr) = true -> steady tr id.
Proof.
  intros Rs a t a' t' R R' L. destruct R as (j & b & E & _). destruct R' as (j' & b' & E' & _). rewrite E in E'. pose proof E' as E2.
  assert (X : exists m, a' = a ++ m). { exists (skipn (length a) a'). assert (F : firstn (length a) (a ++ GDo j (VNow t) :: b) = firstn (length a) (a' ++ GDo j' (VNow t') :: b')) by (rewrite E2; reflexivity).
    rewrite firstn_app, Nat.sub_diag, firstn_all, firstn_app in F. cbn [firstn] in F. rewrite app_nil_r in F.
    replace (length a - length a')%nat with 0%nat in F by lia. cbn [firstn] in F. rewrite app_nil_r in F.
    transitivity (firstn (length a) a' ++ skipn (length a) a'); [symmetry; apply firstn_skipn|rewrite <- F; reflexivity]. }
  destruct X as [m ->]. rewrite <- app_assoc in E'. apply app_inv_head in E'. destruct m as [|v m]; cbn [app] in E'; [injection E' as _ Et _; lia|injection E' as _ E'].
  rewrite E in Rs. unfold clock in Rs. rewrite flat_map_app in Rs. cbn [flat_map app] in Rs. apply (rising_app _ _ _ _ Rs). rewrite E'. rewrite flat_map_app. apply in_or_app. right. left. reflexivity.
Qed.

(** The hypotheses as tests of the history. *)
Definition lasting_test (v : gevent) : bool :=
  match v with
  | GDo _ (VHttp r (HttpResponse _ (Some b))) => negb (str_eqb (rq_url r) (rq_url (metadata_request (demo_base 7) (B "token")))) || str_eqb b demo_token_body
  | _ => true
  end.
Definition form_end (i : nat) (w : gevent) : bool := match w with GEnd j (Returned (AForm (Ok _))) => Nat.eqb j i | _ => false end.
Definition end_test (tr : list gevent) (v : gevent) : bool := match v with GSpawn i _ => Nat.eqb i 2 || existsb (form_end i) tr | _ => true end.
Definition in_time (t : systime) : bool := (demo_time <=? t) && (t <=? demo_time + 7201 * NS).

Lemma lasting_by tr : forallb lasting_test tr = true -> lasting (demo_base 7) 3599 tr.
Proof.
  intros X i o body token n I A T. destruct A as (s & _ & ->). rewrite forallb_forall in X. specialize (X _ I). unfold lasting_test in X. rewrite str_eqb_refl in X. cbn [negb orb] in X.
  apply str_eqb_eq in X. subst body. apply token_body_spec in T. vm_compute in T. injection T as _ <-. lia.
Qed.
Lemma in_time_by tr : forallb in_time (clock tr) = true -> forall a t, reading tr 7 a t -> demo_time <= t <= demo_time + 7201 * NS.
Proof.
  intros X a t R. destruct (reading_clock _ _ _ _ R) as (b & E & _). rewrite forallb_forall in X. specialize (X t). rewrite E in X. specialize (X (in_elt t (clock a) (clock b))).
  unfold in_time in X. apply andb_true_iff in X. destruct X as [X1 X2]. split; apply Z.leb_le; assumption.
Qed.
Lemma ends_by tr : forallb (end_test tr) tr = true -> forall i, uses_key tr i 7 -> In i [2%nat] \/ succeeded tr i.
Proof.
  intros X i (c & bt & I & _). rewrite forallb_forall in X. specialize (X _ I). cbn [end_test] in X. apply orb_true_iff in X.
  destruct X as [X|X]; [apply Nat.eqb_eq in X; left; left; symmetry; exact X|]. right. left. apply existsb_exists in X. destruct X as (w & Iw & X).
  destruct w as [| | |j e]; try discriminate X. destruct e as [a| |]; try discriminate X. destruct a as [[f|]|]; try discriminate X.
  cbn [form_end] in X. apply Nat.eqb_eq in X. subst j. exists f. exact Iw.
Qed.

Example C105_case : exists cfg, let tr := sim demo_deps demo_base rate_moves in
  runs demo_deps demo_base tr cfg /\ steady tr 7 /\ lasting (demo_base 7) 3599 tr /\
  (forall a t, reading tr 7 a t -> demo_time <= t <= demo_time + 7201 * NS) /\ (forall i, uses_key tr i 7 -> In i [2%nat] \/ succeeded tr i) /\
  writes 7 tr = 2%nat /\ metadata_sent 7 tr = 5%nat.
Proof.
  destruct (sim_history demo_deps demo_base rate_moves) as [cfg H]; [vm_compute; exact Logic.I|]. exists cfg. cbv zeta.
  split; [exact H|]. split; [apply clock_steady; vm_compute; reflexivity|]. split; [apply lasting_by; vm_compute; reflexivity|].
  split; [apply in_time_by; vm_compute; reflexivity|]. split; [apply ends_by; vm_compute; reflexivity|]. split; vm_compute; reflexivity.
Qed.
