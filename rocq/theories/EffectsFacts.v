(** Executions of programs: inversion and composition. *)
From Verif Require Import Base Effects.

Lemma steps_inv {A} (p : prog A) tr q : steps p tr q ->
  match p with
  | Act e k => (tr = [] /\ q = p) \/ exists r tr', tr = event_of e r :: tr' /\ steps (k r) tr' q
  | _ => tr = [] /\ q = p
  end.
Proof. intros H. destruct H as [p|e k r tr q H]; [destruct p; auto|right; eauto]. Qed.

Lemma steps_ret {A} (a : A) tr q : steps (Ret a) tr q -> tr = [] /\ q = Ret a.
Proof. intros H. apply steps_inv in H. exact H. Qed.

Lemma steps_panic {A} s tr (q : prog A) : steps (Panic s) tr q -> tr = [] /\ q = Panic s.
Proof. intros H. apply steps_inv in H. exact H. Qed.

Lemma steps_act_inv {A} e (k : resp e -> prog A) tr q : steps (Act e k) tr q ->
  (tr = [] /\ q = Act e k) \/ exists r tr', tr = event_of e r :: tr' /\ steps (k r) tr' q.
Proof. intros H. apply steps_inv in H. exact H. Qed.

Lemma steps_app {A} (p q r : prog A) t1 t2 : steps p t1 q -> steps q t2 r -> steps p (t1 ++ t2) r.
Proof. intros H. revert r t2. induction H; intros; [assumption|]. cbn [app]. constructor. auto. Qed.

Lemma steps_bind_inv {A C} (p : prog A) (f : A -> prog C) tr q : steps (bind p f) tr q ->
  (exists p', steps p tr p' /\ q = bind p' f) \/
  (exists a t1 t2, steps p t1 (Ret a) /\ steps (f a) t2 q /\ tr = t1 ++ t2).
Proof.
  revert tr q. induction p as [a|s|e k IH]; intros tr q H; cbn [bind] in H.
  - right. exists a, [], tr. split; [constructor|auto].
  - apply steps_panic in H. destruct H as [-> ->]. left. exists (Panic s). split; [constructor|reflexivity].
  - apply steps_act_inv in H. destruct H as [[-> ->]|(r & tr' & -> & H)].
    + left. exists (Act e k). split; [constructor|reflexivity].
    + apply IH in H. destruct H as [(p' & H & ->)|(a & t1 & t2 & H1 & H2 & ->)].
      * left. exists p'. split; [constructor; exact H|reflexivity].
      * right. exists a, (event_of e r :: t1), t2. split; [constructor; exact H1|auto].
Qed.

Lemma steps_bind {A C} (p p' : prog A) (f : A -> prog C) tr : steps p tr p' -> steps (bind p f) tr (bind p' f).
Proof. induction 1; cbn [bind]; [constructor|]. apply (steps_act e (fun r => bind (k r) f)). assumption. Qed.

Lemma steps_bind_ret {A C} (p : prog A) a (f : A -> prog C) t1 t2 q :
  steps p t1 (Ret a) -> steps (f a) t2 q -> steps (bind p f) (t1 ++ t2) q.
Proof. intros H1 H2. eapply steps_app; [apply steps_bind; exact H1|exact H2]. Qed.

Lemma bind_ret_inv {A C} (p : prog A) (f : A -> prog C) c : bind p f = Ret c -> exists a, p = Ret a /\ f a = Ret c.
Proof. destruct p; cbn [bind]; intros H; try discriminate. eauto. Qed.

Lemma bind_panic_inv {A C} (p : prog A) (f : A -> prog C) s :
  bind p f = Panic s -> p = Panic s \/ exists a, p = Ret a /\ f a = Panic s.
Proof. destruct p; cbn [bind]; intros H; try discriminate; [right; eauto|left; congruence]. Qed.

Lemma returns_bind_inv {A C} (p : prog A) (f : A -> prog C) tr c : returns (bind p f) tr c ->
  exists a t1 t2, returns p t1 a /\ returns (f a) t2 c /\ tr = t1 ++ t2.
Proof.
  intros H. apply steps_bind_inv in H. destruct H as [(p' & H & E)|H]; [|exact H].
  symmetry in E. apply bind_ret_inv in E. destruct E as (a & -> & E). exists a, tr, [].
  split; [exact H|]. split; [rewrite E; constructor|]. symmetry; apply app_nil_r.
Qed.

Lemma returns_bind_ok_inv {A C E F} (g : E -> F) (p : prog (res A E)) (f : A -> prog (res C F)) tr r :
  returns (bind_ok g p f) tr r ->
  (exists a t1 t2, returns p t1 (Ok a) /\ returns (f a) t2 r /\ tr = t1 ++ t2) \/
  (exists e, returns p tr (Err e) /\ r = Err (g e)).
Proof.
  unfold bind_ok. intros H. apply returns_bind_inv in H. destruct H as ([a|e] & t1 & t2 & H1 & H2 & ->).
  - left. exists a, t1, t2. auto.
  - right. apply steps_ret in H2. destruct H2 as [-> E2]. injection E2 as ->. exists e. rewrite app_nil_r. auto.
Qed.

Lemma returns_bind_ok {A C E F} (g : E -> F) (p : prog (res A E)) a (f : A -> prog (res C F)) t1 t2 r :
  returns p t1 (Ok a) -> returns (f a) t2 r -> returns (bind_ok g p f) (t1 ++ t2) r.
Proof. intros H1 H2. unfold bind_ok. eapply steps_bind_ret; [exact H1|exact H2]. Qed.

Lemma returns_bind_err {A C E F} (g : E -> F) (p : prog (res A E)) e (f : A -> prog (res C F)) t1 :
  returns p t1 (Err e) -> returns (bind_ok g p f) t1 (Err (g e)).
Proof.
  intros H1. unfold bind_ok. rewrite <- (app_nil_r t1). eapply steps_bind_ret; [exact H1|constructor].
Qed.

Lemma panics_bind_inv {A C} (p : prog A) (f : A -> prog C) tr s : panics (bind p f) tr s ->
  panics p tr s \/ exists a t1 t2, returns p t1 a /\ panics (f a) t2 s /\ tr = t1 ++ t2.
Proof.
  intros H. apply steps_bind_inv in H. destruct H as [(p' & H & E)|H]; [|right; exact H].
  symmetry in E. apply bind_panic_inv in E. destruct E as [->|(a & -> & E)]; [left; exact H|].
  right. exists a, tr, []. split; [exact H|]. split; [rewrite E; constructor|]. symmetry; apply app_nil_r.
Qed.

Lemma panics_bind_ok_inv {A C E F} (g : E -> F) (p : prog (res A E)) (f : A -> prog (res C F)) tr s :
  panics (bind_ok g p f) tr s ->
  panics p tr s \/ exists a t1 t2, returns p t1 (Ok a) /\ panics (f a) t2 s /\ tr = t1 ++ t2.
Proof.
  unfold bind_ok. intros H. apply panics_bind_inv in H. destruct H as [H|([a|e] & t1 & t2 & H1 & H2 & ->)]; [left; exact H| |].
  - right. exists a, t1, t2. auto.
  - apply steps_ret in H2. destruct H2 as [_ H2]. discriminate H2.
Qed.

Lemma panics_bind_l {A C} (p : prog A) (f : A -> prog C) tr s : panics p tr s -> panics (bind p f) tr s.
Proof. intros H. apply (steps_bind _ _ f) in H. exact H. Qed.

Lemma returns_ret_inv {A} (a c : A) tr : returns (Ret a) tr c -> tr = [] /\ c = a.
Proof. intros H. apply steps_ret in H. destruct H as [-> E]. injection E as ->. auto. Qed.

Lemma returns_panic_inv {A} s (c : A) tr : returns (Panic s) tr c -> False.
Proof. intros H. apply steps_panic in H. destruct H as [_ H]. discriminate H. Qed.

Lemma panics_ret_inv {A} (a : A) s tr : panics (Ret a) tr s -> False.
Proof. intros H. apply steps_ret in H. destruct H as [_ H]. discriminate H. Qed.

Lemma panics_panic_inv {A} s s' tr : panics (A := A) (Panic s) tr s' -> tr = [] /\ s' = s.
Proof. intros H. apply steps_panic in H. destruct H as [-> E]. injection E as ->. auto. Qed.

Lemma returns_act_inv {A} e (k : resp e -> prog A) tr c : returns (Act e k) tr c ->
  exists r tr', tr = event_of e r :: tr' /\ returns (k r) tr' c.
Proof. intros H. apply steps_act_inv in H. destruct H as [[_ H]|H]; [discriminate H|exact H]. Qed.

Lemma panics_act_inv {A} e (k : resp e -> prog A) tr s : panics (Act e k) tr s ->
  exists r tr', tr = event_of e r :: tr' /\ panics (k r) tr' s.
Proof. intros H. apply steps_act_inv in H. destruct H as [[_ H]|H]; [discriminate H|exact H]. Qed.

(** The trace and result of a program without effects. *)
Lemma returns_nil {A} (p : prog A) a : returns p [] a <-> p = Ret a.
Proof.
  split; [|intros ->; constructor]. intros H. destruct p as [x|s|e k].
  - apply returns_ret_inv in H. destruct H as [_ ->]. reflexivity.
  - destruct (returns_panic_inv _ _ _ H).
  - apply returns_act_inv in H. destruct H as (r & tr' & H & _). discriminate H.
Qed.

(** Executions of [p] that start in the same way end in the same way. *)
Lemma returns_deterministic {A} (p : prog A) tr a b : returns p tr a -> returns p tr b -> a = b.
Proof.
  revert tr. induction p as [x|s|e k IH]; intros tr H1 H2.
  - apply returns_ret_inv in H1, H2. destruct H1, H2; congruence.
  - destruct (returns_panic_inv _ _ _ H1).
  - apply returns_act_inv in H1, H2. destruct H1 as (r1 & t1 & -> & H1). destruct H2 as (r2 & t2 & E & H2).
    injection E as E <-. assert (r1 = r2) as <-.
    { destruct e; cbn in r1, r2, E; try congruence; destruct r1, r2; reflexivity. }
    eapply IH; eassumption.
Qed.

(** * Concrete executions, for examples and witnesses *)

(** One response. *)
Inductive reply : Type :=
| RNow (t : Z)
| RHttp (o : http_result)
| RCache (c : cache)
| RUnit.

Definition answer_to (e : eff) (r : reply) : option (resp e) :=
  match e, r with
  | ENow, RNow t => Some t
  | EHttp _, RHttp o => Some o
  | EGet _, RCache c => Some c
  | ELock _, RUnit => Some tt
  | EUnlock _, RUnit => Some tt
  | ESet _ _, RUnit => Some tt
  | _, _ => None
  end.

(** Run [p] on a list of responses. *)
Fixpoint play {A} (p : prog A) (rs : list reply) : list event * prog A :=
  match p, rs with
  | Act e k, r :: rest =>
      match answer_to e r with
      | Some x => let '(tr, q) := play (k x) rest in (event_of e x :: tr, q)
      | None => ([], p)
      end
  | _, _ => ([], p)
  end.

Lemma play_steps {A} (p : prog A) rs : steps p (fst (play p rs)) (snd (play p rs)).
Proof.
  revert rs. induction p as [a|s|e k IH]; intros rs; cbn [play]; try (destruct rs; constructor).
  destruct rs as [|r rs]; [constructor|]. destruct (answer_to e r) as [x|]; [|constructor].
  specialize (IH x rs). destruct (play (k x) rs) as [tr q]. cbn [fst snd] in *. constructor. exact IH.
Qed.

Lemma play_returns {A} (p : prog A) rs a : snd (play p rs) = Ret a -> returns p (fst (play p rs)) a.
Proof. intros E. unfold returns. rewrite <- E. apply play_steps. Qed.

Lemma play_panics {A} (p : prog A) rs s : snd (play p rs) = Panic s -> panics p (fst (play p rs)) s.
Proof. intros E. unfold panics. rewrite <- E. apply play_steps. Qed.

(** Where an event of a composed trace lies. *)
Lemma split_event {A} (x : list A) v y a b : x ++ v :: y = a ++ b ->
  (exists y', a = x ++ v :: y' /\ y = y' ++ b) \/ (exists x', b = x' ++ v :: y /\ x = a ++ x').
Proof.
  revert a. induction x as [|h x IH]; intros a E; cbn [app] in E.
  - destruct a as [|h a]; cbn [app] in E.
    + right. exists []. auto.
    + injection E as -> ->. left. exists a. auto.
  - destruct a as [|h' a]; cbn [app] in E.
    + subst b. right. exists (h :: x). auto.
    + injection E as -> E. destruct (IH _ E) as [(y' & -> & ->)|(x' & -> & ->)]; [left; exists y'; auto|right; exists x'; auto].
Qed.
