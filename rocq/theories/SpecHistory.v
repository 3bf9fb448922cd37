(** Specification: which histories of many tasks are possible, without configurations.  A history is possible if every
    task on its own follows its call, locks are exclusive, and reads see the last write. *)
From Verif Require Import Base Effects Keys Calls Conc SpecConc.

(** [l] is a possible beginning of what task [i] does when [p] is left of its call: it performs the effects of [p] one
    after the other with some responses, a request being sent and answered in two events; at any point it may be
    cancelled; it returns or panics as [p] does; after its end it does nothing. *)
Inductive behaves (i : nat) : prog answer -> list gevent -> Prop :=
| b_stop p : behaves i p []
| b_cancel p : behaves i p [GEnd i Cancelled]
| b_return a : behaves i (Ret a) [GEnd i (Returned a)]
| b_panic s : behaves i (Panic s) [GEnd i (Panicked s)]
| b_act e k (x : resp e) l : (forall r, e <> EHttp r) -> behaves i (k x) l ->
    behaves i (Act e k) (GDo i (event_of e x) :: l)
| b_send r k : behaves i (Act (EHttp r) k) [GSend i r]
| b_send_cancel r k : behaves i (Act (EHttp r) k) [GSend i r; GEnd i Cancelled]
| b_answer r k (o : http_result) l : behaves i (k o) l ->
    behaves i (Act (EHttp r) k) (GSend i r :: GDo i (VHttp r o) :: l).

Definition is_spawn (v : gevent) : bool := match v with GSpawn _ _ => true | _ => false end.

Record history (d : deps) (base : N -> str) (tr : list gevent) : Prop := {
  (* tasks are numbered in the order in which they start, and clones of a key share its address *)
  h_spawn a i c b : tr = a ++ GSpawn i c :: b -> i = length (filter is_spawn a) /\ fits base c;
  (* every task follows its call *)
  h_task i : filter (of_task i) tr = [] \/
    exists c l, filter (of_task i) tr = GSpawn i c :: l /\ behaves i (run_call d c) l;
  (* a lock is taken only when nobody holds it *)
  h_lock a i id b : tr = a ++ GDo i (VLock id) :: b -> forall j, ~ holding a j id;
  (* a read sees the last write *)
  h_read a i id c b : tr = a ++ GDo i (VGet id c) :: b -> written a id c \/ never_written a id /\ c = None
}.

(** * Leaving tasks out *)

Definition index (v : gevent) : nat := match v with GSpawn i _ | GSend i _ | GDo i _ | GEnd i _ => i end.

(** The number of a kept task when the others have never existed. *)
Definition rank (keep : nat -> bool) (i : nat) : nat := length (filter keep (seq 0 i)).

Definition renumber (f : nat -> nat) (v : gevent) : gevent :=
  match v with
  | GSpawn i c => GSpawn (f i) c
  | GSend i r => GSend (f i) r
  | GDo i e => GDo (f i) e
  | GEnd i e => GEnd (f i) e
  end.

(** The history of the kept tasks alone. *)
Definition restrict (keep : nat -> bool) (tr : list gevent) : list gevent :=
  map (renumber (rank keep)) (filter (fun v => keep (index v)) tr).

(** Tasks on one key are kept or left out together. *)
Definition by_key (keep : nat -> bool) (tr : list gevent) : Prop :=
  forall i j id, uses_key tr i id -> uses_key tr j id -> keep i = keep j.

(** * Lookups as single actions *)

(** Events on the lock and the cache of a key. *)
Definition on_key (id : N) (v : gevent) : bool :=
  match v with
  | GDo _ (VLock x) | GDo _ (VUnlock x) | GDo _ (VGet x _) | GDo _ (VSet x _) => N.eqb x id
  | _ => false
  end.

(** Task [i] gives back the lock of [id], by itself or by ending. *)
Definition gives_back (i : nat) (id : N) (v : gevent) : Prop :=
  v = GDo i (VUnlock id) \/ exists e, v = GEnd i e.

(** From the moment a task takes a lock until it gives it back no other task does anything; or the task never gives it
    back, and it does nothing any more once another task has done something. *)
Definition undisturbed (tr : list gevent) : Prop :=
  forall a i id b v c, tr = a ++ GDo i (VLock id) :: b ++ v :: c -> of_task i v = false ->
    (exists w, In w b /\ gives_back i id w) \/ (forall w, In w (v :: c) -> of_task i w = false).
