(** The lock of a key as [tokio::sync::Mutex] implements it: a semaphore with one permit and a queue of waiting
    futures, served first come, first served.  [Conc] only says that a free lock may be taken.

    Modelled from memory of tokio's [sync/batch_semaphore.rs] (the crate is not part of the repository):
    - the first poll of [lock()] takes the permit if there is one, otherwise it joins the end of the queue;
    - a permit given back is handed to the first future of the queue, if there is one, before that future is polled
      again, so that nobody can take it in between;
    - a future dropped while it waits leaves the queue; if it has been handed the permit, it gives it back. *)
From Verif Require Import Base Time Effects Keys Calls Conc.

(** The tasks, lock owners and caches (see [config]); the task that was handed the permit of a key and has not been
    polled since; the tasks that wait for it, first in line first.  src/private/bound_token.rs lines 60, 79. *)
Record fconfig := {
  f_core : config;
  f_handed : N -> option nat;
  f_queue : N -> list nat
}.

(** Nobody waits: src/private/bound_token.rs lines 65-76. *)
Definition finitial : fconfig := {| f_core := initial; f_handed := fun _ => None; f_queue := fun _ => [] |}.

(** What happens: a task joins the queue of a key (the poll of [lock()], src/private/bound_token.rs line 79, that finds
    the permit taken), or one of the events of [Conc] (src/private/bound_token.rs lines 79-229). *)
Inductive fevent : Type :=
| FAsk (i : nat) (id : N)
| FDo (v : gevent).

(** Leave a queue: the future of src/private/bound_token.rs line 79 is dropped. *)
Definition leave (i : nat) (q : list nat) : list nat := filter (fun j => negb (Nat.eqb j i)) q.

(** The core moves on, the queues stay (effects other than those of src/private/bound_token.rs line 79). *)
Definition move_core (f : fconfig) (cfg : config) : fconfig :=
  {| f_core := cfg; f_handed := f_handed f; f_queue := f_queue f |}.

(** The permit of [id] is given back: to the first in line, or to the semaphore
    (drop of the guard, src/private/bound_token.rs line 171). *)
Definition hand_over (f : fconfig) (id : N) : fconfig :=
  {| f_core := f_core f;
     f_handed := fun x => if N.eqb x id then hd_error (f_queue f id) else f_handed f x;
     f_queue := fun x => if N.eqb x id then tl (f_queue f id) else f_queue f x |}.

(** Task [i], whose core was [before], is dropped or unwound: it leaves all queues and gives back what it holds or was
    handed (src/private/bound_token.rs line 79). *)
Definition drop_task (f : fconfig) (before : config) (i : nat) : fconfig :=
  {| f_core := f_core f;
     f_handed := fun x =>
       if match owner before x with Some j => Nat.eqb j i | None => false end
          || match f_handed f x with Some j => Nat.eqb j i | None => false end
       then hd_error (leave i (f_queue f x)) else f_handed f x;
     f_queue := fun x =>
       if match owner before x with Some j => Nat.eqb j i | None => false end
          || match f_handed f x with Some j => Nat.eqb j i | None => false end
       then tl (leave i (f_queue f x)) else leave i (f_queue f x) |}.

(** Events that neither take nor give back a lock (src/private/bound_token.rs lines 80-170, 173-229).  A return gives
    nothing back, see [cstep]. *)
Definition keeps_locks (v : gevent) : Prop :=
  match v with
  | GDo _ (VLock _) | GDo _ (VUnlock _) | GEnd _ (Panicked _) | GEnd _ Cancelled => False
  | _ => True
  end.

(** One step (src/private/bound_token.rs lines 79-229): those of [cstep], with the queue deciding who takes a lock. *)
Inductive fstep (d : deps) (base : N -> str) : fconfig -> fevent -> fconfig -> Prop :=
| fs_other f v cfg : cstep d base (f_core f) v cfg -> keeps_locks v ->
    fstep d base f (FDo v) (move_core f cfg)
| fs_ask f i c id k : at_ (f_core f) i c (Running (Act (ELock id) k)) ->
    owner (f_core f) id <> None \/ f_handed f id <> None ->
    f_handed f id <> Some i -> ~ In i (f_queue f id) ->
    fstep d base f (FAsk i id)
      {| f_core := f_core f; f_handed := f_handed f;
         f_queue := fun x => if N.eqb x id then f_queue f id ++ [i] else f_queue f x |}
| fs_lock f i id cfg : cstep d base (f_core f) (GDo i (VLock id)) cfg -> f_handed f id = None ->
    fstep d base f (FDo (GDo i (VLock id))) (move_core f cfg)
| fs_granted f i id cfg : cstep d base (f_core f) (GDo i (VLock id)) cfg -> f_handed f id = Some i ->
    fstep d base f (FDo (GDo i (VLock id)))
      {| f_core := cfg; f_handed := fun x => if N.eqb x id then None else f_handed f x; f_queue := f_queue f |}
| fs_unlock f i id cfg : cstep d base (f_core f) (GDo i (VUnlock id)) cfg ->
    fstep d base f (FDo (GDo i (VUnlock id))) (hand_over (move_core f cfg) id)
| fs_drop f i e cfg : cstep d base (f_core f) (GEnd i e) cfg -> (forall a, e <> Returned a) ->
    fstep d base f (FDo (GEnd i e)) (drop_task (move_core f cfg) (f_core f) i).

(** Everything that happened since the start, and where it led; see [runs]
    (src/html_form_data.rs lines 237-304, src/signed_url.rs lines 55-132). *)
Inductive fruns (d : deps) (base : N -> str) : list fevent -> fconfig -> Prop :=
| fruns_nil : fruns d base [] finitial
| fruns_snoc tr f v f' : fruns d base tr f -> fstep d base f v f' -> fruns d base (tr ++ [v]) f'.
