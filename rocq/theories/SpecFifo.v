(** Specification: reading a history with queues. *)
From Verif Require Import Base Effects Keys Calls Conc Fifo SpecConc.

(** The history without the moments at which tasks join a queue. *)
Definition plain_history (tr : list fevent) : list gevent :=
  flat_map (fun v => match v with FDo v => [v] | FAsk _ _ => [] end) tr.

(** Task [i] takes the lock of [id], or ends. *)
Definition served (b : list fevent) (i : nat) (id : N) : Prop :=
  In (FDo (GDo i (VLock id))) b \/ exists e, In (FDo (GEnd i e)) b.

(** Task [i] has asked for the lock of [id] in vain and has neither taken it nor ended since. *)
Definition waits (tr : list fevent) (i : nat) (id : N) : Prop :=
  exists a b, tr = a ++ FAsk i id :: b /\ ~ served b i id.

(** Who took the lock of [id], in order. *)
Definition takers (id : N) (tr : list fevent) : list nat :=
  flat_map (fun v => match v with FDo (GDo i (VLock x)) => if N.eqb x id then [i] else [] | _ => [] end) tr.

(** Steps an environment decides on. *)
Definition fexternal (v : fevent) : Prop := match v with FDo v => external v | FAsk _ _ => False end.
