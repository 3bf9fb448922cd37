(** Specification: reading a history of many tasks. *)
From Verif Require Import Base Effects Keys Calls Conc SpecTrace.

(** Which task an event belongs to. *)
Definition of_task (i : nat) (v : gevent) : bool :=
  match v with GSpawn j _ | GSend j _ | GDo j _ | GEnd j _ => Nat.eqb j i end.

(** What task [i] did, in order. *)
Definition did (i : nat) (tr : list gevent) : list event :=
  flat_map (fun v => match v with GDo j e => if Nat.eqb j i then [e] else [] | _ => [] end) tr.

(** Task [i] runs [c]; its key is the bound token [id]. *)
Definition runs_call (tr : list gevent) (i : nat) (c : call) : Prop := In (GSpawn i c) tr.
Definition uses_key (tr : list gevent) (i : nat) (id : N) : Prop :=
  exists c bt, runs_call tr i c /\ call_key c = Some (KBoundToken bt) /\ bt_id bt = id.

(** Task [i] has ended. *)
Definition has_ended (tr : list gevent) (i : nat) : Prop := exists e, In (GEnd i e) tr.

(** Task [i] has taken the lock of [id] and neither given it back nor ended. *)
Definition holding (tr : list gevent) (i : nat) (id : N) : Prop :=
  exists a b, tr = a ++ GDo i (VLock id) :: b /\ ~ In (GDo i (VUnlock id)) b /\ ~ has_ended b i.

(** Task [i] has sent a request to the metadata server for key [id], and has neither given back the lock nor
    ended since: it is refreshing. *)
Definition refreshing (tr : list gevent) (i : nat) (id : N) : Prop :=
  exists a r b, tr = a ++ GSend i r :: b /\ is_metadata r /\ uses_key tr i id /\
    ~ In (GDo i (VUnlock id)) b /\ ~ has_ended b i.

(** The last content written to the cache of [id]. *)
Definition written (tr : list gevent) (id : N) (c : cache) : Prop :=
  exists a i b, tr = a ++ GDo i (VSet id c) :: b /\ forall j x, ~ In (GDo j (VSet id x)) b.
Definition never_written (tr : list gevent) (id : N) : Prop := forall j x, ~ In (GDo j (VSet id x)) tr.

(** Steps an environment decides on: new calls and cancellations. *)
Definition external (v : gevent) : Prop :=
  match v with GSpawn _ _ => True | GEnd _ Cancelled => True | _ => False end.
