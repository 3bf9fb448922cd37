(** Specification: how often the token of a key is fetched. *)
From Verif Require Import Base Time Effects Keys Calls Conc SpecToken SpecTrace SpecConc.
Local Open Scope Z_scope.

(** How often the cache of [id] was written. *)
Definition writes (id : N) (tr : list gevent) : nat :=
  length (filter (fun v => match v with GDo _ (VSet x _) => N.eqb x id | _ => false end) tr).

(** Task [i] runs a call with the key [id]. *)
Definition on_task_key (id : N) (tr : list gevent) (i : nat) : bool :=
  existsb (fun v => match v with
                    | GSpawn j c => Nat.eqb j i && match call_key c with Some (KBoundToken bt) => N.eqb (bt_id bt) id | _ => false end
                    | _ => false
                    end) tr.

(** How many requests tasks with that key sent to the metadata server: those are GET requests, signBlob is POST. *)
Definition metadata_sent (id : N) (tr : list gevent) : nat :=
  length (filter (fun v => match v with GSend i r => on_task_key id tr i && str_eqb (rq_method r) (B "GET") | _ => false end) tr).

(** After [a], the clock showed [t] to a task that held the lock of [id]. *)
Definition reading (tr : list gevent) (id : N) (a : list gevent) (t : systime) : Prop :=
  exists j b, tr = a ++ GDo j (VNow t) :: b /\ holding a j id.

(** The clock does not go back, as far as these tasks see. *)
Definition steady (tr : list gevent) (id : N) : Prop :=
  forall a t a' t', reading tr id a t -> reading tr id a' t' -> (length a <= length a')%nat -> t <= t'.

(** Every token that was fetched at [base] is good for [least] seconds or more. *)
Definition lasting (base : str) (least : Z) (tr : list gevent) : Prop :=
  forall i o body token n, In (GDo i (VHttp (metadata_request base (B "token")) o)) tr -> answered o body -> token_body body token n (B "Bearer") ->
    least <= Z.of_N n.

(** The call of task [i] gave a form or a URL. *)
Definition succeeded (tr : list gevent) (i : nat) : Prop :=
  (exists fields, In (GEnd i (Returned (AForm (Ok fields)))) tr) \/ (exists url, In (GEnd i (Returned (AUrl (Ok url)))) tr).
