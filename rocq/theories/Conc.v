(** Many calls at once: tasks that run public operations on clones of the same signing keys, interleaved in
    any order, with cancellation and panics.

    A task is a future (the async functions of src/html_form_data.rs line 237 and src/signed_url.rs line 55)
    polled by some executor.  What the model adds to the code is the semantics of its runtime:
    - [tokio::sync::Mutex] (src/private/bound_token.rs line 60): one owner at a time; a lock is granted only
      when it is free, to any task that waits for it (tokio grants in FIFO order: one of these); the lock is
      not poisoned by a panic; the guard is released when the future is dropped or unwound while it is live.
    - A request is sent and answered in two separate steps.
    - A future may be dropped (cancelled) between any two steps; futures are dropped at await points only, so
      this is more than can happen.
    - Code between two effects runs at once; it touches nothing shared. *)
From Verif Require Import Base Time Effects Keys Calls.

(** How a task ended: it returned, it panicked, or its future was dropped
    (src/html_form_data.rs line 237, src/signed_url.rs line 55). *)
Inductive ending : Type :=
| Returned (a : answer)
| Panicked (s : panic)
| Cancelled.

(** A task is about to continue as [p], or waits for the response to a request it sent
    (src/private/bound_token.rs lines 105-109, 139-143, 210-214), or has ended. *)
Inductive status : Type :=
| Running (p : prog answer)
| InFlight (r : request) (k : http_result -> prog answer)
| Ended (e : ending).

(** A call and how far it is: src/html_form_data.rs line 237, src/signed_url.rs line 55. *)
Record task := { t_call : call; t_status : status }.

(** The tasks, by index; the owner of each key's lock and the content of each key's cache
    (src/private/bound_token.rs line 60), by key identity. *)
Record config := {
  tasks : list task;
  owner : N -> option nat;
  caches : N -> cache
}.

(** No tasks, all locks free, all caches empty: [BoundToken::new], src/private/bound_token.rs lines 65-76. *)
Definition initial : config := {| tasks := []; owner := fun _ => None; caches := fun _ => None |}.

(** What happens, and to which task
    (starts and ends of src/html_form_data.rs lines 237-304 and src/signed_url.rs lines 55-132, and the effects of src/private/bound_token.rs lines 79-229). *)
Inductive gevent : Type :=
| GSpawn (i : nat) (c : call)
| GSend (i : nat) (r : request)
| GDo (i : nat) (v : event)
| GEnd (i : nat) (e : ending).

(** Replace the [i]-th element
    (the tasks of the executor, outside the crate: see [task]; src/html_form_data.rs line 237). *)
Fixpoint replace {A} (l : list A) (i : nat) (x : A) : list A :=
  match l, i with
  | [], _ => []
  | _ :: l, O => x :: l
  | y :: l, S i => y :: replace l i x
  end.

(** Task [i] runs [c] and is at [s]; see [task], src/html_form_data.rs line 237, src/signed_url.rs line 55. *)
Definition at_ (cfg : config) (i : nat) (c : call) (s : status) : Prop :=
  nth_error (tasks cfg) i = Some {| t_call := c; t_status := s |}.
(** Task [i] moves on to [s]; see [task], src/html_form_data.rs line 237, src/signed_url.rs line 55. *)
Definition put (cfg : config) (i : nat) (c : call) (s : status) : config :=
  {| tasks := replace (tasks cfg) i {| t_call := c; t_status := s |}; owner := owner cfg; caches := caches cfg |}.
(** The mutex of a key changes hands: src/private/bound_token.rs lines 79, 171. *)
Definition set_owner (cfg : config) (id : N) (o : option nat) : config :=
  {| tasks := tasks cfg; owner := fun x => if N.eqb x id then o else owner cfg x; caches := caches cfg |}.
(** [*cache = ..], src/private/bound_token.rs line 167. *)
Definition set_cache (cfg : config) (id : N) (c : cache) : config :=
  {| tasks := tasks cfg; owner := owner cfg; caches := fun x => if N.eqb x id then c else caches cfg x |}.

(** Dropping a future or unwinding it drops its guards (src/private/bound_token.rs line 79). *)
Definition release (cfg : config) (i : nat) : config :=
  {| tasks := tasks cfg;
     owner := fun x => match owner cfg x with
                       | Some j => if Nat.eqb j i then None else Some j
                       | None => None
                       end;
     caches := caches cfg |}.

(** Clones of a key share its base URL with its [Arc]: src/private/bound_token.rs lines 57-62. *)
Definition fits (base : N -> str) (c : call) : Prop :=
  forall bt, call_key c = Some (KBoundToken bt) -> bt_base_url bt = base (bt_id bt).

(** One step.  Clock readings and responses are arbitrary.  A return releases nothing by itself: the guard is
    dropped by [EUnlock], at the end of [get_email_and_token] (src/private/bound_token.rs line 171). *)
Inductive cstep (d : deps) (base : N -> str) : config -> gevent -> config -> Prop :=
| cs_spawn cfg c : fits base c ->
    cstep d base cfg (GSpawn (length (tasks cfg)) c)
      {| tasks := tasks cfg ++ [{| t_call := c; t_status := Running (run_call d c) |}];
         owner := owner cfg; caches := caches cfg |}
| cs_now cfg i c k (t : systime) : at_ cfg i c (Running (Act ENow k)) ->
    cstep d base cfg (GDo i (VNow t)) (put cfg i c (Running (k t)))
| cs_send cfg i c r k : at_ cfg i c (Running (Act (EHttp r) k)) ->
    cstep d base cfg (GSend i r) (put cfg i c (InFlight r k))
| cs_receive cfg i c r k o : at_ cfg i c (InFlight r k) ->
    cstep d base cfg (GDo i (VHttp r o)) (put cfg i c (Running (k o)))
| cs_lock cfg i c id k : at_ cfg i c (Running (Act (ELock id) k)) -> owner cfg id = None ->
    cstep d base cfg (GDo i (VLock id)) (set_owner (put cfg i c (Running (k tt))) id (Some i))
| cs_unlock cfg i c id k : at_ cfg i c (Running (Act (EUnlock id) k)) ->
    cstep d base cfg (GDo i (VUnlock id)) (set_owner (put cfg i c (Running (k tt))) id None)
| cs_get cfg i c id k : at_ cfg i c (Running (Act (EGet id) k)) ->
    cstep d base cfg (GDo i (VGet id (caches cfg id))) (put cfg i c (Running (k (caches cfg id))))
| cs_set cfg i c id x k : at_ cfg i c (Running (Act (ESet id x) k)) ->
    cstep d base cfg (GDo i (VSet id x)) (set_cache (put cfg i c (Running (k tt))) id x)
| cs_return cfg i c a : at_ cfg i c (Running (Ret a)) ->
    cstep d base cfg (GEnd i (Returned a)) (put cfg i c (Ended (Returned a)))
| cs_panic cfg i c s : at_ cfg i c (Running (Panic s)) ->
    cstep d base cfg (GEnd i (Panicked s)) (release (put cfg i c (Ended (Panicked s))) i)
| cs_cancel cfg i c s : at_ cfg i c s -> (forall e, s <> Ended e) ->
    cstep d base cfg (GEnd i Cancelled) (release (put cfg i c (Ended Cancelled)) i).

(** Everything that happened since the start, and where it led
    (any use of src/html_form_data.rs lines 237-304 and src/signed_url.rs lines 55-132 by any number of tasks). *)
Inductive runs (d : deps) (base : N -> str) : list gevent -> config -> Prop :=
| runs_nil : runs d base [] initial
| runs_snoc tr cfg v cfg' : runs d base tr cfg -> cstep d base cfg v cfg' -> runs d base (tr ++ [v]) cfg'.
