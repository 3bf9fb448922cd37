(** The effects of the crate's async functions, and programs over them.

    An async function is a tree: it returns, panics, or performs one effect and continues with the
    response.  Await points are effects; code between two effects is atomic, which is harmless because
    it touches no shared state.  All shared state of the crate is the token cache of a bound-token key
    (src/private/bound_token.rs line 60) behind its [tokio::sync::Mutex]. *)
From Verif Require Import Base Time.

(** An HTTP request as handed to reqwest: src/private/bound_token.rs lines 99-104, 133-138, 193-209.
    [rq_url] is the text given to [Client::request]; reqwest's own normalisation is not modelled. *)
Record request := {
  rq_method : str;
  rq_url : str;
  rq_headers : list (str * str);
  rq_body : option str
}.

(** [Client::execute] followed by [Response::text]: src/private/bound_token.rs lines 105-124,
    139-158, 210-229.  The body is the decoded text; [None] is an error while reading it. *)
Inductive http_result : Type :=
| HttpFailed
| HttpResponse (status : N) (body : option str).

(** Content of the cache: email, access token, expiry; src/private/bound_token.rs line 60. *)
Definition cache := option (str * str * systime).

(** [ENow] is [SystemTime::now()]; [EHttp] one request/response; [ELock]/[EUnlock] the acquisition and
    the drop of the [MutexGuard] of the key with that identity (clones of a key share the [Arc], hence
    the identity); [EGet]/[ESet] reading and writing the guarded value.
    src/private/bound_token.rs lines 79, 80, 85, 105-109, 166, 167. *)
Inductive eff : Type :=
| ENow
| EHttp (r : request)
| ELock (id : N)
| EUnlock (id : N)
| EGet (id : N)
| ESet (id : N) (c : cache).

(** Type of the response to an effect (src/private/bound_token.rs lines 79, 80, 85, 105-109, 166, 167). *)
Definition resp (e : eff) : Type :=
  match e with
  | ENow => systime
  | EHttp _ => http_result
  | EGet _ => cache
  | ELock _ | EUnlock _ | ESet _ _ => unit
  end.

(** Where the crate can panic (each with its place in src/). *)
Inductive panic : Type :=
| PHmacSign                (* todo!(), src/private/signing_key_inner.rs line 61 *)
| PServiceAccountSignBlob  (* todo!(), src/private/signing_key_inner.rs line 64 *)
| PExpiresBeforeEpoch      (* expect, src/private/bound_token.rs line 84 *)
| PNowBeforeEpoch          (* expect, src/private/bound_token.rs line 87 *)
| PExpiresOverflow         (* SystemTime + Duration, src/private/bound_token.rs line 166 *)
| PFieldName               (* expect, src/html_form_data.rs lines 448-545 *)
| PHeaderMap               (* HeaderMap capacity, src/signed_url.rs lines 100-113 *)
| PUri.                    (* expect, src/private/signed_url.rs line 117 *)

(** The body of an async function, e.g. src/private/bound_token.rs lines 78-171: done, panicked, or an effect and the rest. *)
Inductive prog (A : Type) : Type :=
| Ret (a : A)
| Panic (p : panic)
| Act (e : eff) (k : resp e -> prog A).
Arguments Ret {A} a.
Arguments Panic {A} p.
Arguments Act {A} e k.

(** Sequencing ([.await] and plain sequencing) (e.g. src/html_form_data.rs lines 427-431). *)
Fixpoint bind {A C} (p : prog A) (f : A -> prog C) : prog C :=
  match p with
  | Ret a => f a
  | Panic s => Panic s
  | Act e k => Act e (fun r => bind (k r) f)
  end.

(** The [?] operator with [map_err] (e.g. src/private/signing_key_inner.rs lines 38-42). *)
Definition bind_ok {A C E F} (g : E -> F) (p : prog (res A E)) (f : A -> prog (res C F))
  : prog (res C F) :=
  bind p (fun r => match r with Ok a => f a | Err e => Ret (Err (g e)) end).

(** * Executions *)

(** What a call did, in order, with the responses it got
    (src/private/bound_token.rs lines 79, 80, 85, 105-109, 166, 167). *)
Inductive event : Type :=
| VNow (t : systime)
| VHttp (r : request) (o : http_result)
| VLock (id : N)
| VUnlock (id : N)
| VGet (id : N) (c : cache)
| VSet (id : N) (c : cache).

(** The event of an effect and its response; same lines of src/private/bound_token.rs. *)
Definition event_of (e : eff) : resp e -> event :=
  match e with
  | ENow => fun t => VNow t
  | EHttp r => fun o => VHttp r o
  | ELock id => fun _ => VLock id
  | EUnlock id => fun _ => VUnlock id
  | EGet id => fun c => VGet id c
  | ESet id c => fun _ => VSet id c
  end.

(** [steps p tr q]: started as [p], the call has performed [tr] and what remains is [q].  Responses are
    arbitrary, so this covers every clock, every server and every interference by other tasks
    (for the async functions of src/html_form_data.rs line 237, src/signed_url.rs line 55 and src/private/bound_token.rs lines 78, 173). *)
Inductive steps {A} : prog A -> list event -> prog A -> Prop :=
| steps_refl p : steps p [] p
| steps_act e k (r : resp e) tr q :
    steps (k r) tr q -> steps (Act e k) (event_of e r :: tr) q.

(** A complete call: it returned, or it panicked (src/signed_url.rs line 68). *)
Definition returns {A} (p : prog A) (tr : list event) (a : A) : Prop := steps p tr (Ret a).
(** A call that panicked, e.g. src/private/signing_key_inner.rs line 61. *)
Definition panics {A} (p : prog A) (tr : list event) (s : panic) : Prop := steps p tr (Panic s).

(** A request with its response, src/private/bound_token.rs lines 105-109, 139-143, 210-214. *)
Definition is_http (v : event) : bool := match v with VHttp _ _ => true | _ => false end.
