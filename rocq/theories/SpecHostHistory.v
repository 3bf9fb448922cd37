(** Specification: concurrent histories that differ only in the hosts that metadata requests go to. *)
From Verif Require Import Base Effects Keys Calls Conc SpecToken SpecConc SpecSecret SpecHostFree.

(** The same call with the key at another address. *)
Definition relocated (host : N -> str) (c : call) : call :=
  match call_key c with
  | Some (KBoundToken bt) => with_key c (KBoundToken {| bt_id := bt_id bt; bt_base_url := B "http://" ++ host (bt_id bt) |})
  | _ => c
  end.

(** The same event of the same task: of the key with number [id], metadata requests go to [host' id] instead of [host id]. *)
Inductive gmoved (host host' : N -> str) (tr : list gevent) : gevent -> gevent -> Prop :=
| gm_spawn i c : gmoved host host' tr (GSpawn i c) (GSpawn i (relocated host' c))
| gm_send i r r' id : uses_key tr i id -> elsewhere (host id) (host' id) r r' -> gmoved host host' tr (GSend i r) (GSend i r')
| gm_answer i r r' o id : uses_key tr i id -> elsewhere (host id) (host' id) r r' -> gmoved host host' tr (GDo i (VHttp r o)) (GDo i (VHttp r' o))
| gm_do i v : is_http v = false -> gmoved host host' tr (GDo i v) (GDo i v)
| gm_end i e : gmoved host host' tr (GEnd i e) (GEnd i e).
