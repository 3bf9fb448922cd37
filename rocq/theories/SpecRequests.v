(** Specification: the requests of an execution, in order. *)
From Verif Require Import Base Time Effects SpecTrace.

Definition asked (tr : list event) : list request :=
  flat_map (fun v => match v with VHttp r _ => [r] | _ => [] end) tr.

(** What one lookup asks: nothing (a cache hit), or email and token. *)
Definition lookup_asks (base : str) (l : list request) : Prop :=
  l = [] \/ l = [metadata_request base (B "email"); metadata_request base (B "token")].

(** What remote signing asks after its lookup: one signBlob request. *)
Definition sign_asks (l : list request) : Prop :=
  exists email token message r, l = [r] /\ sign_blob_call email token message r.

Definition beginning {A} (l whole : list A) : Prop := exists rest, whole = l ++ rest.
