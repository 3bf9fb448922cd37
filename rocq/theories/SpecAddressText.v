(** Specification: how the text of a request address is read (https://url.spec.whatwg.org/#concept-basic-url-parser for the schemes http and
    https, written in small letters), as a relation independent of the functions in Target.v and Url.v. *)
From Verif Require Import Base SpecUrl SpecPath SpecRequestUrl.
Local Open Scope byte_scope.

Definition slash (c : byte) : Prop := c = "/" \/ c = "\".
Definition delimiter (c : byte) : Prop := slash c \/ c = "?" \/ c = "#".
Definition begins (P : byte -> Prop) (s : str) : Prop := exists c r, s = c :: r /\ P c.

(** A part that may be missing, with its special characters escaped. *)
Definition part (special : byte -> Prop) (s t : option str) : Prop :=
  match s, t with Some s, Some t => written special s t | None, None => True | _, _ => False end.

(** Scheme, colon, all slashes that follow, the authority up to the first delimiter, and the rest without its first slash, which is
    cut into path, query and fragment. *)
Definition address (caret : bool) (text scheme authority path : str) (query fragment : option str) : Prop :=
  exists u line slashes rest tail p q f,
    without_end text u /\ without_breaks u line /\ In scheme [B "http"; B "https"] /\
    line = scheme ++ ":" :: slashes ++ authority ++ rest /\
    Forall slash slashes /\ ~ begins slash (authority ++ rest) /\
    Forall (fun c => ~ delimiter c) authority /\ (rest = [] \/ begins delimiter rest) /\
    (begins slash rest /\ rest = firstn 1 rest ++ tail \/ ~ begins slash rest /\ tail = rest) /\
    cut tail p q f /\ request_path caret p path /\ part in_query q query /\ part in_fragment f fragment.

(** The authority of the metadata requests for the contents of the variable, tabs and line breaks removed: the name after all slashes up to
    the first delimiter or, if there are only slashes, the first part of the documented path. *)
Inductive named_host : str -> str -> Prop :=
| nh_slashes line : Forall slash line -> named_host line (B "computeMetadata")
| nh_name slashes name rest : Forall slash slashes -> name ++ rest <> [] -> ~ begins slash (name ++ rest) ->
    Forall (fun c => ~ delimiter c) name -> rest = [] \/ begins delimiter rest -> named_host (slashes ++ name ++ rest) name.
