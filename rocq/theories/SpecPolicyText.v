(** Specification: the texts read as policy documents.  Stated over the JSON grammar, the calendar and
    the table of field names, not over the reader of Policy.v. *)
From Verif Require Import Base JsonTree Json SpecJson JsonFacts SpecToken SpecPolicy SpecCalendar SpecTimeText.
Local Open Scope Z_scope.

(** A field an eq or starts-with condition may name. *)
Definition matchable (name : str) : Prop := field_name name /\ name <> B "Content-Length".

(** A condition: an object with one member, or an array of three elements.  The first element is written
    without escapes. *)
Inductive condition_read : raw -> cond -> Prop :=
| cr_member k v name value : jstring name k -> text_of v value -> matchable name ->
    condition_read (RObj [(k, v)]) (CEq name value)
| cr_eq a b name value : text_of a (B "$" ++ name) -> text_of b value -> matchable name ->
    condition_read (RArr [RStr (B "eq"); a; b]) (CEq name value)
| cr_prefix a b name value : text_of a (B "$" ++ name) -> text_of b value -> matchable name ->
    condition_read (RArr [RStr (B "starts-with"); a; b]) (CPrefix name value)
| cr_range a b x y : number_of a x -> number_of b y ->
    condition_read (RArr [RStr (B "content-length-range"); a; b]) (CRange x y).

(** A policy document with these conditions that expires at second [t] of the years 0 to 9999. *)
Definition policy_read (s : str) (cs : list cond) (t : Z) : Prop :=
  exists r l e text,
    raw_text r s /\ struct_of [B "conditions"; B "expiration"] r [RArr l; e] /\
    Forall2 condition_read l cs /\
    text_of e text /\ rfc3339_read text t /\ -62167219200 <= t <= 253402300799.
