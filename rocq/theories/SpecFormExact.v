(** Specification: what decides whether a form with an issued policy is accepted. *)
From Verif Require Import Base SpecServer SpecCodec SpecPolicy HtmlForm SpecForm SpecUpload.
Local Open Scope byte_scope.

(** Metadata that was set more than once under a name was set to the same value. *)
Definition consistent_meta (calls : list builder_call) : Prop :=
  forall n v w, In (n, v) (meta_pairs calls) -> In (n, w) (meta_pairs calls) -> v = w.

(** The file has the length that was issued, if one was. *)
Definition issued_length (fields : list (str * str)) (size : N) : Prop :=
  forall v n, In (B "Content-Length", v) fields -> decimal_of n v -> size = n.

(** The form is the issued one as far as the policy tells: the policy itself, one algorithm, credential and date, every
    issued field with its value, the length field or not, and no field that was not issued, except those that need no
    condition. *)
Record same_form (fields form : list (str * str)) (policy : str) : Prop := {
  sf_policy : given form (B "policy") policy;
  sf_once n : In n [B "x-goog-algorithm"; B "x-goog-credential"; B "x-goog-date"] -> exists v, given form n v;
  sf_issued n v : In (n, v) fields -> ~ In n [B "policy"; B "x-goog-signature"; B "Content-Length"] -> has_field form n v;
  sf_other n v : In (n, v) form -> exempt n \/ In (n, v) fields \/ n = B "Content-Length" /\ exists w, In (B "Content-Length", w) fields
}.
