(** Specification: texts that the library and a server write alike in a canonical request. *)
From Verif Require Import Base SpecUrl SpecServer.
Local Open Scope byte_scope.

(** Percent signs start escapes, in capitals, of characters that the server escapes; the bar is written as it is, the caret as the
    URL library does.  Other characters do not matter. *)
Inductive agrees (kept : byte -> bool) (caret : bool) : str -> Prop :=
| ag_nil : agrees kept caret []
| ag_escape b h l s : kept b = false -> nth_error upper_hex (N.to_nat (bN b / 16)) = Some h -> nth_error upper_hex (N.to_nat (bN b mod 16)) = Some l ->
    agrees kept caret s -> agrees kept caret ("%" :: h :: l :: s)
| ag_other c s : c <> "%" -> (c = "|" -> kept c = true) -> (c = "^" -> kept c = negb caret) -> agrees kept caret s -> agrees kept caret (c :: s).
