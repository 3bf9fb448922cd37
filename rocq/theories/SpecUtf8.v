(** Specification: UTF-8 texts.  The bytes of every scalar value, by the number of bytes it needs. *)
From Verif Require Import Base.
Local Open Scope N_scope.

Definition scalar_value (n : N) : Prop := n < 1114112 /\ ~ (55296 <= n <= 57343).

Inductive char_bytes : N -> str -> Prop :=
| cb_1 a : a < 128 -> char_bytes a [nb a]
| cb_2 a b : a < 32 -> b < 64 -> 128 <= 64 * a + b -> char_bytes (64 * a + b) [nb (192 + a); nb (128 + b)]
| cb_3 a b c : a < 16 -> b < 64 -> c < 64 -> 2048 <= 64 * (64 * a + b) + c ->
    scalar_value (64 * (64 * a + b) + c) ->
    char_bytes (64 * (64 * a + b) + c) [nb (224 + a); nb (128 + b); nb (128 + c)]
| cb_4 a b c e : a < 8 -> b < 64 -> c < 64 -> e < 64 -> 65536 <= 64 * (64 * (64 * a + b) + c) + e ->
    scalar_value (64 * (64 * (64 * a + b) + c) + e) ->
    char_bytes (64 * (64 * (64 * a + b) + c) + e) [nb (240 + a); nb (128 + b); nb (128 + c); nb (128 + e)].

(** [s] is the text of the characters [l]. *)
Inductive text_of_chars : list N -> str -> Prop :=
| tc_nil : text_of_chars [] []
| tc_cons n w l s : char_bytes n w -> text_of_chars l s -> text_of_chars (n :: l) (w ++ s).
