(** Specification: base64 (RFC 4648 section 4) as a relation on bits, lower-case hex, percent-decoding.
    Independent of the encoders in Base64.v, Sha256.v and FormUrl.v. *)
From Verif Require Import Base.

(** Bits of a number, most significant first. *)
Fixpoint bits (w : nat) (n : N) : list bool :=
  match w with
  | O => []
  | S k => N.testbit n (N.of_nat k) :: bits k n
  end.

Definition byte_bits (s : str) : list bool := flat_map (fun b => bits 8 (bN b)) s.

(** The standard alphabet, RFC 4648 table 1. *)
Definition b64_alphabet : str :=
  B "ABCDEFGHIJKLMNOPQRSTUVWXYZabcdefghijklmnopqrstuvwxyz0123456789+/".

(** [sextets chars bs]: each character stands for the six bits of its index in the alphabet. *)
Inductive sextets : str -> list bool -> Prop :=
| sx_nil : sextets [] []
| sx_cons c i chars bs :
    nth_error b64_alphabet i = Some c -> sextets chars bs ->
    sextets (c :: chars) (bits 6 (N.of_nat i) ++ bs).

(** [base64_of data text]: [text] is the padded base64 encoding of [data]: the bits of [data], filled
    with zero bits to a multiple of six, in sextets, filled with [=] to a multiple of four characters. *)
Definition base64_of (data text : str) : Prop :=
  exists chars fill pad,
    (fill < 6)%nat /\ (pad < 4)%nat /\
    sextets chars (byte_bits data ++ repeat false fill) /\
    text = chars ++ repeat "="%byte pad /\
    Nat.modulo (length text) 4 = 0%nat.

(** Lower-case hex digits. *)
Definition hex_alphabet : str := B "0123456789abcdef".

(** [hex_of data text]: two lower-case hex digits per byte, high half first. *)
Inductive hex_of : str -> str -> Prop :=
| hx_nil : hex_of [] []
| hx_cons b h l data text :
    nth_error hex_alphabet (N.to_nat (bN b / 16)) = Some h ->
    nth_error hex_alphabet (N.to_nat (bN b mod 16)) = Some l ->
    hex_of data text -> hex_of (b :: data) (h :: l :: text).
