(** Specification: SHA-256, FIPS 180-4 sections 3 to 6, on bit strings and with the constants defined by roots of
    primes.  Independent of the functions in Sha256.v. *)
From Verif Require Import Base SpecCodec.
Local Open Scope N_scope.

(** * Words of 32 bits (FIPS 180-4, 3.2 and 4.1.2) *)

(** Addition modulo [2 ^ 32]. *)
Definition total (l : list N) : N := fold_right N.add 0 l mod 2 ^ 32.
(** Circular right shift. *)
Definition rotate (n x : N) : N := x / 2 ^ n + (x mod 2 ^ n) * 2 ^ (32 - n).
Definition shift (n x : N) : N := x / 2 ^ n.
Definition xor3 (a b c : N) : N := N.lxor a (N.lxor b c).
(** Bits of [f] where [e] has a one, of [g] where it has a zero. *)
Definition choice (e f g : N) : N := N.lor (N.land e f) (N.ldiff g e).
(** Bits that at least two have. *)
Definition majority (a b c : N) : N := N.lor (N.land a b) (N.land c (N.lor a b)).
Definition Sigma0 (x : N) : N := xor3 (rotate 2 x) (rotate 13 x) (rotate 22 x).
Definition Sigma1 (x : N) : N := xor3 (rotate 6 x) (rotate 11 x) (rotate 25 x).
Definition sigma0 (x : N) : N := xor3 (rotate 7 x) (rotate 18 x) (shift 3 x).
Definition sigma1 (x : N) : N := xor3 (rotate 17 x) (rotate 19 x) (shift 10 x).

(** * Constants (4.2.2 and 5.3.3) *)

Definition first_primes : list N := [
  2; 3; 5; 7; 11; 13; 17; 19; 23; 29; 31; 37; 41; 43; 47; 53; 59; 61; 67; 71; 73; 79; 83; 89; 97; 101; 103; 107; 109; 113; 127; 131;
  137; 139; 149; 151; 157; 163; 167; 173; 179; 181; 191; 193; 197; 199; 211; 223; 227; 229; 233; 239; 241; 251; 257; 263; 269; 271;
  277; 281; 283; 293; 307; 311].
(** The first 32 bits of the fractional part of the cube root, and of the square root. *)
Definition cube_root_bits (p k : N) : Prop := exists n, n ^ 3 <= p * 2 ^ 96 < (n + 1) ^ 3 /\ k = n mod 2 ^ 32.
Definition square_root_bits (p k : N) : Prop := exists n, n ^ 2 <= p * 2 ^ 64 < (n + 1) ^ 2 /\ k = n mod 2 ^ 32.
Definition round_constant (t : nat) (k : N) : Prop := exists p, nth_error first_primes t = Some p /\ cube_root_bits p k.

(** The eight working variables. *)
Record vars := mkvars { va : N; vb : N; vc : N; vd : N; ve : N; vf : N; vg : N; vh : N }.
Definition variables (s : vars) : list N := [va s; vb s; vc s; vd s; ve s; vf s; vg s; vh s].
Definition initial (s : vars) : Prop := Forall2 square_root_bits (firstn 8 first_primes) (variables s).

(** * One block (6.2.2) *)

(** The message schedule. *)
Definition schedule (block : list N) (W : nat -> N) : Prop :=
  (forall t, (t < 16)%nat -> nth_error block t = Some (W t)) /\
  (forall t, (16 <= t < 64)%nat -> W t = total [sigma1 (W (t - 2)%nat); W (t - 7)%nat; sigma0 (W (t - 15)%nat); W (t - 16)%nat]).

(** One round. *)
Definition one_round (k w : N) (s s' : vars) : Prop :=
  exists T1 T2,
    T1 = total [vh s; Sigma1 (ve s); choice (ve s) (vf s) (vg s); k; w] /\
    T2 = total [Sigma0 (va s); majority (va s) (vb s) (vc s)] /\
    s' = mkvars (total [T1; T2]) (va s) (vb s) (vc s) (total [vd s; T1]) (ve s) (vf s) (vg s).

(** Sixty-four rounds, and the sum with the previous hash value. *)
Definition block_hash (block : list N) (h h' : vars) : Prop :=
  exists W S, schedule block W /\ S 0%nat = h /\
    (forall t, (t < 64)%nat -> exists k, round_constant t k /\ one_round k (W t) (S t) (S (t + 1)%nat)) /\
    Forall2 (fun p v => total [fst p; snd p] = v) (combine (variables (S 64%nat)) (variables h)) (variables h').

Inductive blocks_hash : list (list N) -> vars -> vars -> Prop :=
| bh_nil h : blocks_hash [] h h
| bh_cons b l h h1 h2 : block_hash b h h1 -> blocks_hash l h1 h2 -> blocks_hash (b :: l) h h2.

(** * Padding and parsing (5.1.1 and 5.2.1) *)

(** The message, a one, the fewest zeros that make it fit, and the length in 64 bits: blocks of sixteen words. *)
Definition padded (message : str) (blocks : list (list N)) : Prop :=
  exists zeros, (zeros < 512)%nat /\
    Forall (fun b => length b = 16%nat /\ Forall (fun w => w < 2 ^ 32) b) blocks /\
    byte_bits message ++ true :: repeat false zeros ++ bits 64 (8 * N.of_nat (length message)) = flat_map (bits 32) (concat blocks).

(** The digest of a message. *)
Definition digest_of (message digest : str) : Prop :=
  exists blocks h h', padded message blocks /\ initial h /\ blocks_hash blocks h h' /\
    byte_bits digest = flat_map (bits 32) (variables h').
