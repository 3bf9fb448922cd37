(** SHA-256 (FIPS 180-4), the function behind [sha256::digest], and lower-case hex. *)
From Verif Require Import Base.
Local Open Scope N_scope.

(** Words of 32 bits; src/private/string_to_sign.rs line 16. *)
Definition w32 : N := 4294967296.
(** Addition of words; src/private/string_to_sign.rs line 16. *)
Definition add32 (a b : N) : N := (a + b) mod w32.
(** Rotation; src/private/string_to_sign.rs line 16. *)
Definition rotr (n x : N) : N := N.lor (N.shiftr x n) (N.shiftl x (32 - n) mod w32).
(** Complement; src/private/string_to_sign.rs line 16. *)
Definition not32 (x : N) : N := N.lxor x 4294967295.

(** FIPS 180-4, 4.1.2; src/private/string_to_sign.rs line 16. *)
Definition Ch (x y z : N) : N := N.lxor (N.land x y) (N.land (not32 x) z).
(** FIPS 180-4, 4.1.2; src/private/string_to_sign.rs line 16. *)
Definition Maj (x y z : N) : N := N.lxor (N.lxor (N.land x y) (N.land x z)) (N.land y z).
(** FIPS 180-4, 4.1.2; src/private/string_to_sign.rs line 16. *)
Definition bsig0 (x : N) : N := N.lxor (N.lxor (rotr 2 x) (rotr 13 x)) (rotr 22 x).
(** FIPS 180-4, 4.1.2; src/private/string_to_sign.rs line 16. *)
Definition bsig1 (x : N) : N := N.lxor (N.lxor (rotr 6 x) (rotr 11 x)) (rotr 25 x).
(** FIPS 180-4, 4.1.2; src/private/string_to_sign.rs line 16. *)
Definition ssig0 (x : N) : N := N.lxor (N.lxor (rotr 7 x) (rotr 18 x)) (N.shiftr x 3).
(** FIPS 180-4, 4.1.2; src/private/string_to_sign.rs line 16. *)
Definition ssig1 (x : N) : N := N.lxor (N.lxor (rotr 17 x) (rotr 19 x)) (N.shiftr x 10).

(** Round constants; src/private/string_to_sign.rs line 16. *)
Definition K256 : list N := [
  0x428a2f98;0x71374491;0xb5c0fbcf;0xe9b5dba5;0x3956c25b;0x59f111f1;0x923f82a4;0xab1c5ed5;
  0xd807aa98;0x12835b01;0x243185be;0x550c7dc3;0x72be5d74;0x80deb1fe;0x9bdc06a7;0xc19bf174;
  0xe49b69c1;0xefbe4786;0x0fc19dc6;0x240ca1cc;0x2de92c6f;0x4a7484aa;0x5cb0a9dc;0x76f988da;
  0x983e5152;0xa831c66d;0xb00327c8;0xbf597fc7;0xc6e00bf3;0xd5a79147;0x06ca6351;0x14292967;
  0x27b70a85;0x2e1b2138;0x4d2c6dfc;0x53380d13;0x650a7354;0x766a0abb;0x81c2c92e;0x92722c85;
  0xa2bfe8a1;0xa81a664b;0xc24b8b70;0xc76c51a3;0xd192e819;0xd6990624;0xf40e3585;0x106aa070;
  0x19a4c116;0x1e376c08;0x2748774c;0x34b0bcb5;0x391c0cb3;0x4ed8aa4a;0x5b9cca4f;0x682e6ff3;
  0x748f82ee;0x78a5636f;0x84c87814;0x8cc70208;0x90befffa;0xa4506ceb;0xbef9a3f7;0xc67178f2].

(** Initial hash value; src/private/string_to_sign.rs line 16. *)
Definition H256 : list N := [
  0x6a09e667;0xbb67ae85;0x3c6ef372;0xa54ff53a;0x510e527f;0x9b05688c;0x1f83d9ab;0x5be0cd19].

(** Big-endian bytes of an [n]-byte number (src/private/string_to_sign.rs line 16). *)
Fixpoint be_bytes (n : nat) (v : N) : str :=
  match n with
  | O => []
  | S k => nb (N.shiftr v (8 * N.of_nat k) mod 256) :: be_bytes k v
  end.

(** Padding; src/private/string_to_sign.rs line 16. *)
Definition sha_pad (m : str) : str :=
  let l := N.of_nat (length m) in
  let z := (119 - l mod 64) mod 64 in
  m ++ [x80]%byte ++ repeat x00%byte (N.to_nat z) ++ be_bytes 8 (8 * l mod two64).

(** A block as words; src/private/string_to_sign.rs line 16. *)
Fixpoint words (s : str) : list N :=
  match s with
  | a :: b :: c :: d :: r =>
      (bN a * 16777216 + bN b * 65536 + bN c * 256 + bN d) :: words r
  | _ => []
  end.

(** Message schedule, newest word first (src/private/string_to_sign.rs line 16). *)
Fixpoint extend (n : nat) (w : list N) : list N :=
  match n with
  | O => w
  | S k =>
      let t := add32 (add32 (ssig1 (nth 1 w 0)) (nth 6 w 0))
                     (add32 (ssig0 (nth 14 w 0)) (nth 15 w 0)) in
      extend k (t :: w)
  end.

(** One round; src/private/string_to_sign.rs line 16. *)
Definition round (st : list N) (kw : N * N) : list N :=
  match st with
  | [a; b; c; d; e; f; g; h] =>
      let t1 := add32 (add32 (add32 h (bsig1 e)) (add32 (Ch e f g) (fst kw))) (snd kw) in
      let t2 := add32 (bsig0 a) (Maj a b c) in
      [add32 t1 t2; a; b; c; add32 d t1; e; f; g]
  | _ => st
  end.

(** One block; src/private/string_to_sign.rs line 16. *)
Definition compress (st block : list N) : list N :=
  let w := rev (extend 48 (rev block)) in
  map (fun p => add32 (fst p) (snd p)) (combine st (fold_left round (combine K256 w) st)).

(** All blocks; src/private/string_to_sign.rs line 16. *)
Fixpoint blocks (fuel : nat) (st ws : list N) : list N :=
  match fuel with
  | O => st
  | S f =>
      match ws with
      | [] => st
      | _ => blocks f (compress st (firstn 16 ws)) (skipn 16 ws)
      end
  end.

(** [sha256::digest] before its hex encoding; src/private/string_to_sign.rs line 16. *)
Definition sha256 (m : str) : str :=
  let ws := words (sha_pad m) in
  flat_map (be_bytes 4) (blocks (length ws) H256 ws).

(** [hex_encode], src/private/signed_url.rs lines 121-127. *)
Definition hex_encode (s : str) : str := flat_map (fun b => [hexd (bN b / 16); hexd (bN b mod 16)]) s.

(** [sha256::digest]: hex SHA-256, src/private/string_to_sign.rs line 16. *)
Definition sha256_digest (m : str) : str := hex_encode (sha256 m).
