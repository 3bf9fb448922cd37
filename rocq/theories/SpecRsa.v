(** Specification: RSA keys, their DER and PEM texts and signatures, after RFC 8017 (PKCS #1), RFC 5208 (PKCS #8),
    X.690 (DER) and RFC 7468 (PEM).  Nothing here refers to the functions of Rsa.v. *)
From Coq Require Import Znumtheory.
From Verif Require Import Base SpecCodec SpecSha.
Local Open Scope Z_scope.

(** * Numbers and octets *)

(** The number written by octets, most significant first (RFC 8017 section 4.2). *)
Fixpoint octets (s : str) : Z :=
  match s with
  | [] => 0
  | b :: r => Z.of_N (bN b) * 256 ^ Z.of_nat (length r) + octets r
  end.

(** * DER (X.690) *)

(** Sections 8.1.3 and 10.1: the length octets of a content of [n] octets, for contents below 65536 octets. *)
Inductive der_length : nat -> str -> Prop :=
| dl_short n a : (n < 128)%nat -> Z.of_nat n = octets [a] -> der_length n [a]
| dl_one n a : (128 <= n < 256)%nat -> Z.of_nat n = octets [a] -> der_length n [x81; a]
| dl_two n a b : (256 <= n)%nat -> Z.of_nat n = octets [a; b] -> der_length n [x82; a; b].

(** A value with its tag. *)
Definition der (tag : byte) (content text : str) : Prop :=
  exists len, der_length (length content) len /\ text = tag :: len ++ content.

(** Section 8.3: an INTEGER that is not negative: two's complement in as few octets as possible. *)
Definition der_integer (v : Z) (text : str) : Prop :=
  exists a r, der x02 (a :: r) text /\ octets (a :: r) = v /\ (bN a < 128)%N /\
    (a = x00 -> r = [] \/ exists b r', r = b :: r' /\ (128 <= bN b)%N).

(** * Keys *)

(** RFC 8017 section A.1.2, for two primes. *)
Record rsa_key := {
  r_n : Z; r_e : Z; r_d : Z; r_p : Z; r_q : Z; r_dp : Z; r_dq : Z; r_qinv : Z
}.

(** RSAPrivateKey: a SEQUENCE of version and components. *)
Definition pkcs1_text (k : rsa_key) (text : str) : Prop :=
  exists t0 t1 t2 t3 t4 t5 t6 t7 t8,
    der_integer 0 t0 /\ der_integer (r_n k) t1 /\ der_integer (r_e k) t2 /\ der_integer (r_d k) t3 /\
    der_integer (r_p k) t4 /\ der_integer (r_q k) t5 /\ der_integer (r_dp k) t6 /\ der_integer (r_dq k) t7 /\
    der_integer (r_qinv k) t8 /\ der x30 (t0 ++ t1 ++ t2 ++ t3 ++ t4 ++ t5 ++ t6 ++ t7 ++ t8) text.

(** The object identifier 1.2.840.113549.1.1.1 (rsaEncryption). *)
Definition rsa_oid : str := [x2a; x86; x48; x86; xf7; x0d; x01; x01; x01].

(** PrivateKeyInfo (RFC 5208 section 5): version, algorithm with NULL parameters, the key in an OCTET STRING, and optionally
    attributes. *)
Definition pkcs8_text (k : rsa_key) (text : str) : Prop :=
  exists version oid null algorithm key private_key attributes,
    der_integer 0 version /\ der x06 rsa_oid oid /\ der x05 [] null /\ der x30 (oid ++ null) algorithm /\
    pkcs1_text k key /\ der x04 key private_key /\ (attributes = [] \/ exists c, der xa0 c attributes) /\
    der x30 (version ++ algorithm ++ private_key ++ attributes) text.

(** A key (RFC 8017 section 3): two primes, their product, and exponents that undo each other. *)
Record rsa_sound (k : rsa_key) : Prop := {
  rs_p : prime (r_p k);
  rs_q : prime (r_q k);
  rs_distinct : r_p k <> r_q k;
  rs_n : r_n k = r_p k * r_q k;
  rs_d : 0 < r_d k < r_n k /\ (r_p k - 1 | r_e k * r_d k - 1) /\ (r_q k - 1 | r_e k * r_d k - 1);
  rs_dp : 0 < r_dp k < r_p k /\ (r_p k - 1 | r_e k * r_dp k - 1);
  rs_dq : 0 < r_dq k < r_q k /\ (r_q k - 1 | r_e k * r_dq k - 1);
  rs_qinv : 0 < r_qinv k < r_p k /\ (r_p k | r_q k * r_qinv k - 1)
}.

(** The size of a key: primes of [half] bits each, where [half] is a multiple of [step], a modulus of [least] to [most] bits
    (counted in whole octets for the lower bound), a public exponent of 17 to 33 bits from 65537 on, a private exponent of more
    than [half] bits. *)
Definition sized (least most step : Z) (k : rsa_key) : Prop :=
  exists half bits,
    (step | half) /\ 2 ^ (half - 1) <= r_p k < 2 ^ half /\ 2 ^ (half - 1) <= r_q k < 2 ^ half /\
    (bits = 2 * half \/ bits = 2 * half - 1) /\ 2 ^ (bits - 1) <= r_n k < 2 ^ bits /\
    (exists octets, 8 * (octets - 1) < bits <= 8 * octets /\ least <= 8 * octets) /\ bits <= most /\
    65537 <= r_e k < 2 ^ 33 /\ 2 ^ half <= r_d k.

(** * Signatures (RFC 8017 sections 8.2.2 and 9.2) *)

(** The DER of the DigestInfo of a SHA-256 digest: algorithm 2.16.840.1.101.3.4.2.1 with NULL parameters, and the digest. *)
Definition digest_info (digest text : str) : Prop :=
  exists oid null algorithm value,
    der x06 [x60; x86; x48; x01; x65; x03; x04; x02; x01] oid /\ der x05 [] null /\ der x30 (oid ++ null) algorithm /\
    der x04 digest value /\ der x30 (algorithm ++ value) text.

(** EMSA-PKCS1-v1_5: the encoded message of [len] octets. *)
Definition encoded_message (len : nat) (message em : str) : Prop :=
  exists digest info fill,
    digest_of message digest /\ digest_info digest info /\ (8 <= fill)%nat /\
    em = [x00; x01] ++ repeat xff fill ++ [x00] ++ info /\ length em = len.

(** [s] is the signature of [message] under the public key [(n, e)]. *)
Definition rsa_valid (n e : Z) (message s : str) : Prop :=
  exists len em,
    256 ^ (Z.of_nat len - 1) <= n < 256 ^ Z.of_nat len /\ length s = len /\ octets s < n /\
    encoded_message len message em /\ octets s ^ e mod n = octets em.

(** * PEM *)

(** A character of the property White_Space, in UTF-8. *)
Definition white_characters : list str :=
  [[x09]; [x0a]; [x0b]; [x0c]; [x0d]; [x20]; [xc2; x85]; [xc2; xa0]; [xe1; x9a; x80];
   [xe2; x80; x80]; [xe2; x80; x81]; [xe2; x80; x82]; [xe2; x80; x83]; [xe2; x80; x84]; [xe2; x80; x85]; [xe2; x80; x86];
   [xe2; x80; x87]; [xe2; x80; x88]; [xe2; x80; x89]; [xe2; x80; x8a]; [xe2; x80; xa8]; [xe2; x80; xa9]; [xe2; x80; xaf];
   [xe2; x81; x9f]; [xe3; x80; x80]].

Definition white (s : str) : Prop := exists cs, Forall (fun c => In c white_characters) cs /\ s = concat cs.

(** Lines, each with its end. *)
Definition line_end (s : str) : Prop := exists blanks, s = blanks ++ [x0a] /\ Forall (fun c => In c [x20; x09; x0d]) blanks.

(** A PEM text as tools write it (RFC 7468 section 3): maybe text without hyphen before it, the label, the base64 text of
    [content] in lines of any lengths, the label; then anything. *)
Definition pem_text (content text : str) : Prop :=
  exists before label first lines after,
    ~ In "-"%byte before /\ label <> [] /\ Forall (fun c => (32 <= bN c < 127)%N /\ c <> "-"%byte) label /\
    line_end first /\ lines <> [] /\ Forall (fun l => fst l <> [] /\ line_end (snd l)) lines /\
    base64_of content (concat (map fst lines)) /\
    text = before ++ B "-----BEGIN " ++ label ++ B "-----" ++ first ++ concat (map (fun l => fst l ++ snd l) lines)
           ++ B "-----END " ++ label ++ B "-----" ++ after.

(** What any text read as PEM contains: a label on both sides and, after maybe some headers, the base64 text of [content] with
    nothing but white space and line ends in between. *)
Definition pem_contains (content text : str) : Prop :=
  exists before label headers pieces after base64,
    label <> [] /\ base64_of content base64 /\ concat (map fst pieces) = base64 /\ Forall (fun l => white (snd l)) pieces /\
    text = before ++ B "-----BEGIN " ++ label ++ B "-----" ++ headers ++ concat (map (fun l => fst l ++ snd l) pieces)
           ++ B "-----END " ++ label ++ B "-----" ++ after.
