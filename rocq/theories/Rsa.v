(** Signing with a service account key: src/private/signing_key_inner.rs lines 66-82.
    [pem::parse] (pem 3.0.6), [RsaKeyPair::from_pkcs8] and [RsaKeyPair::sign] with [RSA_PKCS1_SHA256]
    (ring 0.17.14), from their published sources; the text of an error is not modelled, its stage is. *)
From Coq Require Import Znumtheory Zpow_facts.
From Verif Require Import Base Utf8 Base64 Sha256 Keys.
Local Open Scope Z_scope.

(** * pem *)

(** pem's [read_until]: the input after the first occurrence of the marker and the input before it.
    [found] bytes of the marker have just been seen, [seen] is everything read, last byte first.
    A mismatch forgets what was found and does not look at the byte again
    (src/private/signing_key_inner.rs line 66).  Simplified: pem stops when the rest of the input is
    shorter than the rest of the marker; here the input is then read to its end, with the same result. *)
Fixpoint read_until (marker : str) (found : nat) (seen input : str) : option (str * str) :=
  if Nat.eqb found (length marker) then Some (input, rev (skipn found seen))
  else match input with
       | [] => None
       | c :: r =>
           let found' := match nth_error marker found with
                         | Some m => if beq m c then S found else O
                         | None => O
                         end in
           read_until marker found' (c :: seen) r
       end.

(** pem's [skip_whitespace] (src/private/signing_key_inner.rs line 66). *)
Fixpoint skip_whitespace (s : str) : str :=
  match s with
  | c :: r => if beq c " " || beq c x09 || beq c x0a || beq c x0d then skip_whitespace r else s
  | [] => []
  end.

(** [str::trim_end] on the reversed text: drops characters with the Unicode property White_Space,
    whose UTF-8 bytes come last one first here (in pem, src/private/signing_key_inner.rs line 66). *)
Fixpoint trim_rev (s : str) : str :=
  match s with
  | [] => []
  | c :: r =>
      if beq c " " || ((9 <=? bN c)%N && (bN c <=? 13)%N) then trim_rev r
      else match r with
           | b :: r2 =>
               if beq b xc2 && (beq c x85 || beq c xa0) then trim_rev r2
               else match r2 with
                    | a :: r3 =>
                        if (beq a xe1 && beq b x9a && beq c x80)
                           || (beq a xe2 && beq b x80
                               && (((128 <=? bN c)%N && (bN c <=? 138)%N) || beq c xa8 || beq c xa9 || beq c xaf))
                           || (beq a xe2 && beq b x81 && beq c x9f)
                           || (beq a xe3 && beq b x80 && beq c x80)
                        then trim_rev r3 else s
                    | [] => s
                    end
           | [] => s
           end
  end.

(** [str::trim_end] (in pem, src/private/signing_key_inner.rs line 66). *)
Definition trim_end (s : str) : str := rev (trim_rev (rev s)).

(** The pieces between line feeds.  [str::lines] also drops an empty last piece and a carriage return
    before the line feed, which [trim_end] makes unobservable where it is used
    (in pem, src/private/signing_key_inner.rs line 66). *)
Fixpoint split_lf (s : str) : list str :=
  match s with
  | [] => [[]]
  | c :: r =>
      if beq c x0a then [] :: split_lf r
      else match split_lf r with
           | l :: ls => (c :: l) :: ls
           | [] => [[c]]
           end
  end.

(** The parts pem's [parser_inner] captures: begin label, headers, data, end label.  The headers end at an
    empty line, written with line feeds or else with carriage returns and line feeds
    (src/private/signing_key_inner.rs line 66). *)
Definition pem_captures (input : str) : option (str * str * str * str) :=
  match read_until (B "-----BEGIN ") 0 [] input with
  | None => None
  | Some (input, _) =>
  match read_until (B "-----") 0 [] input with
  | None => None
  | Some (input, begin) =>
  match read_until (B "-----END ") 0 [] (skip_whitespace input) with
  | None => None
  | Some (input, body) =>
  match read_until (B "-----") 0 [] input with
  | None => None
  | Some (_, end_) =>
      let '(headers, data) :=
        match read_until [x0a; x0a] 0 [] body with
        | Some (data, headers) => (headers, data)
        | None => match read_until [x0d; x0a; x0d; x0a] 0 [] body with
                  | Some (data, headers) => (headers, data)
                  | None => ([], body)
                  end
        end in
      Some (begin, headers, data, end_)
  end end end end.

(** Whether every line of the headers is a name, a colon and a value (pem's [HeaderMap::parse]); the lines
    are those of [str::lines], so nothing follows the last line feed
    (src/private/signing_key_inner.rs line 66). *)
Definition pem_headers_ok (headers : str) : bool :=
  let ls := split_lf headers in
  let ls := match rev ls with [] :: t => rev t | _ => ls end in
  forallb (fun l => existsb (beq ":") l) ls.

(** [pem::parse] and [Pem::contents], src/private/signing_key_inner.rs lines 66-68. *)
Definition pem_parse (input : str) : option str :=
  match pem_captures input with
  | None => None
  | Some (begin, headers, data, end_) =>
      if negb (utf8_valid begin && utf8_valid end_ && utf8_valid headers && utf8_valid data) then None
      else if str_eqb begin [] || str_eqb end_ [] then None
      else if negb (str_eqb begin end_) then None
      else if negb (pem_headers_ok headers) then None
      else b64_decode (flat_map trim_end (split_lf data))
  end.

(** * DER, as ring reads it *)

(** The first [n] bytes and the rest (untrusted's [read_bytes], src/private/signing_key_inner.rs line 69). *)
Definition take_bytes (n : nat) (s : str) : option (str * str) :=
  if Nat.leb n (length s) then Some (firstn n s, skipn n s) else None.

(** ring's [io::der::read_tag_and_get_value_limited] with two length bytes at most: tag, value and rest
    (src/private/signing_key_inner.rs line 69). *)
Definition der_read (s : str) : option (byte * str * str) :=
  match s with
  | tag :: l :: r =>
      if N.eqb (N.land (bN tag) 31) 31 then None
      else
        let value n r := match take_bytes (N.to_nat n) r with
                         | Some (v, rest) => Some (tag, v, rest)
                         | None => None
                         end in
        if N.ltb (bN l) 128 then value (bN l) r
        else if N.eqb (bN l) 129 then
          match r with
          | a :: r => if N.ltb (bN a) 128 then None else value (bN a) r
          | [] => None
          end
        else if N.eqb (bN l) 130 then
          match r with
          | a :: b :: r =>
              let n := (bN a * 256 + bN b)%N in
              if N.ltb n 256 then None else value n r
          | _ => None
          end
        else None
  | _ => None
  end.

(** ring's [io::der::expect_tag_and_get_value] (src/private/signing_key_inner.rs line 69). *)
Definition der_expect (tag : byte) (s : str) : option (str * str) :=
  match der_read s with
  | Some (t, v, rest) => if beq t tag then Some (v, rest) else None
  | None => None
  end.

(** The magnitude of an INTEGER that is not negative: ring's [io::der::nonnegative_integer]
    (src/private/signing_key_inner.rs line 69). *)
Definition der_nonnegative (s : str) : option (str * str) :=
  match der_expect x02 s with
  | None => None
  | Some (v, rest) =>
      match v with
      | [] => None
      | a :: [] => if N.ltb (bN a) 128 then Some (v, rest) else None
      | a :: b :: t =>
          if N.eqb (bN a) 0 then
            if N.leb 128 (bN b) then Some (b :: t, rest) else None
          else if N.ltb (bN a) 128 then Some (v, rest) else None
      end
  end.

(** ring's [io::der::small_nonnegative_integer]: an INTEGER of one byte
    (src/private/signing_key_inner.rs line 69). *)
Definition der_small (s : str) : option (byte * str) :=
  match der_nonnegative s with
  | Some ([a], rest) => Some (a, rest)
  | _ => None
  end.

(** The algorithm identifier ring compares with: rsaEncryption and NULL
    (src/private/signing_key_inner.rs line 69). *)
Definition rsa_encryption : str := [x06; x09; x2a; x86; x48; x86; xf7; x0d; x01; x01; x01; x05; x00].

(** ring's [pkcs8::unwrap_key] for version 1: the private key inside the PrivateKeyInfo
    (src/private/signing_key_inner.rs line 69). *)
Definition pkcs8_unwrap (der : str) : option str :=
  match der_expect x30 der with
  | Some (info, []) =>
      match der_small info with
      | None => None
      | Some (version, r) =>
          if negb (N.eqb (bN version) 0) then None
          else match der_expect x30 r with
          | None => None
          | Some (alg, r) =>
              if negb (str_eqb alg rsa_encryption) then None
              else match der_expect x04 r with
              | None => None
              | Some (key, r) =>
                  match r with
                  | [] => Some key
                  | _ => match der_expect xa0 r with
                         | Some (_, []) => Some key
                         | _ => None
                         end
                  end
              end
          end
      end
  | _ => None
  end.

(** The components of an RSAPrivateKey, big-endian: ring's [KeyPairComponents]
    (src/private/signing_key_inner.rs line 69). *)
Record components := {
  c_n : str; c_e : str; c_d : str; c_p : str; c_q : str; c_dp : str; c_dq : str; c_qinv : str
}.

(** ring's [RsaKeyPair::from_der_reader]: the nine INTEGERs of an RSAPrivateKey of version 0
    (src/private/signing_key_inner.rs line 69). *)
Definition rsa_private_key (der : str) : option components :=
  match der_expect x30 der with
  | Some (body, []) =>
      match der_small body with
      | None => None
      | Some (version, r) =>
          if negb (N.eqb (bN version) 0) then None else
          match der_nonnegative r with None => None | Some (n, r) =>
          match der_nonnegative r with None => None | Some (e, r) =>
          match der_nonnegative r with None => None | Some (d, r) =>
          match der_nonnegative r with None => None | Some (p, r) =>
          match der_nonnegative r with None => None | Some (q, r) =>
          match der_nonnegative r with None => None | Some (dp, r) =>
          match der_nonnegative r with None => None | Some (dq, r) =>
          match der_nonnegative r with None => None | Some (qinv, r) =>
            match r with
            | [] => Some {| c_n := n; c_e := e; c_d := d; c_p := p; c_q := q;
                            c_dp := dp; c_dq := dq; c_qinv := qinv |}
            | _ => None
            end
          end end end end end end end end
      end
  | _ => None
  end.

(** * The checks of ring's [RsaKeyPair::from_components] *)

(** Big-endian bytes as a number (src/private/signing_key_inner.rs line 69). *)
Definition be_value (s : str) : Z := fold_left (fun acc b => 256 * acc + Z.of_N (bN b)) s 0.

(** A number as [k] big-endian bytes, before [acc] (src/private/signing_key_inner.rs line 79). *)
Fixpoint be_bytes (k : nat) (v : Z) (acc : str) : str :=
  match k with
  | O => acc
  | S k => be_bytes k (Z.shiftr v 8) (nb (Z.to_N (v mod 256)) :: acc)
  end.

(** The length of a number in bits (src/private/signing_key_inner.rs line 69). *)
Definition bit_length (v : Z) : Z := if v <=? 0 then 0 else Z.log2 v + 1.

(** The sizes ring accepts: bits of the modulus, and the number of bits of a prime is a multiple of the
    granularity (src/private/signing_key_inner.rs line 69).  A parameter of the model so that it can be
    exercised on small keys; the code's are [ring_limits]. *)
Record limits := { l_min : Z; l_max : Z; l_granularity : Z }.

(** ring's limits for signing keys (src/private/signing_key_inner.rs line 69). *)
Definition ring_limits : limits := {| l_min := 2048; l_max := 4096; l_granularity := 512 |}.

(** What ring's [RsaKeyPair] keeps for signing: the public key, the primes, larger one first, their
    exponents and the coefficient (src/private/signing_key_inner.rs line 69). *)
Record key_pair := {
  k_n : Z; k_e : Z; k_p : Z; k_q : Z; k_dp : Z; k_dq : Z; k_qinv : Z
}.

(** ring's [PublicKey::from_modulus_and_exponent] with the exponent bound of signing keys
    (src/private/signing_key_inner.rs line 69). *)
Definition public_ok (l : limits) (n e : Z) : bool :=
  Z.odd n && (l_min l <=? (bit_length n + 7) / 8 * 8) && (bit_length n <=? l_max l)
  && Z.odd e && (65537 <=? e) && (e <=? 8589934591).

(** ring's [PrivatePrime::new] and [PrivateCrtPrime::new] (src/private/signing_key_inner.rs line 69). *)
Definition prime_ok (l : limits) (n_bits p dp : Z) : bool :=
  Z.odd p && (3 <=? p) && (bit_length p =? (n_bits + 1) / 2) && (bit_length p mod l_granularity l =? 0)
  && Z.odd dp && (dp <? p).

(** ring's [RsaKeyPair::from_components]: the primes are swapped if the first is not the larger, the
    coefficient is then computed with Fermat's little theorem
    (src/private/signing_key_inner.rs line 69).  Which check fails is not modelled, nor is their order. *)
Definition from_components (l : limits) (c : components) : option key_pair :=
  let n := be_value (c_n c) in
  let e := be_value (c_e c) in
  let d := be_value (c_d c) in
  let bits := bit_length n in
  let '(p, q, dp, dq, given) :=
    if be_value (c_q c) <? be_value (c_p c)
    then (be_value (c_p c), be_value (c_q c), be_value (c_dp c), be_value (c_dq c), Some (be_value (c_qinv c)))
    else (be_value (c_q c), be_value (c_p c), be_value (c_dq c), be_value (c_dp c), None) in
  if negb (public_ok l n e) then None
  else if negb (prime_ok l bits p dp && prime_ok l bits q dq) then None
  else if negb ((p * q) mod n =? 0) then None
  else if negb (((bits + 1) / 2 <? bit_length d) && (d <? n) && Z.odd d) then None
  else
    let qinv := match given with Some v => v | None => Zpow_mod q (p - 2) p end in
    if negb ((qinv <? p) && ((qinv * q) mod p =? 1)) then None
    else Some {| k_n := n; k_e := e; k_p := p; k_q := q; k_dp := dp; k_dq := dq; k_qinv := qinv |}.

(** [RsaKeyPair::from_pkcs8], src/private/signing_key_inner.rs lines 69-70. *)
Definition from_pkcs8 (l : limits) (der : str) : option key_pair :=
  match pkcs8_unwrap der with
  | None => None
  | Some key => match rsa_private_key key with
                | None => None
                | Some c => from_components l c
                end
  end.

(** * Signing *)

(** [modulus_len], src/private/signing_key_inner.rs line 71. *)
Definition modulus_len (k : key_pair) : nat := Z.to_nat ((bit_length (k_n k) + 7) / 8).

(** The DER prefix of a SHA-256 DigestInfo in ring (src/private/signing_key_inner.rs line 74). *)
Definition sha256_prefix : str :=
  [x30; x31; x30; x0d; x06; x09; x60; x86; x48; x01; x65; x03; x04; x02; x01; x05; x00; x04; x20].

(** ring's [pkcs1_encode] (src/private/signing_key_inner.rs line 74). *)
Definition pkcs1_encode (len : nat) (message : str) : str :=
  let info := sha256_prefix ++ sha256 message in
  x00 :: x01 :: repeat xff (len - 3 - length info) ++ x00 :: info.

(** ring's [RsaKeyPair::private_exponentiate]: the Chinese remainder theorem, and a check of the result
    with the public key (src/private/signing_key_inner.rs lines 72-79). *)
Definition private_exponentiate (k : key_pair) (c : Z) : option Z :=
  let m1 := Zpow_mod c (k_dp k) (k_p k) in
  let m2 := Zpow_mod c (k_dq k) (k_q k) in
  let h := ((m1 - m2) * k_qinv k) mod k_p k in
  let m := (m2 + k_q k * h) mod k_n k in
  if Zpow_mod m (k_e k) (k_n k) =? c then Some m else None.

(** [RsaKeyPair::sign], src/private/signing_key_inner.rs lines 72-79.  [RSA_PKCS1_SHA256] uses no
    randomness. *)
Definition key_pair_sign (k : key_pair) (message : str) : option str :=
  match private_exponentiate k (be_value (pkcs1_encode (modulus_len k) message)) with
  | Some m => Some (be_bytes (modulus_len k) m [])
  | None => None
  end.

(** Signing with the private key text of a service account, src/private/signing_key_inner.rs lines 66-82. *)
Definition rsa_sign_with (l : limits) (private_key message : str) : res str rsa_error :=
  match pem_parse private_key with
  | None => Err PemParsing
  | Some der =>
      match from_pkcs8 l der with
      | None => Err Pkcs8Parsing
      | Some k => match key_pair_sign k message with
                  | Some s => Ok s
                  | None => Err RsaSigning
                  end
      end
  end.

(** Signing with the private key text of a service account, src/private/signing_key_inner.rs lines 66-82. *)
Definition rsa_sign : str -> str -> res str rsa_error := rsa_sign_with ring_limits.
