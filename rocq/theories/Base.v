(** Bytes, strings and the small pieces of the Rust standard library the crate relies on.

    A Rust [String], [&str], [Vec<u8>] or [&[u8]] is a list of bytes.  A Rust string is moreover
    valid UTF-8; this is the predicate [utf8_valid] of Utf8.v and is assumed only where it matters. *)

From Coq Require Export Strings.Byte Strings.String.
From Coq Require Export List NArith ZArith Bool Lia.
Export ListNotations.

(** Bytes: the elements of every [&[u8]] and [String] of the crate, e.g. src/private/signed_url.rs line 121. *)
Notation byte := Coq.Init.Byte.byte.

(** [String], [&str], [Vec<u8>], [&[u8]], e.g. src/signed_url.rs lines 42-52. *)
Definition str := list byte.

(** Literals: [B "abc"] is the byte list of the ASCII literal
    (as in src/private/signed_url.rs lines 95-105). *)
Definition B (s : String.string) : str := String.list_byte_of_string s.
Arguments B s%string_scope.

(** [Result<A, E>] (Rust core) (e.g. src/signed_url.rs line 68). *)
Inductive res (A E : Type) : Type :=
| Ok (a : A)
| Err (e : E).
Arguments Ok {A E} a.
Arguments Err {A E} e.

(** [Result::is_ok], as in the [?] of src/signed_url.rs line 70. *)
Definition is_ok {A E} (r : res A E) : bool := match r with Ok _ => true | Err _ => false end.

(** [Result::map_err] (e.g. src/signed_url.rs line 70). *)
Definition map_err {A E F} (f : E -> F) (r : res A E) : res A F :=
  match r with Ok a => Ok a | Err e => Err (f e) end.

(** [Option::unwrap_or] (e.g. src/signed_url.rs lines 69, 71). *)
Definition unwrap_or {A} (o : option A) (d : A) : A := match o with Some a => a | None => d end.

(** * Bytes *)

(** [==] on [u8], e.g. the patterns of src/private/canonical_request.rs lines 80-97. *)
Definition beq (a b : byte) : bool := Byte.eqb a b.

(** A byte as a number, e.g. [{:02x}] of src/private/signed_url.rs line 124. *)
Definition bN (b : byte) : N := Byte.to_N b.

(** Inverse of [bN]; only ever applied to values below 256 (zero otherwise)
    (used to write the digits of src/private/signed_url.rs line 124). *)
Definition nb (n : N) : byte := match Byte.of_N n with Some b => b | None => x00 end.

(** [lo <= b <= hi], the Rust range pattern [lo..=hi] on bytes
    (as in http's and url's byte tables behind src/signed_url.rs lines 81, 97-108). *)
Definition in_range (lo hi : N) (b : byte) : bool := (N.leb lo (bN b) && N.leb (bN b) hi)%bool.

(** [is_ascii_digit], in the parsers behind src/private/utils/unix_timestamp.rs line 26 and src/private/date.rs line 26. *)
Definition is_digit (b : byte) : bool := in_range 48 57 b.
(** [is_ascii_uppercase], behind src/private/canonical_request.rs line 20. *)
Definition is_upper (b : byte) : bool := in_range 65 90 b.
(** [is_ascii_lowercase], in the encoders behind src/signed_url.rs line 89. *)
Definition is_lower (b : byte) : bool := in_range 97 122 b.
(** [is_ascii_alphabetic], in the encoders behind src/signed_url.rs lines 81-93. *)
Definition is_alpha (b : byte) : bool := is_upper b || is_lower b.

(** Rust [u8::to_ascii_lowercase]
    (src/private/canonical_request.rs lines 20, 30, src/private/signed_url.rs line 109). *)
Definition lower (b : byte) : byte := if is_upper b then nb (bN b + 32) else b.

(** * String equality and order (Rust [Eq] and [Ord] on [String]: byte-wise lexicographic) *)

(** [==] on strings, e.g. src/private/bound_token.rs line 161. *)
Fixpoint str_eqb (a b : str) : bool :=
  match a, b with
  | [], [] => true
  | x :: a', y :: b' => (beq x y && str_eqb a' b')%bool
  | _, _ => false
  end.

(** [<=] on strings, in src/private/canonical_request.rs line 71. *)
Fixpoint str_leb (a b : str) : bool :=
  match a, b with
  | [], _ => true
  | _ :: _, [] => false
  | x :: a', y :: b' =>
      if N.ltb (bN x) (bN y) then true
      else if N.ltb (bN y) (bN x) then false
      else str_leb a' b'
  end.

(** [<] on strings, in the [BTreeMap] of src/private/canonical_request.rs line 27. *)
Definition str_ltb (a b : str) : bool := negb (str_leb b a).

(** * Slices *)

(** [[S]::join(sep)]
    (src/private/canonical_request.rs lines 24, 40, 42, 56, 72, src/private/string_to_sign.rs line 24). *)
Fixpoint join (sep : str) (l : list str) : str :=
  match l with
  | [] => []
  | [x] => x
  | x :: rest => x ++ sep ++ join sep rest
  end.

(** [str::strip_prefix] (src/private/policy_document/condition.rs line 51, field.rs line 68). *)
Fixpoint strip_prefix (p s : str) : option str :=
  match p, s with
  | [], _ => Some s
  | _ :: _, [] => None
  | x :: p', y :: s' => if beq x y then strip_prefix p' s' else None
  end.

(** [splitn(2, sep)]: the part before the first [sep] and, if there is one, the part after it
    (in form_urlencoded, behind src/private/canonical_request.rs line 68). *)
Fixpoint split_once (sep : byte) (s : str) : str * option str :=
  match s with
  | [] => ([], None)
  | c :: s' =>
      if beq c sep then ([], Some s')
      else let '(a, r) := split_once sep s' in (c :: a, r)
  end.

(** [Vec<String>::sort]: a stable sort; on a total order of strings the result is unique, so
    insertion sort gives the same value (src/private/canonical_request.rs line 71). *)
Fixpoint insert_sorted (x : str) (l : list str) : list str :=
  match l with
  | [] => [x]
  | y :: l' => if str_leb x y then x :: l else y :: insert_sorted x l'
  end.

(** [sort], src/private/canonical_request.rs line 71. *)
Definition str_sort (l : list str) : list str := fold_right insert_sorted [] l.

(** [BTreeSet<String>] as its ascending list: insertion without duplicates
    (src/private/canonical_request.rs line 21, src/private/signed_url.rs line 110). *)
Fixpoint bset_insert (x : str) (l : list str) : list str :=
  match l with
  | [] => [x]
  | y :: l' =>
      if str_eqb x y then l
      else if str_leb x y then x :: l
      else y :: bset_insert x l'
  end.

(** [collect::<BTreeSet<String>>], src/private/canonical_request.rs line 21, src/private/signed_url.rs line 110. *)
Definition bset_of_list (l : list str) : list str := fold_left (fun s x => bset_insert x s) l [].

(** [BTreeMap<String, Vec<V>>] as its ascending association list;
    [entry(k).or_insert_with(Vec::new).push(v)] (src/private/canonical_request.rs lines 27-37). *)
Fixpoint bmap_push {V} (k : str) (v : V) (m : list (str * list V)) : list (str * list V) :=
  match m with
  | [] => [(k, [v])]
  | (k', vs) :: m' =>
      if str_eqb k k' then (k', vs ++ [v]) :: m'
      else if str_leb k k' then (k, [v]) :: m
      else (k', vs) :: bmap_push k v m'
  end.

(** * Numbers *)

(** A decimal digit, as written by [Display] in src/private/expiration.rs line 24. *)
Definition digit (n : N) : byte := nb (48 + n).

(** Decimal digits of [Display], src/private/expiration.rs line 24; the fuel bounds their number. *)
Fixpoint dec_fuel (fuel : nat) (n : N) : str :=
  match fuel with
  | O => [digit (n mod 10)]
  | S f => if N.ltb n 10 then [digit n] else dec_fuel f (n / 10) ++ [digit (n mod 10)]
  end.

(** [u64::to_string], [u16::to_string], [i64::to_string] on non-negative values: decimal, no padding
    (src/private/expiration.rs line 24, src/html_form_data.rs lines 258, 279). *)
Definition dec (n : N) : str := dec_fuel (N.to_nat (N.size n)) n.

(** Zero padding of [format!("{:0w$}")] and of chrono's numeric items
    (src/private/date.rs line 47, src/private/utils/unix_timestamp.rs lines 55, 61). *)
Definition pad0 (w : nat) (s : str) : str := repeat "0"%byte (w - length s) ++ s.

(** Decimal value of a digit string; [None] if some byte is not a digit or there is none
    (behind src/private/date.rs line 26 and src/private/utils/unix_timestamp.rs line 26). *)
Fixpoint undec_acc (acc : N) (s : str) : option N :=
  match s with
  | [] => Some acc
  | c :: s' => if is_digit c then undec_acc (10 * acc + (bN c - 48)) s' else None
  end.
(** The whole string, as above: src/private/date.rs line 26. *)
Definition undec (s : str) : option N := match s with [] => None | _ => undec_acc 0 s end.

(** Hex digits as written by [{:02x}] (lower case) and by percent-encoding (upper case)
    (src/private/signed_url.rs line 124). *)
Definition hexd (n : N) : byte := if N.ltb n 10 then nb (48 + n) else nb (87 + n).
(** Upper case, in form_urlencoded and url behind src/signed_url.rs lines 81-93. *)
Definition HEXD (n : N) : byte := if N.ltb n 10 then nb (48 + n) else nb (55 + n).

(** Value of a hex digit of either case ([char::to_digit(16)])
    (in form_urlencoded behind src/private/canonical_request.rs line 68 and serde_json behind src/signing_key.rs line 81). *)
Definition unhexd (b : byte) : option N :=
  if is_digit b then Some (bN b - 48)%N
  else if in_range 97 102 b then Some (bN b - 87)%N
  else if in_range 65 70 b then Some (bN b - 55)%N
  else None.

(** The bound of [u64], src/private/bound_token.rs line 9. *)
Definition two64 : N := 18446744073709551616%N.
(** The bound of [i64], src/signed_url.rs line 72 and of the seconds of a [SystemTime]. *)
Definition two63 : Z := 9223372036854775808%Z.
