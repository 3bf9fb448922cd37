(** UTF-8: validity of Rust [str] and [String::from_utf8_lossy]. *)
From Verif Require Import Base.
Local Open Scope N_scope.

(** Continuation bytes, for [String::from_utf8_lossy] behind src/private/canonical_request.rs line 68. *)
Definition is_cont (b : byte) : bool := in_range 128 191 b.

(** The first character of a byte sequence, after core::str::lossy ([Utf8Chunks]), used through
    [form_urlencoded::parse] in src/private/canonical_request.rs lines 68-69.
    [(true, n)]: the first [n] bytes are one well-formed character; [(false, n)]: the first [n] bytes
    are a maximal ill-formed subpart. *)
Definition utf8_first (s : str) : bool * nat :=
  match s with
  | [] => (false, 1%nat)
  | b0 :: r =>
      if bN b0 <? 128 then (true, 1%nat)
      else if in_range 194 223 b0 then
        match r with
        | b1 :: _ => if is_cont b1 then (true, 2%nat) else (false, 1%nat)
        | [] => (false, 1%nat)
        end
      else if in_range 224 239 b0 then
        match r with
        | b1 :: r1 =>
            let ok1 :=
              if bN b0 =? 224 then in_range 160 191 b1
              else if bN b0 =? 237 then in_range 128 159 b1
              else is_cont b1 in
            if ok1 then
              match r1 with
              | b2 :: _ => if is_cont b2 then (true, 3%nat) else (false, 2%nat)
              | [] => (false, 2%nat)
              end
            else (false, 1%nat)
        | [] => (false, 1%nat)
        end
      else if in_range 240 244 b0 then
        match r with
        | b1 :: r1 =>
            let ok1 :=
              if bN b0 =? 240 then in_range 144 191 b1
              else if bN b0 =? 244 then in_range 128 143 b1
              else is_cont b1 in
            if ok1 then
              match r1 with
              | b2 :: r2 =>
                  if is_cont b2 then
                    match r2 with
                    | b3 :: _ => if is_cont b3 then (true, 4%nat) else (false, 3%nat)
                    | [] => (false, 3%nat)
                    end
                  else (false, 2%nat)
              | [] => (false, 2%nat)
              end
            else (false, 1%nat)
        | [] => (false, 1%nat)
        end
      else (false, 1%nat)
  end.

(** A byte sequence is the content of a Rust [str] (core::str::from_utf8 succeeds): the type invariant
    of every [String] and [&str] argument in the crate's API, e.g. src/signed_url.rs lines 42-51. *)
Fixpoint utf8_valid_fuel (fuel : nat) (s : str) : bool :=
  match s with
  | [] => true
  | _ =>
      match fuel with
      | O => false
      | S f => let '(ok, n) := utf8_first s in ok && utf8_valid_fuel f (skipn n s)
      end
  end.
(** [std::str::from_utf8]: what every [&str] argument of the crate satisfies, e.g. src/signed_url.rs lines 42-52. *)
Definition utf8_valid (s : str) : bool := utf8_valid_fuel (length s) s.

(** U+FFFD in UTF-8 (written by [from_utf8_lossy] behind src/private/canonical_request.rs line 68). *)
Definition replacement : str := [xef; xbf; xbd]%byte.

(** [String::from_utf8_lossy], applied by [form_urlencoded::parse] to every decoded name and value:
    src/private/canonical_request.rs line 68. *)
Fixpoint utf8_lossy_fuel (fuel : nat) (s : str) : str :=
  match s with
  | [] => []
  | _ =>
      match fuel with
      | O => []
      | S f =>
          let '(ok, n) := utf8_first s in
          (if ok then firstn n s else replacement) ++ utf8_lossy_fuel f (skipn n s)
      end
  end.
(** [String::from_utf8_lossy] behind src/private/canonical_request.rs line 68. *)
Definition utf8_lossy (s : str) : str := utf8_lossy_fuel (length s) s.

(** The UTF-8 encoding of a scalar value ([char::encode_utf8]); used when serde_json decodes a [\u]
    escape, e.g. in src/signing_key.rs line 81. *)
Definition utf8_encode (c : N) : str :=
  if c <? 128 then [nb c]
  else if c <? 2048 then [nb (192 + c / 64); nb (128 + c mod 64)]
  else if c <? 65536 then [nb (224 + c / 4096); nb (128 + c / 64 mod 64); nb (128 + c mod 64)]
  else [nb (240 + c / 262144); nb (128 + c / 4096 mod 64); nb (128 + c / 64 mod 64);
        nb (128 + c mod 64)].
