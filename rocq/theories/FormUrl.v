(** percent-encoding 2.3.2 and form_urlencoded 1.2.2, the parts the crate uses. *)
From Verif Require Import Base Utf8.
Local Open Scope byte_scope.

(** [%XX] with upper-case digits (percent_encoding::percent_encode_byte), reached from
    src/signed_url.rs lines 89-93 and src/private/signed_url.rs lines 94-116. *)
Definition pct (b : byte) : str := ["%"; HEXD (bN b / 16); HEXD (bN b mod 16)].

(** [percent_encoding::percent_encode(bytes, set)], used by [Url::parse]: src/signed_url.rs line 81,
    src/private/signed_url.rs line 93. *)
Definition pct_encode (set : byte -> bool) (s : str) : str :=
  flat_map (fun b => if set b then pct b else [b]) s.

(** [percent_encoding::percent_decode]: [%HH] is decoded, anything else is literal.
    Used by [form_urlencoded::parse]: src/private/canonical_request.rs line 68. *)
Fixpoint pct_decode (s : str) : str :=
  match s with
  | [] => []
  | c :: t =>
      if beq c "%" then
        match t with
        | h :: l :: r =>
            match unhexd h, unhexd l with
            | Some a, Some b => nb (16 * a + b) :: pct_decode r
            | _, _ => c :: pct_decode t
            end
        | _ => c :: pct_decode t
        end
      else c :: pct_decode t
  end.

(** form_urlencoded [byte_serialized_unchanged]
    (behind src/signed_url.rs line 89 and src/private/signed_url.rs lines 94-115). *)
Definition form_unchanged (b : byte) : bool :=
  is_digit b || is_alpha b || beq b "*" || beq b "-" || beq b "." || beq b "_".

(** [form_urlencoded::byte_serialize]: reached from [append_pair] / [extend_pairs],
    src/signed_url.rs lines 89-93, src/private/signed_url.rs lines 94-116. *)
Definition form_serialize (s : str) : str :=
  flat_map (fun b => if form_unchanged b then [b] else if beq b " " then ["+"] else pct b) s.

(** [form_urlencoded::Serializer::append_pair] on a query string ([for_suffix]): the separator is
    written only if something is already there. Used at src/signed_url.rs lines 89-93 and
    src/private/signed_url.rs lines 94-116. *)
Definition append_pair (q : str) (kv : str * str) : str :=
  q ++ (if q then [] else ["&"]) ++ form_serialize (fst kv) ++ ["="] ++ form_serialize (snd kv).

(** [str::split(sep)] (in form_urlencoded::parse behind src/private/canonical_request.rs line 68). *)
Fixpoint split_on (sep : byte) (s : str) : list str :=
  match s with
  | [] => [[]]
  | c :: r =>
      if beq c sep then [] :: split_on sep r
      else match split_on sep r with
           | [] => [[c]]
           | x :: l => (c :: x) :: l
           end
  end.

(** ['+'] to space (form_urlencoded::replace_plus) (behind src/private/canonical_request.rs line 68). *)
Definition replace_plus (s : str) : str := map (fun b => if beq b "+" then " " else b) s.

(** form_urlencoded::decode (behind src/private/canonical_request.rs line 68). *)
Definition form_decode (s : str) : str := utf8_lossy (pct_decode (replace_plus s)).

(** [form_urlencoded::parse]: split at ['&'], drop empty pieces, split at the first ['='], decode.
    Used at src/private/canonical_request.rs line 68. *)
Definition form_parse (q : str) : list (str * str) :=
  map (fun piece => let '(k, v) := split_once "=" piece in
                    (form_decode k, form_decode (unwrap_or v [])))
      (filter (fun p => match p with [] => false | _ => true end) (split_on "&" q)).
