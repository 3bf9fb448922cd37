(** serde_json 1.0.145: the compact writer, the reader, and derived struct deserialisation. *)
From Verif Require Import Base Utf8.
From Verif Require Export JsonTree.
Local Open Scope byte_scope.

(** * Writer *)

(** serde_json [format_escaped_str_contents]: one byte of a string.  Reached from
    [serde_json::to_string] at src/html_form_data.rs line 555 and src/private/bound_token.rs line 199. *)
Definition escape_byte (b : byte) : str :=
  if beq b """" then B "\"""
  else if beq b "\" then B "\\"
  else if beq b x08 then B "\b"
  else if beq b x09 then B "\t"
  else if beq b x0a then B "\n"
  else if beq b x0c then B "\f"
  else if beq b x0d then B "\r"
  else if N.ltb (bN b) 32 then B "\u00" ++ [hexd (bN b / 16); hexd (bN b mod 16)]
  else [b].

(** A quoted, escaped string (src/html_form_data.rs line 555, src/private/bound_token.rs line 199). *)
Definition quote (s : str) : str := [""""] ++ flat_map escape_byte s ++ [""""].

(** [serde_json::to_string] (compact formatter): src/html_form_data.rs line 555,
    src/private/bound_token.rs line 199. *)
Fixpoint jprint (j : json) : str :=
  match j with
  | JNull => B "null"
  | JBool true => B "true"
  | JBool false => B "false"
  | JNum t => t
  | JStr s => quote s
  | JArr l => B "[" ++ join (B ",") (map jprint l) ++ B "]"
  | JObj l => B "{" ++ join (B ",") (map (fun kv => quote (fst kv) ++ B ":" ++ jprint (snd kv)) l) ++ B "}"
  end.

(** * Reader *)

(** What the reader sees before strings and numbers are interpreted.  serde_json skips unknown members
    ([IgnoredAny]) without decoding their strings, without range-checking their numbers and without a
    depth limit, so acceptance by this syntax is common to all targets
    (src/private/bound_token.rs lines 159, 230; src/signing_key.rs line 81). *)
Inductive raw : Type :=
| RNull
| RBool (b : bool)
| RNum (tok : str)
| RStr (txt : str)
| RArr (l : list raw)
| RObj (l : list (str * raw)).

Section raw_ind.
  Context (P : raw -> Prop)
    (Hnull : P RNull) (Hbool : forall b, P (RBool b)) (Hnum : forall t, P (RNum t))
    (Hstr : forall s, P (RStr s))
    (Harr : forall l, Forall P l -> P (RArr l))
    (Hobj : forall l, Forall (fun kv => P (snd kv)) l -> P (RObj l)).
(** Induction over the values read at src/private/bound_token.rs lines 159, 230; src/signing_key.rs line 81. *)
  Fixpoint raw_ind' (j : raw) : P j :=
    match j with
    | RNull => Hnull
    | RBool b => Hbool b
    | RNum t => Hnum t
    | RStr s => Hstr s
    | RArr l =>
        Harr l ((fix go l := match l return Forall P l with
                             | [] => Forall_nil _
                             | x :: r => Forall_cons _ (raw_ind' x) (go r)
                             end) l)
    | RObj l =>
        Hobj l ((fix go l := match l return Forall (fun kv => P (snd kv)) l with
                             | [] => Forall_nil _
                             | x :: r => Forall_cons _ (raw_ind' (snd x)) (go r)
                             end) l)
    end.
End raw_ind.

(** serde_json [parse_whitespace]
    (src/private/bound_token.rs lines 159, 230; src/signing_key.rs line 81). *)
Definition is_ws (b : byte) : bool := beq b " " || beq b x0a || beq b x09 || beq b x0d.
(** [parse_whitespace] itself; src/private/bound_token.rs lines 159, 230; src/signing_key.rs line 81. *)
Fixpoint skip_ws (s : str) : str :=
  match s with
  | c :: r => if is_ws c then skip_ws r else s
  | [] => []
  end.

(** Hex digits of an escape; src/private/bound_token.rs lines 159, 230; src/signing_key.rs line 81. *)
Definition is_hex (b : byte) : bool := match unhexd b with Some _ => true | None => false end.

(** Single-character escapes (src/private/bound_token.rs lines 159, 230; src/signing_key.rs line 81). *)
Definition simple_escape (b : byte) : option byte :=
  if beq b """" then Some """"
  else if beq b "\" then Some "\"
  else if beq b "/" then Some "/"
  else if beq b "b" then Some x08
  else if beq b "f" then Some x0c
  else if beq b "n" then Some x0a
  else if beq b "r" then Some x0d
  else if beq b "t" then Some x09
  else None.

(** serde_json [ignore_str] / [parse_str] up to interpretation of escapes: the text up to the closing
    quote, and the rest.  Control characters and malformed escapes are errors
    (src/private/bound_token.rs lines 159, 230; src/signing_key.rs line 81). *)
Fixpoint scan_string (s : str) : option (str * str) :=
  match s with
  | [] => None
  | c :: r =>
      if beq c """" then Some ([], r)
      else if beq c "\" then
        match r with
        | e :: r1 =>
            if beq e "u" then
              match r1 with
              | h1 :: h2 :: h3 :: h4 :: r2 =>
                  if is_hex h1 && is_hex h2 && is_hex h3 && is_hex h4 then
                    match scan_string r2 with
                    | Some (t, rest) => Some (c :: e :: h1 :: h2 :: h3 :: h4 :: t, rest)
                    | None => None
                    end
                  else None
              | _ => None
              end
            else
              match simple_escape e with
              | Some _ =>
                  match scan_string r1 with
                  | Some (t, rest) => Some (c :: e :: t, rest)
                  | None => None
                  end
              | None => None
              end
        | [] => None
        end
      else if N.ltb (bN c) 32 then None
      else match scan_string r with
           | Some (t, rest) => Some (c :: t, rest)
           | None => None
           end
  end.

(** serde_json [decode_hex_escape]: four hex digits
    (src/private/bound_token.rs lines 159, 230; src/signing_key.rs line 81). *)
Definition hex4 (a b c d : byte) : option N :=
  match unhexd a, unhexd b, unhexd c, unhexd d with
  | Some a, Some b, Some c, Some d => Some (a * 4096 + b * 256 + c * 16 + d)%N
  | _, _, _, _ => None
  end.

(** serde_json [parse_escape] over the text of a string: surrogates must come in pairs
    (src/private/bound_token.rs lines 159, 230; src/signing_key.rs line 81). *)
Fixpoint unescape (s : str) : option str :=
  match s with
  | [] => Some []
  | c :: r =>
      if beq c "\" then
        match r with
        | e :: r1 =>
            if beq e "u" then
              match r1 with
              | h1 :: h2 :: h3 :: h4 :: r2 =>
                  match hex4 h1 h2 h3 h4 with
                  | None => None
                  | Some n =>
                      if (N.leb 56320 n && N.leb n 57343)%bool then None
                      else if (N.leb 55296 n && N.leb n 56319)%bool then
                        match r2 with
                        | c' :: e' :: g1 :: g2 :: g3 :: g4 :: r3 =>
                            if (beq c' "\" && beq e' "u")%bool then
                              match hex4 g1 g2 g3 g4 with
                              | None => None
                              | Some m =>
                                  if (N.leb 56320 m && N.leb m 57343)%bool then
                                    match unescape r3 with
                                    | Some t =>
                                        Some (utf8_encode ((n - 55296) * 1024 + (m - 56320) + 65536) ++ t)
                                    | None => None
                                    end
                                  else None
                              end
                            else None
                        | _ => None
                        end
                      else
                        match unescape r2 with
                        | Some t => Some (utf8_encode n ++ t)
                        | None => None
                        end
                  end
              | _ => None
              end
            else
              match simple_escape e, unescape r1 with
              | Some b, Some t => Some (b :: t)
              | _, _ => None
              end
        | [] => None
        end
      else match unescape r with Some t => Some (c :: t) | None => None end
  end.

(** Longest run of digits (src/private/bound_token.rs lines 159, 230; src/signing_key.rs line 81). *)
Fixpoint take_digits (s : str) : str * str :=
  match s with
  | c :: r => if is_digit c then let '(d, t) := take_digits r in (c :: d, t) else ([], s)
  | [] => ([], [])
  end.

(** Integer part of a number: ["0"] or a non-zero digit and digits
    (src/private/bound_token.rs lines 159, 230; src/signing_key.rs line 81). *)
Definition scan_int (s : str) : option (str * str) :=
  match s with
  | c :: r =>
      if beq c "0" then Some ([c], r)
      else if is_digit c then let '(d, t) := take_digits r in Some (c :: d, t)
      else None
  | [] => None
  end.

(** Optional fraction: ['.'] and at least one digit
    (src/private/bound_token.rs lines 159, 230; src/signing_key.rs line 81). *)
Definition scan_frac (s : str) : option (str * str) :=
  match s with
  | c :: r =>
      if beq c "." then
        match take_digits r with
        | ([], _) => None
        | (d, t) => Some (c :: d, t)
        end
      else Some ([], s)
  | [] => Some ([], s)
  end.

(** Optional exponent: [e]/[E], optional sign, at least one digit
    (src/private/bound_token.rs lines 159, 230; src/signing_key.rs line 81). *)
Definition scan_exp (s : str) : option (str * str) :=
  match s with
  | c :: r =>
      if beq c "e" || beq c "E" then
        let '(sg, r1) :=
          match r with
          | x :: r' => if beq x "+" || beq x "-" then ([x], r') else ([], r)
          | [] => ([], r)
          end in
        match take_digits r1 with
        | ([], _) => None
        | (d, t) => Some (c :: sg ++ d, t)
        end
      else Some ([], s)
  | [] => Some ([], s)
  end.

(** serde_json [ignore_number] / [parse_any_number], as text
    (src/private/bound_token.rs lines 159, 230; src/signing_key.rs line 81). *)
Definition scan_number (s : str) : option (str * str) :=
  let '(sg, s0) :=
    match s with
    | c :: r => if beq c "-" then ([c], r) else ([], s)
    | [] => ([], s)
    end in
  match scan_int s0 with
  | None => None
  | Some (i, s1) =>
      match scan_frac s1 with
      | None => None
      | Some (f, s2) =>
          match scan_exp s2 with
          | None => None
          | Some (e, s3) => Some (sg ++ i ++ f ++ e, s3)
          end
      end
  end.

(** serde_json [ignore_value] (which builds nothing) as a tree builder.  [fuel] bounds the recursion;
    [from_str_raw] supplies more than any input needs (JsonFacts.v proves that)
    (src/private/bound_token.rs lines 159, 230; src/signing_key.rs line 81). *)
Fixpoint p_value (fuel : nat) (s : str) : option (raw * str) :=
  match fuel with
  | O => None
  | S f =>
      match skip_ws s with
      | [] => None
      | c :: r =>
          if beq c """" then
            match scan_string r with
            | Some (t, rest) => Some (RStr t, rest)
            | None => None
            end
          else if beq c "[" then
            match skip_ws r with
            | [] => None
            | c1 :: r1 =>
                if beq c1 "]" then Some (RArr [], r1)
                else match p_elems f r with
                     | Some (l, rest) => Some (RArr l, rest)
                     | None => None
                     end
            end
          else if beq c "{" then
            match skip_ws r with
            | [] => None
            | c1 :: r1 =>
                if beq c1 "}" then Some (RObj [], r1)
                else match p_members f r with
                     | Some (l, rest) => Some (RObj l, rest)
                     | None => None
                     end
            end
          else if beq c "n" then
            match strip_prefix (B "ull") r with Some rest => Some (RNull, rest) | None => None end
          else if beq c "t" then
            match strip_prefix (B "rue") r with Some rest => Some (RBool true, rest) | None => None end
          else if beq c "f" then
            match strip_prefix (B "alse") r with Some rest => Some (RBool false, rest) | None => None end
          else
            match scan_number (c :: r) with
            | Some (t, rest) => Some (RNum t, rest)
            | None => None
            end
      end
  end
(** Elements of an array, up to [']']; src/signing_key.rs line 81, src/private/bound_token.rs lines 159, 230. *)
with p_elems (fuel : nat) (s : str) : option (list raw * str) :=
  match fuel with
  | O => None
  | S f =>
      match p_value f s with
      | None => None
      | Some (v, r) =>
          match skip_ws r with
          | [] => None
          | c :: r1 =>
              if beq c "]" then Some ([v], r1)
              else if beq c "," then
                match p_elems f r1 with
                | Some (l, rest) => Some (v :: l, rest)
                | None => None
                end
              else None
          end
      end
  end
(** Members of an object, up to ['}']; src/signing_key.rs line 81, src/private/bound_token.rs lines 159, 230. *)
with p_members (fuel : nat) (s : str) : option (list (str * raw) * str) :=
  match fuel with
  | O => None
  | S f =>
      match skip_ws s with
      | [] => None
      | q :: r =>
          if beq q """" then
            match scan_string r with
            | None => None
            | Some (k, r1) =>
                match skip_ws r1 with
                | [] => None
                | c :: r2 =>
                    if beq c ":" then
                      match p_value f r2 with
                      | None => None
                      | Some (v, r3) =>
                          match skip_ws r3 with
                          | [] => None
                          | c' :: r4 =>
                              if beq c' "}" then Some ([(k, v)], r4)
                              else if beq c' "," then
                                match p_members f r4 with
                                | Some (l, rest) => Some ((k, v) :: l, rest)
                                | None => None
                                end
                              else None
                          end
                      end
                    else None
                end
            end
          else None
      end
  end.

(** [serde_json::from_str] up to interpretation: one value, then only white space
    (src/private/bound_token.rs lines 159, 230; src/signing_key.rs line 81). *)
Definition from_str_raw (s : str) : option raw :=
  match p_value (2 * length s + 2) s with
  | Some (v, rest) => match skip_ws rest with [] => Some v | _ => None end
  | None => None
  end.

(** Nesting depth of arrays and objects
    (src/private/bound_token.rs lines 159, 230; src/signing_key.rs line 81). *)
Fixpoint raw_depth (r : raw) : nat :=
  match r with
  | RArr l => S (fold_right Nat.max 0%nat (map raw_depth l))
  | RObj l => S (fold_right Nat.max 0%nat (map (fun kv => raw_depth (snd kv)) l))
  | _ => 0%nat
  end.

(** All results or the first failure ([collect::<Option<Vec<_>>>]). *)
Section traverse.
  Context {A C : Type} (f : A -> option C).
(** [collect::<Option<Vec<_>>>]-like traversal used below; src/private/bound_token.rs lines 159, 230; src/signing_key.rs line 81. *)
  Fixpoint traverse (l : list A) : option (list C) :=
    match l with
    | [] => Some []
    | x :: r =>
        match f x with
        | Some y => match traverse r with Some ys => Some (y :: ys) | None => None end
        | None => None
        end
    end.
End traverse.

(** Interpretation as [serde_json::Value]; [num_ok] says whether a number's text is in the range of
    [f64] (an overflowing number is an error in serde_json) (src/signing_key.rs line 81). *)
Fixpoint raw_to_json (num_ok : str -> bool) (r : raw) : option json :=
  match r with
  | RNull => Some JNull
  | RBool b => Some (JBool b)
  | RNum t => if num_ok t then Some (JNum t) else None
  | RStr t => match unescape t with Some s => Some (JStr s) | None => None end
  | RArr l =>
      match traverse (raw_to_json num_ok) l with Some l' => Some (JArr l') | None => None end
  | RObj l =>
      match traverse (fun kv => match unescape (fst kv), raw_to_json num_ok (snd kv) with
                                | Some k, Some v => Some (k, v)
                                | _, _ => None
                                end) l with
      | Some l' => Some (JObj l')
      | None => None
      end
  end.

(** [serde_json::from_str::<Value>], src/signing_key.rs line 81: recursion limit 128 (the 128th nested
    container is an error). *)
Definition from_str_value (num_ok : str -> bool) (s : str) : option json :=
  match from_str_raw s with
  | Some r => if Nat.leb (raw_depth r) 127 then raw_to_json num_ok r else None
  | None => None
  end.

(** [Map::get] on a map in which a later duplicate replaced an earlier one
    (src/signing_key.rs lines 87, 93). *)
Definition jobj_get (k : str) (l : list (str * json)) : option json :=
  fold_left (fun acc kv => if str_eqb (fst kv) k then Some (snd kv) else acc) l None.

(** * Derived deserialisation *)

(** [String::deserialize] (src/private/bound_token.rs lines 8, 10, 187, 188). *)
Definition de_string (r : raw) : option str := match r with RStr t => unescape t | _ => None end.

(** [u64::deserialize]: only an integer literal without sign, fraction or exponent, below 2^64
    (src/private/bound_token.rs line 9). *)
Definition de_u64 (r : raw) : option N :=
  match r with
  | RNum t => match undec t with
              | Some n => if N.ltb n two64 then Some n else None
              | None => None
              end
  | _ => None
  end.

(** All values of a member name, in order
    (the derived [Deserialize] of src/private/bound_token.rs lines 6, 183). *)
Definition members_named (name : str) (l : list (str * raw)) : list raw :=
  map snd (filter (fun kv => str_eqb (fst kv) name) l).

(** Member names with their escapes read, for the derived [Deserialize] of src/private/bound_token.rs lines 6, 183. *)
Definition decode_keys (l : list (str * raw)) : option (list (str * raw)) :=
  traverse (fun kv => match unescape (fst kv) with Some k => Some (k, snd kv) | None => None end) l.

(** [#[derive(Deserialize)]] on a struct with the given field names, all required: from an object in
    which each name occurs exactly once (other members are ignored), or from an array with exactly the
    fields in order.  Used for src/private/bound_token.rs lines 6-11 and 183-189 and
    src/private/policy_document.rs lines 12-16. *)
Definition de_struct (names : list str) (r : raw) : option (list raw) :=
  match r with
  | RArr l => if Nat.eqb (length l) (length names) then Some l else None
  | RObj l =>
      match decode_keys l with
      | None => None
      | Some l' =>
          traverse (fun n => match members_named n l' with [v] => Some v | _ => None end) names
      end
  | _ => None
  end.
