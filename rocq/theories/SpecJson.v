(** Specification: JSON texts (RFC 8259), as a relation between trees and texts.
    Independent of the reader and the writer modelled in Json.v. *)
From Verif Require Import Base Utf8 JsonTree.
Local Open Scope byte_scope.

(** Insignificant white space: space, tab, line feed, carriage return. *)
Definition ws (s : str) : Prop := Forall (fun c => In c [x20; x09; x0a; x0d]) s.

Definition all_digits (s : str) : Prop := Forall (fun c => is_digit c = true) s.

(** number = [ "-" ] int [ frac ] [ exp ] *)
Inductive int_tok : str -> Prop :=
| int_zero : int_tok ["0"]
| int_pos c ds : is_digit c = true -> c <> "0" -> all_digits ds -> int_tok (c :: ds).

Inductive frac_tok : str -> Prop :=
| frac_none : frac_tok []
| frac_some d ds : is_digit d = true -> all_digits ds -> frac_tok ("." :: d :: ds).

Inductive exp_tok : str -> Prop :=
| exp_none : exp_tok []
| exp_some e sg d ds : In e ["e"; "E"] -> In sg [[]; ["+"]; ["-"]] ->
    is_digit d = true -> all_digits ds -> exp_tok (e :: sg ++ d :: ds).

Inductive num_tok : str -> Prop :=
| num_intro sg i f e : In sg [[]; ["-"]] -> int_tok i -> frac_tok f -> exp_tok e ->
    num_tok (sg ++ i ++ f ++ e).

(** Value of a hex digit and of four hex digits. *)
Inductive hex_digit : byte -> N -> Prop :=
| hex_dec c : is_digit c = true -> hex_digit c (bN c - 48)
| hex_low c : In c ["a"; "b"; "c"; "d"; "e"; "f"] -> hex_digit c (bN c - 87)
| hex_up c : In c ["A"; "B"; "C"; "D"; "E"; "F"] -> hex_digit c (bN c - 55).

Inductive hex_quad : str -> N -> Prop :=
| hex_quad_intro a b c d na nb nc nd :
    hex_digit a na -> hex_digit b nb -> hex_digit c nc -> hex_digit d nd ->
    hex_quad [a; b; c; d] (((na * 16 + nb) * 16 + nc) * 16 + nd).

Definition escapes : list (byte * byte) :=
  [("""", """"); ("\", "\"); ("/", "/"); ("b", x08); ("f", x0c); ("n", x0a); ("r", x0d); ("t", x09)].

(** [jstring s t]: the string [s] is written [t] between the quotes.  Escaped UTF-16 surrogates must
    come in pairs (a lone one denotes no string). *)
Inductive jstring : str -> str -> Prop :=
| js_nil : jstring [] []
| js_plain c s t : (32 <= bN c)%N -> c <> """" -> c <> "\" -> jstring s t ->
    jstring (c :: s) (c :: t)
| js_esc e b s t : In (e, b) escapes -> jstring s t -> jstring (b :: s) ("\" :: e :: t)
| js_u q n s t : hex_quad q n -> ~ (55296 <= n <= 57343)%N -> jstring s t ->
    jstring (utf8_encode n ++ s) ("\" :: "u" :: q ++ t)
| js_pair q1 n1 q2 n2 s t :
    hex_quad q1 n1 -> (55296 <= n1 <= 56319)%N -> hex_quad q2 n2 -> (56320 <= n2 <= 57343)%N ->
    jstring s t ->
    jstring (utf8_encode (65536 + (n1 - 55296) * 1024 + (n2 - 56320)) ++ s)
            ("\" :: "u" :: q1 ++ "\" :: "u" :: q2 ++ t).

(** Values, without surrounding white space; element and member lists with it. *)
Inductive jvalue : json -> str -> Prop :=
| jv_null : jvalue JNull (B "null")
| jv_true : jvalue (JBool true) (B "true")
| jv_false : jvalue (JBool false) (B "false")
| jv_num t : num_tok t -> jvalue (JNum t) t
| jv_str s t : jstring s t -> jvalue (JStr s) (B """" ++ t ++ B """")
| jv_arr0 w : ws w -> jvalue (JArr []) (B "[" ++ w ++ B "]")
| jv_arr l t : jelems l t -> jvalue (JArr l) (B "[" ++ t ++ B "]")
| jv_obj0 w : ws w -> jvalue (JObj []) (B "{" ++ w ++ B "}")
| jv_obj l t : jmembers l t -> jvalue (JObj l) (B "{" ++ t ++ B "}")
with jelems : list json -> str -> Prop :=
| je_one w1 v t w2 : ws w1 -> jvalue v t -> ws w2 -> jelems [v] (w1 ++ t ++ w2)
| je_more w1 v t w2 l u : ws w1 -> jvalue v t -> ws w2 -> jelems l u ->
    jelems (v :: l) (w1 ++ t ++ w2 ++ B "," ++ u)
with jmembers : list (str * json) -> str -> Prop :=
| jm_one w1 k kt w2 w3 v t w4 : ws w1 -> jstring k kt -> ws w2 -> ws w3 -> jvalue v t -> ws w4 ->
    jmembers [(k, v)] (w1 ++ B """" ++ kt ++ B """" ++ w2 ++ B ":" ++ w3 ++ t ++ w4)
| jm_more w1 k kt w2 w3 v t w4 l u :
    ws w1 -> jstring k kt -> ws w2 -> ws w3 -> jvalue v t -> ws w4 -> jmembers l u ->
    jmembers ((k, v) :: l)
      (w1 ++ B """" ++ kt ++ B """" ++ w2 ++ B ":" ++ w3 ++ t ++ w4 ++ B "," ++ u).

(** A JSON text. *)
Definition json_text (j : json) (s : str) : Prop :=
  exists w1 t w2, ws w1 /\ ws w2 /\ jvalue j t /\ s = w1 ++ t ++ w2.

(** Nesting depth of arrays and objects. *)
Fixpoint json_depth (j : json) : nat :=
  match j with
  | JArr l => S (list_max (map json_depth l))
  | JObj l => S (list_max (map (fun kv => json_depth (snd kv)) l))
  | _ => 0
  end.

(** Every number in the tree satisfies [p]. *)
Fixpoint json_nums (p : str -> Prop) (j : json) : Prop :=
  match j with
  | JNum t => p t
  | JArr l => fold_right (fun x acc => json_nums p x /\ acc) True l
  | JObj l => fold_right (fun kv acc => json_nums p (snd kv) /\ acc) True l
  | _ => True
  end.

(** The value of the last member called [k]. *)
Definition last_member (k : str) (l : list (str * json)) (v : json) : Prop :=
  exists a b, l = a ++ (k, v) :: b /\ ~ In k (map fst b).
