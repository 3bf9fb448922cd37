(** Specification: the texts read as instants.  Independent of the readers in Time.v. *)
From Verif Require Import Base Utf8 SpecCalendar.
Local Open Scope Z_scope.

(** * RFC 3339 *)

(** time-secfrac: a point and at least one digit, or nothing. *)
Inductive fraction : str -> Prop :=
| fr_none : fraction []
| fr_some d ds : Forall (fun c => is_digit c = true) (d :: ds) -> fraction (B "." ++ d :: ds).

(** time-offset with the signs [west] for offsets behind UTC, and the offset in seconds. *)
Inductive zone (west : list str) : str -> Z -> Prop :=
| zn_utc z : In z [B "Z"; B "z"] -> zone west z 0
| zn_east h m th tm : digits 2 h th -> digits 2 m tm -> h < 24 -> m < 60 ->
    zone west (B "+" ++ th ++ B ":" ++ tm) (h * 3600 + m * 60)
| zn_west sg h m th tm : In sg west -> digits 2 h th -> digits 2 m tm -> h < 24 -> m < 60 ->
    zone west (sg ++ th ++ B ":" ++ tm) (- (h * 3600 + m * 60)).

(** date-time and the second it lies in.  A date of the calendar; second 60 is taken for second 59. *)
Inductive date_time (west : list str) : str -> Z -> Prop :=
| dt_intro y m d h mi s ty tm td sep th tmi ts f z off days :
    digits 4 y ty -> digits 2 m tm -> digits 2 d td -> digits 2 h th -> digits 2 mi tmi -> digits 2 s ts ->
    date_of_day days (mkdate y m d) -> h < 24 -> mi < 60 -> s <= 60 ->
    In sep [B "T"; B "t"; B " "] -> fraction f -> zone west z off ->
    date_time west
      (ty ++ B "-" ++ tm ++ B "-" ++ td ++ sep ++ th ++ B ":" ++ tmi ++ B ":" ++ ts ++ f ++ z)
      (days * 86400 + h * 3600 + mi * 60 + Z.min s 59 - off).

(** RFC 3339 has the hyphen only; the texts read also allow the minus sign U+2212. *)
Definition hyphen : str := B "-".
Definition minus_sign : str := utf8_encode 8722.
Definition rfc3339 : str -> Z -> Prop := date_time [hyphen].
Definition rfc3339_read : str -> Z -> Prop := date_time [hyphen; minus_sign].

(** * The basic format *)

(** Unicode white space. *)
Definition white : list N :=
  [9; 10; 11; 12; 13; 32; 133; 160; 5760; 8192; 8193; 8194; 8195; 8196; 8197; 8198; 8199; 8200; 8201; 8202;
   8232; 8233; 8239; 8287; 12288]%N.
Definition spaces (s : str) : Prop := exists l, Forall (fun n => In n white) l /\ s = flat_map utf8_encode l.

(** A decimal number with any number of digits. *)
Definition number (s : str) (n : Z) : Prop :=
  s <> [] /\ Forall (fun c => is_digit c = true) s /\ undec s = Some (Z.to_N n) /\ 0 <= n.

(** A field of at most [w] digits; fewer only if white space or a letter follows. *)
Definition short (w : nat) (s : str) (n : Z) (stop : Prop) : Prop :=
  number s n /\ (length s <= w)%nat /\ (length s = w \/ stop).

(** A year: up to four digits, or a sign and digits with white space behind. *)
Inductive year_text (stop : Prop) : str -> Z -> Prop :=
| yt_short s y : short 4 s y stop -> year_text stop s y
| yt_plus s y : number s y -> stop -> year_text stop (B "+" ++ s) y
| yt_minus s y : number s y -> stop -> year_text stop (B "-" ++ s) (- y).

(** Texts read as [YYYYMMDDTHHMMSSZ] and their second: white space may precede every field. *)
Inductive basic_read : str -> Z -> Prop :=
| br_intro y m d h mi s ty tm td th tmi ts w1 w2 w3 w4 w5 w6 days :
    Forall spaces [w1; w2; w3; w4; w5; w6] ->
    year_text (w2 <> []) ty y -> short 2 tm m (w3 <> []) -> short 2 td d True ->
    short 2 th h (w5 <> []) -> short 2 tmi mi (w6 <> []) -> short 2 ts s True ->
    date_of_day days (mkdate y m d) -> -262143 <= y <= 262142 -> h < 24 -> mi < 60 -> s <= 60 ->
    basic_read
      (w1 ++ ty ++ w2 ++ tm ++ w3 ++ td ++ B "T" ++ w4 ++ th ++ w5 ++ tmi ++ w6 ++ ts ++ B "Z")
      (days * 86400 + h * 3600 + mi * 60 + Z.min s 59).
