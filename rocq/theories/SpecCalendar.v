(** Specification: the proleptic Gregorian calendar, counted day by day from 1970-01-01,
    and the UTC texts of instants.  Independent of the model of chrono in Time.v. *)
From Verif Require Import Base.
Local Open Scope Z_scope.

Record date := mkdate { year : Z; month : Z; day : Z }.

Definition is_leap (y : Z) : Prop := (4 | y) /\ (~ (100 | y) \/ (400 | y)).

(** Length of month [m] of year [y]. *)
Inductive month_length : Z -> Z -> Z -> Prop :=
| ml_31 y m : In m [1; 3; 5; 7; 8; 10; 12] -> month_length y m 31
| ml_30 y m : In m [4; 6; 9; 11] -> month_length y m 30
| ml_29 y : is_leap y -> month_length y 2 29
| ml_28 y : ~ is_leap y -> month_length y 2 28.

(** The day after a date. *)
Inductive next_day : date -> date -> Prop :=
| nd_day y m d len : month_length y m len -> 1 <= d < len ->
    next_day (mkdate y m d) (mkdate y m (d + 1))
| nd_month y m len : month_length y m len -> m < 12 ->
    next_day (mkdate y m len) (mkdate y (m + 1) 1)
| nd_year y : next_day (mkdate y 12 31) (mkdate (y + 1) 1 1).

(** [date_of_day n d]: [d] is the date [n] days after (before, if negative) 1970-01-01. *)
Inductive date_of_day : Z -> date -> Prop :=
| dd_epoch : date_of_day 0 (mkdate 1970 1 1)
| dd_after n d d' : 0 <= n -> date_of_day n d -> next_day d d' -> date_of_day (n + 1) d'
| dd_before n d d' : n <= 0 -> date_of_day n d -> next_day d' d -> date_of_day (n - 1) d'.

(** Fixed-width decimal: [digits w n s] holds when [s] is the [w]-digit decimal text of [n]. *)
Definition digits (w : nat) (n : Z) (s : str) : Prop :=
  length s = w /\ Forall (fun c => is_digit c = true) s /\ undec s = Some (Z.to_N n) /\ 0 <= n.

(** The civil UTC time of a count of seconds since the epoch. *)
Inductive utc_of_seconds : Z -> date -> Z -> Z -> Z -> Prop :=
| utc_intro days d h mi s :
    date_of_day days d -> 0 <= h < 24 -> 0 <= mi < 60 -> 0 <= s < 60 ->
    utc_of_seconds (days * 86400 + h * 3600 + mi * 60 + s) d h mi s.

(** [YYYYMMDD] of a count of seconds. *)
Definition utc_date_text (secs : Z) (text : str) : Prop :=
  exists d h mi s ty tm td,
    utc_of_seconds secs d h mi s /\
    digits 4 (year d) ty /\ digits 2 (month d) tm /\ digits 2 (day d) td /\
    text = ty ++ tm ++ td.

(** [YYYYMMDDTHHMMSSZ]. *)
Definition utc_basic_text (secs : Z) (text : str) : Prop :=
  exists d h mi s ty tm td th tmi ts,
    utc_of_seconds secs d h mi s /\
    digits 4 (year d) ty /\ digits 2 (month d) tm /\ digits 2 (day d) td /\
    digits 2 h th /\ digits 2 mi tmi /\ digits 2 s ts /\
    text = ty ++ tm ++ td ++ B "T" ++ th ++ tmi ++ ts ++ B "Z".

(** [YYYY-MM-DDTHH:MM:SSZ] (RFC 3339, UTC). *)
Definition utc_rfc3339_text (secs : Z) (text : str) : Prop :=
  exists d h mi s ty tm td th tmi ts,
    utc_of_seconds secs d h mi s /\
    digits 4 (year d) ty /\ digits 2 (month d) tm /\ digits 2 (day d) td /\
    digits 2 h th /\ digits 2 mi tmi /\ digits 2 s ts /\
    text = ty ++ B "-" ++ tm ++ B "-" ++ td ++ B "T" ++ th ++ B ":" ++ tmi ++ B ":" ++ ts ++ B "Z".
