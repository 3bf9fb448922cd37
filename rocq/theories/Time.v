(** Time: [std::time::SystemTime], the part of chrono the crate uses, and the crate's
    UnixTimestamp, Date, ActiveDatetime and the two Expiration types. *)
From Verif Require Import Base.
Local Open Scope byte_scope.
Local Open Scope Z_scope.

(** * std::time *)

(** A [SystemTime] is a signed count of nanoseconds since 1970-01-01T00:00:00Z.  On Linux it is an
    [i64] of seconds plus nanoseconds in [0, 10^9) (src/private/utils/unix_timestamp.rs line 31). *)
Definition systime := Z.
(** Nanoseconds in a second, src/private/utils/unix_timestamp.rs line 37. *)
Definition NS : Z := 1000000000.
(** The range of a [SystemTime]: an [i64] number of seconds; src/private/utils/unix_timestamp.rs line 31. *)
Definition systime_ok (t : systime) : bool := (- two63 * NS <=? t) && (t <? two63 * NS).

(** [SystemTime::duration_since]: [None] models [Err(SystemTimeError)] (the other time is later).
    The result is a [Duration] in nanoseconds
    (src/private/utils/unix_timestamp.rs line 35, src/signed_url.rs line 74, src/private/bound_token.rs lines 83, 86). *)
Definition duration_since (t earlier : systime) : option Z :=
  if earlier <=? t then Some (t - earlier) else None.

(** [Duration::as_secs] (src/private/utils/unix_timestamp.rs line 37, src/signed_url.rs line 76). *)
Definition as_secs (d : Z) : Z := d / NS.

(** [i64::try_from(u64)] (src/private/utils/unix_timestamp.rs line 33, src/signed_url.rs line 72). *)
Definition i64_try_from (v : Z) : option Z := if v <? two63 then Some v else None.

(** [SystemTime + Duration::from_secs(n)]: panics ([None]) when the seconds leave the [i64] range
    (src/private/bound_token.rs line 166). *)
Definition systime_add_secs (t : systime) (n : N) : option systime :=
  let r := t + Z.of_N n * NS in
  if r <? two63 * NS then Some r else None.

(** * chrono 0.4.42 *)

(** Leap years, in chrono; src/private/utils/unix_timestamp.rs lines 44-61. *)
Definition leap (y : Z) : bool :=
  ((y mod 4 =? 0) && negb (y mod 100 =? 0)) || (y mod 400 =? 0).

(** chrono naive/internals.rs [YEAR_DELTAS]: number of leap days in the years [0, i) of a
    400-year cycle (a table in the crate, a formula here)
    (src/private/utils/unix_timestamp.rs lines 44-61). *)
Definition year_delta (i : Z) : Z :=
  if i =? 0 then 0 else (i - 1) / 4 - (i - 1) / 100 + (i - 1) / 400 + 1.

(** chrono naive/internals.rs [cycle_to_yo]: day of a 400-year cycle to (year mod 400, ordinal - 1)
    (src/private/utils/unix_timestamp.rs lines 44-61). *)
Definition cycle_to_yo (cycle : Z) : Z * Z :=
  let y := cycle / 365 in
  let o := cycle mod 365 in
  let d := year_delta y in
  if o <? d then (y - 1, o + (365 - year_delta (y - 1))) else (y, o - d).

(** Lengths of the months, in chrono; src/private/utils/unix_timestamp.rs lines 44-61. *)
Definition month_lengths (lp : bool) : list Z :=
  [31; (if lp then 29 else 28); 31; 30; 31; 30; 31; 31; 30; 31; 30; 31].

(** chrono [Mdf::from_ol]: month and day from the day of the year (a table in the crate)
    (src/private/utils/unix_timestamp.rs lines 44-61). *)
Fixpoint month_day (m : Z) (lens : list Z) (o : Z) : Z * Z :=
  match lens with
  | [] => (m, o + 1)
  | len :: rest => if o <? len then (m, o + 1) else month_day (m + 1) rest (o - len)
  end.

(** chrono [NaiveDate::from_num_days_from_ce_opt] on [days + 719163]; [days] counts from
    1970-01-01.  (719163 + 365 = 719528 is the number of days from 0000-01-01 to 1970-01-01.)
    The crate only calls it for years 0..=9999, far inside chrono's range, where it returns [Some]
    (src/private/utils/unix_timestamp.rs lines 44-61). *)
Definition civil_of_days (days : Z) : Z * Z * Z :=
  let d := days + 719163 + 365 in
  let '(ym, o) := cycle_to_yo (d mod 146097) in
  let y := d / 146097 * 400 + ym in
  let '(m, dd) := month_day 1 (month_lengths (leap y)) o in
  (y, m, dd).

(** The fields of a chrono [DateTime<Utc>]; src/private/utils/unix_timestamp.rs lines 44-61. *)
Record datetime := { dt_year : Z; dt_month : Z; dt_day : Z; dt_hour : Z; dt_min : Z; dt_sec : Z }.

(** chrono [DateTime::from_timestamp(secs, 0)] and its [Datelike]/[Timelike] accessors (UTC)
    (src/private/utils/unix_timestamp.rs lines 44-61). *)
Definition datetime_of_timestamp (secs : Z) : datetime :=
  let '(y, m, d) := civil_of_days (secs / 86400) in
  let s := secs mod 86400 in
  {| dt_year := y; dt_month := m; dt_day := d;
     dt_hour := s / 3600; dt_min := s / 60 mod 60; dt_sec := s mod 60 |}.

(** chrono numeric format items [%Y] (for years 0..=9999) and [%m %d %H %M %S]: zero padded
    (src/private/utils/unix_timestamp.rs lines 44-61). *)
Definition fmt (w : nat) (z : Z) : str := pad0 w (dec (Z.to_N z)).

(** * src/private/utils/unix_timestamp.rs *)

(** [UnixTimestamp(i64)], src/private/utils/unix_timestamp.rs lines 13-14; [From<UnixTimestamp> for i64], src/private/utils/unix_timestamp.rs lines 71-73. *)
Definition unix_timestamp := Z.

(** [TryFrom<i64> for UnixTimestamp], src/private/utils/unix_timestamp.rs lines 79-86. *)
Definition ut_try_from (v : Z) : option unix_timestamp :=
  if (-62167219200 <=? v) && (v <=? 253402300799) then Some v else None.

(** [UnixTimestamp::from_system_time], src/private/utils/unix_timestamp.rs lines 31-41. The error payload is discarded by all callers. *)
Definition ut_from_system_time (t : systime) : option unix_timestamp :=
  match duration_since t 0 with
  | None => None
  | Some d =>
      match i64_try_from (as_secs d) with
      | None => None
      | Some v => ut_try_from v
      end
  end.

(** [UnixTimestamp::to_date], src/private/utils/unix_timestamp.rs lines 43-50; [as u32] is reduction modulo 2^32, and the
    multiplications are the exact ones (no overflow is possible for years up to 9999). *)
Definition ut_to_date (t : unix_timestamp) : N :=
  let c := datetime_of_timestamp t in
  (Z.to_N (dt_year c mod 4294967296) * 10000 + Z.to_N (dt_month c) * 100 + Z.to_N (dt_day c))%N.

(** [UnixTimestamp::to_iso8601_basic_format_date_time], src/private/utils/unix_timestamp.rs lines 52-56: format [%Y%m%dT%H%M%SZ]. *)
Definition ut_to_iso8601 (t : unix_timestamp) : str :=
  let c := datetime_of_timestamp t in
  fmt 4 (dt_year c) ++ fmt 2 (dt_month c) ++ fmt 2 (dt_day c) ++ B "T"
  ++ fmt 2 (dt_hour c) ++ fmt 2 (dt_min c) ++ fmt 2 (dt_sec c) ++ B "Z".

(** [UnixTimestamp::to_rfc3339], src/private/utils/unix_timestamp.rs lines 58-62: format [%Y-%m-%dT%H:%M:%SZ]. *)
Definition ut_to_rfc3339 (t : unix_timestamp) : str :=
  let c := datetime_of_timestamp t in
  fmt 4 (dt_year c) ++ B "-" ++ fmt 2 (dt_month c) ++ B "-" ++ fmt 2 (dt_day c) ++ B "T"
  ++ fmt 2 (dt_hour c) ++ B ":" ++ fmt 2 (dt_min c) ++ B ":" ++ fmt 2 (dt_sec c) ++ B "Z".

(** chrono [scan::number(s, w, w)]: exactly [w] digits, then the rest of the text
    (src/private/utils/unix_timestamp.rs line 26). *)
Definition scan_digits (w : nat) (s : str) : option (Z * str) :=
  if Nat.ltb (length s) w then None
  else match undec (firstn w s) with
       | Some n => Some (Z.of_N n, skipn w s)
       | None => None
       end.

(** chrono [scan::char] (src/private/utils/unix_timestamp.rs line 26). *)
Definition scan_char (c : byte) (s : str) : option str :=
  match s with
  | x :: r => if beq x c then Some r else None
  | [] => None
  end.

(** Drops leading digits; src/private/utils/unix_timestamp.rs line 26. *)
Fixpoint skip_digits (s : str) : str :=
  match s with
  | c :: r => if is_digit c then skip_digits r else s
  | [] => []
  end.

(** chrono [scan::nanosecond] after a ['.']: at least one digit, all digits are consumed.  The value
    is dropped because only [timestamp()] (whole seconds) is used
    (src/private/utils/unix_timestamp.rs line 26). *)
Definition scan_fraction (s : str) : option str :=
  match s with
  | x :: r =>
      if beq x "."%byte then
        match r with
        | d :: r' => if is_digit d then Some (skip_digits r') else None
        | [] => None
        end
      else Some s
  | [] => Some s
  end.

(** The digits of an offset: two hour digits, [:], two minute digits below 60; the offset in seconds,
    times [sg], within 23:59 (chrono [scan::timezone_offset] and [parse_rfc3339],
    src/private/utils/unix_timestamp.rs line 26). *)
Definition scan_hours_minutes (sg : Z) (r : str) : option (Z * str) :=
  match scan_digits 2 r with
  | None => None
  | Some (h, r1) =>
      match scan_char ":" r1 with
      | None => None
      | Some r2 =>
          match scan_digits 2 r2 with
          | None => None
          | Some (m, r3) =>
              if (m <? 60) && (h * 3600 + m * 60 <=? 86340)
              then Some (sg * (h * 3600 + m * 60), r3) else None
          end
      end
  end.

(** chrono [scan::timezone_offset] as called by [parse_rfc3339]: [Z], [z] or a sign ([+], [-] or
    U+2212) and the hours and minutes (src/private/utils/unix_timestamp.rs line 26). *)
Definition scan_offset (s : str) : option (Z * str) :=
  match s with
  | x :: r =>
      if beq x "Z" || beq x "z" then Some (0, r)
      else if beq x "+" then scan_hours_minutes 1 r
      else if beq x "-" then scan_hours_minutes (-1) r
      else match strip_prefix [xe2; x88; x92]%byte s with
           | Some r' => scan_hours_minutes (-1) r'
           | None => None
           end
  | [] => None
  end.

(** chrono [NaiveDate::from_ymd_opt] followed by [num_days_from_ce], relative to 1970-01-01, for
    years 0..=9999; [None] for dates that do not exist (src/private/utils/unix_timestamp.rs line 26). *)
Definition days_of_civil (y m d : Z) : option Z :=
  let lens := month_lengths (leap y) in
  if negb ((1 <=? m) && (m <=? 12)) then None
  else if negb ((1 <=? d) && (d <=? nth (Z.to_nat (m - 1)) lens 0)) then None
  else
    let ordinal := fold_right Z.add 0 (firstn (Z.to_nat (m - 1)) lens) + d in
    let year := y - 1 in
    let excess := if year <? 0 then 1 + (- year) / 400 else 0 in
    let year := year + excess * 400 in
    Some (year * 1461 / 4 - year / 100 + year / 100 / 4 - excess * 146097 + ordinal - 719163).

(** chrono [DateTime::parse_from_rfc3339(s)?.timestamp()]: [YYYY-MM-DD], one of [T], [t], space,
    [HH:MM:SS], optional fraction, offset, nothing else.  Second 60 counts as second 59
    (src/private/utils/unix_timestamp.rs line 26). *)
Definition parse_rfc3339 (s : str) : option Z :=
  match scan_digits 4 s with None => None | Some (y, s) =>
  match scan_char "-" s with None => None | Some s =>
  match scan_digits 2 s with None => None | Some (m, s) =>
  match scan_char "-" s with None => None | Some s =>
  match scan_digits 2 s with None => None | Some (d, s) =>
  match (match s with
         | c :: r => if beq c "T" || beq c "t" || beq c " " then Some r else None
         | [] => None end) with None => None | Some s =>
  match scan_digits 2 s with None => None | Some (h, s) =>
  match scan_char ":" s with None => None | Some s =>
  match scan_digits 2 s with None => None | Some (mi, s) =>
  match scan_char ":" s with None => None | Some s =>
  match scan_digits 2 s with None => None | Some (sec, s) =>
  match scan_fraction s with None => None | Some s =>
  match scan_offset s with None => None | Some (off, s) =>
  match s with _ :: _ => None | [] =>
  if negb ((h <=? 23) && (mi <=? 59) && (sec <=? 60)) then None
  else match days_of_civil y m d with
       | None => None
       | Some days =>
           Some (days * 86400 + h * 3600 + mi * 60 + (if sec =? 60 then 59 else sec) - off)
       end
  end end end end end end end end end end end end end end.

(** [unix_timestamp::Error], src/private/utils/unix_timestamp.rs lines 3-11, with its payload. *)
Inductive ut_error : Type :=
| InvalidIso8601Format (s : str)
| InvalidRfc3339Format (s : str)
| UtOutOfRange (v : Z).

(** [UnixTimestamp::from_rfc3339], src/private/utils/unix_timestamp.rs lines 25-29. *)
Definition ut_from_rfc3339 (s : str) : res unix_timestamp ut_error :=
  match parse_rfc3339 s with
  | Some v => match ut_try_from v with
              | Some t => Ok t
              | None => Err (UtOutOfRange v)
              end
  | None => Err (InvalidRfc3339Format s)
  end.

(** [str::trim_start] before each numeric item of a format: drops characters with the Unicode property
    White_Space, here in UTF-8 (src/private/utils/unix_timestamp.rs line 19). *)
Fixpoint trim_start (s : str) : str :=
  match s with
  | [] => []
  | a :: r =>
      if beq a " " || ((9 <=? bN a)%N && (bN a <=? 13)%N) then trim_start r
      else match r with
           | b :: r2 =>
               if beq a xc2 && (beq b x85 || beq b xa0) then trim_start r2
               else match r2 with
                    | c :: r3 =>
                        if (beq a xe1 && beq b x9a && beq c x80)
                           || (beq a xe2 && beq b x80
                               && (((128 <=? bN c)%N && (bN c <=? 138)%N) || beq c xa8 || beq c xa9 || beq c xaf))
                           || (beq a xe2 && beq b x81 && beq c x9f)
                           || (beq a xe3 && beq b x80 && beq c x80)
                        then trim_start r3 else s
                    | [] => s
                    end
           | [] => s
           end
  end.

(** The longest run of at most [w] digits and the rest; [None] is no bound ([usize::MAX])
    (chrono [scan::number], src/private/utils/unix_timestamp.rs line 19). *)
Fixpoint span_digits (w : option nat) (s : str) : str * str :=
  match w, s with
  | Some O, _ => ([], s)
  | _, c :: r => if is_digit c then let '(d, t) := span_digits (option_map pred w) r in (c :: d, t) else ([], s)
  | _, [] => ([], [])
  end.

(** chrono [scan::number(s, 1, w)]: one to [w] digits, as many as there are; the value fits in [i64]
    (src/private/utils/unix_timestamp.rs line 19). *)
Definition scan_number_upto (w : option nat) (s : str) : option (Z * str) :=
  let '(d, t) := span_digits w s in
  match undec d with
  | Some n => match i64_try_from (Z.of_N n) with Some v => Some (v, t) | None => None end
  | None => None
  end.

(** A numeric item of two digits ([%m %d %H %M %S]) with the range its [Parsed] setter accepts
    (chrono [parse_internal], src/private/utils/unix_timestamp.rs line 19). *)
Definition scan_item (lo hi : Z) (s : str) : option (Z * str) :=
  match scan_number_upto (Some 2%nat) (trim_start s) with
  | Some (v, t) => if (lo <=? v) && (v <=? hi) then Some (v, t) else None
  | None => None
  end.

(** The item [%Y]: a sign and any number of digits, or one to four digits; the value fits in [i32]
    (chrono [parse_internal] and [Parsed::set_year], src/private/utils/unix_timestamp.rs line 19). *)
Definition scan_year (s : str) : option (Z * str) :=
  let s := trim_start s in
  let r := match s with
           | c :: r =>
               if beq c "-" then match scan_number_upto None r with Some (v, t) => Some (- v, t) | None => None end
               else if beq c "+" then scan_number_upto None r
               else scan_number_upto (Some 4%nat) s
           | [] => None
           end in
  match r with
  | Some (y, t) => if (-2147483648 <=? y) && (y <=? 2147483647) then Some (y, t) else None
  | None => None
  end.

(** chrono [NaiveDateTime::parse_from_str(s, "%Y%m%dT%H%M%SZ")?.and_utc().timestamp()]: the years a
    [NaiveDate] can hold, second 60 counts as second 59 (src/private/utils/unix_timestamp.rs lines 19-22). *)
Definition parse_iso8601 (s : str) : option Z :=
  match scan_year s with None => None | Some (y, s) =>
  match scan_item 1 12 s with None => None | Some (m, s) =>
  match scan_item 1 31 s with None => None | Some (d, s) =>
  match scan_char "T" s with None => None | Some s =>
  match scan_item 0 23 s with None => None | Some (h, s) =>
  match scan_item 0 59 s with None => None | Some (mi, s) =>
  match scan_item 0 60 s with None => None | Some (sec, s) =>
  match scan_char "Z" s with None => None | Some s =>
  match s with _ :: _ => None | [] =>
  if negb ((-262143 <=? y) && (y <=? 262142)) then None
  else match days_of_civil y m d with
       | None => None
       | Some days => Some (days * 86400 + h * 3600 + mi * 60 + (if sec =? 60 then 59 else sec))
       end
  end end end end end end end end end.

(** [UnixTimestamp::from_iso8601_basic_format_date_time], src/private/utils/unix_timestamp.rs lines 17-23
    (not called by the library itself). *)
Definition ut_from_iso8601 (s : str) : res unix_timestamp ut_error :=
  match parse_iso8601 s with
  | Some v => match ut_try_from v with
              | Some t => Ok t
              | None => Err (UtOutOfRange v)
              end
  | None => Err (InvalidIso8601Format s)
  end.

(** [UnixTimestamp::to_system_time], src/private/utils/unix_timestamp.rs lines 64-67 (test helper): [self.0 as u64] wraps negative values. *)
Definition ut_to_system_time (t : unix_timestamp) : option systime :=
  systime_add_secs 0 (Z.to_N (t mod 18446744073709551616)).

(** * src/private/date.rs *)

(** [Date::from_unix_timestamp_obj], src/private/date.rs lines 13-15. *)
Definition date_from_unix_timestamp (t : unix_timestamp) : N := ut_to_date t.

(** [Display for Date], src/private/date.rs lines 45-49: [{:08}]. *)
Definition date_to_string (d : N) : str := pad0 8 (dec d).

(** [u32::from_str]: an optional ['+'], then at least one digit, value below 2^32
    (src/private/date.rs line 26). *)
Definition u32_parse (s : str) : option N :=
  let digits := match s with c :: r => if beq c "+"%byte then r else s | [] => s end in
  match undec digits with
  | Some n => if (n <? 4294967296)%N then Some n else None
  | None => None
  end.

(** [TryFrom<&str> for Date], src/private/date.rs lines 21-42 (not called by the library itself). *)
Definition date_try_from (value : str) : option N :=
  if negb (Nat.eqb (length value) 8) then None
  else match u32_parse value with
  | None => None
  | Some yyyymmdd =>
      let yyyy := (yyyymmdd / 10000)%N in
      if negb (yyyy <=? 9999)%N then None
      else let mm := (yyyymmdd mod 10000 / 100)%N in
      if negb ((1 <=? mm)%N && (mm <=? 12)%N) then None
      else let dd := (yyyymmdd mod 100)%N in
      if negb ((1 <=? dd)%N && (dd <=? 31)%N) then None
      else Some (yyyy * 10000 + mm * 100 + dd)%N
  end.

(** * src/private/active_datetime.rs *)

(** [ActiveDatetime(UnixTimestamp)], src/private/active_datetime.rs lines 8-20: [Display] is the ISO 8601 basic format. *)
Definition active_datetime_to_string (t : unix_timestamp) : str := ut_to_iso8601 t.

(** * src/private/expiration.rs *)

(** [TryFrom<i64> for Expiration], src/private/expiration.rs lines 13-19; the error carries the value. *)
Definition expiration_try_from (v : Z) : option Z :=
  if (0 <=? v) && (v <=? 604800) then Some v else None.

(** [Display for Expiration], src/private/expiration.rs lines 22-26: decimal [i64]. *)
Definition expiration_to_string (e : Z) : str :=
  if e <? 0 then B "-" ++ dec (Z.to_N (- e)) else dec (Z.to_N e).
