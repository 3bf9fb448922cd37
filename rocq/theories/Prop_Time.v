(** C41-C44: calendar, timestamp texts, range check, date parsing. *)
From Verif Require Import Base BaseFacts SpecCalendar Time CalendarFacts TimeFacts.
From Coq Require Import ZifyBool ZifyNat ZifyN.
Ltac Zify.zify_post_hook ::= Z.div_mod_to_equations.
Local Open Scope Z_scope.

(** C41.  For every second of the years 0 to 9999, the texts the crate derives (X-Goog-Date, policy
    expiration, credential date) are the UTC texts of the calendar counted day by day, and the
    calendar gives each second one text only. *)
Theorem C41_calendar secs : -62167219200 <= secs <= 253402300799 ->
  utc_basic_text secs (ut_to_iso8601 secs) /\
  utc_rfc3339_text secs (ut_to_rfc3339 secs) /\
  utc_date_text secs (date_to_string (date_from_unix_timestamp secs)) /\
  (forall text, utc_basic_text secs text -> text = ut_to_iso8601 secs) /\
  (forall text, utc_rfc3339_text secs text -> text = ut_to_rfc3339 secs) /\
  (forall text, utc_date_text secs text -> text = date_to_string (date_from_unix_timestamp secs)).
Proof.
  intros H. change (ts_ok secs) in H.
  pose proof (iso8601_spec secs H) as H1. pose proof (rfc3339_spec secs H) as H2. pose proof (date_utc_spec secs H) as H3.
  repeat split; try assumption.
  - intros text Ht. eapply utc_basic_text_unique; eassumption.
  - intros text Ht. eapply utc_rfc3339_text_unique; eassumption.
  - intros text Ht. eapply utc_date_text_unique; eassumption.
Qed.

(** The underlying conversion agrees with the calendar for every day, without bounds. *)
Theorem C41_civil days : date_of_day days (let '(y, m, d) := civil_of_days days in mkdate y m d).
Proof. exact (civil_correct days). Qed.

Example C41_example : ut_to_iso8601 951782400 = B "20000229T000000Z" /\ ut_to_rfc3339 (-62167219200) = B "0000-01-01T00:00:00Z"
  /\ ut_to_rfc3339 253402300799 = B "9999-12-31T23:59:59Z".
Proof. repeat split; reflexivity. Qed.

(** C42. *)
Theorem C42_texts a b :
  -62167219200 <= a <= 253402300799 -> -62167219200 <= b <= 253402300799 ->
  length (ut_to_iso8601 a) = 16%nat /\ length (ut_to_rfc3339 a) = 20%nat /\
  str_leb (ut_to_iso8601 a) (ut_to_iso8601 b) = (a <=? b) /\
  str_leb (ut_to_rfc3339 a) (ut_to_rfc3339 b) = (a <=? b) /\
  ut_from_rfc3339 (ut_to_rfc3339 a) = Ok a /\
  (ut_to_iso8601 a = ut_to_iso8601 b -> a = b) /\
  (ut_to_rfc3339 a = ut_to_rfc3339 b -> a = b).
Proof.
  intros Ha Hb. change (ts_ok a) in Ha. change (ts_ok b) in Hb.
  repeat split.
  - apply iso8601_length; exact Ha.
  - apply rfc3339_length; exact Ha.
  - apply iso8601_order; assumption.
  - apply rfc3339_order; assumption.
  - apply ut_from_rfc3339_print; exact Ha.
  - apply iso8601_inj; assumption.
  - apply rfc3339_inj; assumption.
Qed.

Example C42_example : str_leb (ut_to_iso8601 951782399) (ut_to_iso8601 951782400) = true
  /\ str_leb (ut_to_iso8601 951782400) (ut_to_iso8601 951782399) = false.
Proof. split; reflexivity. Qed.

(** C43.  1000000000 ns per second; 253402300800 is 10000-01-01T00:00:00Z. *)
Theorem C43_range (t : systime) :
  ((exists secs, ut_from_system_time t = Some secs) <-> 0 <= t < 253402300800 * 1000000000) /\
  (forall secs, ut_from_system_time t = Some secs -> secs * 1000000000 <= t < (secs + 1) * 1000000000).
Proof.
  split.
  - split.
    + intros (secs & H). apply ut_from_system_time_spec in H. apply H.
    + intros H. exists (t / NS). apply ut_from_system_time_spec. auto.
  - intros secs H. apply ut_from_system_time_spec in H. destruct H as [_ ->]. unfold NS. lia.
Qed.

(** The bound is the first second of the year 10000, as the calendar counts. *)
Theorem C43_bound : utc_of_seconds 253402300800 (mkdate 10000 1 1) 0 0 0.
Proof. exact (datetime_spec 253402300800). Qed.

Example C43_example : ut_from_system_time 1999999999 = Some 1 /\ ut_from_system_time (-1) = None
  /\ ut_from_system_time (253402300800 * 1000000000) = None.
Proof. repeat split; reflexivity. Qed.

(** C44.  A text that is the date of some instant. *)
Definition is_date (s : str) : Prop := exists secs, utc_date_text secs s.

Lemma digits_split a b c y m d ty tm td :
  length a = 4%nat -> length b = 2%nat -> length c = 2%nat ->
  digits 4 y ty -> digits 2 m tm -> digits 2 d td -> a ++ b ++ c = ty ++ tm ++ td ->
  a = ty /\ b = tm /\ c = td.
Proof.
  intros La Lb Lc (L1 & _) (L2 & _) (L3 & _) E.
  apply CodecFacts.app_inv_len in E; [|lia]. destruct E as [-> E].
  apply CodecFacts.app_inv_len in E; [|lia]. tauto.
Qed.

(** Some accepted texts are not dates. *)
Theorem C44_not_a_date_refuted : exists s d, date_try_from s = Some d /\ ~ is_date s.
Proof.
  exists (B "20200231"), 20200231%N. split; [reflexivity|].
  intros (secs & dt & h & mi & sec & ty & tm & td & U & Dy & Dm & Dd & E).
  destruct (digits_split (B "2020") (B "02") (B "31") _ _ _ _ _ _ eq_refl eq_refl eq_refl Dy Dm Dd E) as (<- & <- & <-).
  destruct Dy as (_ & _ & Vy & Py). destruct Dm as (_ & _ & Vm & Pm). destruct Dd as (_ & _ & Vd & Pd).
  change (undec (B "2020")) with (Some 2020%N) in Vy. change (undec (B "02")) with (Some 2%N) in Vm.
  change (undec (B "31")) with (Some 31%N) in Vd. injection Vy as Vy. injection Vm as Vm. injection Vd as Vd.
  assert (year dt = 2020) by lia. assert (month dt = 2) by lia. assert (day dt = 31) by lia.
  destruct U as [days dt h mi sec Hd _ _ _].
  pose proof (date_of_day_unique _ _ _ Hd (civil_correct days)) as ->.
  pose proof (civil_ok days) as (_ & _ & L). rewrite H, H0, H1 in L.
  vm_compute in L. apply L. reflexivity.
Qed.

(** Some accepted texts render differently. *)
Theorem C44_roundtrip_refuted : exists s d, date_try_from s = Some d /\ date_to_string d <> s.
Proof. exists (B "+2021231"), 2021231%N. split; [reflexivity|discriminate]. Qed.

(** Every accepted text of digits renders back to itself, and has eight bytes. *)
Theorem C44_digits s d : Forall (fun c => is_digit c = true) s -> date_try_from s = Some d ->
  length s = 8%nat /\ date_to_string d = s.
Proof.
  intros Hd H. unfold date_try_from in H. destruct (Nat.eqb_spec (length s) 8) as [L|L]; [|discriminate].
  split; [exact L|]. cbn [negb] in H. destruct (u32_parse s) as [n|] eqn:E; [|discriminate].
  unfold u32_parse in E. destruct s as [|c r]; [discriminate L|].
  assert (Hc : beq c "+"%byte = false).
  { apply beq_neq. intros ->. inversion Hd; subst. discriminate. }
  rewrite Hc in E. destruct (undec (c :: r)) as [m|] eqn:U; [|discriminate].
  destruct (m <? 4294967296)%N; [|discriminate]. injection E as ->.
  destruct (n / 10000 <=? 9999)%N eqn:E1; [|discriminate]. cbn [negb] in H.
  destruct ((1 <=? n mod 10000 / 100)%N && (n mod 10000 / 100 <=? 12)%N) eqn:E2; [|discriminate]. cbn [negb] in H.
  destruct ((1 <=? n mod 100)%N && (n mod 100 <=? 31)%N) eqn:E3; [|discriminate]. cbn [negb] in H.
  injection H as H. assert (d = n) by lia. subst d.
  rewrite H0. unfold date_to_string.
  apply (digits_unique 8 (Z.of_N n)).
  - replace (dec n) with (dec (Z.to_N (Z.of_N n))) by (rewrite N2Z.id; reflexivity).
    apply (fmt_digits 8 (Z.of_N n)); [|lia]. change (10 ^ Z.of_nat 8) with 100000000. lia.
  - split; [exact L|]. split; [exact Hd|]. split; [rewrite N2Z.id; exact U|lia].
Qed.

(** The date of every timestamp is accepted and comes back. *)
Theorem C44_rendered secs : -62167219200 <= secs <= 253402300799 ->
  date_try_from (date_to_string (date_from_unix_timestamp secs)) = Some (date_from_unix_timestamp secs).
Proof.
  intros H. change (ts_ok secs) in H. pose proof (date_text_spec secs H) as E.
  ranges secs H. unfold date_from_unix_timestamp in *. unfold ut_to_date, date_to_string in *. cbv zeta in *.
  set (c := datetime_of_timestamp secs) in *. clearbody c.
  rewrite (Z.mod_small (dt_year c)) in * by lia.
  set (n := (Z.to_N (dt_year c) * 10000 + Z.to_N (dt_month c) * 100 + Z.to_N (dt_day c))%N) in *.
  assert (Hn : (n < 100000000)%N) by lia.
  assert (D : digits 8 (Z.of_N n) (pad0 8 (dec n))).
  { replace (dec n) with (dec (Z.to_N (Z.of_N n))) by (rewrite N2Z.id; reflexivity).
    apply (fmt_digits 8 (Z.of_N n)); [|lia]. change (10 ^ Z.of_nat 8) with 100000000. lia. }
  destruct D as (L & Hd & U & _). rewrite N2Z.id in U. set (s := pad0 8 (dec n)) in *. clearbody s.
  unfold date_try_from. rewrite L. cbn [Nat.eqb negb]. unfold u32_parse.
  destruct s as [|x r]; [discriminate L|].
  assert (Hc : beq x "+"%byte = false).
  { apply beq_neq. intros ->. inversion Hd; subst. discriminate. }
  rewrite Hc, U. replace (n <? 4294967296)%N with true by lia.
  replace (n / 10000 <=? 9999)%N with true by lia. cbn [negb].
  assert (Em : (n mod 10000 / 100 = Z.to_N (dt_month c))%N) by (subst n; lia).
  assert (Ed : (n mod 100 = Z.to_N (dt_day c))%N) by (subst n; lia).
  assert (Ey : (n / 10000 = Z.to_N (dt_year c))%N) by (subst n; lia).
  rewrite Em, Ed, Ey.
  replace ((1 <=? Z.to_N (dt_month c))%N && (Z.to_N (dt_month c) <=? 12)%N) with true by lia.
  replace ((1 <=? Z.to_N (dt_day c))%N && (Z.to_N (dt_day c) <=? 31)%N) with true by lia. reflexivity.
Qed.

Example C44_example : date_try_from (B "20200101") = Some 20200101%N /\ date_try_from (B "20201301") = None
  /\ date_try_from (date_to_string (date_from_unix_timestamp 951782400)) = Some 20000229%N.
Proof. repeat split; reflexivity. Qed.
