(** C110: timestamps as system times. *)
From Verif Require Import Base BaseFacts SpecCalendar Time CalendarFacts TimeFacts.
From Coq Require Import ZifyBool ZifyNat ZifyN.
Ltac Zify.zify_post_hook ::= Z.div_mod_to_equations.
Local Open Scope Z_scope.

(** Every timestamp from 1970 to 9999 becomes the instant in nanoseconds it names, and is read back from it. *)
Theorem C110_round_trip t : 0 <= t <= 253402300799 ->
  exists instant, ut_to_system_time t = Some instant /\ instant = t * 1000000000 /\ ut_from_system_time instant = Some t.
Proof.
  intros R. exists (t * 1000000000). split; [|split; [reflexivity|]].
  - unfold ut_to_system_time, systime_add_secs. rewrite Z.mod_small by lia. rewrite Z2N.id by lia. unfold NS, two63.
    replace (0 + t * 1000000000) with (t * 1000000000) by lia. destruct (Z.ltb_spec (t * 1000000000) (9223372036854775808 * 1000000000)); [reflexivity|lia].
  - apply ut_from_system_time_spec. unfold NS. split; [lia|]. rewrite Z.div_mul; lia.
Qed.

Example C110_round_trip_case : ut_to_system_time 1640995200 = Some 1640995200000000000 /\ ut_from_system_time 1640995200000000000 = Some 1640995200
  /\ ut_to_iso8601 1640995200 = B "20220101T000000Z".
Proof. repeat split; vm_compute; reflexivity. Qed.

(** A system time that has a timestamp is given back cut to the beginning of its second, and the cut time has the same timestamp. *)
Theorem C110_cut now t : ut_from_system_time now = Some t ->
  exists instant, ut_to_system_time t = Some instant /\ instant <= now < instant + 1000000000 /\ (exists n, instant = n * 1000000000) /\
  ut_from_system_time instant = Some t.
Proof.
  intros H. apply ut_from_system_time_spec in H. destruct H as [R ->]. unfold NS in *.
  destruct (C110_round_trip (now / 1000000000)) as (i & E & -> & F); [lia|]. eexists. split; [exact E|]. split; [lia|]. split; [eauto|exact F].
Qed.

Example C110_cut_case : ut_from_system_time 1999999999 = Some 1 /\ ut_to_system_time 1 = Some 1000000000.
Proof. split; vm_compute; reflexivity. Qed.

(** Timestamps before 1970 exist but have no system time: the conversion panics ([None]) on each of them, although a [SystemTime] could hold the instant. *)
Theorem C110_before t : ut_try_from t = Some t -> (ut_to_system_time t = None <-> t < 0).
Proof.
  intros H. assert (R : -62167219200 <= t <= 253402300799).
  { unfold ut_try_from in H. destruct ((-62167219200 <=? t) && (t <=? 253402300799)) eqn:E; [lia|discriminate]. }
  split.
  - intros N. destruct (Z.ltb_spec t 0); [assumption|]. destruct (C110_round_trip t) as (i & E & _); [lia|]. congruence.
  - intros L. unfold ut_to_system_time, systime_add_secs. replace (t mod 18446744073709551616) with (t + 18446744073709551616) by lia.
    rewrite Z2N.id by lia. unfold NS, two63.
    destruct (Z.ltb_spec (0 + (t + 18446744073709551616) * 1000000000) (9223372036854775808 * 1000000000)); [lia|reflexivity].
Qed.

Theorem C110_total_refuted : exists s t, ut_from_rfc3339 s = Ok t /\ ut_to_system_time t = None.
Proof. exists (B "1969-12-31T23:59:59Z"), (-1). split; vm_compute; reflexivity. Qed.

(** The UTC text of a second from 1970 on, as the calendar gives it: read and turned into a system time it is that second, and the system time is
    written as the same text again. *)
Theorem C110_text t s : 0 <= t <= 253402300799 -> utc_rfc3339_text t s ->
  exists read instant again, ut_from_rfc3339 s = Ok read /\ ut_to_system_time read = Some instant /\ instant = t * 1000000000 /\
    ut_from_system_time instant = Some again /\ ut_to_rfc3339 again = s.
Proof.
  intros R T. assert (O : ts_ok t) by (unfold ts_ok; lia). rewrite (utc_rfc3339_text_unique _ _ _ T (rfc3339_spec t O)).
  destruct (C110_round_trip t R) as (i & E & -> & F). exists t. do 2 eexists. split; [apply ut_from_rfc3339_print; exact O|].
  split; [exact E|]. split; [reflexivity|]. split; [exact F|reflexivity].
Qed.

Example C110_text_case : utc_rfc3339_text 1640995200 (B "2022-01-01T00:00:00Z").
Proof. change (B "2022-01-01T00:00:00Z") with (ut_to_rfc3339 1640995200). apply rfc3339_spec. unfold ts_ok. lia. Qed.
