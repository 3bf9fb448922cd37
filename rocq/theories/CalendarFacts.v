(** The model of chrono's calendar agrees with the day-by-day calendar. *)
From Verif Require Import Base BaseFacts CodecFacts SpecCalendar Time.
From Coq Require Import ZifyBool ZifyNat ZifyN Znumtheory.
Ltac Zify.zify_post_hook ::= Z.div_mod_to_equations.
Local Open Scope Z_scope.

(** * Leap years and month lengths *)

Lemma divide_mod a n : 0 < a -> ((a | n) <-> n mod a = 0).
Proof. intros Ha. split; intros H; [apply Zdivide_mod; exact H|apply Zmod_divide; [lia|exact H]]. Qed.

Lemma leap_spec y : leap y = true <-> is_leap y.
Proof.
  unfold is_leap. rewrite !divide_mod by lia. unfold leap. lia.
Qed.

Lemma leap_false y : leap y = false <-> ~ is_leap y.
Proof. rewrite <- leap_spec. destruct (leap y); split; congruence || (intros H; try congruence; exfalso; apply H; reflexivity). Qed.

Lemma leap_shift q y : leap (400 * q + y) = leap y.
Proof. unfold leap. lia. Qed.

Lemma is_leap_shift q y : is_leap (400 * q + y) <-> is_leap y.
Proof. rewrite <- !leap_spec, leap_shift. tauto. Qed.

(** Month length, computed. *)
Definition mlen (lp : bool) (m : Z) : Z := nth (Z.to_nat (m - 1)) (month_lengths lp) 0.

Lemma mlen_spec y m : 1 <= m <= 12 -> month_length y m (mlen (leap y) m).
Proof.
  intros H.
  assert (C : m = 1 \/ m = 2 \/ m = 3 \/ m = 4 \/ m = 5 \/ m = 6 \/ m = 7 \/ m = 8 \/ m = 9 \/ m = 10 \/ m = 11 \/ m = 12) by lia.
  destruct C as [->|[->|[->|[->|[->|[->|[->|[->|[->|[->|[->| ->]]]]]]]]]]];
    try (apply ml_31; cbn; tauto); try (apply ml_30; cbn; tauto).
  destruct (leap y) eqn:E; [apply ml_29; apply leap_spec; exact E|apply ml_28; apply leap_false; exact E].
Qed.

Lemma month_length_range y m len : month_length y m len -> 1 <= m <= 12 /\ 28 <= len <= 31 /\ len = mlen (leap y) m.
Proof.
  destruct 1 as [y m H|y m H|y H|y H].
  - cbn in H. intuition (subst; try lia; destruct (leap y); reflexivity).
  - cbn in H. intuition (subst; try lia; destruct (leap y); reflexivity).
  - apply leap_spec in H. rewrite H. repeat split; try lia.
  - apply leap_false in H. rewrite H. repeat split; try lia.
Qed.

(** * Properties of the specification *)

Lemma next_day_fun d a b : next_day d a -> next_day d b -> a = b.
Proof.
  intros Ha Hb. destruct Ha as [y m d len Hl Hd|y m len Hl Hm|y]; inversion Hb; subst;
    repeat match goal with H : month_length _ _ _ |- _ => apply month_length_range in H; destruct H as (? & ? & ->) end;
    try reflexivity; try lia;
    try (exfalso; cbn in *; lia).
  all: try (exfalso; change (mlen (leap y) 12) with (if leap y then 31 else 31) in *; destruct (leap y); lia).
Qed.

Lemma next_day_inj d a b : next_day a d -> next_day b d -> a = b.
Proof.
  intros Ha Hb. destruct Ha as [y m d len Hl Hd|y m len Hl Hm|y]; inversion Hb; subst;
    repeat match goal with H : month_length _ _ _ |- _ => apply month_length_range in H; destruct H as (? & ? & ->) end;
    try reflexivity; try lia; try (f_equal; lia).
  assert (m0 = m) by lia. subst. reflexivity.
Qed.

(** Calendar order. *)
Definition date_lt (a b : date) : Prop :=
  year a < year b \/ (year a = year b /\ (month a < month b \/ (month a = month b /\ day a < day b))).

Lemma date_lt_trans a b c : date_lt a b -> date_lt b c -> date_lt a c.
Proof. unfold date_lt. lia. Qed.

Lemma date_lt_irrefl a : ~ date_lt a a.
Proof. unfold date_lt. lia. Qed.

Lemma next_day_lt a b : next_day a b -> date_lt a b.
Proof. destruct 1; unfold date_lt; cbn; lia. Qed.

Definition date_ok (d : date) : Prop :=
  1 <= month d <= 12 /\ 1 <= day d /\ day d <= mlen (leap (year d)) (month d).

Lemma mlen_pos lp m : 1 <= m <= 12 -> 28 <= mlen lp m <= 31.
Proof.
  intros H.
  assert (C : m = 1 \/ m = 2 \/ m = 3 \/ m = 4 \/ m = 5 \/ m = 6 \/ m = 7 \/ m = 8 \/ m = 9 \/ m = 10 \/ m = 11 \/ m = 12) by lia.
  destruct C as [->|[->|[->|[->|[->|[->|[->|[->|[->|[->|[->| ->]]]]]]]]]]]; destruct lp; (split; vm_compute; discriminate).
Qed.

Lemma next_day_ok_r a b : next_day a b -> date_ok b.
Proof.
  destruct 1 as [y m d len Hl Hd|y m len Hl Hm|y]; unfold date_ok; cbn [year month day].
  - apply month_length_range in Hl. lia.
  - apply month_length_range in Hl. pose proof (mlen_pos (leap y) (m + 1)). lia.
  - pose proof (mlen_pos (leap (y + 1)) 1). lia.
Qed.

Lemma next_day_ok_l a b : next_day a b -> date_ok a.
Proof.
  destruct 1 as [y m d len Hl Hd|y m len Hl Hm|y]; unfold date_ok; cbn [year month day].
  - apply month_length_range in Hl. lia.
  - apply month_length_range in Hl. lia.
  - replace (mlen (leap y) 12) with 31 by (destruct (leap y); reflexivity). lia.
Qed.

(** Two dates per day number cannot be. *)
Lemma date_of_day_after n d : 0 < n -> date_of_day n d ->
  exists d0, date_of_day (n - 1) d0 /\ next_day d0 d.
Proof.
  intros Hn H. inversion H; subst; try lia.
  eexists. split; [|eassumption]. replace (n0 + 1 - 1) with n0 by lia. assumption.
Qed.

Lemma date_of_day_before n d : n < 0 -> date_of_day n d ->
  exists d0, date_of_day (n + 1) d0 /\ next_day d d0.
Proof.
  intros Hn H. inversion H; subst; try lia.
  eexists. split; [|eassumption]. replace (n0 - 1 + 1) with n0 by lia. assumption.
Qed.

Lemma date_of_day_unique n d1 d2 : date_of_day n d1 -> date_of_day n d2 -> d1 = d2.
Proof.
  intros H1. revert d2. induction H1 as [|n d d' Hn H IH Hs|n d d' Hn H IH Hs]; intros d2 H2.
  - inversion H2; subst; try lia. reflexivity.
  - apply date_of_day_after in H2; [|lia]. destruct H2 as (d0 & H0 & Hs0).
    replace (n + 1 - 1) with n in H0 by lia. rewrite <- (IH _ H0) in Hs0.
    eapply next_day_fun; eassumption.
  - apply date_of_day_before in H2; [|lia]. destruct H2 as (d0 & H0 & Hs0).
    replace (n - 1 + 1) with n in H0 by lia. rewrite <- (IH _ H0) in Hs0.
    eapply next_day_inj; eassumption.
Qed.

(** * The 400-year cycle *)

(** Year, month, day of a day of the cycle. *)
Definition cyc (c : Z) : Z * Z * Z :=
  let '(ym, o) := cycle_to_yo c in
  let '(m, dd) := month_day 1 (month_lengths (leap ym)) o in (ym, m, dd).

Lemma civil_cyc days :
  civil_of_days days =
  let d := days + 719528 in
  let '(y, m, dd) := cyc (d mod 146097) in (400 * (d / 146097) + y, m, dd).
Proof.
  unfold civil_of_days, cyc. cbv zeta. replace (days + 719163 + 365) with (days + 719528) by lia.
  destruct (cycle_to_yo _) as [ym o].
  replace ((days + 719528) / 146097 * 400 + ym) with (400 * ((days + 719528) / 146097) + ym) by lia.
  rewrite leap_shift. destruct (month_day _ _ _) as [m dd]. reflexivity.
Qed.

(** [next_day] as a check. *)
Definition nextb (a b : Z * Z * Z) : bool :=
  let '(y, m, d) := a in
  let '(y', m', d') := b in
  (1 <=? m) && (m <=? 12) && (1 <=? d) &&
  (if d <? mlen (leap y) m then (y' =? y) && (m' =? m) && (d' =? d + 1)
   else (d =? mlen (leap y) m) && (d' =? 1) &&
        (if m <? 12 then (y' =? y) && (m' =? m + 1) else (y' =? y + 1) && (m' =? 1))).

Definition mk (a : Z * Z * Z) : date := let '(y, m, d) := a in mkdate y m d.

Lemma nextb_spec a b : nextb a b = true -> next_day (mk a) (mk b).
Proof.
  destruct a as [[y m] d], b as [[y' m'] d']. unfold nextb, mk. intros H.
  apply andb_true_iff in H. destruct H as [H0 H].
  assert (Hm : 1 <= m <= 12) by lia. assert (Hd : 1 <= d) by lia. clear H0.
  pose proof (mlen_spec y m Hm) as Hl.
  destruct (Z.ltb_spec d (mlen (leap y) m)) as [Hlt|Hge].
  - assert (y' = y /\ m' = m /\ d' = d + 1) as (-> & -> & ->) by lia. eapply nd_day; [exact Hl|lia].
  - destruct (Z.ltb_spec m 12).
    + assert (d = mlen (leap y) m /\ y' = y /\ m' = m + 1 /\ d' = 1) as (-> & -> & -> & ->) by lia.
      apply nd_month; [exact Hl|lia].
    + assert (d = mlen (leap y) m /\ y' = y + 1 /\ m' = 1 /\ d' = 1) as (-> & -> & -> & ->) by lia.
      assert (m = 12) as -> by lia. replace (mlen (leap y) 12) with 31 by (destruct (leap y); reflexivity).
      apply nd_year.
Qed.

(** Day number of a date by chrono's formula, relative to 0000-01-01, for a year of the cycle. *)
Definition day_no (y m d : Z) : Z :=
  let lens := month_lengths (leap y) in
  let ordinal := fold_right Z.add 0 (firstn (Z.to_nat (m - 1)) lens) + d in
  (y - 1) * 1461 / 4 - (y - 1) / 100 + (y - 1) / 100 / 4 + ordinal + 365.

(** Days of a year beyond 365, and the leap days before it. *)
Definition lb (b : bool) : Z := if b then 1 else 0.

Fixpoint zsweep (p : Z -> bool) (fuel : nat) (c : Z) : bool :=
  match fuel with
  | O => true
  | S f => p c && zsweep p f (c + 1)
  end.

Lemma zsweep_spec p fuel c : zsweep p fuel c = true -> forall x, c <= x < c + Z.of_nat fuel -> p x = true.
Proof.
  revert c; induction fuel as [|f IH]; intros c H x Hx; [lia|].
  cbn [zsweep] in H. apply andb_true_iff in H. destruct H as [H1 H2].
  destruct (Z.eq_dec x c) as [->|Hn]; [exact H1|]. apply (IH (c + 1) H2). lia.
Qed.

Lemma year_facts y : 0 <= y < 400 ->
  year_delta (y + 1) = year_delta y + lb (leap y) /\ 0 <= year_delta y <= 97 /\
  (y - 1) * 1461 / 4 - (y - 1) / 100 + (y - 1) / 100 / 4 + 366 = 365 * y + year_delta y.
Proof.
  intros H.
  assert (S : zsweep (fun y => (year_delta (y + 1) =? year_delta y + lb (leap y)) && (0 <=? year_delta y) && (year_delta y <=? 97)
    && ((y - 1) * 1461 / 4 - (y - 1) / 100 + (y - 1) / 100 / 4 + 366 =? 365 * y + year_delta y)) 400 0 = true)
    by (vm_compute; reflexivity).
  pose proof (zsweep_spec _ _ _ S y ltac:(lia)) as K. cbv beta in K.
  rewrite !andb_true_iff in K. destruct K as (((K1 & K2) & K3) & K4).
  apply Z.eqb_eq in K1, K4. apply Z.leb_le in K2, K3. auto.
Qed.

Lemma yo_spec c : 0 <= c < 146097 ->
  let '(y, o) := cycle_to_yo c in
  0 <= y < 400 /\ 0 <= o < 365 + lb (leap y) /\ c = 365 * y + year_delta y + o.
Proof.
  intros H. unfold cycle_to_yo.
  assert (Hy : 0 <= c / 365 <= 400) by lia. assert (Ho : 0 <= c mod 365 < 365) by lia.
  assert (Hc : c = 365 * (c / 365) + c mod 365) by lia.
  set (y := c / 365) in *. set (o := c mod 365) in *. clearbody y o. subst c.
  destruct (Z.ltb_spec o (year_delta y)) as [L|L].
  - assert (y <> 0) by (intros ->; change (year_delta 0) with 0 in L; lia).
    destruct (year_facts (y - 1) ltac:(lia)) as (F1 & F2 & _). replace (y - 1 + 1) with y in F1 by lia.
    destruct (leap (y - 1)); unfold lb in *; lia.
  - assert (y < 400) by (destruct (Z.eq_dec y 400) as [->|]; [change (year_delta 400) with 97 in L; lia|lia]).
    destruct (year_facts y ltac:(lia)) as (F1 & F2 & _). destruct (leap y); unfold lb in *; lia.
Qed.

Lemma yo_unique y o y' o' : 0 <= y < 400 -> 0 <= y' < 400 ->
  0 <= o < 365 + lb (leap y) -> 0 <= o' < 365 + lb (leap y') ->
  365 * y + year_delta y + o = 365 * y' + year_delta y' + o' -> y = y' /\ o = o'.
Proof.
  assert (G : forall y o y' o', 0 <= y < 400 -> 0 <= y' < 400 ->
    0 <= o < 365 + lb (leap y) -> 0 <= o' -> y < y' ->
    365 * y + year_delta y + o < 365 * y' + year_delta y' + o').
  { clear. intros y o y' o' Hy Hy' Ho Ho' L.
    destruct (year_facts y Hy) as (F1 & F2 & _). destruct (year_facts y' Hy') as (_ & F2' & _).
    destruct (Z.eq_dec y' (y + 1)) as [->|]; [lia|].
    destruct (year_facts (y + 1) ltac:(lia)) as (_ & F3 & _). lia. }
  intros Hy Hy' Ho Ho' E. destruct (Z.lt_trichotomy y y') as [L|[->|L]].
  - pose proof (G y o y' o' Hy Hy' Ho ltac:(lia) L). lia.
  - lia.
  - pose proof (G y' o' y o Hy' Hy Ho' ltac:(lia) L). lia.
Qed.

Lemma yo_next c : 0 <= c < 146096 ->
  let '(y, o) := cycle_to_yo c in
  cycle_to_yo (c + 1) = if o + 1 <? 365 + lb (leap y) then (y, o + 1) else (y + 1, 0).
Proof.
  intros H. pose proof (yo_spec c ltac:(lia)) as S1. pose proof (yo_spec (c + 1) ltac:(lia)) as S2.
  destruct (cycle_to_yo c) as [y o]. destruct (cycle_to_yo (c + 1)) as [y' o'].
  destruct S1 as (Y1 & O1 & E1). destruct S2 as (Y2 & O2 & E2).
  destruct (year_facts y Y1) as (F1 & F2 & _).
  destruct (Z.ltb_spec (o + 1) (365 + lb (leap y))) as [L|L].
  - destruct (yo_unique y' o' y (o + 1)) as [-> ->]; try lia. reflexivity.
  - assert (y + 1 < 400).
    { destruct (Z.eq_dec y 399) as [->|]; [|lia]. change (year_delta 399) with 97 in *. change (leap 399) with false in *. cbn [lb] in *. lia. }
    destruct (yo_unique y' o' (y + 1) 0) as [-> ->]; try lia.
    + destruct (leap (y + 1)); cbn; lia.
    + reflexivity.
Qed.

(** Days of one year. *)
Definition md_check (lp : bool) (o : Z) : bool :=
  let '(m, d) := month_day 1 (month_lengths lp) o in
  let '(m', d') := month_day 1 (month_lengths lp) (o + 1) in
  (1 <=? m) && (m <=? 12) && (1 <=? d) && (d <=? mlen lp m) &&
  (fold_right Z.add 0 (firstn (Z.to_nat (m - 1)) (month_lengths lp)) + d =? o + 1) &&
  (if d <? mlen lp m then ((m' =? m) && (d' =? d + 1)) && (o + 1 <? 365 + lb lp)
   else (if m <? 12 then (m' =? m + 1) && (d' =? 1) && (o + 1 <? 365 + lb lp) else o + 1 =? 365 + lb lp)).

Lemma md_all lp o : 0 <= o < 365 + lb lp -> md_check lp o = true.
Proof.
  intros H. assert (S : zsweep (md_check lp) (365 + (if lp then 1 else 0)) 0 = true)
    by (destruct lp; vm_compute; reflexivity).
  apply (zsweep_spec _ _ _ S). destruct lp; cbn [lb] in *; lia.
Qed.

Lemma cyc_day_no c : 0 <= c < 146097 -> let '(y, m, d) := cyc c in day_no y m d = c /\ 0 <= y < 400.
Proof.
  intros H. unfold cyc. pose proof (yo_spec c H) as S. destruct (cycle_to_yo c) as [y o].
  destruct S as (Y & O & E). pose proof (md_all (leap y) o O) as M. unfold md_check in M.
  destruct (month_day 1 (month_lengths (leap y)) o) as [m d].
  destruct (month_day 1 (month_lengths (leap y)) (o + 1)) as [m' d'].
  rewrite !andb_true_iff in M. destruct M as (((((M1 & M2) & M3) & M4) & M5) & M6).
  split; [|exact Y]. unfold day_no. cbv zeta. destruct (year_facts y Y) as (_ & _ & F).
  apply Z.eqb_eq in M5. rewrite M5. lia.
Qed.

Lemma cyc_step c : 0 <= c < 146096 -> nextb (cyc c) (cyc (c + 1)) = true.
Proof.
  intros H. unfold cyc. pose proof (yo_spec c ltac:(lia)) as S. pose proof (yo_next c H) as N.
  destruct (cycle_to_yo c) as [y o]. destruct S as (Y & O & E). rewrite N. clear N E H.
  pose proof (md_all (leap y) o O) as M. unfold md_check in M.
  destruct (Z.ltb_spec (o + 1) (365 + lb (leap y))) as [L|L].
  - destruct (month_day 1 (month_lengths (leap y)) o) as [m d].
    destruct (month_day 1 (month_lengths (leap y)) (o + 1)) as [m' d'].
    unfold nextb. rewrite !andb_true_iff in M. destruct M as (((((M1 & M2) & M3) & M4) & M5) & M6).
    rewrite M1, M2, M3. cbn [andb]. destruct (d <? mlen (leap y) m) eqn:D.
    + lia.
    + destruct (m <? 12); [|lia]. clear M5. set (q := mlen (leap y) m) in *. clearbody q. lia.
  - destruct (month_day 1 (month_lengths (leap y)) o) as [m d].
    destruct (month_day 1 (month_lengths (leap y)) (o + 1)) as [m' d'].
    assert (Z1 : month_day 1 (month_lengths (leap (y + 1))) 0 = (1, 1)) by (destruct (leap (y + 1)); reflexivity).
    rewrite Z1. unfold nextb. rewrite !andb_true_iff in M. destruct M as (((((M1 & M2) & M3) & M4) & M5) & M6).
    rewrite M1, M2, M3. cbn [andb]. clear M5. destruct (d <? mlen (leap y) m) eqn:D; [lia|].
    destruct (m <? 12); [lia|]. set (q := mlen (leap y) m) in *. clearbody q. lia.
Qed.

Lemma cyc_last : cyc 146096 = (399, 12, 31).
Proof. reflexivity. Qed.
Lemma cyc_first : cyc 0 = (0, 1, 1).
Proof. reflexivity. Qed.

Lemma nextb_shift q a b : nextb a b = true ->
  nextb (let '(y, m, d) := a in (400 * q + y, m, d)) (let '(y, m, d) := b in (400 * q + y, m, d)) = true.
Proof.
  destruct a as [[y m] d], b as [[y' m'] d']. unfold nextb. rewrite leap_shift.
  generalize (mlen (leap y) m). intros n H.
  repeat match goal with |- context [if ?c then _ else _] => destruct c eqn:? end; lia.
Qed.

Lemma civil_step days : next_day (mk (civil_of_days days)) (mk (civil_of_days (days + 1))).
Proof.
  rewrite !civil_cyc. cbv zeta. replace (days + 1 + 719528) with (days + 719528 + 1) by lia.
  set (d := days + 719528). clearbody d.
  assert (Hr : 0 <= d mod 146097 < 146097) by lia.
  destruct (Z.eq_dec (d mod 146097) 146096) as [E|E].
  - assert (E1 : (d + 1) mod 146097 = 0) by lia. assert (E2 : (d + 1) / 146097 = d / 146097 + 1) by lia.
    rewrite E, E1, E2, cyc_last, cyc_first. unfold mk.
    replace (400 * (d / 146097 + 1) + 0) with (400 * (d / 146097) + 399 + 1) by lia. apply nd_year.
  - assert (E1 : (d + 1) mod 146097 = d mod 146097 + 1) by lia. assert (E2 : (d + 1) / 146097 = d / 146097) by lia.
    rewrite E1, E2. pose proof (cyc_step (d mod 146097) ltac:(lia)) as S.
    apply (nextb_shift (d / 146097)) in S. apply nextb_spec in S. exact S.
Qed.

(** The model's calendar is the specified one, for every day of the proleptic calendar. *)
Lemma civil_correct days : date_of_day days (mk (civil_of_days days)).
Proof.
  destruct (Z.le_gt_cases 0 days) as [H|H].
  - revert days H. apply natlike_ind.
    + exact dd_epoch.
    + intros n Hn IH. change (Z.succ n) with (n + 1). eapply dd_after; [exact Hn|exact IH|apply civil_step].
  - assert (G : forall k, 0 <= k -> date_of_day (- k) (mk (civil_of_days (- k)))).
    { apply natlike_ind.
      - exact dd_epoch.
      - intros n Hn IH. replace (- Z.succ n) with (- n - 1) by lia.
        eapply dd_before; [lia|exact IH|].
        pose proof (civil_step (- n - 1)) as S. replace (- n - 1 + 1) with (- n) in S by lia. exact S. }
    specialize (G (- days) ltac:(lia)). replace (- - days) with days in G by lia. exact G.
Qed.

Lemma civil_ok days : date_ok (mk (civil_of_days days)).
Proof. eapply next_day_ok_l. apply civil_step. Qed.

Lemma civil_lt a b : a < b -> date_lt (mk (civil_of_days a)) (mk (civil_of_days b)).
Proof.
  intros H. replace b with (a + 1 + (b - a - 1)) by lia.
  assert (Hk : 0 <= b - a - 1) by lia. revert Hk. generalize (b - a - 1). apply natlike_ind.
  - rewrite Z.add_0_r. apply next_day_lt. apply civil_step.
  - intros n Hn IH. replace (a + 1 + Z.succ n) with (a + 1 + n + 1) by lia.
    eapply date_lt_trans; [exact IH|]. apply next_day_lt. apply civil_step.
Qed.

(** * From dates to days *)

Lemma day_no_shift q y m d : day_no (400 * q + y) m d = 146097 * q + day_no y m d.
Proof.
  unfold day_no. rewrite leap_shift.
  set (o := fold_right Z.add 0 (firstn (Z.to_nat (m - 1)) (month_lengths (leap y)))). clearbody o. cbv zeta. lia.
Qed.

Lemma days_of_civil_day_no y m d : date_ok (mkdate y m d) -> days_of_civil y m d = Some (day_no y m d - 719528).
Proof.
  intros (H1 & H2 & H3). cbn [year month day] in *. unfold days_of_civil. cbv zeta.
  fold (mlen (leap y) m).
  replace (negb ((1 <=? m) && (m <=? 12))) with false by lia.
  replace (negb ((1 <=? d) && (d <=? mlen (leap y) m))) with false by lia.
  f_equal. unfold day_no. cbv zeta.
  set (o := fold_right Z.add 0 (firstn (Z.to_nat (m - 1)) (month_lengths (leap y)))). clearbody o.
  destruct (Z.ltb_spec (y - 1) 0); lia.
Qed.

Lemma days_of_civil_inv days :
  let '(y, m, d) := civil_of_days days in days_of_civil y m d = Some days.
Proof.
  pose proof (civil_ok days) as Hok. rewrite civil_cyc in *. cbv zeta in *.
  pose proof (cyc_day_no ((days + 719528) mod 146097) ltac:(lia)) as Hc.
  destruct (cyc ((days + 719528) mod 146097)) as [[y m] d]. destruct Hc as [Hc Hy].
  cbn [mk] in Hok. rewrite days_of_civil_day_no by exact Hok. rewrite day_no_shift, Hc. f_equal. lia.
Qed.

Definition year_start (y : Z) : Z := (y - 1) * 1461 / 4 - (y - 1) / 100 + (y - 1) / 100 / 4.

Lemma year_start_step y : year_start (y + 1) = year_start y + 365 + (if leap y then 1 else 0).
Proof.
  unfold year_start. replace (y + 1 - 1) with y by lia. rewrite !Z.div_div by lia. change (100 * 4) with 400.
  assert (E1 : y * 1461 / 4 = 365 * y + y / 4) by lia.
  assert (E2 : (y - 1) * 1461 / 4 = 365 * (y - 1) + (y - 1) / 4) by lia.
  rewrite E1, E2. clear E1 E2. unfold leap.
  assert (D4 : y / 4 = (y - 1) / 4 + (if y mod 4 =? 0 then 1 else 0)) by (destruct (Z.eqb_spec (y mod 4) 0); lia).
  assert (D100 : y / 100 = (y - 1) / 100 + (if y mod 100 =? 0 then 1 else 0)) by (destruct (Z.eqb_spec (y mod 100) 0); lia).
  assert (D400 : y / 400 = (y - 1) / 400 + (if y mod 400 =? 0 then 1 else 0)) by (destruct (Z.eqb_spec (y mod 400) 0); lia).
  rewrite D4, D100, D400.
  destruct (Z.eqb_spec (y mod 4) 0), (Z.eqb_spec (y mod 100) 0), (Z.eqb_spec (y mod 400) 0); cbn [andb negb orb]; lia.
Qed.

Lemma year_start_lt y y' : y < y' -> year_start y + 365 + (if leap y then 1 else 0) <= year_start y'.
Proof.
  intros H. replace y' with (y + 1 + (y' - y - 1)) by lia. assert (Hk : 0 <= y' - y - 1) by lia.
  revert Hk. generalize (y' - y - 1). apply natlike_ind.
  - rewrite Z.add_0_r, year_start_step. lia.
  - intros n Hn IH. replace (y + 1 + Z.succ n) with (y + 1 + n + 1) by lia. rewrite year_start_step.
    destruct (leap (y + 1 + n)); lia.
Qed.

(** Any valid date converts to the day the calendar gives it. *)
Lemma days_of_civil_sound y m d days : days_of_civil y m d = Some days -> date_of_day days (mkdate y m d).
Proof.
  intros H. assert (Hok : date_ok (mkdate y m d)).
  { unfold days_of_civil in H. cbv zeta in H. fold (mlen (leap y) m) in H.
    destruct (negb ((1 <=? m) && (m <=? 12))) eqn:E1; [discriminate|].
    destruct (negb ((1 <=? d) && (d <=? mlen (leap y) m))) eqn:E2; [discriminate|].
    unfold date_ok. cbn [year month day]. lia. }
  (* the date reached at that day number is the only valid date with it *)
  pose proof (civil_correct days) as Hc. pose proof (days_of_civil_inv days) as Hi.
  pose proof (civil_ok days) as Hok'.
  destruct (civil_of_days days) as [[y' m'] d'] eqn:E. cbn [mk] in *.
  rewrite days_of_civil_day_no in H, Hi by assumption.
  injection H as H. injection Hi as Hi.
  assert (Hd : day_no y m d = day_no y' m' d') by lia.
  assert (Heq : mkdate y m d = mkdate y' m' d').
  { (* both are valid; compare with calendar order through their own day numbers *)
    assert (Inj : forall y m d y' m' d', date_ok (mkdate y m d) -> date_ok (mkdate y' m' d') ->
              date_lt (mkdate y m d) (mkdate y' m' d') -> day_no y m d < day_no y' m' d').
    { clear. intros y m d y' m' d' (A1 & A2 & A3) (B1 & B2 & B3) L. cbn [year month day] in *.
      unfold date_lt in L. cbn [year month day] in L.
      assert (O : forall y m, 1 <= m <= 12 ->
        0 <= fold_right Z.add 0 (firstn (Z.to_nat (m - 1)) (month_lengths (leap y))) /\
        fold_right Z.add 0 (firstn (Z.to_nat (m - 1)) (month_lengths (leap y))) + mlen (leap y) m <= 365 + (if leap y then 1 else 0) /\
        forall m2, m < m2 <= 12 ->
          fold_right Z.add 0 (firstn (Z.to_nat (m - 1)) (month_lengths (leap y))) + mlen (leap y) m
          <= fold_right Z.add 0 (firstn (Z.to_nat (m2 - 1)) (month_lengths (leap y)))).
      { clear. intros y m Hm. destruct (leap y).
        all: assert (C : m = 1 \/ m = 2 \/ m = 3 \/ m = 4 \/ m = 5 \/ m = 6 \/ m = 7 \/ m = 8 \/ m = 9 \/ m = 10 \/ m = 11 \/ m = 12) by lia.
        all: destruct C as [->|[->|[->|[->|[->|[->|[->|[->|[->|[->|[->| ->]]]]]]]]]]]; (split; [vm_compute; discriminate|split; [vm_compute; discriminate|]]).
        all: intros m2 Hm2.
        all: assert (C : m2 = 2 \/ m2 = 3 \/ m2 = 4 \/ m2 = 5 \/ m2 = 6 \/ m2 = 7 \/ m2 = 8 \/ m2 = 9 \/ m2 = 10 \/ m2 = 11 \/ m2 = 12) by lia.
        all: destruct C as [->|[->|[->|[->|[->|[->|[->|[->|[->|[->| ->]]]]]]]]]]; try lia; vm_compute; discriminate. }
      unfold day_no. cbv zeta.
      destruct L as [L|[-> [L|[-> L]]]].
      - pose proof (O y m A1) as (_ & O2 & _). pose proof (O y' m' B1) as (O3 & _ & _).
        set (o := fold_right Z.add 0 (firstn (Z.to_nat (m - 1)) (month_lengths (leap y)))) in *.
        set (o' := fold_right Z.add 0 (firstn (Z.to_nat (m' - 1)) (month_lengths (leap y')))) in *.
        clearbody o o'. clear O. pose proof (year_start_lt y y' L) as Y. unfold year_start in Y. lia.
      - pose proof (O y' m A1) as (_ & _ & O2). specialize (O2 m' ltac:(lia)). lia.
      - lia. }
    destruct (Z.lt_trichotomy y y') as [L|[->|L]].
    - specialize (Inj _ _ _ _ _ _ Hok Hok'). unfold date_lt in Inj. cbn [year month day] in Inj. lia.
    - destruct (Z.lt_trichotomy m m') as [L|[->|L]].
      + specialize (Inj _ _ _ _ _ _ Hok Hok'). unfold date_lt in Inj. cbn [year month day] in Inj. lia.
      + unfold day_no in Hd. cbv zeta in Hd. f_equal. lia.
      + specialize (Inj _ _ _ _ _ _ Hok' Hok). unfold date_lt in Inj. cbn [year month day] in Inj. lia.
    - specialize (Inj _ _ _ _ _ _ Hok' Hok). unfold date_lt in Inj. cbn [year month day] in Inj. lia. }
  rewrite Heq. exact Hc.
Qed.
