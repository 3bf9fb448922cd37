(** Timestamps: texts, parsing, order. *)
From Verif Require Import Base BaseFacts CodecFacts SpecCalendar Time CalendarFacts.
From Coq Require Import ZifyBool ZifyNat ZifyN Znumtheory.
Ltac Zify.zify_post_hook ::= Z.div_mod_to_equations.
Local Open Scope Z_scope.

(** * Fixed-width decimals *)

Lemma undec_acc_zeros k acc s : undec_acc 0 (repeat "0"%byte k ++ s) = undec_acc 0 s /\ (acc = 0%N -> undec_acc acc (repeat "0"%byte k ++ s) = undec_acc acc s).
Proof.
  induction k as [|k [IH1 IH2]]; [split; reflexivity|]. split.
  - cbn [repeat app undec_acc]. change (is_digit "0"%byte) with true. cbv iota.
    change (10 * 0 + (bN "0"%byte - 48))%N with 0%N. exact IH1.
  - intros ->. cbn [repeat app undec_acc]. change (is_digit "0"%byte) with true. cbv iota.
    change (10 * 0 + (bN "0"%byte - 48))%N with 0%N. exact IH1.
Qed.

Lemma dec_length_fuel fuel n w : (n < 10 ^ N.of_nat w)%N -> (1 <= w)%nat -> (length (dec_fuel fuel n) <= w)%nat.
Proof.
  revert n w; induction fuel as [|f IH]; intros n w Hn Hw; cbn [dec_fuel]; [cbn; lia|].
  destruct (N.ltb_spec n 10) as [H|H]; [cbn; lia|].
  rewrite app_length. cbn [length].
  destruct w as [|[|w]]; [lia| |].
  - change (10 ^ N.of_nat 1)%N with 10%N in Hn. lia.
  - assert (L : (length (dec_fuel f (n / 10)) <= S w)%nat); [|lia].
    apply IH; [|lia]. apply N.div_lt_upper_bound; [lia|].
    replace (N.of_nat (S (S w))) with (N.succ (N.of_nat (S w))) in Hn by lia.
    rewrite N.pow_succ_r' in Hn. exact Hn.
Qed.

Lemma dec_length n w : (n < 10 ^ N.of_nat w)%N -> (1 <= w)%nat -> (length (dec n) <= w)%nat.
Proof. apply dec_length_fuel. Qed.

Lemma pad0_length w s : (length s <= w)%nat -> length (pad0 w s) = w.
Proof. intros H. unfold pad0. rewrite app_length, repeat_length. lia. Qed.

Lemma pad0_digits w s : Forall (fun c => is_digit c = true) s -> Forall (fun c => is_digit c = true) (pad0 w s).
Proof.
  intros H. unfold pad0. apply Forall_app. split; [|exact H]. apply Forall_forall. intros x Hx.
  apply repeat_spec in Hx. subst. reflexivity.
Qed.

Lemma undec_pad0 w s n : undec s = Some n -> undec (pad0 w s) = Some n.
Proof.
  intros H. unfold undec in *. destruct s as [|c s]; [discriminate|].
  unfold pad0. destruct (repeat "0"%byte (w - length (c :: s)) ++ c :: s) eqn:E.
  - destruct (repeat "0"%byte (w - length (c :: s))); discriminate E.
  - rewrite <- E. destruct (undec_acc_zeros (w - length (c :: s)) 0 (c :: s)) as [-> _]. exact H.
Qed.

Lemma fmt_digits w z : 0 <= z < 10 ^ Z.of_nat w -> (1 <= w)%nat -> digits w z (fmt w z).
Proof.
  intros Hz Hw. unfold digits, fmt. split; [|split; [|split]].
  - apply pad0_length. apply dec_length; [|exact Hw].
    apply N2Z.inj_lt. rewrite N2Z.inj_pow, Z2N.id by lia. rewrite nat_N_Z. change (Z.of_N 10) with 10. lia.
  - apply pad0_digits. apply dec_digits.
  - apply undec_pad0. apply undec_dec.
  - lia.
Qed.

(** A digit string is determined by its length and value. *)
Lemma undec_acc_bounds s acc n : undec_acc acc s = Some n ->
  (acc * 10 ^ N.of_nat (length s) <= n < (acc + 1) * 10 ^ N.of_nat (length s))%N.
Proof.
  revert acc; induction s as [|c s IH]; intros acc H.
  - cbn in H. injection H as ->. cbn [length]. change (10 ^ N.of_nat 0)%N with 1%N. lia.
  - cbn [undec_acc] in H. destruct (is_digit c) eqn:E; [|discriminate]. apply is_digit_range in E.
    apply IH in H. cbn [length]. rewrite Nat2N.inj_succ, N.pow_succ_r'.
    set (p := (10 ^ N.of_nat (length s))%N) in *. clearbody p. nia.
Qed.

Lemma undec_acc_inj s1 s2 acc1 acc2 n : length s1 = length s2 ->
  undec_acc acc1 s1 = Some n -> undec_acc acc2 s2 = Some n -> acc1 = acc2 /\ s1 = s2.
Proof.
  revert s2 acc1 acc2; induction s1 as [|c1 s1 IH]; intros [|c2 s2] acc1 acc2 L H1 H2; try discriminate L.
  - cbn in *. split; congruence.
  - cbn [undec_acc] in *. destruct (is_digit c1) eqn:E1; [|discriminate]. destruct (is_digit c2) eqn:E2; [|discriminate].
    destruct (IH s2 _ _ ltac:(cbn in L; lia) H1 H2) as [Ha ->].
    apply is_digit_range in E1, E2. assert (bN c1 = bN c2) by lia. split; [lia|]. f_equal. apply bN_inj. exact H.
Qed.

Lemma digits_unique w n s1 s2 : digits w n s1 -> digits w n s2 -> s1 = s2.
Proof.
  intros (L1 & _ & U1 & _) (L2 & _ & U2 & _). unfold undec in *.
  destruct s1 as [|c1 s1]; [discriminate|]. destruct s2 as [|c2 s2]; [discriminate|].
  eapply undec_acc_inj; [|exact U1|exact U2]. congruence.
Qed.

Lemma digits_value w n m s : digits w n s -> digits w m s -> n = m.
Proof. intros (_ & _ & U1 & P1) (_ & _ & U2 & P2). rewrite U1 in U2. injection U2 as U2. lia. Qed.

(** Text order of equally long digit strings is numeric order. *)
Lemma undec_acc_leb s1 s2 acc1 acc2 n1 n2 : length s1 = length s2 ->
  undec_acc acc1 s1 = Some n1 -> undec_acc acc2 s2 = Some n2 -> acc1 = acc2 ->
  str_leb s1 s2 = (n1 <=? n2)%N.
Proof.
  revert s2 acc1 acc2; induction s1 as [|c1 s1 IH]; intros [|c2 s2] acc1 acc2 L H1 H2 Ha; try discriminate L.
  - cbn in *. injection H1 as <-. injection H2 as <-. subst. rewrite N.leb_refl. reflexivity.
  - cbn [undec_acc] in *. destruct (is_digit c1) eqn:E1; [|discriminate]. destruct (is_digit c2) eqn:E2; [|discriminate].
    apply is_digit_range in E1, E2. cbn [str_leb]. injection L as L. subst acc2.
    pose proof (undec_acc_bounds _ _ _ H1) as B1. pose proof (undec_acc_bounds _ _ _ H2) as B2. rewrite L in B1.
    set (p := (10 ^ N.of_nat (length s2))%N) in *. clearbody p.
    destruct (N.ltb_spec (bN c1) (bN c2)); [symmetry; apply N.leb_le; nia|].
    destruct (N.ltb_spec (bN c2) (bN c1)); [symmetry; apply N.leb_gt; nia|].
    eapply IH; [exact L|exact H1|exact H2|]. lia.
Qed.

Lemma digits_leb w n m s t : digits w n s -> digits w m t -> str_leb s t = (n <=? m).
Proof.
  intros (L1 & _ & U1 & P1) (L2 & _ & U2 & P2). unfold undec in *.
  destruct s as [|c1 s]; [discriminate|]. destruct t as [|c2 t]; [discriminate|].
  rewrite (undec_acc_leb _ _ 0 0 (Z.to_N n) (Z.to_N m)) by congruence. lia.
Qed.

Lemma digits_eq_iff w n m s t : digits w n s -> digits w m t -> (s = t <-> n = m).
Proof.
  intros H1 H2. split; intros E.
  - subst. eapply digits_value; eassumption.
  - subst. eapply digits_unique; eassumption.
Qed.

Lemma str_leb_app a b c d : length a = length b ->
  str_leb (a ++ c) (b ++ d) = if str_eqb a b then str_leb c d else str_leb a b.
Proof.
  revert b; induction a as [|x a IH]; intros [|y b] L; try discriminate L; [reflexivity|].
  cbn [app str_leb str_eqb]. injection L as L. rewrite IH by exact L.
  destruct (beq_spec x y) as [->|Hn].
  - rewrite N.ltb_irrefl. cbn [andb]. reflexivity.
  - cbn [andb]. destruct (N.ltb_spec (bN x) (bN y)); [reflexivity|].
    destruct (N.ltb_spec (bN y) (bN x)); [reflexivity|].
    exfalso. apply Hn. apply bN_inj. lia.
Qed.

(** * Civil time of a timestamp *)

Definition dt_date (c : datetime) : date := mkdate (dt_year c) (dt_month c) (dt_day c).

Lemma datetime_spec t :
  let c := datetime_of_timestamp t in
  utc_of_seconds t (dt_date c) (dt_hour c) (dt_min c) (dt_sec c).
Proof.
  unfold datetime_of_timestamp. pose proof (civil_correct (t / 86400)) as Hc.
  destruct (civil_of_days (t / 86400)) as [[y m] d]. cbn [mk] in Hc. cbv zeta. unfold dt_date.
  cbn [dt_year dt_month dt_day dt_hour dt_min dt_sec].
  set (s := t mod 86400). assert (Hs : 0 <= s < 86400) by (subst s; lia).
  replace t with (t / 86400 * 86400 + s / 3600 * 3600 + s / 60 mod 60 * 60 + s mod 60) at 1
    by (subst s; lia).
  clearbody s. constructor; [exact Hc|lia|lia|lia].
Qed.

Lemma utc_of_seconds_unique t d1 h1 m1 s1 d2 h2 m2 s2 :
  utc_of_seconds t d1 h1 m1 s1 -> utc_of_seconds t d2 h2 m2 s2 -> d1 = d2 /\ h1 = h2 /\ m1 = m2 /\ s1 = s2.
Proof.
  intros H1 H2. destruct H1 as [n1 d1 h1 m1 s1 D1 ? ? ?]. inversion H2 as [n2 ? ? ? ? D2 ? ? ? E]; subst.
  assert (n1 = n2) by lia. subst n2. repeat split; try lia. eapply date_of_day_unique; eassumption.
Qed.

(** The years of accepted timestamps. *)
Definition ts_ok (t : Z) : Prop := -62167219200 <= t <= 253402300799.

Lemma civil_mono a b : a <= b -> a = b \/ date_lt (mk (civil_of_days a)) (mk (civil_of_days b)).
Proof. intros H. destruct (Z.eq_dec a b); [left; assumption|right]. apply civil_lt. lia. Qed.

Lemma civil_year_range days : -719528 <= days <= 2932896 ->
  let '(y, m, d) := civil_of_days days in 0 <= y <= 9999.
Proof.
  intros [H1 H2]. apply civil_mono in H1, H2.
  assert (E1 : civil_of_days (-719528) = (0, 1, 1)) by reflexivity.
  assert (E2 : civil_of_days 2932896 = (9999, 12, 31)) by reflexivity.
  pose proof (civil_ok days) as (Hm & Hd & _).
  rewrite E1 in H1. rewrite E2 in H2. destruct (civil_of_days days) as [[y m] d] eqn:E.
  unfold date_lt in *. cbn [mk year month day] in *.
  destruct H1 as [<-|H1]; [rewrite E1 in E; injection E; lia|].
  destruct H2 as [->|H2]; [rewrite E2 in E; injection E; lia|]. lia.
Qed.

Lemma mlen_le lp m : 1 <= m <= 12 -> mlen lp m <= 31.
Proof. intros H. pose proof (mlen_pos lp m H). lia. Qed.

Lemma datetime_ranges t : ts_ok t ->
  let c := datetime_of_timestamp t in
  0 <= dt_year c <= 9999 /\ 1 <= dt_month c <= 12 /\ 1 <= dt_day c <= 31 /\
  0 <= dt_hour c < 24 /\ 0 <= dt_min c < 60 /\ 0 <= dt_sec c < 60.
Proof.
  intros H. unfold ts_ok in H. unfold datetime_of_timestamp.
  pose proof (civil_year_range (t / 86400) ltac:(lia)) as Hy.
  pose proof (civil_ok (t / 86400)) as (Hm & Hd & Hl).
  destruct (civil_of_days (t / 86400)) as [[y m] d]. cbn [mk year month day] in *. cbv zeta.
  cbn [dt_year dt_month dt_day dt_hour dt_min dt_sec]. pose proof (mlen_le (leap y) m Hm).
  repeat split; lia.
Qed.

Ltac ranges t H :=
  let R := fresh "R" in pose proof (datetime_ranges t H) as R; cbv zeta in R; destruct R as (? & ? & ? & ? & ? & ?).

Lemma iso8601_spec t : ts_ok t -> utc_basic_text t (ut_to_iso8601 t).
Proof.
  intros H. ranges t H. unfold utc_basic_text, ut_to_iso8601.
  do 10 eexists. split; [exact (datetime_spec t)|].
  repeat (split; [apply fmt_digits; [cbn [dt_date year month day]; lia|lia]|]). reflexivity.
Qed.

Lemma rfc3339_spec t : ts_ok t -> utc_rfc3339_text t (ut_to_rfc3339 t).
Proof.
  intros H. ranges t H. unfold utc_rfc3339_text, ut_to_rfc3339.
  do 10 eexists. split; [exact (datetime_spec t)|].
  repeat (split; [apply fmt_digits; [cbn [dt_date year month day]; lia|lia]|]). reflexivity.
Qed.

Lemma digits_app w1 w2 a b s t : digits w1 a s -> digits w2 b t -> b < 10 ^ Z.of_nat w2 ->
  digits (w1 + w2) (a * 10 ^ Z.of_nat w2 + b) (s ++ t).
Proof.
  intros (L1 & D1 & U1 & P1) (L2 & D2 & U2 & P2) Hb. unfold digits. split; [rewrite app_length; lia|].
  split; [apply Forall_app; split; assumption|]. split.
  - unfold undec in *. destruct s as [|c s]; [discriminate|]. destruct t as [|c2 t]; [discriminate|].
    cbn [app]. change (c :: s ++ c2 :: t) with ((c :: s) ++ c2 :: t). rewrite undec_acc_app, U1.
    assert (G : forall s acc n k, undec_acc k s = Some n -> undec_acc (acc + k) s = Some (acc * 10 ^ N.of_nat (length s) + n)%N).
    { clear. induction s as [|c s IH]; intros acc n k H.
      - cbn in *. injection H as ->. f_equal. change (10 ^ 0)%N with 1%N. lia.
      - cbn [undec_acc] in *. destruct (is_digit c) eqn:E; [|discriminate].
        replace (10 * (acc + k) + (bN c - 48))%N with (10 * acc + (10 * k + (bN c - 48)))%N by lia.
        rewrite (IH _ _ _ H). f_equal. cbn [length]. rewrite Nat2N.inj_succ, N.pow_succ_r'. lia. }
    rewrite <- (N.add_0_r (Z.to_N a)). rewrite (G _ _ _ _ U2). f_equal. rewrite L2.
    rewrite Z2N.inj_add by lia. rewrite Z2N.inj_mul by lia. f_equal. f_equal.
    rewrite Z2N.inj_pow by lia. f_equal. lia.
  - assert (0 <= 10 ^ Z.of_nat w2) by (apply Z.pow_nonneg; lia). nia.
Qed.

Lemma date_text_spec t : ts_ok t ->
  date_to_string (ut_to_date t) =
  fmt 4 (dt_year (datetime_of_timestamp t)) ++ fmt 2 (dt_month (datetime_of_timestamp t))
  ++ fmt 2 (dt_day (datetime_of_timestamp t)).
Proof.
  intros H. ranges t H. unfold date_to_string, ut_to_date. cbv zeta.
  set (c := datetime_of_timestamp t) in *. clearbody c.
  rewrite (Z.mod_small (dt_year c)) by lia.
  assert (D : digits 8 (dt_year c * 10000 + dt_month c * 100 + dt_day c)
                (fmt 4 (dt_year c) ++ fmt 2 (dt_month c) ++ fmt 2 (dt_day c))).
  { pose proof (digits_app 2 2 _ _ _ _ (fmt_digits 2 (dt_month c) ltac:(lia) ltac:(lia))
                                       (fmt_digits 2 (dt_day c) ltac:(lia) ltac:(lia)) ltac:(lia)) as D1.
    pose proof (digits_app 4 4 _ _ _ _ (fmt_digits 4 (dt_year c) ltac:(lia) ltac:(lia)) D1 ltac:(cbn; lia)) as D2.
    replace (dt_year c * 10000 + dt_month c * 100 + dt_day c)
      with (dt_year c * 10 ^ Z.of_nat 4 + (dt_month c * 10 ^ Z.of_nat 2 + dt_day c)) by (cbn; lia).
    exact D2. }
  eapply digits_unique; [|exact D].
  replace (Z.to_N (dt_year c) * 10000 + Z.to_N (dt_month c) * 100 + Z.to_N (dt_day c))%N
    with (Z.to_N (dt_year c * 10000 + dt_month c * 100 + dt_day c)) by lia.
  change (pad0 8 (dec (Z.to_N (dt_year c * 10000 + dt_month c * 100 + dt_day c))))
    with (fmt 8 (dt_year c * 10000 + dt_month c * 100 + dt_day c)).
  apply fmt_digits; lia.
Qed.

Lemma date_utc_spec t : ts_ok t -> utc_date_text t (date_to_string (ut_to_date t)).
Proof.
  intros H. rewrite date_text_spec by exact H. ranges t H. unfold utc_date_text.
  do 7 eexists. split; [exact (datetime_spec t)|].
  repeat (split; [apply fmt_digits; [cbn [dt_date year month day]; lia|lia]|]). reflexivity.
Qed.

Lemma fmt_length w z : 0 <= z < 10 ^ Z.of_nat w -> (1 <= w)%nat -> length (fmt w z) = w.
Proof. intros H1 H2. apply (fmt_digits w z H1 H2). Qed.

Lemma date_prefix_of_iso8601 t : ts_ok t -> firstn 8 (ut_to_iso8601 t) = date_to_string (ut_to_date t).
Proof.
  intros H. rewrite date_text_spec by exact H. ranges t H. unfold ut_to_iso8601. cbv zeta.
  set (c := datetime_of_timestamp t) in *. clearbody c.
  rewrite !app_assoc. rewrite <- !app_assoc. rewrite (app_assoc (fmt 4 _)), (app_assoc (fmt 4 _ ++ _)).
  rewrite firstn_app.
  assert (L : length ((fmt 4 (dt_year c) ++ fmt 2 (dt_month c)) ++ fmt 2 (dt_day c)) = 8%nat).
  { rewrite !app_length, !fmt_length by lia. reflexivity. }
  rewrite L. rewrite firstn_all2 by lia. cbn [Nat.sub firstn]. rewrite app_nil_r, <- app_assoc. reflexivity.
Qed.

Lemma iso8601_length t : ts_ok t -> length (ut_to_iso8601 t) = 16%nat.
Proof.
  intros H. ranges t H. unfold ut_to_iso8601. cbv zeta. rewrite !app_length, !fmt_length by lia. reflexivity.
Qed.

Lemma rfc3339_length t : ts_ok t -> length (ut_to_rfc3339 t) = 20%nat.
Proof.
  intros H. ranges t H. unfold ut_to_rfc3339. cbv zeta. rewrite !app_length, !fmt_length by lia. reflexivity.
Qed.

(** * Parsing what was printed *)

Lemma scan_digits_app w z s r : digits w z s -> scan_digits w (s ++ r) = Some (z, r).
Proof.
  intros (L & D & U & P). unfold scan_digits.
  destruct (Nat.ltb_spec (length (s ++ r)) w) as [H|H]; [rewrite app_length in H; lia|].
  rewrite firstn_app, L. rewrite firstn_all2 by lia. replace (w - w)%nat with 0%nat by lia. cbn [firstn].
  rewrite app_nil_r, U. rewrite skipn_app, L, skipn_all2 by lia. replace (w - w)%nat with 0%nat by lia.
  cbn [skipn app]. rewrite Z2N.id by lia. reflexivity.
Qed.

Lemma parse_rfc3339_print t : ts_ok t -> parse_rfc3339 (ut_to_rfc3339 t) = Some t.
Proof.
  intros H. ranges t H. unfold ut_to_rfc3339. cbv zeta.
  pose proof (days_of_civil_inv (t / 86400)) as Hd.
  assert (Et : (let '(y, m, d) := civil_of_days (t / 86400) in (y, m, d)) =
    (dt_year (datetime_of_timestamp t), dt_month (datetime_of_timestamp t), dt_day (datetime_of_timestamp t))).
  { unfold datetime_of_timestamp. destruct (civil_of_days (t / 86400)) as [[y m] d]. reflexivity. }
  assert (Ht : t = t / 86400 * 86400 + dt_hour (datetime_of_timestamp t) * 3600
                   + dt_min (datetime_of_timestamp t) * 60 + dt_sec (datetime_of_timestamp t)).
  { unfold datetime_of_timestamp. destruct (civil_of_days (t / 86400)) as [[y m] d].
    cbn [dt_hour dt_min dt_sec]. lia. }
  destruct (civil_of_days (t / 86400)) as [[y m] d]. injection Et as -> -> ->.
  set (c := datetime_of_timestamp t) in *. clearbody c.
  unfold parse_rfc3339. rewrite (scan_digits_app 4 (dt_year c)) by (apply fmt_digits; lia).
  cbn [app B]. change (B "-" ++ ?x) with ("-"%byte :: x). cbn [scan_char].
  change (beq "-"%byte "-"%byte) with true. cbv iota.
  rewrite (scan_digits_app 2 (dt_month c)) by (apply fmt_digits; lia).
  change (B "-" ++ ?x) with ("-"%byte :: x). cbn [scan_char].
  change (beq "-"%byte "-"%byte) with true. cbv iota beta.
  rewrite (scan_digits_app 2 (dt_day c)) by (apply fmt_digits; lia).
  change (B "T" ++ ?x) with ("T"%byte :: x). cbv iota beta. match goal with |- context[orb (orb ?a ?b) ?c] => change (orb (orb a b) c) with true end. cbv iota beta.
  rewrite (scan_digits_app 2 (dt_hour c)) by (apply fmt_digits; lia).
  change (B ":" ++ ?x) with (":"%byte :: x). cbn [scan_char]. change (beq ":"%byte ":"%byte) with true. cbv iota beta.
  rewrite (scan_digits_app 2 (dt_min c)) by (apply fmt_digits; lia).
  change (B ":" ++ ?x) with (":"%byte :: x). cbn [scan_char]. change (beq ":"%byte ":"%byte) with true. cbv iota beta.
  rewrite (scan_digits_app 2 (dt_sec c)) by (apply fmt_digits; lia).
  change (scan_fraction (B "Z")) with (Some (B "Z")). cbv iota beta.
  change (scan_offset (B "Z")) with (Some (0, @nil byte)). cbv iota beta.
  replace (negb ((dt_hour c <=? 23) && (dt_min c <=? 59) && (dt_sec c <=? 60))) with false by lia.
  rewrite Hd. f_equal. destruct (Z.eqb_spec (dt_sec c) 60); lia.
Qed.

Lemma ut_from_rfc3339_print t : ts_ok t -> ut_from_rfc3339 (ut_to_rfc3339 t) = Ok t.
Proof.
  intros H. unfold ut_from_rfc3339. rewrite parse_rfc3339_print by exact H.
  unfold ut_try_from. unfold ts_ok in H.
  replace ((-62167219200 <=? t) && (t <=? 253402300799)) with true by lia. reflexivity.
Qed.

Lemma rfc3339_inj a b : ts_ok a -> ts_ok b -> ut_to_rfc3339 a = ut_to_rfc3339 b -> a = b.
Proof.
  intros Ha Hb E. pose proof (parse_rfc3339_print a Ha). pose proof (parse_rfc3339_print b Hb). congruence.
Qed.

(** * Text order is time order *)

Definition lex6 (a b : datetime) : Prop :=
  date_lt (dt_date a) (dt_date b) \/
  (dt_date a = dt_date b /\
   (dt_hour a < dt_hour b \/ (dt_hour a = dt_hour b /\
     (dt_min a < dt_min b \/ (dt_min a = dt_min b /\ dt_sec a < dt_sec b))))).

Lemma datetime_lt a b : a < b -> lex6 (datetime_of_timestamp a) (datetime_of_timestamp b).
Proof.
  intros H. unfold lex6, dt_date, datetime_of_timestamp.
  assert (Hd : a / 86400 < b / 86400 \/ a / 86400 = b / 86400) by lia.
  destruct Hd as [Hd|Hd].
  - left. pose proof (civil_lt _ _ Hd) as L.
    destruct (civil_of_days (a / 86400)) as [[y m] d], (civil_of_days (b / 86400)) as [[y' m'] d'].
    exact L.
  - right. rewrite Hd. destruct (civil_of_days (b / 86400)) as [[y m] d]. cbv zeta.
    cbn [dt_year dt_month dt_day dt_hour dt_min dt_sec]. split; [reflexivity|].
    assert (Hs : a mod 86400 < b mod 86400) by lia.
    assert (Ha : 0 <= a mod 86400 < 86400) by lia. assert (Hb : 0 <= b mod 86400 < 86400) by lia.
    clear Hd H. set (x := a mod 86400) in *. set (y' := b mod 86400) in *. clearbody x y'. lia.
Qed.

(** Compare two texts made of a digit field and a rest. *)
Lemma leb_field w n m s t r1 r2 : digits w n s -> digits w m t ->
  str_leb (s ++ r1) (t ++ r2) = if n =? m then str_leb r1 r2 else (n <=? m).
Proof.
  intros H1 H2. assert (L : length s = length t) by (destruct H1 as [-> _]; destruct H2 as [-> _]; reflexivity).
  rewrite str_leb_app by exact L. pose proof (digits_eq_iff _ _ _ _ _ H1 H2) as E.
  destruct (str_eqb_spec s t) as [Hs|Hs]; destruct (Z.eqb_spec n m) as [Hn|Hn]; try tauto.
  apply (digits_leb w); assumption.
Qed.

Lemma leb_same p a b : str_leb (p ++ a) (p ++ b) = str_leb a b.
Proof. rewrite str_leb_app by reflexivity. rewrite str_eqb_refl. reflexivity. Qed.

Lemma iso8601_order a b : ts_ok a -> ts_ok b ->
  str_leb (ut_to_iso8601 a) (ut_to_iso8601 b) = (a <=? b).
Proof.
  assert (G : forall a b, ts_ok a -> ts_ok b -> a < b ->
    str_leb (ut_to_iso8601 a) (ut_to_iso8601 b) = true /\ str_leb (ut_to_iso8601 b) (ut_to_iso8601 a) = false).
  { clear. intros a b Ha Hb H. apply datetime_lt in H. ranges a Ha. ranges b Hb.
    unfold lex6, date_lt, dt_date in H. cbn [year month day] in H.
    unfold ut_to_iso8601. cbv zeta.
    set (x := datetime_of_timestamp a) in *. set (y := datetime_of_timestamp b) in *. clearbody x y.
    assert (Hdate : dt_year x < dt_year y \/ dt_year x = dt_year y /\ (dt_month x < dt_month y \/ dt_month x = dt_month y /\ (dt_day x < dt_day y \/ dt_day x = dt_day y /\
       (dt_hour x < dt_hour y \/ (dt_hour x = dt_hour y /\ (dt_min x < dt_min y \/ (dt_min x = dt_min y /\ dt_sec x < dt_sec y)))))))
      by (destruct H as [H|[E H]]; [lia|injection E; lia]). clear H.
    split.
    - rewrite (leb_field 4 (dt_year x) (dt_year y)) by (apply fmt_digits; lia).
      destruct (Z.eqb_spec (dt_year x) (dt_year y)); [|lia].
      rewrite (leb_field 2 (dt_month x) (dt_month y)) by (apply fmt_digits; lia).
      destruct (Z.eqb_spec (dt_month x) (dt_month y)); [|lia].
      rewrite (leb_field 2 (dt_day x) (dt_day y)) by (apply fmt_digits; lia).
      destruct (Z.eqb_spec (dt_day x) (dt_day y)); [|lia]. rewrite leb_same.
      rewrite (leb_field 2 (dt_hour x) (dt_hour y)) by (apply fmt_digits; lia).
      destruct (Z.eqb_spec (dt_hour x) (dt_hour y)); [|lia].
      rewrite (leb_field 2 (dt_min x) (dt_min y)) by (apply fmt_digits; lia).
      destruct (Z.eqb_spec (dt_min x) (dt_min y)); [|lia].
      rewrite (leb_field 2 (dt_sec x) (dt_sec y)) by (apply fmt_digits; lia).
      destruct (Z.eqb_spec (dt_sec x) (dt_sec y)); [|lia]. lia.
    - rewrite (leb_field 4 (dt_year y) (dt_year x)) by (apply fmt_digits; lia).
      destruct (Z.eqb_spec (dt_year y) (dt_year x)); [|lia].
      rewrite (leb_field 2 (dt_month y) (dt_month x)) by (apply fmt_digits; lia).
      destruct (Z.eqb_spec (dt_month y) (dt_month x)); [|lia].
      rewrite (leb_field 2 (dt_day y) (dt_day x)) by (apply fmt_digits; lia).
      destruct (Z.eqb_spec (dt_day y) (dt_day x)); [|lia]. rewrite leb_same.
      rewrite (leb_field 2 (dt_hour y) (dt_hour x)) by (apply fmt_digits; lia).
      destruct (Z.eqb_spec (dt_hour y) (dt_hour x)); [|lia].
      rewrite (leb_field 2 (dt_min y) (dt_min x)) by (apply fmt_digits; lia).
      destruct (Z.eqb_spec (dt_min y) (dt_min x)); [|lia].
      rewrite (leb_field 2 (dt_sec y) (dt_sec x)) by (apply fmt_digits; lia).
      destruct (Z.eqb_spec (dt_sec y) (dt_sec x)); [|lia]. lia. }
  intros Ha Hb. destruct (Z.lt_trichotomy a b) as [H|[->|H]].
  - destruct (G a b Ha Hb H) as [-> _]. lia.
  - rewrite str_leb_refl. lia.
  - destruct (G b a Hb Ha H) as [_ ->]. lia.
Qed.

Lemma rfc3339_order a b : ts_ok a -> ts_ok b ->
  str_leb (ut_to_rfc3339 a) (ut_to_rfc3339 b) = (a <=? b).
Proof.
  assert (G : forall a b, ts_ok a -> ts_ok b -> a < b ->
    str_leb (ut_to_rfc3339 a) (ut_to_rfc3339 b) = true /\ str_leb (ut_to_rfc3339 b) (ut_to_rfc3339 a) = false).
  { clear. intros a b Ha Hb H. apply datetime_lt in H. ranges a Ha. ranges b Hb.
    unfold lex6, date_lt, dt_date in H. cbn [year month day] in H.
    unfold ut_to_rfc3339. cbv zeta.
    set (x := datetime_of_timestamp a) in *. set (y := datetime_of_timestamp b) in *. clearbody x y.
    assert (Hdate : dt_year x < dt_year y \/ dt_year x = dt_year y /\ (dt_month x < dt_month y \/ dt_month x = dt_month y /\ (dt_day x < dt_day y \/ dt_day x = dt_day y /\
       (dt_hour x < dt_hour y \/ (dt_hour x = dt_hour y /\ (dt_min x < dt_min y \/ (dt_min x = dt_min y /\ dt_sec x < dt_sec y)))))))
      by (destruct H as [H|[E H]]; [lia|injection E; lia]). clear H.
    split.
    - rewrite (leb_field 4 (dt_year x) (dt_year y)) by (apply fmt_digits; lia).
      destruct (Z.eqb_spec (dt_year x) (dt_year y)); [|lia]. rewrite leb_same.
      rewrite (leb_field 2 (dt_month x) (dt_month y)) by (apply fmt_digits; lia).
      destruct (Z.eqb_spec (dt_month x) (dt_month y)); [|lia]. rewrite leb_same.
      rewrite (leb_field 2 (dt_day x) (dt_day y)) by (apply fmt_digits; lia).
      destruct (Z.eqb_spec (dt_day x) (dt_day y)); [|lia]. rewrite leb_same.
      rewrite (leb_field 2 (dt_hour x) (dt_hour y)) by (apply fmt_digits; lia).
      destruct (Z.eqb_spec (dt_hour x) (dt_hour y)); [|lia]. rewrite leb_same.
      rewrite (leb_field 2 (dt_min x) (dt_min y)) by (apply fmt_digits; lia).
      destruct (Z.eqb_spec (dt_min x) (dt_min y)); [|lia]. rewrite leb_same.
      rewrite (leb_field 2 (dt_sec x) (dt_sec y)) by (apply fmt_digits; lia).
      destruct (Z.eqb_spec (dt_sec x) (dt_sec y)); [|lia]. lia.
    - rewrite (leb_field 4 (dt_year y) (dt_year x)) by (apply fmt_digits; lia).
      destruct (Z.eqb_spec (dt_year y) (dt_year x)); [|lia]. rewrite leb_same.
      rewrite (leb_field 2 (dt_month y) (dt_month x)) by (apply fmt_digits; lia).
      destruct (Z.eqb_spec (dt_month y) (dt_month x)); [|lia]. rewrite leb_same.
      rewrite (leb_field 2 (dt_day y) (dt_day x)) by (apply fmt_digits; lia).
      destruct (Z.eqb_spec (dt_day y) (dt_day x)); [|lia]. rewrite leb_same.
      rewrite (leb_field 2 (dt_hour y) (dt_hour x)) by (apply fmt_digits; lia).
      destruct (Z.eqb_spec (dt_hour y) (dt_hour x)); [|lia]. rewrite leb_same.
      rewrite (leb_field 2 (dt_min y) (dt_min x)) by (apply fmt_digits; lia).
      destruct (Z.eqb_spec (dt_min y) (dt_min x)); [|lia]. rewrite leb_same.
      rewrite (leb_field 2 (dt_sec y) (dt_sec x)) by (apply fmt_digits; lia).
      destruct (Z.eqb_spec (dt_sec y) (dt_sec x)); [|lia]. lia. }
  intros Ha Hb. destruct (Z.lt_trichotomy a b) as [H|[->|H]].
  - destruct (G a b Ha Hb H) as [-> _]. lia.
  - rewrite str_leb_refl. lia.
  - destruct (G b a Hb Ha H) as [_ ->]. lia.
Qed.

Lemma iso8601_inj a b : ts_ok a -> ts_ok b -> ut_to_iso8601 a = ut_to_iso8601 b -> a = b.
Proof.
  intros Ha Hb E. pose proof (iso8601_order a b Ha Hb) as H1. pose proof (iso8601_order b a Hb Ha) as H2.
  rewrite E, str_leb_refl in H1. rewrite E, str_leb_refl in H2. lia.
Qed.

(** * The specification determines the texts *)

Lemma utc_basic_text_unique t a b : utc_basic_text t a -> utc_basic_text t b -> a = b.
Proof.
  intros (d1 & h1 & m1 & s1 & ? & ? & ? & ? & ? & ? & U1 & A1 & A2 & A3 & A4 & A5 & A6 & ->)
         (d2 & h2 & m2 & s2 & ? & ? & ? & ? & ? & ? & U2 & B1 & B2 & B3 & B4 & B5 & B6 & ->).
  destruct (utc_of_seconds_unique _ _ _ _ _ _ _ _ _ U1 U2) as (<- & <- & <- & <-).
  rewrite (digits_unique _ _ _ _ A1 B1), (digits_unique _ _ _ _ A2 B2), (digits_unique _ _ _ _ A3 B3),
    (digits_unique _ _ _ _ A4 B4), (digits_unique _ _ _ _ A5 B5), (digits_unique _ _ _ _ A6 B6). reflexivity.
Qed.

Lemma utc_rfc3339_text_unique t a b : utc_rfc3339_text t a -> utc_rfc3339_text t b -> a = b.
Proof.
  intros (d1 & h1 & m1 & s1 & ? & ? & ? & ? & ? & ? & U1 & A1 & A2 & A3 & A4 & A5 & A6 & ->)
         (d2 & h2 & m2 & s2 & ? & ? & ? & ? & ? & ? & U2 & B1 & B2 & B3 & B4 & B5 & B6 & ->).
  destruct (utc_of_seconds_unique _ _ _ _ _ _ _ _ _ U1 U2) as (<- & <- & <- & <-).
  rewrite (digits_unique _ _ _ _ A1 B1), (digits_unique _ _ _ _ A2 B2), (digits_unique _ _ _ _ A3 B3),
    (digits_unique _ _ _ _ A4 B4), (digits_unique _ _ _ _ A5 B5), (digits_unique _ _ _ _ A6 B6). reflexivity.
Qed.

Lemma utc_date_text_unique t a b : utc_date_text t a -> utc_date_text t b -> a = b.
Proof.
  intros (d1 & h1 & m1 & s1 & ? & ? & ? & U1 & A1 & A2 & A3 & ->)
         (d2 & h2 & m2 & s2 & ? & ? & ? & U2 & B1 & B2 & B3 & ->).
  destruct (utc_of_seconds_unique _ _ _ _ _ _ _ _ _ U1 U2) as (<- & <- & <- & <-).
  rewrite (digits_unique _ _ _ _ A1 B1), (digits_unique _ _ _ _ A2 B2), (digits_unique _ _ _ _ A3 B3). reflexivity.
Qed.

(** * SystemTime *)

Lemma ut_from_system_time_spec t v :
  ut_from_system_time t = Some v <-> (0 <= t < 253402300800 * NS /\ v = t / NS).
Proof.
  unfold ut_from_system_time, duration_since, i64_try_from, ut_try_from, as_secs, two63, NS.
  destruct (Z.leb_spec 0 t); [|split; [discriminate|lia]].
  destruct (Z.ltb_spec ((t - 0) / 1000000000) 9223372036854775808); [|split; [discriminate|intros [? ?]; exfalso; lia]].
  destruct ((-62167219200 <=? (t - 0) / 1000000000) && ((t - 0) / 1000000000 <=? 253402300799)) eqn:E.
  - split; [intros H1; injection H1 as <-|intros [? ->]; f_equal]; lia.
  - split; [discriminate|]. intros [? ->]. exfalso. lia.
Qed.

Lemma ut_from_system_time_none t :
  ut_from_system_time t = None <-> ~ (0 <= t < 253402300800 * NS).
Proof.
  destruct (ut_from_system_time t) as [v|] eqn:E; split; intros H; try congruence.
  - apply ut_from_system_time_spec in E. tauto.
  - intros Hr. assert (E2 : ut_from_system_time t = Some (t / NS)) by (apply ut_from_system_time_spec; auto). congruence.
Qed.

Lemma ut_ts_ok t v : ut_from_system_time t = Some v -> ts_ok v /\ 0 <= v.
Proof. intros H. apply ut_from_system_time_spec in H. unfold ts_ok, NS in *. lia. Qed.
