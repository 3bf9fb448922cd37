(** C60: the basic format, read. *)
From Verif Require Import Base BaseFacts Utf8 Time SpecCalendar CalendarFacts TimeFacts SpecTimeText Prop_TimeText.
Local Open Scope byte_scope.
Local Open Scope Z_scope.

(** * White space *)

Lemma spaces_nil : spaces [].
Proof. exists []. split; [constructor|reflexivity]. Qed.

Lemma spaces_cons n s : In n white -> spaces s -> spaces (utf8_encode n ++ s).
Proof. intros I (l & F & ->). exists (n :: l). split; [constructor; assumption|reflexivity]. Qed.

Lemma trim_sound s : exists w, spaces w /\ s = w ++ trim_start s.
Proof.
  remember (length s) as k eqn:K. assert (L : (length s <= k)%nat) by lia. clear K. revert s L.
  induction k as [|k IH]; intros s L.
  { destruct s as [|? ?]; [|cbn in L; lia]. exists []. split; [apply spaces_nil|reflexivity]. }
  assert (Stop : exists w, spaces w /\ s = w ++ s) by (exists []; split; [apply spaces_nil|reflexivity]).
  destruct s as [|a r]; [exact Stop|]. cbn [trim_start].
  destruct (beq a " " || _)%bool eqn:E1.
  { destruct (IH r ltac:(cbn in L; lia)) as (w & W & E). exists (a :: w). split; [|cbn; congruence].
    change (a :: w) with ([a] ++ w).
    assert (X : exists n, In n white /\ [a] = utf8_encode n).
    { exists (bN a). destruct a; try discriminate E1; (split; [vm_compute; tauto|reflexivity]). }
    destruct X as (n & I & ->). apply spaces_cons; assumption. }
  destruct r as [|b r2]; [exact Stop|].
  destruct (beq a xc2 && _)%bool eqn:E2.
  { destruct (IH r2 ltac:(cbn in L; lia)) as (w & W & E). exists (a :: b :: w). split; [|cbn; congruence].
    change (a :: b :: w) with ([a; b] ++ w).
    assert (X : exists n, In n white /\ [a; b] = utf8_encode n).
    { apply Bool.andb_true_iff in E2. destruct E2 as [Ea Eb]. apply beq_eq in Ea. subst a.
      exists (bN b). destruct b; try discriminate Eb; (split; [vm_compute; tauto|reflexivity]). }
    destruct X as (n & I & ->). apply spaces_cons; assumption. }
  destruct r2 as [|c r3]; [exact Stop|].
  match goal with |- context [if ?x then _ else _] => destruct x eqn:E3 end; [|exact Stop].
  destruct (IH r3 ltac:(cbn in L; lia)) as (w & W & E). exists (a :: b :: c :: w). split; [|cbn; congruence].
  change (a :: b :: c :: w) with ([a; b; c] ++ w).
  assert (X : exists n, In n white /\ [a; b; c] = utf8_encode n).
  { rewrite !Bool.orb_true_iff, !Bool.andb_true_iff in E3.
    destruct E3 as [[[[[Ea Eb] Ec]|[[Ea Eb] Ec]]|[[Ea Eb] Ec]]|[[Ea Eb] Ec]]; apply beq_eq in Ea, Eb; subst a b.
    - apply beq_eq in Ec. subst c. exists 5760%N. split; [vm_compute; tauto|reflexivity].
    - clear E1 E2 L E Stop. exists (8064 + bN c)%N. destruct c; try (exfalso; vm_compute in Ec; intuition discriminate); (split; [vm_compute; tauto|reflexivity]).
    - apply beq_eq in Ec. subst c. exists 8287%N. split; [vm_compute; tauto|reflexivity].
    - apply beq_eq in Ec. subst c. exists 12288%N. split; [vm_compute; tauto|reflexivity]. }
  destruct X as (n & I & ->). apply spaces_cons; assumption.
Qed.

(** What a field starts with. *)
Definition field_start (s : str) : Prop := exists c r, s = c :: r /\ (is_digit c = true \/ c = "+" \/ c = "-").

Lemma trim_field s : field_start s -> trim_start s = s.
Proof.
  intros (c & r & -> & H). destruct c; try (exfalso; destruct H as [H|[H|H]]; discriminate H);
    cbn; destruct r as [|b [|c' r]]; reflexivity.
Qed.

Lemma trim_complete w s : spaces w -> field_start s -> trim_start (w ++ s) = s.
Proof.
  intros (l & F & ->) S. induction F as [|n l I F IH]; [apply trim_field; exact S|].
  cbn [flat_map]. rewrite <- app_assoc. rewrite <- IH at 2. clear IH.
  cbn in I. repeat (destruct I as [<-|I]; [reflexivity|]). destruct I.
Qed.

(** * Digits *)

Definition digit_stop (s : str) : Prop := forall c r, s = c :: r -> is_digit c = false.

Lemma span_digits_sound w s d t : span_digits w s = (d, t) ->
  Forall (fun c => is_digit c = true) d /\ s = d ++ t /\
  match w with Some k => (length d <= k)%nat /\ (length d = k \/ digit_stop t) | None => digit_stop t end.
Proof.
  revert w d t. induction s as [|c s IH]; intros w d t H.
  - assert (E : d = [] /\ t = []) by (destruct w as [[|k]|]; injection H as <- <-; auto). destruct E as [-> ->].
    split; [constructor|]. split; [reflexivity|]. destruct w as [k|]; [split; [cbn; lia|right]|]; intros ? ? E; discriminate E.
  - destruct w as [[|k]|].
    + injection H as <- <-. split; [constructor|]. split; [reflexivity|]. split; [cbn; lia|left; reflexivity].
    + cbn [span_digits option_map pred] in H. destruct (is_digit c) eqn:C.
      * destruct (span_digits (Some k) s) as [d' t'] eqn:E. injection H as <- <-. apply IH in E. destruct E as (D & -> & L & X).
        split; [constructor; assumption|]. split; [reflexivity|]. cbn [length]. split; [lia|]. destruct X; [left; lia|right; assumption].
      * injection H as <- <-. split; [constructor|]. split; [reflexivity|]. split; [cbn; lia|right]. intros x r E. injection E as <- _. exact C.
    + cbn [span_digits option_map] in H. destruct (is_digit c) eqn:C.
      * destruct (span_digits None s) as [d' t'] eqn:E. injection H as <- <-. apply IH in E. destruct E as (D & -> & X).
        split; [constructor; assumption|]. split; [reflexivity|exact X].
      * injection H as <- <-. split; [constructor|]. split; [reflexivity|]. intros x r E. injection E as <- _. exact C.
Qed.

Lemma span_digits_complete w d t : Forall (fun c => is_digit c = true) d ->
  match w with Some k => (length d <= k)%nat /\ (length d = k \/ digit_stop t) | None => digit_stop t end ->
  span_digits w (d ++ t) = (d, t).
Proof.
  intros D. revert w. induction D as [|c d C D IH]; intros w H.
  - cbn [app]. destruct t as [|c t]; [destruct w as [[|k]|]; reflexivity|].
    destruct w as [[|k]|]; cbn [span_digits].
    + reflexivity.
    + destruct H as [_ [H|H]]; [discriminate H|]. rewrite (H c t eq_refl). reflexivity.
    + rewrite (H c t eq_refl). reflexivity.
  - cbn [app]. destruct w as [[|k]|]; cbn [span_digits].
    + destruct H as [H _]. cbn in H. lia.
    + rewrite C. cbn [option_map pred]. rewrite (IH (Some k)); [reflexivity|]. cbn [length] in H. destruct H as [H1 H2].
      split; [lia|]. destruct H2; [left; lia|right; assumption].
    + rewrite C. cbn [option_map]. rewrite (IH None); [reflexivity|exact H].
Qed.

Lemma number_intro d n : undec d = Some n -> number d (Z.of_N n).
Proof.
  intros U. split; [destruct d; [discriminate U|discriminate]|]. split; [eapply undec_digits; exact U|]. rewrite N2Z.id. split; [exact U|lia].
Qed.

Lemma number_bound d n : number d n -> 0 <= n < 10 ^ Z.of_nat (length d).
Proof.
  intros (N & _ & U & P). split; [exact P|]. unfold undec in U. destruct d as [|c d]; [contradiction|]. apply undec_acc_bounds in U.
  pose proof (N2Z.inj_pow 10 (N.of_nat (length (c :: d)))) as E. rewrite nat_N_Z in E. change (Z.of_N 10) with 10 in E. rewrite <- E. lia.
Qed.

Lemma number_start d n r : number d n -> field_start (d ++ r).
Proof.
  intros (N & D & _). destruct d as [|c d]; [contradiction|]. exists c, (d ++ r). split; [reflexivity|]. inversion D. auto.
Qed.

Lemma number_no_stop d n r : number d n -> ~ digit_stop (d ++ r).
Proof.
  intros (N & D & _) S. destruct d as [|c d]; [contradiction|]. specialize (S c (d ++ r) eq_refl). inversion D. congruence.
Qed.

Lemma spaces_stop w r : spaces w -> w <> [] -> digit_stop (w ++ r).
Proof.
  intros (l & F & ->) N. destruct F as [|n l I F]; [contradiction|]. intros c x E.
  cbn [white In] in I. cbn [flat_map app] in E. rewrite <- app_assoc in E.
  repeat (destruct I as [<-|I]; [injection E as <- _; reflexivity|]). destruct I.
Qed.

Lemma scan_upto_sound w s v t : scan_number_upto w s = Some (v, t) ->
  exists d, s = d ++ t /\ number d v /\
    match w with Some k => (length d <= k)%nat /\ (length d = k \/ digit_stop t) | None => digit_stop t end.
Proof.
  unfold scan_number_upto. destruct (span_digits w s) as [d t'] eqn:E. destruct (undec d) as [n|] eqn:U; [|discriminate].
  unfold i64_try_from. destruct (_ <? _); [|discriminate]. intros H. injection H as <- <-.
  apply span_digits_sound in E. destruct E as (D & -> & X). exists d. split; [reflexivity|]. split; [apply number_intro; exact U|exact X].
Qed.

Lemma scan_upto_complete w d v t : number d v -> v < two63 ->
  match w with Some k => (length d <= k)%nat /\ (length d = k \/ digit_stop t) | None => digit_stop t end ->
  scan_number_upto w (d ++ t) = Some (v, t).
Proof.
  intros (N & D & U & P) B X. unfold scan_number_upto. rewrite span_digits_complete by assumption. rewrite U. rewrite Z2N.id by exact P.
  unfold i64_try_from. replace (v <? two63) with true by lia. reflexivity.
Qed.

Lemma scan_item_sound lo hi s v t : scan_item lo hi s = Some (v, t) ->
  exists w d, spaces w /\ s = w ++ d ++ t /\ short 2 d v (digit_stop t) /\ lo <= v <= hi.
Proof.
  unfold scan_item. destruct (scan_number_upto _ _) as [[v' t']|] eqn:E; [|discriminate].
  destruct (_ && _)%bool eqn:R; [|discriminate]. intros H. injection H as <- <-.
  apply scan_upto_sound in E. destruct E as (d & E & N & L & X). destruct (trim_sound s) as (w & W & Es).
  exists w, d. split; [exact W|]. split; [congruence|]. split; [split; [exact N|split; [exact L|exact X]]|lia].
Qed.

Lemma two_digits d v : number d v -> (length d <= 2)%nat -> v < 100.
Proof.
  intros N L. apply number_bound in N. assert (length d = 0 \/ length d = 1 \/ length d = 2)%nat as [E|[E|E]] by lia;
    rewrite E in N; cbn in N; lia.
Qed.

Lemma scan_item_complete lo hi w d v t : spaces w -> short 2 d v (digit_stop t) -> lo <= v <= hi ->
  scan_item lo hi (w ++ d ++ t) = Some (v, t).
Proof.
  intros W (N & L & X) R. unfold scan_item. rewrite trim_complete by (try assumption; eapply number_start; exact N).
  rewrite (scan_upto_complete (Some 2%nat) d v t); [replace ((lo <=? v) && (v <=? hi))%bool with true by lia; reflexivity|exact N| |split; assumption].
  pose proof (two_digits _ _ N L). unfold two63. lia.
Qed.

Lemma short_iff w s n P Q : (P <-> Q) -> short w s n P -> short w s n Q.
Proof. intros H (A & C & D). split; [exact A|]. split; [exact C|]. tauto. Qed.

Lemma year_iff s n P Q : (P <-> Q) -> year_text P s n -> year_text Q s n.
Proof.
  intros H [s' y S|s' y N X|s' y N X]; [apply yt_short; eapply short_iff; eassumption|apply yt_plus; tauto|apply yt_minus; tauto].
Qed.


Lemma scan_year_sound s y t : scan_year s = Some (y, t) ->
  exists w d, spaces w /\ s = w ++ d ++ t /\ year_text (digit_stop t) d y.
Proof.
  unfold scan_year. destruct (trim_sound s) as (w & W & Es). set (s' := trim_start s) in *. clearbody s'. subst s.
  destruct (match s' with [] => _ | _ => _ end) as [[v t']|] eqn:E; [|discriminate].
  destruct (_ && _)%bool eqn:R; [|discriminate]. intros H. injection H as <- <-.
  exists w. destruct s' as [|c r]; [discriminate|]. destruct (beq_spec c "-") as [->|N1].
  - destruct (scan_number_upto None r) as [[v' t'']|] eqn:E'; [|discriminate]. injection E as <- <-.
    apply scan_upto_sound in E'. destruct E' as (d & -> & N & X). exists (B "-" ++ d). split; [exact W|]. split; [reflexivity|].
    apply yt_minus; assumption.
  - destruct (beq_spec c "+") as [->|N2].
    + apply scan_upto_sound in E. destruct E as (d & -> & N & X). exists (B "+" ++ d). split; [exact W|]. split; [reflexivity|].
      apply yt_plus; assumption.
    + apply scan_upto_sound in E. destruct E as (d & E & N & L & X). exists d. split; [exact W|]. split; [rewrite E; reflexivity|].
      apply yt_short. split; [exact N|]. split; assumption.
Qed.

Lemma scan_year_complete w d y t : spaces w -> year_text (digit_stop t) d y -> -2147483648 <= y <= 2147483647 ->
  scan_year (w ++ d ++ t) = Some (y, t).
Proof.
  intros W Y R. unfold scan_year. rewrite trim_complete; [|exact W|].
  2:{ destruct Y as [s y' (N & _)|s y' N X|s y' N X]; [eapply number_start; exact N| |]; (eexists; eexists; split; [reflexivity|auto]). }
  assert (E : match d ++ t with
              | [] => None
              | c :: r => if beq c "-" then match scan_number_upto None r with Some (v, t) => Some (- v, t) | None => None end
                          else if beq c "+" then scan_number_upto None r else scan_number_upto (Some 4%nat) (d ++ t)
              end = Some (y, t)).
  { destruct Y as [s y (N & L & X)|s y N X|s y N X].
    - rewrite (scan_upto_complete (Some 4%nat) s y t) by (try assumption; try (unfold two63; lia); split; assumption).
      destruct N as (N & D & _). destruct s as [|c s]; [contradiction|]. cbn [app]. inversion D as [|? ? C D']; subst.
      assert (c <> "-" /\ c <> "+") as [N1 N2] by (split; intros ->; discriminate C).
      apply beq_neq in N1, N2. rewrite N1, N2. reflexivity.
    - change (B "+") with ["+"%byte]. cbn [app]. change (beq "+" "-") with false. change (beq "+" "+") with true. cbv iota.
      apply scan_upto_complete; [exact N|unfold two63; lia|exact X].
    - change (B "-") with ["-"%byte]. cbn [app]. change (beq "-" "-") with true. cbv iota.
      rewrite (scan_upto_complete None s y t); [reflexivity|exact N|unfold two63; lia|exact X]. }
  cbv zeta. rewrite E. replace ((-2147483648 <=? y) && (y <=? 2147483647))%bool with true by lia. reflexivity.
Qed.

Lemma stop_iff w d n r : spaces w -> number d n -> (digit_stop (w ++ d ++ r) <-> w <> []).
Proof.
  intros W N. split; [|intros H; apply spaces_stop; assumption]. intros S ->. exact (number_no_stop d n r N S).
Qed.

Lemma letter_stop c r : is_digit c = false -> (digit_stop (c :: r) <-> True).
Proof. intros C. split; [trivial|]. intros _ x y E. injection E as <- _. exact C. Qed.

Lemma date_fields days y m d : date_of_day days (mkdate y m d) -> 1 <= m <= 12 /\ 1 <= d <= 31.
Proof.
  intros H. pose proof (date_of_day_unique _ _ _ H (civil_correct days)) as E. pose proof (civil_ok days) as (A & C & D).
  change (let '(y, m, d) := civil_of_days days in mkdate y m d) with (mk (civil_of_days days)) in E.
  rewrite <- E in *. cbn [month day year] in *. pose proof (mlen_le (leap y) m). lia.
Qed.

Lemma parse_iso8601_spec s t : parse_iso8601 s = Some t <-> basic_read s t.
Proof.
  unfold parse_iso8601. split.
  - destruct (scan_year s) as [[y s1]|] eqn:E1; [|discriminate]. apply scan_year_sound in E1. destruct E1 as (w1 & ty & W1 & -> & Y).
    destruct (scan_item 1 12 s1) as [[m s2]|] eqn:E2; [|discriminate]. apply scan_item_sound in E2. destruct E2 as (w2 & tm & W2 & -> & M & Rm).
    destruct (scan_item 1 31 s2) as [[d s3]|] eqn:E3; [|discriminate]. apply scan_item_sound in E3. destruct E3 as (w3 & td & W3 & -> & D & Rd).
    destruct (scan_char "T" s3) as [s4|] eqn:E4; [|discriminate]. apply scan_char_spec in E4. subst s3.
    destruct (scan_item 0 23 s4) as [[h s5]|] eqn:E5; [|discriminate]. apply scan_item_sound in E5. destruct E5 as (w4 & th & W4 & -> & H & Rh).
    destruct (scan_item 0 59 s5) as [[mi s6]|] eqn:E6; [|discriminate]. apply scan_item_sound in E6. destruct E6 as (w5 & tmi & W5 & -> & I & Ri).
    destruct (scan_item 0 60 s6) as [[sec s7]|] eqn:E7; [|discriminate]. apply scan_item_sound in E7. destruct E7 as (w6 & ts & W6 & -> & S & Rs).
    destruct (scan_char "Z" s7) as [s8|] eqn:E8; [|discriminate]. apply scan_char_spec in E8. subst s7.
    destruct s8; [|discriminate]. destruct (negb _) eqn:E9; [discriminate|].
    destruct (days_of_civil y m d) as [days|] eqn:E10; [|discriminate]. apply days_of_civil_spec in E10.
    intros X. injection X as <-. replace (if sec =? 60 then 59 else sec) with (Z.min sec 59) by (destruct (Z.eqb_spec sec 60); lia).
    apply (br_intro y m d h mi sec ty tm td th tmi ts w1 w2 w3 w4 w5 w6 days); try assumption; try lia.
    + repeat (apply Forall_cons; [assumption|]). constructor.
    + eapply year_iff; [|exact Y]. eapply stop_iff; [exact W2|apply M].
    + eapply short_iff; [|exact M]. eapply stop_iff; [exact W3|apply D].
    + eapply short_iff; [|exact D]. apply letter_stop. reflexivity.
    + eapply short_iff; [|exact H]. eapply stop_iff; [exact W5|apply I].
    + eapply short_iff; [|exact I]. eapply stop_iff; [exact W6|apply S].
    + eapply short_iff; [|exact S]. apply letter_stop. reflexivity.
  - intros [y m d h mi sec ty tm td th tmi ts w1 w2 w3 w4 w5 w6 days W Y M D H I S Hd Hy Hh Hmi Hs].
    pose proof (date_fields _ _ _ _ Hd) as [Rm Rd].
    inversion W as [|? ? W1 Wa]; subst. inversion Wa as [|? ? W2 Wb]; subst. inversion Wb as [|? ? W3 Wc]; subst.
    inversion Wc as [|? ? W4 We]; subst. inversion We as [|? ? W5 Wf]; subst. inversion Wf as [|? ? W6 _]; subst. clear W Wa Wb Wc We Wf.
    rewrite (scan_year_complete w1 ty y); [|exact W1| |lia].
    2:{ eapply year_iff; [|exact Y]. symmetry. eapply stop_iff; [exact W2|apply M]. }
    rewrite (scan_item_complete 1 12 w2 tm m); [|exact W2| |exact Rm].
    2:{ eapply short_iff; [|exact M]. symmetry. eapply stop_iff; [exact W3|apply D]. }
    rewrite (scan_item_complete 1 31 w3 td d); [|exact W3| |exact Rd].
    2:{ eapply short_iff; [|exact D]. symmetry. apply letter_stop. reflexivity. }
    rewrite (proj2 (scan_char_spec "T" (B "T" ++ w4 ++ th ++ w5 ++ tmi ++ w6 ++ ts ++ B "Z") (w4 ++ th ++ w5 ++ tmi ++ w6 ++ ts ++ B "Z")) eq_refl).
    rewrite (scan_item_complete 0 23 w4 th h); [|exact W4| |destruct H as ((_ & _ & _ & P) & _); lia].
    2:{ eapply short_iff; [|exact H]. symmetry. eapply stop_iff; [exact W5|apply I]. }
    rewrite (scan_item_complete 0 59 w5 tmi mi); [|exact W5| |destruct I as ((_ & _ & _ & P) & _); lia].
    2:{ eapply short_iff; [|exact I]. symmetry. eapply stop_iff; [exact W6|apply S]. }
    rewrite (scan_item_complete 0 60 w6 ts sec); [|exact W6| |destruct S as ((_ & _ & _ & P) & _); lia].
    2:{ eapply short_iff; [|exact S]. symmetry. apply letter_stop. reflexivity. }
    change (scan_char "Z" (B "Z")) with (Some (@nil byte)). cbv iota.
    replace (negb ((-262143 <=? y) && (y <=? 262142))) with false by lia.
    apply days_of_civil_spec in Hd. rewrite Hd. f_equal. destruct (Z.eqb_spec sec 60); lia.
Qed.

(** * C60 *)

Theorem C60_basic s :
  (forall t, ut_from_iso8601 s = Ok t <-> basic_read s t /\ -62167219200 <= t <= 253402300799) /\
  (forall v, ut_from_iso8601 s = Err (UtOutOfRange v) <-> basic_read s v /\ ~ (-62167219200 <= v <= 253402300799)) /\
  (forall s', ut_from_iso8601 s = Err (InvalidIso8601Format s') <-> s' = s /\ forall v, ~ basic_read s v).
Proof.
  assert (E : forall v, basic_read s v <-> parse_iso8601 s = Some v) by (intros v; symmetry; apply parse_iso8601_spec).
  unfold ut_from_iso8601, ut_try_from. destruct (parse_iso8601 s) as [v|].
  - assert (R : forall t, basic_read s t <-> t = v) by (intros t; rewrite E; split; congruence).
    destruct (_ && _)%bool eqn:C; (split; [|split]).
    + intros t. rewrite R. split; [intros H; injection H as <-; lia|intros [-> _]; reflexivity].
    + intros t. split; [discriminate|]. rewrite R. intros [-> N]. lia.
    + intros s'. split; [discriminate|]. intros [_ N]. destruct (N v). apply R. reflexivity.
    + intros t. split; [discriminate|]. rewrite R. intros [-> N]. lia.
    + intros t. rewrite R. split; [intros H; injection H as <-; lia|intros [-> _]; reflexivity].
    + intros s'. split; [discriminate|]. intros [_ N]. destruct (N v). apply R. reflexivity.
  - split; [|split].
    + intros t. split; [discriminate|]. intros [H _]. apply E in H. discriminate H.
    + intros t. split; [discriminate|]. intros [H _]. apply E in H. discriminate H.
    + intros s'. split; [intros H; injection H as <-; split; [reflexivity|]|intros [-> _]; reflexivity].
      intros v H. apply E in H. discriminate H.
Qed.

Lemma digits_short w n s P : (1 <= w)%nat -> digits w n s -> short w s n P.
Proof.
  intros L (E & D & U & B). split; [|split; [lia|left; exact E]]. split; [destruct s; [cbn in E; lia|discriminate]|]. auto.
Qed.

(** Every text of the basic format is read as the second it denotes; so what the crate writes is read back. *)
Theorem C60_roundtrip secs : -62167219200 <= secs <= 253402300799 ->
  (forall text, utc_basic_text secs text -> ut_from_iso8601 text = Ok secs) /\
  ut_from_iso8601 (ut_to_iso8601 secs) = Ok secs.
Proof.
  intros R. assert (K : forall text, utc_basic_text secs text -> ut_from_iso8601 text = Ok secs).
  { intros text (dt & h & mi & s & ty & tm & td & th & tmi & ts & U & Dy & Dm & Dd & Dh & Dmi & Ds & ->).
    apply (proj1 (C60_basic _)). split; [|exact R]. destruct U as [days dt h mi s Hd Hh Hmi Hs].
    assert (Y : 0 <= year dt < 10000).
    { destruct Dy as (L & _ & V & P). split; [exact P|]. unfold undec in V. destruct ty as [|c ty]; [discriminate L|].
      apply undec_acc_bounds in V. rewrite L in V. change (10 ^ N.of_nat 4)%N with 10000%N in V. lia. }
    replace (days * 86400 + h * 3600 + mi * 60 + s) with (days * 86400 + h * 3600 + mi * 60 + Z.min s 59) by lia.
    apply (br_intro (year dt) (month dt) (day dt) h mi s ty tm td th tmi ts [] [] [] [] [] [] days); try lia.
    - repeat (apply Forall_cons; [apply spaces_nil|]). constructor.
    - apply yt_short. apply digits_short; [lia|exact Dy].
    - apply digits_short; [lia|exact Dm].
    - apply digits_short; [lia|exact Dd].
    - apply digits_short; [lia|exact Dh].
    - apply digits_short; [lia|exact Dmi].
    - apply digits_short; [lia|exact Ds].
    - destruct dt. exact Hd. }
  split; [exact K|]. apply K. apply iso8601_spec. exact R.
Qed.

(** But other texts are read as well. *)
Theorem C60_strict_refuted : exists s t, ut_from_iso8601 s = Ok t /\ ut_to_iso8601 t <> s /\ forall v, ~ utc_basic_text v s.
Proof.
  exists (B " +2020 1 2T3 4 5Z"), 1577934245. split; [vm_compute; reflexivity|]. split; [vm_compute; discriminate|].
  intros v (dt & h & mi & s & ty & tm & td & th & tmi & ts & _ & (L & D & _) & _ & _ & _ & _ & _ & E).
  destruct ty as [|c ty]; [discriminate L|]. injection E as E _. inversion D as [|? ? C _]. subst. discriminate C.
Qed.

Example C60_case :
  map ut_from_iso8601 [B "20200229T235959Z"; B "20210229T000000Z"; B "20161231T235960Z"; B "+10000 0101T000000Z"; B "2020229T000000Z"]
  = [Ok 1583020799; Err (InvalidIso8601Format (B "20210229T000000Z")); Ok 1483228799; Err (UtOutOfRange 253402300800);
     Err (InvalidIso8601Format (B "2020229T000000Z"))].
Proof. vm_compute. reflexivity. Qed.
