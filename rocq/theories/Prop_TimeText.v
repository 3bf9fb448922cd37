(** C59: the texts read as instants. *)
From Verif Require Import Base BaseFacts Utf8 Time SpecCalendar CalendarFacts TimeFacts SpecTimeText Json Policy.
Local Open Scope byte_scope.
Local Open Scope Z_scope.

Lemma days_of_civil_spec y m d days : days_of_civil y m d = Some days <-> date_of_day days (mkdate y m d).
Proof.
  split; [apply days_of_civil_sound|]. intros H. pose proof (date_of_day_unique _ _ _ H (civil_correct days)) as E.
  pose proof (days_of_civil_inv days) as I. destruct (civil_of_days days) as [[y' m'] d']. injection E as -> -> ->. exact I.
Qed.

Lemma undec_digits s n : undec s = Some n -> Forall (fun c => is_digit c = true) s.
Proof.
  unfold undec. destruct s as [|c s]; [discriminate|]. generalize (c :: s) 0%N. clear c s. intros s.
  induction s as [|c s IH]; intros a; [constructor|]. cbn [undec_acc]. destruct (is_digit c) eqn:E; [|discriminate].
  intros H. constructor; [exact E|]. eapply IH; exact H.
Qed.

Lemma scan_digits_spec w s z r : scan_digits w s = Some (z, r) <-> exists d, digits w z d /\ s = d ++ r.
Proof.
  split.
  - unfold scan_digits. destruct (Nat.ltb_spec (length s) w) as [|L]; [discriminate|].
    destruct (undec (firstn w s)) as [n|] eqn:U; [|discriminate]. intros H. injection H as <- <-.
    exists (firstn w s). split; [|symmetry; apply firstn_skipn]. unfold digits. rewrite firstn_length.
    split; [lia|]. split; [eapply undec_digits; exact U|]. rewrite N2Z.id. split; [exact U|lia].
  - intros (d & D & ->). apply scan_digits_app. exact D.
Qed.

Lemma scan_char_spec c s r : scan_char c s = Some r <-> s = c :: r.
Proof.
  destruct s as [|x s]; cbn [scan_char]; [split; discriminate|]. destruct (beq_spec x c) as [->|N].
  - split; intros H; injection H as ->; reflexivity.
  - split; [discriminate|]. intros H. injection H as -> _. contradiction.
Qed.

Lemma skip_digits_spec s : exists d, Forall (fun c => is_digit c = true) d /\ s = d ++ skip_digits s /\
  forall c r, skip_digits s = c :: r -> is_digit c = false.
Proof.
  induction s as [|c s (d & D & E & N)]; [exists []; repeat split; [constructor|discriminate]|]. cbn [skip_digits].
  destruct (is_digit c) eqn:C; [exists (c :: d); split; [constructor; assumption|split; [cbn; congruence|exact N]]|].
  exists []. split; [constructor|]. split; [reflexivity|]. intros x r H. injection H as -> _. exact C.
Qed.

Lemma skip_digits_app d s : Forall (fun c => is_digit c = true) d -> (forall c r, s = c :: r -> is_digit c = false) ->
  skip_digits (d ++ s) = s.
Proof.
  intros D N. induction D as [|c d C D IH]; cbn [app skip_digits].
  - destruct s as [|c s]; [reflexivity|]. cbn. rewrite (N c s eq_refl). reflexivity.
  - rewrite C. exact IH.
Qed.

(** What follows a fraction: the start of an offset, neither a digit nor a point. *)
Definition zone_start (s : str) : Prop := forall c r, s = c :: r -> is_digit c = false /\ c <> ".".

Lemma scan_fraction_sound s r : scan_fraction s = Some r -> exists f, fraction f /\ s = f ++ r.
Proof.
  destruct s as [|x s]; cbn [scan_fraction]; [intros H; injection H as <-; exists []; split; [constructor|reflexivity]|].
  destruct (beq_spec x ".") as [->|N]; [|intros H; injection H as <-; exists []; split; [constructor|reflexivity]].
  destruct s as [|d s]; [discriminate|]. destruct (is_digit d) eqn:C; [|discriminate]. intros H. injection H as <-.
  destruct (skip_digits_spec s) as (ds & D & E & _). exists ("." :: d :: ds). split; [apply fr_some; constructor; assumption|].
  cbn. congruence.
Qed.

Lemma scan_fraction_complete f r : fraction f -> zone_start r -> scan_fraction (f ++ r) = Some r.
Proof.
  intros F Z. destruct F as [|d ds D].
  - cbn [app]. destruct r as [|c r]; [reflexivity|]. cbn [scan_fraction]. destruct (Z c r eq_refl) as [_ N].
    apply beq_neq in N. rewrite N. reflexivity.
  - cbn. inversion D as [|? ? C D']; subst. rewrite C. f_equal. apply skip_digits_app; [exact D'|]. intros c r' E. apply (Z c r' E).
Qed.

Lemma digits2_bound n s : digits 2 n s -> 0 <= n < 100.
Proof.
  intros (L & D & U & P). split; [exact P|]. unfold undec in U. destruct s as [|a s]; [discriminate L|].
  apply undec_acc_bounds in U. rewrite L in U. lia.
Qed.

Lemma scan_offset_spec s off r : scan_offset s = Some (off, r) <-> exists z, zone [hyphen; minus_sign] z off /\ s = z ++ r.
Proof.
  unfold scan_offset.
  assert (G : forall sg x o t, scan_hours_minutes sg x = Some (o, t) <->
    exists h m th tm, digits 2 h th /\ digits 2 m tm /\ h < 24 /\ m < 60 /\ x = th ++ B ":" ++ tm ++ t /\ o = sg * (h * 3600 + m * 60)).
  { intros sg x o t. unfold scan_hours_minutes. split.
    - destruct (scan_digits 2 x) as [[h r1]|] eqn:E1; [|discriminate]. destruct (scan_char ":" r1) as [r2|] eqn:E2; [|discriminate].
      destruct (scan_digits 2 r2) as [[m r3]|] eqn:E3; [|discriminate].
      destruct (_ && _)%bool eqn:E4; [|discriminate]. intros H. injection H as <- <-.
      apply scan_digits_spec in E1, E3. apply scan_char_spec in E2. destruct E1 as (th & Dh & ->). destruct E3 as (tm & Dm & ->). subst r1.
      pose proof (digits2_bound _ _ Dh). pose proof (digits2_bound _ _ Dm).
      exists h, m, th, tm. split; [exact Dh|]. split; [exact Dm|]. split; [lia|]. split; [lia|]. split; reflexivity.
    - intros (h & m & th & tm & Dh & Dm & Hh & Hm & -> & ->).
      rewrite (scan_digits_app 2 h) by exact Dh. rewrite (proj2 (scan_char_spec ":" (B ":" ++ tm ++ t) (tm ++ t)) eq_refl).
      rewrite (scan_digits_app 2 m) by exact Dm. pose proof (digits2_bound _ _ Dh). pose proof (digits2_bound _ _ Dm).
      replace ((m <? 60) && (h * 3600 + m * 60 <=? 86340))%bool with true by lia. reflexivity. }
  split.
  - destruct s as [|x s]; [discriminate|]. destruct (beq x "Z" || beq x "z")%bool eqn:Ez.
    { intros H. injection H as <- <-. exists [x]. split; [|reflexivity]. apply zn_utc. apply Bool.orb_true_iff in Ez.
      destruct Ez as [E|E]; apply beq_eq in E; subst; [left|right; left]; reflexivity. }
    destruct (beq_spec x "+") as [->|_].
    { intros H. apply G in H. destruct H as (h & m & th & tm & Dh & Dm & Hh & Hm & -> & ->).
      exists (B "+" ++ th ++ B ":" ++ tm). split; [replace (1 * (h * 3600 + m * 60)) with (h * 3600 + m * 60) by lia; constructor; assumption|].
      rewrite <- !app_assoc. reflexivity. }
    destruct (beq_spec x "-") as [->|_].
    { intros H. apply G in H. destruct H as (h & m & th & tm & Dh & Dm & Hh & Hm & -> & ->).
      exists (hyphen ++ th ++ B ":" ++ tm). split; [replace (-1 * (h * 3600 + m * 60)) with (- (h * 3600 + m * 60)) by lia; constructor; try assumption; left; reflexivity|].
      rewrite <- !app_assoc. reflexivity. }
    destruct (strip_prefix _ _) as [r'|] eqn:Ep; [|discriminate]. apply strip_prefix_some in Ep. rewrite Ep.
    intros H. apply G in H. destruct H as (h & m & th & tm & Dh & Dm & Hh & Hm & -> & ->).
    exists (minus_sign ++ th ++ B ":" ++ tm). split; [replace (-1 * (h * 3600 + m * 60)) with (- (h * 3600 + m * 60)) by lia; constructor; try assumption; right; left; reflexivity|].
    rewrite <- !app_assoc. reflexivity.
  - intros (z & Z & ->). destruct Z as [z I|h m th tm Dh Dm Hh Hm|sg h m th tm I Dh Dm Hh Hm].
    + destruct I as [<-|[<-|[]]]; reflexivity.
    + rewrite <- !app_assoc. cbn [app B]. change (B "+") with ["+"%byte]. cbn [app beq]. change (beq "+" "Z" || beq "+" "z")%bool with false.
      change (beq "+" "+") with true. cbv iota. apply G. exists h, m, th, tm. repeat (split; [assumption|]). split; [reflexivity|lia].
    + rewrite <- !app_assoc. destruct I as [<-|[<-|[]]].
      * change hyphen with ["-"%byte]. cbn [app]. change (beq "-" "Z" || beq "-" "z")%bool with false.
        change (beq "-" "+") with false. change (beq "-" "-") with true. cbv iota. apply G.
        exists h, m, th, tm. repeat (split; [assumption|]). split; [reflexivity|lia].
      * change minus_sign with [xe2; x88; x92]%byte. cbn [app]. change (beq xe2 "Z" || beq xe2 "z")%bool with false.
        change (beq xe2 "+") with false. change (beq xe2 "-") with false. cbv iota.
        change (xe2 :: x88 :: x92 :: th ++ B ":" ++ tm ++ r)%byte with ([xe2; x88; x92]%byte ++ th ++ B ":" ++ tm ++ r). rewrite strip_prefix_app. apply G.
        exists h, m, th, tm. repeat (split; [assumption|]). split; [reflexivity|lia].
Qed.

Lemma zone_zone_start west z off : Forall (fun sg => sg = hyphen \/ sg = minus_sign) west -> zone west z off -> zone_start z /\ z <> [].
Proof.
  intros W Z. destruct Z as [z I|h m th tm|sg h m th tm I].
  - destruct I as [<-|[<-|[]]]; (split; [intros c r E; injection E as <- <-; split; [reflexivity|discriminate]|discriminate]).
  - split; [intros c r E; injection E as <- <-; split; [reflexivity|discriminate]|discriminate].
  - rewrite Forall_forall in W. destruct (W sg I) as [->| ->];
      (split; [intros c r E; injection E as <- <-; split; [reflexivity|discriminate]|discriminate]).
Qed.

Lemma parse_rfc3339_spec s t : parse_rfc3339 s = Some t <-> rfc3339_read s t.
Proof.
  unfold parse_rfc3339, rfc3339_read. split.
  - destruct (scan_digits 4 s) as [[y s1]|] eqn:E1; [|discriminate]. apply scan_digits_spec in E1. destruct E1 as (ty & Dy & ->).
    destruct (scan_char "-" s1) as [s2|] eqn:E2; [|discriminate]. apply scan_char_spec in E2. subst s1.
    destruct (scan_digits 2 s2) as [[m s3]|] eqn:E3; [|discriminate]. apply scan_digits_spec in E3. destruct E3 as (tm & Dm & ->).
    destruct (scan_char "-" s3) as [s4|] eqn:E4; [|discriminate]. apply scan_char_spec in E4. subst s3.
    destruct (scan_digits 2 s4) as [[d s5]|] eqn:E5; [|discriminate]. apply scan_digits_spec in E5. destruct E5 as (td & Dd & ->).
    destruct s5 as [|c s6]; [discriminate|].
    destruct (beq c "T" || beq c "t" || beq c " ")%bool eqn:E6; [|discriminate].
    destruct (scan_digits 2 s6) as [[h s7]|] eqn:E7; [|discriminate]. apply scan_digits_spec in E7. destruct E7 as (th & Dh & ->).
    destruct (scan_char ":" s7) as [s8|] eqn:E8; [|discriminate]. apply scan_char_spec in E8. subst s7.
    destruct (scan_digits 2 s8) as [[mi s9]|] eqn:E9; [|discriminate]. apply scan_digits_spec in E9. destruct E9 as (tmi & Dmi & ->).
    destruct (scan_char ":" s9) as [s10|] eqn:E10; [|discriminate]. apply scan_char_spec in E10. subst s9.
    destruct (scan_digits 2 s10) as [[sec s11]|] eqn:E11; [|discriminate]. apply scan_digits_spec in E11. destruct E11 as (ts & Ds & ->).
    destruct (scan_fraction s11) as [s12|] eqn:E12; [|discriminate]. apply scan_fraction_sound in E12. destruct E12 as (f & F & ->).
    destruct (scan_offset s12) as [[off s13]|] eqn:E13; [|discriminate]. apply scan_offset_spec in E13. destruct E13 as (z & Z & ->).
    destruct s13; [|discriminate].
    destruct (negb ((h <=? 23) && (mi <=? 59) && (sec <=? 60))) eqn:E14; [discriminate|].
    destruct (days_of_civil y m d) as [days|] eqn:E15; [|discriminate]. apply days_of_civil_spec in E15.
    intros H. injection H as <-. rewrite app_nil_r.
    replace (if sec =? 60 then 59 else sec) with (Z.min sec 59) by (destruct (Z.eqb_spec sec 60); lia).
    change (("-" :: tm ++ "-" :: td ++ c :: th ++ ":" :: tmi ++ ":" :: ts ++ f ++ z)%byte)
      with (B "-" ++ tm ++ B "-" ++ td ++ [c] ++ th ++ B ":" ++ tmi ++ B ":" ++ ts ++ f ++ z).
    apply (dt_intro [hyphen; minus_sign] y m d h mi sec ty tm td [c] th tmi ts f z off days); try assumption; try lia.
    apply Bool.orb_true_iff in E6. destruct E6 as [E6|E6]; [apply Bool.orb_true_iff in E6; destruct E6 as [E6|E6]|];
      apply beq_eq in E6; subst c; [left|right; left|right; right; left]; reflexivity.
  - intros [y m d h mi s' ty tm td sep th tmi ts f z off days Dy Dm Dd Dh Dmi Ds Hd Hh Hmi Hs Hsep F Z].
    assert (W : Forall (fun sg => sg = hyphen \/ sg = minus_sign) [hyphen; minus_sign]) by (repeat (apply Forall_cons; [auto|]); constructor).
    destruct (zone_zone_start _ _ _ W Z) as [ZS ZN].
    rewrite (scan_digits_app 4 y) by exact Dy. rewrite (proj2 (scan_char_spec "-" (B "-" ++ tm ++ B "-" ++ td ++ sep ++ th ++ B ":" ++ tmi ++ B ":" ++ ts ++ f ++ z) (tm ++ B "-" ++ td ++ sep ++ th ++ B ":" ++ tmi ++ B ":" ++ ts ++ f ++ z)) eq_refl).
    rewrite (scan_digits_app 2 m) by exact Dm. rewrite (proj2 (scan_char_spec "-" (B "-" ++ td ++ sep ++ th ++ B ":" ++ tmi ++ B ":" ++ ts ++ f ++ z) (td ++ sep ++ th ++ B ":" ++ tmi ++ B ":" ++ ts ++ f ++ z)) eq_refl).
    rewrite (scan_digits_app 2 d) by exact Dd.
    assert (E : match sep ++ th ++ B ":" ++ tmi ++ B ":" ++ ts ++ f ++ z with
                | [] => None | c :: r => if (beq c "T" || beq c "t" || beq c " ")%bool then Some r else None end
              = Some (th ++ B ":" ++ tmi ++ B ":" ++ ts ++ f ++ z)).
    { destruct Hsep as [<-|[<-|[<-|[]]]]; reflexivity. }
    rewrite E. rewrite (scan_digits_app 2 h) by exact Dh. rewrite (proj2 (scan_char_spec ":" (B ":" ++ tmi ++ B ":" ++ ts ++ f ++ z) (tmi ++ B ":" ++ ts ++ f ++ z)) eq_refl).
    rewrite (scan_digits_app 2 mi) by exact Dmi. rewrite (proj2 (scan_char_spec ":" (B ":" ++ ts ++ f ++ z) (ts ++ f ++ z)) eq_refl).
    rewrite (scan_digits_app 2 s') by exact Ds. rewrite (scan_fraction_complete f z F ZS).
    rewrite (proj2 (scan_offset_spec z off [])) by (exists z; rewrite app_nil_r; auto).
    replace (negb ((h <=? 23) && (mi <=? 59) && (s' <=? 60))) with false by lia.
    apply days_of_civil_spec in Hd. rewrite Hd. f_equal. destruct (Z.eqb_spec s' 60); lia.
Qed.

(** * C59 *)

Theorem C59_rfc3339 s :
  (forall t, ut_from_rfc3339 s = Ok t <-> rfc3339_read s t /\ -62167219200 <= t <= 253402300799) /\
  (forall v, ut_from_rfc3339 s = Err (UtOutOfRange v) <-> rfc3339_read s v /\ ~ (-62167219200 <= v <= 253402300799)) /\
  (forall s', ut_from_rfc3339 s = Err (InvalidRfc3339Format s') <-> s' = s /\ forall v, ~ rfc3339_read s v).
Proof.
  assert (E : forall v, rfc3339_read s v <-> parse_rfc3339 s = Some v) by (intros v; symmetry; apply parse_rfc3339_spec).
  unfold ut_from_rfc3339, ut_try_from. destruct (parse_rfc3339 s) as [v|].
  - assert (R : forall t, rfc3339_read s t <-> t = v) by (intros t; rewrite E; split; congruence).
    destruct (_ && _)%bool eqn:C; (split; [|split]).
    + intros t. rewrite R. split; [intros H; injection H as <-; lia|intros [-> _]; reflexivity].
    + intros t. split; [discriminate|]. rewrite R. intros [-> N]. lia.
    + intros s'. split; [discriminate|]. intros [_ N]. destruct (N v). apply R. reflexivity.
    + intros t. split; [discriminate|]. rewrite R. intros [-> N]. lia.
    + intros t. rewrite R. split; [intros H; injection H as <-; lia|intros [-> _]; reflexivity].
    + intros s'. split; [discriminate|]. intros [_ N]. destruct (N v). apply R. reflexivity.
  - split; [|split].
    + intros t. split; [discriminate|]. intros [H _]. apply E in H. discriminate H.
    + intros t. split; [discriminate|]. intros [H _]. apply E in H. discriminate H.
    + intros s'. split; [intros H; injection H as <-; split; [reflexivity|]|intros [-> _]; reflexivity].
      intros v H. apply E in H. discriminate H.
Qed.

(** The policy reader: the [unreachable!()] is never reached, and the errors are those above. *)
Theorem C59_expiration s :
  (exists r, pd_expiration_from_str s = Some r) /\
  (forall t, pd_expiration_from_str s = Some (Ok t) <-> rfc3339_read s t /\ -62167219200 <= t <= 253402300799) /\
  (forall v, pd_expiration_from_str s = Some (Err (EOutOfRange v)) <-> rfc3339_read s v /\ ~ (-62167219200 <= v <= 253402300799)) /\
  (forall s', pd_expiration_from_str s = Some (Err (ERfc3339Format s')) <-> s' = s /\ forall v, ~ rfc3339_read s v).
Proof.
  destruct (C59_rfc3339 s) as (H1 & H2 & H3). unfold pd_expiration_from_str.
  assert (N : forall x, ut_from_rfc3339 s <> Err (InvalidIso8601Format x)).
  { intros x. unfold ut_from_rfc3339. destruct (parse_rfc3339 s); [destruct (ut_try_from _)|]; discriminate. }
  split; [|split; [|split]].
  - destruct (ut_from_rfc3339 s) as [t|[x|x|v]] ; eauto. destruct (N x eq_refl).
  - intros t. rewrite <- H1. destruct (ut_from_rfc3339 s) as [t'|[x|x|v]]; split; congruence.
  - intros t. rewrite <- H2. destruct (ut_from_rfc3339 s) as [t'|[x|x|v]]; split; congruence.
  - intros t. rewrite <- H3. destruct (ut_from_rfc3339 s) as [t'|[x|x|v]]; split; congruence.
Qed.

Lemma digits_no_e2 w n s : digits w n s -> ~ In xe2 s.
Proof. intros (_ & D & _) I. rewrite Forall_forall in D. apply D in I. discriminate I. Qed.

Lemma zone_no_e2 z off : zone [hyphen] z off -> ~ In xe2 z.
Proof.
  intros [z' I|h m th tm Dh Dm _ _|sg h m th tm I Dh Dm _ _] X.
  - destruct I as [<-|[<-|[]]]; destruct X as [X|[]]; discriminate X.
  - apply digits_no_e2 in Dh, Dm. rewrite !in_app_iff in X. destruct X as [[X|[]]|[X|[[X|[]]|X]]]; try discriminate; contradiction.
  - apply digits_no_e2 in Dh, Dm. destruct I as [<-|[]]. rewrite !in_app_iff in X.
    destruct X as [[X|[]]|[X|[[X|[]]|X]]]; try discriminate; contradiction.
Qed.

(** On texts without the byte E2, in particular on ASCII texts, exactly the texts of RFC 3339 are read. *)
Theorem C59_strict s t : ~ In xe2 s -> (rfc3339_read s t <-> rfc3339 s t).
Proof.
  intros X. split.
  - intros H. revert X. destruct H as [y m d h mi s' ty tm td sep th tmi ts f z off days Dy Dm Dd Dh Dmi Ds Hd Hh Hmi Hs Hsep F Z]. intros X. apply (dt_intro _ y m d h mi s' ty tm td sep th tmi ts f z off days); try assumption.
    assert (Xz : ~ In xe2 z) by (intros I; apply X; do 12 (apply in_or_app; right); exact I). clear X.
    destruct Z as [z I|h' m' th' tm'|sg h' m' th' tm' I]; [constructor; assumption|constructor; assumption|].
    apply zn_west; try assumption. destruct I as [<-|[<-|[]]]; [left; reflexivity|]. destruct Xz. left. reflexivity.
  - intros [y m d h mi s' ty tm td sep th tmi ts f z off days Dy Dm Dd Dh Dmi Ds Hd Hh Hmi Hs Hsep F Z]. apply (dt_intro _ y m d h mi s' ty tm td sep th tmi ts f z off days); try assumption.
    destruct Z as [z I|h' m' th' tm'|sg h' m' th' tm' I]; [constructor; assumption|constructor; assumption|].
    apply zn_west; try assumption. destruct I as [<-|[]]. left. reflexivity.
Qed.

(** A text outside RFC 3339 is read. *)
Theorem C59_rfc3339_only_refuted : exists s t, ut_from_rfc3339 s = Ok t /\ forall v, ~ rfc3339 s v.
Proof.
  exists (B "2020-01-02T03:04:05" ++ [xe2; x88; x92]%byte ++ B "01:00"), 1577937845. split; [vm_compute; reflexivity|].
  intros v H. unfold rfc3339 in H. remember (B "2020-01-02T03:04:05" ++ [xe2; x88; x92]%byte ++ B "01:00") as text eqn:E.
  destruct H as [y m d h mi s' ty tm td sep th tmi ts f z off days Dy Dm Dd Dh Dmi Ds _ _ _ _ Hsep F Z].
  assert (I : In xe2 (ty ++ B "-" ++ tm ++ B "-" ++ td ++ sep ++ th ++ B ":" ++ tmi ++ B ":" ++ ts ++ f ++ z)).
  { rewrite E. cbn. intuition. }
  apply digits_no_e2 in Dy, Dm, Dd, Dh, Dmi, Ds. apply zone_no_e2 in Z.
  assert (Nf : ~ In xe2 f).
  { destruct F as [|c ds D]; [intros []|]. intros [X|X]; [discriminate X|]. rewrite Forall_forall in D. apply D in X. discriminate X. }
  rewrite !in_app_iff in I.
  destruct I as [I|[I|[I|[I|[I|[I|[I|[I|[I|[I|[I|[I|I]]]]]]]]]]]]; try contradiction; try (destruct I as [I|[]]; discriminate I).
  destruct Hsep as [<-|[<-|[<-|[]]]]; destruct I as [I|[]]; discriminate I.
Qed.

(** Two different instants of a leap second are read as the same second. *)
Theorem C59_leap_second_refuted : exists s s' t, s <> s' /\ length s = length s' /\
  ut_from_rfc3339 s = Ok t /\ ut_from_rfc3339 s' = Ok t /\ ut_to_rfc3339 t = s /\ ut_to_rfc3339 t <> s'.
Proof.
  exists (B "2016-12-31T23:59:59Z"), (B "2016-12-31T23:59:60Z"), 1483228799.
  split; [discriminate|]. split; [reflexivity|]. split; [vm_compute; reflexivity|]. split; [vm_compute; reflexivity|].
  split; [vm_compute; reflexivity|]. vm_compute. discriminate.
Qed.

Example C59_case :
  map ut_from_rfc3339 [B "2020-01-02t03:04:05.9+09:00"; B "0000-01-01T00:00:00+00:01"; B "2021-02-29T00:00:00Z"; B "2020-01-02T03:04:05"]
  = [Ok 1577901845; Err (UtOutOfRange (-62167219260)); Err (InvalidRfc3339Format (B "2021-02-29T00:00:00Z"));
     Err (InvalidRfc3339Format (B "2020-01-02T03:04:05"))] /\ ~ In xe2 (B "2020-01-02t03:04:05.9+09:00").
Proof. split; [vm_compute; reflexivity|]. cbn. intuition discriminate. Qed.
