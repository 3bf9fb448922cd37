(** Hex and base64. *)
From Verif Require Import Base BaseFacts Base64 Sha256 SpecCodec.
From Coq Require Import ZifyBool ZifyNat ZifyN.
Ltac Zify.zify_post_hook ::= Z.div_mod_to_equations.
Local Open Scope N_scope.

(** ** Finite sweeps *)

Lemma n_sweep (k : nat) (P : N -> bool) :
  forallb (fun i => P (N.of_nat i)) (seq 0 k) = true -> forall n, n < N.of_nat k -> P n = true.
Proof.
  intros H n Hn. rewrite forallb_forall in H.
  specialize (H (N.to_nat n)). rewrite N2Nat.id in H. apply H. apply in_seq. lia.
Qed.

Lemma nth_error_beq (l : str) i c : nth_error l i = Some c -> forall j d, nth_error l j = Some d -> i = j -> c = d.
Proof. congruence. Qed.

(** ** Hex *)

Lemma hexd_nth n : n < 16 -> nth_error hex_alphabet (N.to_nat n) = Some (hexd n).
Proof.
  intros H.
  pose proof (n_sweep 16 (fun n => match nth_error hex_alphabet (N.to_nat n) with
                                   | Some c => beq c (hexd n) | None => false end) eq_refl n H) as E.
  cbv beta in E. destruct (nth_error _ _); [|discriminate]. apply beq_eq in E. congruence.
Qed.

Lemma hex_encode_spec s : hex_of s (hex_encode s).
Proof.
  induction s as [|b s IH]; [constructor|].
  change (hex_encode (b :: s)) with (hexd (bN b / 16) :: hexd (bN b mod 16) :: hex_encode s).
  pose proof (bN_lt b).
  constructor; [apply hexd_nth; lia|apply hexd_nth; lia|exact IH].
Qed.

Lemma hex_alphabet_nodup : NoDup hex_alphabet.
Proof.
  repeat constructor; cbn; intros H; repeat (destruct H as [H|H]; [discriminate H|]); exact H.
Qed.

Lemma nodup_nth_error_inj (l : str) : NoDup l -> forall i j c,
  nth_error l i = Some c -> nth_error l j = Some c -> i = j.
Proof.
  intros H i j c Hi Hj. rewrite NoDup_nth_error in H. apply H.
  - apply nth_error_Some. congruence.
  - congruence.
Qed.

Lemma hex_of_data_unique s1 s2 t : hex_of s1 t -> hex_of s2 t -> s1 = s2.
Proof.
  intros H1. revert s2. induction H1 as [|b h l data text Hh Hl H1 IH]; intros s2 H2; inversion H2; subst.
  - reflexivity.
  - f_equal; [|apply IH; assumption].
    apply bN_inj. pose proof (bN_lt b). pose proof (bN_lt b0).
    assert (E1 : N.to_nat (bN b / 16) = N.to_nat (bN b0 / 16))
      by (eapply nodup_nth_error_inj; [apply hex_alphabet_nodup|eassumption|eassumption]).
    assert (E2 : N.to_nat (bN b mod 16) = N.to_nat (bN b0 mod 16))
      by (eapply nodup_nth_error_inj; [apply hex_alphabet_nodup|eassumption|eassumption]).
    lia.
Qed.

Lemma hex_of_text_unique s t1 t2 : hex_of s t1 -> hex_of s t2 -> t1 = t2.
Proof.
  intros H1. revert t2. induction H1; intros t2 H2; inversion H2; subst; [reflexivity|].
  f_equal; [congruence|]. f_equal; [congruence|]. auto.
Qed.

Lemma hex_encode_inj a b : hex_encode a = hex_encode b -> a = b.
Proof.
  intros H. eapply hex_of_data_unique; [apply hex_encode_spec|]. rewrite H. apply hex_encode_spec.
Qed.

Lemma hex_encode_length s : length (hex_encode s) = (2 * length s)%nat.
Proof. induction s as [|b s IH]; [reflexivity|]. change (hex_encode (b :: s)) with (hexd (bN b / 16) :: hexd (bN b mod 16) :: hex_encode s). cbn [length]. lia. Qed.

Lemma hex_of_alphabet s t : hex_of s t -> Forall (fun c => In c hex_alphabet) t.
Proof.
  induction 1 as [|b h l data text Hh Hl H IH]; [constructor|].
  constructor; [eapply nth_error_In; eassumption|]. constructor; [eapply nth_error_In; eassumption|exact IH].
Qed.

(** ** Base64 *)

Lemma b64_char_nth n : n < 64 -> nth_error b64_alphabet (N.to_nat n) = Some (b64_char n).
Proof.
  intros H.
  pose proof (n_sweep 64 (fun n => match nth_error b64_alphabet (N.to_nat n) with
                                   | Some c => beq c (b64_char n) | None => false end) eq_refl n H) as E.
  cbv beta in E. destruct (nth_error _ _); [|discriminate]. apply beq_eq in E. congruence.
Qed.

Lemma b64_val_char n : n < 64 -> b64_val (b64_char n) = Some n.
Proof.
  intros H.
  pose proof (n_sweep 64 (fun n => match b64_val (b64_char n) with
                                   | Some m => N.eqb m n | None => false end) eq_refl n H) as E.
  cbv beta in E. destruct (b64_val _); [|discriminate]. apply N.eqb_eq in E. congruence.
Qed.

Lemma b64_char_val c n : b64_val c = Some n -> n < 64 /\ b64_char n = c.
Proof.
  pose proof (byte_sweep (fun c => match b64_val c with
                                   | Some m => (m <? 64) && beq (b64_char m) c | None => true end)) as S.
  specialize (S eq_refl c). cbv beta in S. intros E. rewrite E in S.
  apply andb_true_iff in S. destruct S as [S1 S2]. apply beq_eq in S2. split; [lia|exact S2].
Qed.

Lemma b64_char_not_pad n : n < 64 -> beq (b64_char n) "="%byte = false.
Proof.
  intros H. pose proof (n_sweep 64 (fun n => negb (beq (b64_char n) "="%byte)) eq_refl n H) as E.
  cbv beta in E. apply negb_true_iff in E. exact E.
Qed.

Lemma b64_nth_val i c : nth_error b64_alphabet i = Some c -> b64_val c = Some (N.of_nat i).
Proof.
  intros H. assert (Hi : (i < 64)%nat).
  { change 64%nat with (length b64_alphabet). apply nth_error_Some. congruence. }
  assert (Hn : N.of_nat i < 64) by lia.
  pose proof (b64_char_nth _ Hn) as E. rewrite Nat2N.id in E.
  assert (c = b64_char (N.of_nat i)) as -> by congruence. apply b64_val_char. exact Hn.
Qed.

(** Induction three bytes at a time. *)
Lemma str_ind3 (P : str -> Prop) :
  P [] -> (forall a, P [a]) -> (forall a b, P [a; b]) ->
  (forall a b c r, P r -> P (a :: b :: c :: r)) -> forall s, P s.
Proof.
  intros H0 H1 H2 H3. fix IH 1. intros [|a [|b [|c r]]]; [apply H0|apply H1|apply H2|apply H3; apply IH].
Qed.

(** The four sextets of three bytes. *)
Lemma b64_split3 a b c : a < 256 -> b < 256 -> c < 256 ->
  let n := a * 65536 + b * 256 + c in
  n / 262144 = a / 4 /\ n / 4096 mod 64 = a mod 4 * 16 + b / 16 /\
  n / 64 mod 64 = b mod 16 * 4 + c / 64 /\ n mod 64 = c mod 64.
Proof. intros Ha Hb Hc n. subst n. repeat split; lia. Qed.

Lemma b64_split2 a b : a < 256 -> b < 256 ->
  let n := (a * 256 + b) * 4 in
  n / 4096 = a / 4 /\ n / 64 mod 64 = a mod 4 * 16 + b / 16 /\ n mod 64 = b mod 16 * 4.
Proof. intros Ha Hb n. subst n. repeat split; lia. Qed.

Lemma b64_split1 a : a < 256 ->
  let n := a * 16 in n / 64 = a / 4 /\ n mod 64 = a mod 4 * 16.
Proof. intros Ha n. subst n. repeat split; lia. Qed.

(** Unfolding with sextets named. *)
Lemma b64_encode_3 a b c r : b64_encode (a :: b :: c :: r) =
  b64_char (bN a / 4) :: b64_char (bN a mod 4 * 16 + bN b / 16)
  :: b64_char (bN b mod 16 * 4 + bN c / 64) :: b64_char (bN c mod 64) :: b64_encode r.
Proof.
  cbn [b64_encode].
  destruct (b64_split3 _ _ _ (bN_lt a) (bN_lt b) (bN_lt c)) as (E1 & E2 & E3 & E4).
  cbv zeta in *. rewrite E1, E2, E3, E4. reflexivity.
Qed.
Lemma b64_encode_2 a b : b64_encode [a; b] =
  [b64_char (bN a / 4); b64_char (bN a mod 4 * 16 + bN b / 16); b64_char (bN b mod 16 * 4); "="%byte].
Proof.
  cbn [b64_encode].
  destruct (b64_split2 _ _ (bN_lt a) (bN_lt b)) as (E1 & E2 & E3).
  cbv zeta in *. rewrite E1, E2, E3. reflexivity.
Qed.
Lemma b64_encode_1 a : b64_encode [a] =
  [b64_char (bN a / 4); b64_char (bN a mod 4 * 16); "="%byte; "="%byte].
Proof.
  cbn [b64_encode].
  destruct (b64_split1 _ (bN_lt a)) as (E1 & E2).
  cbv zeta in *. rewrite E1, E2. reflexivity.
Qed.

Ltac nb_eq x := replace x with (bN _); [apply nb_bN|].

Lemma nb_of n a : n = bN a -> nb n = a.
Proof. intros ->. apply nb_bN. Qed.

Lemma b64_decode_encode s : b64_decode (b64_encode s) = Some s.
Proof.
  induction s as [|a|a b|a b c r IH] using str_ind3.
  - reflexivity.
  - rewrite b64_encode_1. pose proof (bN_lt a). cbn [b64_decode].
    rewrite !b64_val_char by lia. cbv zeta. change (beq "="%byte "="%byte) with true. cbv iota.
    replace (bN a / 4 * 64 + bN a mod 4 * 16) with (bN a * 16) by lia.
    replace (bN a * 16 mod 16 =? 0) with true by lia.
    f_equal. f_equal. apply nb_of. lia.
  - rewrite b64_encode_2. pose proof (bN_lt a). pose proof (bN_lt b). cbn [b64_decode].
    rewrite !b64_val_char by lia. cbv zeta. change (beq "="%byte "="%byte) with true. cbv iota.
    rewrite b64_char_not_pad by lia.
    set (n := bN a / 4 * 4096 + (bN a mod 4 * 16 + bN b / 16) * 64 + bN b mod 16 * 4).
    assert (En : n = (bN a * 256 + bN b) * 4) by (subst n; lia). rewrite En. clear n En.
    replace ((bN a * 256 + bN b) * 4 mod 4 =? 0) with true by lia.
    f_equal. f_equal; [|f_equal]; apply nb_of; lia.
  - rewrite b64_encode_3. pose proof (bN_lt a). pose proof (bN_lt b). pose proof (bN_lt c).
    cbn [b64_decode].
    rewrite !b64_val_char by lia. rewrite b64_char_not_pad by lia. rewrite IH. cbv zeta.
    set (n := bN a / 4 * 262144 + (bN a mod 4 * 16 + bN b / 16) * 4096
              + (bN b mod 16 * 4 + bN c / 64) * 64 + bN c mod 64).
    assert (En : n = bN a * 65536 + bN b * 256 + bN c) by (subst n; lia). rewrite En. clear n En.
    f_equal. f_equal; [|f_equal; [|f_equal]]; apply nb_of; lia.
Qed.

Lemma b64_encode_inj a b : b64_encode a = b64_encode b -> a = b.
Proof. intros H. pose proof (b64_decode_encode a). pose proof (b64_decode_encode b). congruence. Qed.

Lemma b64_length s : length (b64_encode s) = (4 * ((length s + 2) / 3))%nat.
Proof.
  induction s as [|a|a b|a b c r IH] using str_ind3; try reflexivity.
  rewrite b64_encode_3. cbn [length]. rewrite IH.
  replace (S (S (S (length r))) + 2)%nat with (1 * 3 + (length r + 2))%nat by lia.
  rewrite Nat.div_add_l by lia. lia.
Qed.

(** ** Against the bit-level specification *)

Lemma bits_8 b : bits 8 (bN b) = bits 6 (bN b / 4) ++ bits 2 (bN b mod 4).
Proof. destruct b; reflexivity. Qed.
Lemma bits_8' b : bits 8 (bN b) = bits 4 (bN b / 16) ++ bits 4 (bN b mod 16).
Proof. destruct b; reflexivity. Qed.
Lemma bits_8'' b : bits 8 (bN b) = bits 2 (bN b / 64) ++ bits 6 (bN b mod 64).
Proof. destruct b; reflexivity. Qed.

Definition bits_eqb (a b : list bool) : bool := if list_eq_dec Bool.bool_dec a b then true else false.
Lemma bits_eqb_eq a b : bits_eqb a b = true -> a = b.
Proof. unfold bits_eqb. destruct (list_eq_dec _ a b); [auto|discriminate]. Qed.

Lemma bits_24 x y : x < 4 -> y < 16 -> bits 6 (x * 16 + y) = bits 2 x ++ bits 4 y.
Proof.
  intros Hx Hy. apply bits_eqb_eq.
  pose proof (n_sweep 4 (fun x => forallb (fun j => let y := N.of_nat j in
    bits_eqb (bits 6 (x * 16 + y)) (bits 2 x ++ bits 4 y)) (seq 0 16)) eq_refl x Hx) as S.
  cbv beta in S. exact (n_sweep 16 (fun y => bits_eqb (bits 6 (x * 16 + y)) (bits 2 x ++ bits 4 y)) S y Hy).
Qed.
Lemma bits_42 x y : x < 16 -> y < 4 -> bits 6 (x * 4 + y) = bits 4 x ++ bits 2 y.
Proof.
  intros Hx Hy. apply bits_eqb_eq.
  pose proof (n_sweep 16 (fun x => forallb (fun j => let y := N.of_nat j in
    bits_eqb (bits 6 (x * 4 + y)) (bits 4 x ++ bits 2 y)) (seq 0 4)) eq_refl x Hx) as S.
  cbv beta in S. exact (n_sweep 4 (fun y => bits_eqb (bits 6 (x * 4 + y)) (bits 4 x ++ bits 2 y)) S y Hy).
Qed.

Lemma sextets_cons n chars bs : n < 64 -> sextets chars bs -> sextets (b64_char n :: chars) (bits 6 n ++ bs).
Proof.
  intros Hn H. pose proof (b64_char_nth n Hn) as E.
  pose proof (sx_cons _ _ _ _ E H) as S. rewrite N2Nat.id in S. exact S.
Qed.

Lemma b64_encode_parts s : exists chars fill pad,
    (fill < 6)%nat /\ (pad < 4)%nat /\
    sextets chars (byte_bits s ++ repeat false fill) /\
    b64_encode s = chars ++ repeat "="%byte pad.
Proof.
  induction s as [|a|a b|a b c r IH] using str_ind3.
  - exists [], 0%nat, 0%nat. repeat split; try lia. constructor.
  - exists [b64_char (bN a / 4); b64_char (bN a mod 4 * 16)], 4%nat, 2%nat.
    rewrite b64_encode_1. pose proof (bN_lt a). repeat split; try lia.
    unfold byte_bits. cbn [flat_map]. rewrite app_nil_r, bits_8, <- app_assoc.
    apply sextets_cons; [lia|].
    change (repeat false 4) with (bits 4 0). rewrite <- bits_24 by lia. rewrite N.add_0_r.
    rewrite <- (app_nil_r (bits 6 _)). apply sextets_cons; [lia|constructor].
  - exists [b64_char (bN a / 4); b64_char (bN a mod 4 * 16 + bN b / 16); b64_char (bN b mod 16 * 4)], 2%nat, 1%nat.
    rewrite b64_encode_2. pose proof (bN_lt a). pose proof (bN_lt b). repeat split; try lia.
    unfold byte_bits. cbn [flat_map]. rewrite app_nil_r, (bits_8 a), (bits_8' b), <- !app_assoc.
    apply sextets_cons; [lia|].
    rewrite app_assoc, <- bits_24 by lia. apply sextets_cons; [lia|].
    change (repeat false 2) with (bits 2 0). rewrite <- bits_42 by lia. rewrite N.add_0_r.
    rewrite <- (app_nil_r (bits 6 _)). apply sextets_cons; [lia|constructor].
  - destruct IH as (chars & fill & pad & Hf & Hp & Hs & He).
    rewrite b64_encode_3, He. pose proof (bN_lt a). pose proof (bN_lt b). pose proof (bN_lt c).
    eexists (_ :: _ :: _ :: _ :: chars), fill, pad. repeat split; try assumption.
    unfold byte_bits. cbn [flat_map]. fold (byte_bits r).
    rewrite (bits_8 a), (bits_8' b), (bits_8'' c), <- !app_assoc.
    apply sextets_cons; [lia|].
    rewrite app_assoc, <- bits_24 by lia. apply sextets_cons; [lia|].
    rewrite app_assoc, <- bits_42 by lia. apply sextets_cons; [lia|].
    apply sextets_cons; [lia|]. exact Hs.
Qed.

Lemma b64_encode_spec s : base64_of s (b64_encode s).
Proof.
  destruct (b64_encode_parts s) as (chars & fill & pad & Hf & Hp & Hs & He).
  exists chars, fill, pad. repeat split; try assumption.
  rewrite b64_length. rewrite Nat.mul_comm. apply Nat.mod_mul. lia.
Qed.

(** The specification determines data and text. *)
Lemma bits_length w n : length (bits w n) = w.
Proof. induction w as [|w IH]; cbn; [reflexivity|]. rewrite IH. reflexivity. Qed.

Lemma app_inv_len {A} (a b c d : list A) : length a = length b -> a ++ c = b ++ d -> a = b /\ c = d.
Proof.
  revert b; induction a as [|x a IH]; intros [|y b] L H; try discriminate L.
  - split; [reflexivity|exact H].
  - cbn in H. injection H as -> H. injection L as L. destruct (IH _ L H) as [-> ->]. split; reflexivity.
Qed.

Lemma bits6_inj a b : a < 64 -> b < 64 -> bits 6 a = bits 6 b -> a = b.
Proof.
  intros Ha Hb H.
  pose proof (n_sweep 64 (fun a => forallb (fun j => let b := N.of_nat j in
    implb (bits_eqb (bits 6 a) (bits 6 b)) (a =? b)) (seq 0 64)) eq_refl a Ha) as S.
  cbv beta in S. pose proof (n_sweep 64 (fun b => implb (bits_eqb (bits 6 a) (bits 6 b)) (a =? b)) S b Hb) as S'.
  cbv beta in S'. unfold bits_eqb in S'. destruct (list_eq_dec _ _ _); [|contradiction].
  cbn in S'. lia.
Qed.

Lemma bits8_inj a b : bits 8 (bN a) = bits 8 (bN b) -> a = b.
Proof.
  rewrite !bits_8''. intros H. apply app_inv_len in H; [|rewrite !bits_length; reflexivity].
  destruct H as [H H6]. pose proof (bN_lt a). pose proof (bN_lt b).
  assert (E2 : bN a mod 64 = bN b mod 64) by (apply bits6_inj; [lia|lia|exact H6]).
  assert (E1 : bN a / 64 = bN b / 64).
  { assert (bN a / 64 < 4) by lia. assert (bN b / 64 < 4) by lia.
    revert H. generalize dependent (bN a / 64). generalize dependent (bN b / 64). intros y Hy x Hx.
    cbn [bits]. intros HH. injection HH as T1 T0.
    pose proof (n_sweep 4 (fun x => forallb (fun j => let y := N.of_nat j in
      implb (eqb (N.testbit x 1) (N.testbit y 1) && eqb (N.testbit x 0) (N.testbit y 0)) (x =? y)) (seq 0 4)) eq_refl x Hx) as S.
    cbv beta in S.
    pose proof (n_sweep 4 (fun y => implb (eqb (N.testbit x 1) (N.testbit y 1) && eqb (N.testbit x 0) (N.testbit y 0)) (x =? y)) S y Hy) as S'.
    cbv beta in S'. change (N.of_nat 1) with 1 in T1. change (N.of_nat 0) with 0 in T0.
    rewrite T1, T0, !eqb_reflx in S'. cbn in S'. lia. }
  apply bN_inj. lia.
Qed.

Lemma sextets_length chars bs : sextets chars bs -> length bs = (6 * length chars)%nat.
Proof. induction 1 as [|c i chars bs H HS IH]; [reflexivity|]. cbn [length]. rewrite app_length, bits_length. lia. Qed.

Lemma sextets_chars_unique c1 c2 bs : sextets c1 bs -> sextets c2 bs -> c1 = c2.
Proof.
  intros H1. revert c2. induction H1 as [|c i chars bs Hi HS IH]; intros c2 H2.
  - apply sextets_length in H2. destruct c2; [reflexivity|discriminate H2].
  - remember (bits 6 (N.of_nat i) ++ bs) as w eqn:Hb.
    destruct H2 as [|c' i' chars' bs' Hi' HS'].
    + exfalso. apply (f_equal (@length bool)) in Hb. rewrite app_length, bits_length in Hb. discriminate.
    + assert (L : (i < 64)%nat). { change 64%nat with (length b64_alphabet). apply nth_error_Some. congruence. }
      assert (L' : (i' < 64)%nat). { change 64%nat with (length b64_alphabet). apply nth_error_Some. congruence. }
      apply app_inv_len in Hb; [|rewrite !bits_length; reflexivity]. destruct Hb as [E E2].
      subst bs'. apply bits6_inj in E; try lia. assert (i' = i) by lia. subst i'.
      f_equal; [congruence|]. apply IH. exact HS'.
Qed.

Lemma byte_bits_length s : length (byte_bits s) = (8 * length s)%nat.
Proof.
  induction s as [|b s IH]; [reflexivity|]. unfold byte_bits in *. cbn [flat_map].
  rewrite app_length, bits_length, IH. cbn [length]. lia.
Qed.

Lemma byte_bits_inj a b : byte_bits a = byte_bits b -> a = b.
Proof.
  revert b; induction a as [|x a IH]; intros [|y b] H; try reflexivity;
    try (apply (f_equal (@length bool)) in H; rewrite !byte_bits_length in H; cbn in H; lia).
  unfold byte_bits in H. cbn [flat_map] in H. fold (byte_bits a) in H. fold (byte_bits b) in H.
  apply app_inv_len in H; [|rewrite !bits_length; reflexivity]. destruct H as [E1 E2].
  f_equal; [apply bits8_inj; exact E1|apply IH; exact E2].
Qed.

(** The specification is a function of the data ... *)
Lemma base64_of_text_unique s t1 t2 : base64_of s t1 -> base64_of s t2 -> t1 = t2.
Proof.
  intros (c1 & f1 & p1 & Hf1 & Hp1 & Hs1 & -> & Hm1) (c2 & f2 & p2 & Hf2 & Hp2 & Hs2 & -> & Hm2).
  pose proof (sextets_length _ _ Hs1) as L1. pose proof (sextets_length _ _ Hs2) as L2.
  rewrite app_length, byte_bits_length, repeat_length in L1, L2.
  assert (f1 = f2) by lia. subst f2.
  assert (c1 = c2) by (eapply sextets_chars_unique; eassumption). subst c2.
  rewrite app_length, repeat_length in Hm1, Hm2. assert (p1 = p2) by lia. congruence.
Qed.

Lemma sextets_no_pad chars bs : sextets chars bs -> ~ In "="%byte chars.
Proof.
  induction 1 as [|c i chars bs H HS IH]; [intros []|]. intros [->|Hin]; [|exact (IH Hin)].
  apply b64_nth_val in H. discriminate H.
Qed.

Lemma sextets_bits_unique c b1 b2 : sextets c b1 -> sextets c b2 -> b1 = b2.
Proof.
  intros H1. revert b2. induction H1 as [|c i chars bs Hi HS IH]; intros b2 H2; inversion H2; subst; [reflexivity|].
  f_equal; [|apply IH; assumption]. apply b64_nth_val in Hi. apply b64_nth_val in H1. f_equal. congruence.
Qed.

Lemma split_pad a b p q : ~ In "="%byte a -> ~ In "="%byte b ->
  a ++ repeat "="%byte p = b ++ repeat "="%byte q -> a = b /\ p = q.
Proof.
  revert b; induction a as [|x a IH]; intros [|y b] Ha Hb H; cbn in H.
  - split; [reflexivity|]. apply (f_equal (@length byte)) in H. rewrite !repeat_length in H. exact H.
  - destruct p; [discriminate|]. cbn in H. injection H as Hy H. exfalso. apply Hb. left. congruence.
  - destruct q; [discriminate|]. cbn in H. injection H as Hy H. exfalso. apply Ha. left. congruence.
  - injection H as -> H. destruct (IH b) as [-> ->]; auto; intros Hin; [apply Ha|apply Hb]; right; exact Hin.
Qed.

(** ... and of the text. *)
Lemma base64_of_data_unique s1 s2 t : base64_of s1 t -> base64_of s2 t -> s1 = s2.
Proof.
  intros (c1 & f1 & p1 & Hf1 & Hp1 & Hs1 & Ht1 & Hm1) (c2 & f2 & p2 & Hf2 & Hp2 & Hs2 & Ht2 & Hm2).
  subst t. apply split_pad in Ht2; [|eapply sextets_no_pad; eassumption|eapply sextets_no_pad; eassumption].
  destruct Ht2 as [<- <-].
  pose proof (sextets_bits_unique _ _ _ Hs1 Hs2) as E.
  pose proof (f_equal (@length bool) E) as L. rewrite !app_length, !byte_bits_length, !repeat_length in L.
  assert (length s1 = length s2) by lia.
  apply byte_bits_inj. apply app_inv_len in E; [apply E|]. rewrite !byte_bits_length. lia.
Qed.

(** Decoding accepts exactly the encodings. *)
Lemma b64_encode_decode t : forall s, b64_decode t = Some s -> b64_encode s = t.
Proof.
  assert (H : forall n t, (length t <= n)%nat -> forall s, b64_decode t = Some s -> b64_encode s = t).
  2:{ intros s. apply (H (length t)). lia. }
  clear t. induction n as [|n IH]; intros t Hl s Hd.
  { destruct t; [|cbn in Hl; lia]. cbn in Hd. injection Hd as <-. reflexivity. }
  destruct t as [|a [|b [|c [|d r]]]]; try discriminate Hd.
  { cbn in Hd. injection Hd as <-. reflexivity. }
  cbn [b64_decode] in Hd.
  destruct (b64_val a) as [va|] eqn:Ea; [|discriminate].
  destruct (b64_val b) as [vb|] eqn:Eb; [|discriminate].
  apply b64_char_val in Ea, Eb. destruct Ea as [La <-], Eb as [Lb <-].
  destruct (beq_spec d "="%byte) as [->|Nd].
  - destruct r; [|discriminate]. destruct (beq_spec c "="%byte) as [->|Nc].
    + cbv zeta in Hd. destruct (N.eqb_spec ((va * 64 + vb) mod 16) 0) as [E|]; [|discriminate].
      injection Hd as <-. rewrite b64_encode_1. rewrite bN_nb by lia.
      f_equal; [f_equal; lia|]. f_equal. f_equal. lia.
    + destruct (b64_val c) as [vc|] eqn:Ec; [|discriminate]. apply b64_char_val in Ec. destruct Ec as [Lc <-].
      cbv zeta in Hd. destruct (N.eqb_spec ((va * 4096 + vb * 64 + vc) mod 4) 0) as [E|]; [|discriminate].
      injection Hd as <-. rewrite b64_encode_2. rewrite !bN_nb by lia.
      f_equal; [f_equal; lia|]. f_equal; [f_equal; lia|]. f_equal. f_equal. lia.
  - destruct (b64_val c) as [vc|] eqn:Ec; [|discriminate].
    destruct (b64_val d) as [vd|] eqn:Ed; [|discriminate].
    apply b64_char_val in Ec, Ed. destruct Ec as [Lc <-], Ed as [Ld <-].
    destruct (b64_decode r) as [rest|] eqn:Er; [|discriminate]. cbv zeta in Hd. injection Hd as <-.
    rewrite b64_encode_3. rewrite !bN_nb by lia.
    rewrite (IH r ltac:(cbn in Hl; lia) rest Er).
    f_equal; [f_equal; lia|]. f_equal; [f_equal; lia|]. f_equal; [f_equal; lia|]. f_equal. f_equal. lia.
Qed.

Lemma b64_decode_spec t s : b64_decode t = Some s <-> base64_of s t.
Proof.
  split; intros H.
  - apply b64_encode_decode in H. subst t. apply b64_encode_spec.
  - assert (t = b64_encode s) as -> by (eapply base64_of_text_unique; [exact H|apply b64_encode_spec]).
    apply b64_decode_encode.
Qed.
