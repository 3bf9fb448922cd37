(** The checks of ring and its signatures: what they accept, that signatures verify, that sound keys sign. *)
From Coq Require Import Znumtheory Zpow_facts.
From Verif Require Import Base Sha256 SpecSha ShaFacts Rsa SpecRsa NumberFacts DerFacts.
Local Open Scope Z_scope.

(** * Lengths *)

Lemma bit_length_iff v b : 0 < v -> bit_length v = b <-> 0 < b /\ 2 ^ (b - 1) <= v < 2 ^ b.
Proof.
  intro P. unfold bit_length. replace (v <=? 0) with false by (symmetry; apply Z.leb_gt; exact P).
  pose proof (Z.log2_spec v P) as [L U]. pose proof (Z.log2_nonneg v) as N. split.
  - intros <-. replace (Z.log2 v + 1 - 1) with (Z.log2 v) by lia. replace (Z.log2 v + 1) with (Z.succ (Z.log2 v)) by lia. lia.
  - intros (B0 & L' & U').
    assert (Z.log2 v < b) by (apply Z.log2_lt_pow2; assumption).
    assert (b - 1 <= Z.log2 v) by (apply Z.log2_le_pow2; assumption). lia.
Qed.

Lemma bit_length_le v : v <= 0 -> bit_length v = 0.
Proof. intro H. unfold bit_length. replace (v <=? 0) with true by (symmetry; apply Z.leb_le; exact H). reflexivity. Qed.

Lemma bit_length_pos v : 0 < bit_length v -> 0 < v.
Proof. intro H. destruct (Z_le_gt_dec v 0) as [L|L]; [rewrite bit_length_le in H by exact L; lia|lia]. Qed.

Lemma byte_length b : 0 < b -> 8 * ((b + 7) / 8 - 1) < b <= 8 * ((b + 7) / 8).
Proof. intro H. pose proof (Z.div_mod (b + 7) 8 ltac:(lia)). pose proof (Z.mod_pos_bound (b + 7) 8 ltac:(lia)). lia. Qed.

Lemma pow256 k : 0 <= k -> 256 ^ k = 2 ^ (8 * k).
Proof. intro H. change 256 with (2 ^ 8). rewrite <- Z.pow_mul_r by lia. reflexivity. Qed.

Lemma modulus_octets n : 0 < n ->
  256 ^ (Z.of_nat (Z.to_nat ((bit_length n + 7) / 8)) - 1) <= n < 256 ^ Z.of_nat (Z.to_nat ((bit_length n + 7) / 8)).
Proof.
  intro P. destruct (proj1 (bit_length_iff n _ P) eq_refl) as (B0 & L & U). pose proof (byte_length _ B0) as R.
  set (k := (bit_length n + 7) / 8) in *. assert (0 < k) by lia. rewrite Z2Nat.id by lia. rewrite !pow256 by lia. split.
  - eapply Z.le_trans; [|exact L]. apply Z.pow_le_mono_r; lia.
  - eapply Z.lt_le_trans; [exact U|]. apply Z.pow_le_mono_r; lia.
Qed.

(** * Numbers as bytes *)

Lemma octets_app a b : octets (a ++ b) = octets a * 256 ^ Z.of_nat (length b) + octets b.
Proof.
  induction a as [|x a IH]; [cbn; lia|]. cbn [app octets]. rewrite IH, app_length, Nat2Z.inj_add, Z.pow_add_r by lia. ring.
Qed.

Lemma nb_value n : (n < 256)%N -> bN (nb n) = n.
Proof.
  intro H. unfold nb, bN. destruct (Byte.of_N n) as [b|] eqn:E; [apply Byte.to_of_N; exact E|].
  apply Byte.of_N_None_iff in E. lia.
Qed.

Lemma be_bytes_app k v acc : exists s, be_bytes k v acc = s ++ acc /\ length s = k /\ (0 <= v < 256 ^ Z.of_nat k -> octets s = v).
Proof.
  revert v acc. induction k as [|k IH]; intros v acc; cbn [be_bytes].
  - exists []. cbn. repeat split; lia.
  - destruct (IH (Z.shiftr v 8) (nb (Z.to_N (v mod 256)) :: acc)) as (s & -> & L & V). exists (s ++ [nb (Z.to_N (v mod 256))]).
    rewrite <- app_assoc. split; [reflexivity|]. split; [rewrite app_length, L; cbn; lia|]. intro R.
    rewrite Nat2Z.inj_succ, Z.pow_succ_r in R by lia. rewrite octets_app, octets_1.
    pose proof (Z.mod_pos_bound v 256 ltac:(lia)) as M. rewrite nb_value by lia. rewrite V; rewrite Z.shiftr_div_pow2 by lia; change (2 ^ 8) with 256.
    + cbn [length]. pose proof (Z.div_mod v 256 ltac:(lia)). change (256 ^ Z.of_nat 1) with 256. lia.
    + split; [apply Z.div_pos; lia|]. apply Z.div_lt_upper_bound; lia.
Qed.

Lemma be_bytes_spec k v : length (be_bytes k v []) = k /\ (0 <= v < 256 ^ Z.of_nat k -> octets (be_bytes k v []) = v).
Proof. destruct (be_bytes_app k v []) as (s & -> & L & V). rewrite app_nil_r. auto. Qed.

Lemma octets_inj a b : length a = length b -> octets a = octets b -> a = b.
Proof.
  revert b. induction a as [|x a IH]; intros [|y b] L E; try discriminate; [reflexivity|]. cbn in L. injection L as L.
  cbn [octets] in E. rewrite L in E. pose proof (octets_range a) as Ra. pose proof (octets_range b) as Rb. rewrite L in Ra.
  assert (bN x = bN y) by nia. rewrite (bN_inj x y) by assumption. f_equal. apply IH; [exact L|]. nia.
Qed.

(** * The encoded message *)

Lemma der_short tag c : (length c < 128)%nat -> der tag c (tag :: [nb (N.of_nat (length c))] ++ c).
Proof.
  intro H. exists [nb (N.of_nat (length c))]. split; [|reflexivity]. constructor; [exact H|]. rewrite octets_1, nb_value by lia. lia.
Qed.

Lemma digest_info_iff digest text : length digest = 32%nat -> digest_info digest text <-> text = sha256_prefix ++ digest.
Proof.
  intro L.
  assert (U : forall tag c t l, der tag c t -> (length c < 128)%nat -> nb (N.of_nat (length c)) = l -> t = tag :: l :: c).
  { intros tag c t l D S <-. eapply der_text_eq; [exact D|]. apply (der_short tag c S). }
  split.
  - intros (oid & null & alg & value & D1 & D2 & D3 & D4 & D5).
    apply (U _ _ _ x09) in D1; [|cbn; lia|reflexivity]. apply (U _ _ _ x00) in D2; [|cbn; lia|reflexivity]. subst oid null. cbn [app] in D3.
    apply (U _ _ _ x0d) in D3; [|cbn; lia|reflexivity]. apply (U _ _ _ x20) in D4; [|lia|rewrite L; reflexivity]. subst alg value. cbn [app] in D5.
    apply (U _ _ _ x31) in D5; [|cbn [length]; rewrite L; lia|cbn [length]; rewrite L; reflexivity]. subst text. reflexivity.
  - intros ->. exists (x06 :: [x09] ++ [x60; x86; x48; x01; x65; x03; x04; x02; x01]), (x05 :: [x00] ++ []), (x30 :: [x0d] ++ firstn 13 (skipn 4 sha256_prefix)), (x04 :: [x20] ++ digest).
    assert (E : forall tag c l, (length c < 128)%nat -> nb (N.of_nat (length c)) = l -> der tag c (tag :: [l] ++ c)) by (intros tag c l S <-; apply der_short; exact S).
    split; [apply E; [cbn; lia|reflexivity]|]. split; [apply E; [cbn; lia|reflexivity]|]. split; [apply (E x30 (firstn 13 (skipn 4 sha256_prefix)) x0d); [cbn; lia|reflexivity]|].
    split; [apply E; [lia|rewrite L; reflexivity]|].
    change (sha256_prefix ++ digest) with (x30 :: [x31] ++ ((x30 :: [x0d] ++ firstn 13 (skipn 4 sha256_prefix)) ++ (x04 :: [x20] ++ digest))).
    apply E; [cbn [length app]; rewrite app_length; cbn [length app firstn skipn sha256_prefix]; rewrite L; lia|].
    cbn [length app]; rewrite app_length; cbn [length app firstn skipn sha256_prefix]; rewrite L; reflexivity.
Qed.

Lemma digest_length m digest : digest_of m digest -> length digest = 32%nat.
Proof. intro D. apply digest_iff in D. subst digest. apply sha256_length. Qed.

Lemma encoded_iff len m em : (62 <= len)%nat -> encoded_message len m em <-> em = pkcs1_encode len m.
Proof.
  intro L. unfold pkcs1_encode.
  assert (S : length (sha256_prefix ++ sha256 m) = 51%nat) by (rewrite app_length, sha256_length; reflexivity).
  split.
  - intros (digest & info & fill & D & I & F & -> & E). pose proof (digest_length _ _ D) as Dl. apply digest_info_iff in I; [|exact Dl]. apply digest_iff in D. subst digest info.
    rewrite !app_length, repeat_length in E. cbn [length] in E. cbn zeta. rewrite S. rewrite app_length in S. replace (len - 3 - 51)%nat with fill by lia. reflexivity.
  - cbn zeta. rewrite S. intros ->. exists (sha256 m), (sha256_prefix ++ sha256 m), (len - 3 - 51)%nat.
    split; [apply sha256_digest_of|]. split; [apply digest_info_iff; [apply sha256_length|reflexivity]|]. split; [lia|]. split; [reflexivity|].
    cbn [length]. rewrite app_length, repeat_length. cbn [length]. rewrite S. lia.
Qed.

Lemma encode_length len m : (62 <= len)%nat -> length (pkcs1_encode len m) = len.
Proof. intro L. destruct (proj2 (encoded_iff len m _ L) eq_refl) as (_ & _ & _ & _ & _ & _ & _ & E). exact E. Qed.

Lemma encode_small len m : (62 <= len)%nat -> octets (pkcs1_encode len m) < 256 ^ (Z.of_nat len - 1).
Proof.
  intro L. pose proof (encode_length len m L) as E. unfold pkcs1_encode in *. cbn zeta in *.
  match goal with |- octets (x00 :: ?t) < _ => rewrite octets_cons_0; pose proof (octets_range t) as R; cbn [length] in E; replace (Z.of_nat len - 1) with (Z.of_nat (length t)) by (cbn [length]; lia) end.
  apply R.
Qed.

(** * Signatures verify *)

Lemma from_components_facts l c k : from_components l c = Some k ->
  k_n k = octets (c_n c) /\ k_e k = octets (c_e c) /\ l_min l <= (bit_length (k_n k) + 7) / 8 * 8 /\ 65537 <= k_e k < 2 ^ 33.
Proof.
  unfold from_components. rewrite !be_value_octets.
  destruct (if octets (c_q c) <? octets (c_p c) then _ else _) as [[[[p q] dp] dq] given].
  destruct (public_ok l (octets (c_n c)) (octets (c_e c))) eqn:Pu; cbn [negb]; [|discriminate].
  destruct (prime_ok _ _ p dp && prime_ok _ _ q dq); cbn [negb]; [|discriminate].
  destruct ((p * q) mod _ =? 0); cbn [negb]; [|discriminate].
  match goal with |- context [if negb ?x then _ else _] => destruct x; cbn [negb]; [|discriminate] end.
  match goal with |- context [if negb ?x then _ else _] => destruct x; cbn [negb]; [|discriminate] end.
  intro E. injection E as <-. cbn. unfold public_ok in Pu. rewrite !andb_true_iff, !Z.leb_le in Pu.
  destruct Pu as (((((_ & H1) & _) & _) & H2) & H3). repeat split; try assumption. change (2 ^ 33) with 8589934592. lia.
Qed.

Lemma sign_valid k m s : 0 < k_n k -> (62 <= modulus_len k)%nat -> key_pair_sign k m = Some s -> rsa_valid (k_n k) (k_e k) m s.
Proof.
  intros P L. unfold key_pair_sign, private_exponentiate. rewrite be_value_octets.
  rewrite (Zpow_mod_correct _ (k_e k)) by lia.
  match goal with |- context [?x ^ k_e k mod k_n k] => set (r := x) end.
  assert (R : 0 <= r < k_n k) by (apply Z.mod_pos_bound; exact P).
  destruct (r ^ k_e k mod k_n k =? _) eqn:E; [|discriminate]. apply Z.eqb_eq in E. intro H. injection H as <-.
  pose proof (modulus_octets (k_n k) P) as M. fold (modulus_len k) in M. destruct (be_bytes_spec (modulus_len k) r) as [Bl Bv].
  exists (modulus_len k), (pkcs1_encode (modulus_len k) m). split; [exact M|]. split; [exact Bl|]. rewrite Bv by lia. split; [lia|].
  split; [apply encoded_iff; [exact L|reflexivity]|exact E].
Qed.

(** * Sound keys sign *)

Lemma odd_of_undo p e d : (2 | p - 1) -> (p - 1 | e * d - 1) -> Z.odd d = true /\ Z.odd e = true.
Proof.
  intros [j J] [k K]. assert (O : Z.odd (e * d) = true).
  { replace (e * d) with (1 + 2 * (k * j)) by (rewrite J in K; lia). rewrite Z.odd_add_mul_2. reflexivity. }
  rewrite Z.odd_mul in O. apply andb_true_iff in O. tauto.
Qed.

Lemma prime_odd p : prime p -> 3 <= p -> Z.odd p = true.
Proof.
  intros P G. destruct (Z.odd p) eqn:O; [reflexivity|]. exfalso. rewrite <- Z.negb_even in O. apply negb_false_iff, Z.even_spec in O.
  destruct O as [j ->]. assert (2 = 2 * j); [|lia]. apply prime_div_prime; [exact prime_2|exact P|]. exists j. ring.
Qed.

Lemma odd_pred p : Z.odd p = true -> (2 | p - 1).
Proof. intro O. apply Z.odd_spec in O. destruct O as [j ->]. exists j. ring. Qed.

(** A key pair that undoes its public exponent. *)
Record pair_sound (k : key_pair) : Prop := {
  ps_p : prime (k_p k); ps_q : prime (k_q k); ps_distinct : k_p k <> k_q k; ps_n : k_n k = k_p k * k_q k;
  ps_e : 0 < k_e k;
  ps_dp : 0 < k_dp k /\ (k_p k - 1 | k_e k * k_dp k - 1);
  ps_dq : 0 < k_dq k /\ (k_q k - 1 | k_e k * k_dq k - 1);
  ps_qinv : (k_p k | k_q k * k_qinv k - 1)
}.

Lemma crt_undo k c : pair_sound k -> 0 <= c < k_n k -> exists m, private_exponentiate k c = Some m.
Proof.
  intros [P Q N En E [D1 H1] [D2 H2] I] C. pose proof (prime_ge_2 _ P). pose proof (prime_ge_2 _ Q). unfold private_exponentiate.
  rewrite !Zpow_mod_correct by nia.
  set (p := k_p k) in *. set (q := k_q k) in *. set (m1 := c ^ k_dp k mod p). set (m2 := c ^ k_dq k mod q). set (h := ((m1 - m2) * k_qinv k) mod p).
  pose proof (Z.mod_pos_bound (c ^ k_dq k) q ltac:(lia)) as M2. fold m2 in M2. pose proof (Z.mod_pos_bound ((m1 - m2) * k_qinv k) p ltac:(lia)) as Hh. fold h in Hh.
  assert (R : 0 <= m2 + q * h < k_n k) by nia. rewrite (Z.mod_small (m2 + q * h)) by exact R.
  assert (X : (m2 + q * h) ^ k_e k mod k_n k = c); [|rewrite X, Z.eqb_refl; eauto].
  rewrite <- (Z.mod_small c (k_n k)) by exact C. apply cong_mod; [nia|]. rewrite En. apply two_divide; [apply prime_coprime; assumption| |].
  - eapply cong_trans; [|rewrite <- (Z.pow_1_r c) at 1; apply cong_refl]. rewrite Z.pow_1_r.
    eapply cong_trans; [|apply (pow_undo p c (k_dp k) (k_e k)); try assumption; try nia; rewrite Z.mul_comm; exact H1].
    apply cong_pow; [|lia]. eapply cong_trans; [|apply cong_sym, (cong_mod_self (c ^ k_dp k) p); lia]. fold m1.
    assert (Hc : (p | h - (m1 - m2) * k_qinv k)) by (apply cong_sym, cong_mod_self; lia). destruct Hc as [a Ha]. destruct I as [b Hb].
    exists (q * a + (m1 - m2) * b). replace (m2 + q * h - m1) with (q * (h - (m1 - m2) * k_qinv k) + (m1 - m2) * (q * k_qinv k - 1)) by ring.
    rewrite Ha, Hb. ring.
  - eapply cong_trans; [|apply (pow_undo q c (k_dq k) (k_e k)); try assumption; try nia; rewrite Z.mul_comm; exact H2].
    apply cong_pow; [|lia]. eapply cong_trans; [|apply cong_sym, (cong_mod_self (c ^ k_dq k) q); lia]. fold m2.
    exists h. ring.
Qed.

Lemma step_ok x step half : 0 < step -> (step | half) -> x = half -> x mod step =? 0 = true.
Proof. intros S D ->. apply Z.eqb_eq. apply Z.mod_divide; [lia|exact D]. Qed.

Ltac band := repeat (apply andb_true_intro; split).

Lemma sound_accepted l c : 0 < l_granularity l -> 16 <= l_min l -> rsa_sound (values_of c) -> sized (l_min l) (l_max l) (l_granularity l) (values_of c) ->
  exists k, from_components l c = Some k /\ k_n k = octets (c_n c) /\ k_e k = octets (c_e c) /\ pair_sound k.
Proof.
  intros G Mn [P Q N En [[D0 D0'] [D1 D2]] [[E0 E0'] E1] [[F0 F0'] F1] [[I0 I0'] I1]] (half & bits & Sh & Sp & Sq & Sb & Sn & (oc & So & So') & Sm & Se & Sd).
  unfold from_components. rewrite !be_value_octets. cbn [values_of r_n r_e r_d r_p r_q r_dp r_dq r_qinv] in *.
  set (n := octets (c_n c)) in *. set (e := octets (c_e c)) in *. set (d := octets (c_d c)) in *. set (p := octets (c_p c)) in *. set (q := octets (c_q c)) in *.
  set (dp := octets (c_dp c)) in *. set (dq := octets (c_dq c)) in *. set (qi := octets (c_qinv c)) in *.
  pose proof (prime_ge_2 p P) as Gp. pose proof (prime_ge_2 q Q) as Gq.
  assert (H0 : 0 < half) by lia.
  assert (H1 : 0 < half - 1 \/ half = 1) by lia. assert (H2 : half <> 1).
  { intros ->. change (2 ^ (1 - 1)) with 1 in *. change (2 ^ 1) with 2 in *. lia. }
  assert (T : 2 <= 2 ^ (half - 1)) by (change 2 with (2 ^ 1) at 1; apply Z.pow_le_mono_r; lia).
  assert (G3 : 3 <= p /\ 3 <= q).
  { assert (4 <= 2 ^ (half - 1)) by (change 4 with (2 ^ 2); apply Z.pow_le_mono_r; lia). lia. }
  destruct G3 as [Gp3 Gq3]. pose proof (prime_odd p P Gp3) as Op. pose proof (prime_odd q Q Gq3) as Oq.
  destruct (odd_of_undo p e dp (odd_pred p Op) E1) as [Odp Oe]. destruct (odd_of_undo q e dq (odd_pred q Oq) F1) as [Odq _].
  destruct (odd_of_undo p e d (odd_pred p Op) D1) as [Od _].
  assert (Bn : bit_length n = bits) by (apply bit_length_iff; [nia|split; [lia|exact Sn]]).
  assert (Bp : bit_length p = half) by (apply bit_length_iff; [lia|split; [exact H0|exact Sp]]).
  assert (Bq : bit_length q = half) by (apply bit_length_iff; [lia|split; [exact H0|exact Sq]]).
  assert (Hb : (bits + 1) / 2 = half) by (destruct Sb; subst bits; [symmetry; apply (Z.div_unique _ 2 half 1); lia|symmetry; apply (Z.div_unique _ 2 half 0); lia]).
  assert (Ho : (bits + 7) / 8 = oc) by (symmetry; apply (Z.div_unique _ 8 oc (bits + 7 - 8 * oc)); lia).
  assert (Bd : half < bit_length d).
  { destruct (proj1 (bit_length_iff d _ D0) eq_refl) as (B0 & L & U). assert (2 ^ half < 2 ^ bit_length d) by lia.
    apply Z.pow_lt_mono_r_iff in H; lia. }
  assert (On : Z.odd n = true) by (rewrite En, Z.odd_mul, Op, Oq; reflexivity).
  assert (Pu : public_ok l n e = true).
  { unfold public_ok. rewrite On, Oe, Bn, Ho. cbn [andb]. band; try reflexivity; apply Z.leb_le; change (2 ^ 33) with 8589934592 in *; lia. }
  assert (Pp : prime_ok l bits p dp = true).
  { unfold prime_ok. rewrite Op, Odp, Bp, Hb. band; try reflexivity; [apply Z.leb_le; lia|apply Z.eqb_refl|apply (step_ok half _ half); auto|apply Z.ltb_lt; lia]. }
  assert (Pq : prime_ok l bits q dq = true).
  { unfold prime_ok. rewrite Oq, Odq, Bq, Hb. band; try reflexivity; [apply Z.leb_le; lia|apply Z.eqb_refl|apply (step_ok half _ half); auto|apply Z.ltb_lt; lia]. }
  assert (Pn : (p * q) mod n =? 0 = true) by (rewrite En, Z_mod_same_full; reflexivity).
  assert (Pd : ((bits + 1) / 2 <? bit_length d) && (d <? n) && Z.odd d = true).
  { rewrite Hb, Od. band; try reflexivity; apply Z.ltb_lt; lia. }
  destruct (q <? p) eqn:O; cbv beta iota zeta; rewrite Bn, Pu; cbn [negb].
  - rewrite Pp, Pq. cbn [andb negb]. rewrite Pn. cbn [negb]. rewrite Pd. cbn [negb].
    assert (Pi : (qi <? p) && ((qi * q) mod p =? 1) = true).
    { band; [apply Z.ltb_lt; lia|]. apply Z.eqb_eq. rewrite <- (Z.mod_small 1 p) by lia. apply cong_mod; [lia|]. rewrite Z.mul_comm. exact I1. }
    rewrite Pi. cbn [negb]. eexists. split; [reflexivity|]. cbn. split; [reflexivity|]. split; [reflexivity|]. constructor; cbn; try assumption; try (split; [|assumption]); lia.
  - apply Z.ltb_ge in O. assert (O' : p < q) by lia. rewrite Pp, Pq. cbn [andb negb]. rewrite (Z.mul_comm q p), Pn. cbn [negb]. rewrite Pd. cbn [negb].
    rewrite Zpow_mod_correct by lia.
    assert (F : (q | p * (p ^ (q - 2) mod q) - 1)).
    { eapply cong_trans; [apply cong_mul; [apply cong_refl|apply cong_sym, cong_mod_self; lia]|].
      rewrite <- Z.pow_succ_r by lia. replace (Z.succ (q - 2)) with (q - 1) by lia. apply fermat; [exact Q|].
      intro D. apply Z.divide_pos_le in D; lia. }
    pose proof (Z.mod_pos_bound (p ^ (q - 2)) q ltac:(lia)) as M.
    assert (Pi : (p ^ (q - 2) mod q <? q) && ((p ^ (q - 2) mod q * p) mod q =? 1) = true).
    { band; [apply Z.ltb_lt; lia|]. apply Z.eqb_eq. rewrite <- (Z.mod_small 1 q) by lia. apply cong_mod; [lia|]. rewrite Z.mul_comm. exact F. }
    rewrite Pi. cbn [negb]. eexists. split; [reflexivity|]. cbn. split; [reflexivity|]. split; [reflexivity|]. constructor; cbn; try assumption; try (split; [|assumption]); try lia.
Qed.
