(** The DER reader of Rsa.v reads exactly the DER texts of SpecRsa.v. *)
From Verif Require Import Base Rsa SpecRsa.
Local Open Scope Z_scope.

Lemma bN_range b : (bN b < 256)%N.
Proof. unfold bN. pose proof (Byte.to_N_bounded b). lia. Qed.

Lemma bN_inj a b : bN a = bN b -> a = b.
Proof.
  intro E. unfold bN in E. assert (H : Byte.of_N (Byte.to_N a) = Byte.of_N (Byte.to_N b)) by (rewrite E; reflexivity).
  rewrite !Byte.of_to_N in H. congruence.
Qed.

Lemma beq_true a b : beq a b = true <-> a = b.
Proof.
  unfold beq. split; [|intros ->; destruct b; reflexivity]. intro H. apply bN_inj. destruct (Byte.eqb a b) eqn:E; [|discriminate].
  apply Byte.byte_dec_bl in E. rewrite E. reflexivity.
Qed.

(** * Values *)

Lemma fold_value s acc :
  fold_left (fun acc b => 256 * acc + Z.of_N (bN b)) s acc = acc * 256 ^ Z.of_nat (length s) + octets s.
Proof.
  revert acc. induction s as [|b s IH]; intro acc; [cbn; lia|]. cbn [fold_left octets length]. rewrite IH.
  rewrite Nat2Z.inj_succ, Z.pow_succ_r by lia. ring.
Qed.

Lemma be_value_octets s : be_value s = octets s.
Proof. unfold be_value. rewrite fold_value. lia. Qed.

Lemma octets_1 a : octets [a] = Z.of_N (bN a).
Proof. cbn [octets length]. rewrite Z.pow_0_r. lia. Qed.

Lemma octets_2 a b : octets [a; b] = Z.of_N (bN a) * 256 + Z.of_N (bN b).
Proof. cbn [octets length]. change (256 ^ Z.of_nat 1) with 256. change (256 ^ Z.of_nat 0) with 1. lia. Qed.

Lemma octets_range s : 0 <= octets s < 256 ^ Z.of_nat (length s).
Proof.
  induction s as [|b s IH]; [cbn; lia|]. cbn [octets length]. rewrite Nat2Z.inj_succ, Z.pow_succ_r by lia.
  pose proof (bN_range b). nia.
Qed.

Lemma octets_cons_0 r : octets (x00 :: r) = octets r.
Proof. cbn [octets]. change (Z.of_N (bN x00)) with 0. lia. Qed.

(** * Values with tags *)

Lemma take_iff n s v r : take_bytes n s = Some (v, r) <-> s = v ++ r /\ length v = n.
Proof.
  unfold take_bytes. split.
  - destruct (Nat.leb n (length s)) eqn:E; [|discriminate]. apply Nat.leb_le in E. intro H. injection H as <- <-.
    split; [symmetry; apply firstn_skipn|apply firstn_length_le; exact E].
  - intros [-> <-]. rewrite app_length. replace (Nat.leb (length v) (length v + length r)) with true by (symmetry; apply Nat.leb_le; lia).
    rewrite firstn_app, Nat.sub_diag, firstn_all, skipn_app, Nat.sub_diag, skipn_all. cbn. rewrite app_nil_r. reflexivity.
Qed.

Definition low_tag (tag : byte) : Prop := N.land (bN tag) 31 <> 31%N.

Lemma der_read_iff s tag v rest :
  der_read s = Some (tag, v, rest) <-> low_tag tag /\ exists head, s = head ++ rest /\ der tag v head.
Proof.
  split.
  - destruct s as [|t [|l r]]; try discriminate. cbn [der_read].
    destruct (N.eqb (N.land (bN t) 31) 31) eqn:L; [discriminate|]. apply N.eqb_neq in L.
    destruct (N.ltb (bN l) 128) eqn:S.
    + apply N.ltb_lt in S. destruct (take_bytes _ r) as [[v' rest']|] eqn:T; [|discriminate]. intro E. injection E as -> -> ->.
      apply take_iff in T. destruct T as [-> T]. split; [exact L|]. exists (tag :: [l] ++ v). split; [reflexivity|].
      exists [l]. split; [|reflexivity]. constructor; [lia|rewrite octets_1; lia].
    + apply N.ltb_ge in S. destruct (N.eqb (bN l) 129) eqn:S1.
      * apply N.eqb_eq in S1. destruct r as [|a r]; [discriminate|]. destruct (N.ltb (bN a) 128) eqn:A; [discriminate|]. apply N.ltb_ge in A.
        destruct (take_bytes _ r) as [[v' rest']|] eqn:T; [|discriminate]. intro E. injection E as -> -> ->.
        apply take_iff in T. destruct T as [-> T]. split; [exact L|]. exists (tag :: [l; a] ++ v). split; [reflexivity|].
        exists [l; a]. split; [|reflexivity]. assert (l = x81) by (apply bN_inj; rewrite S1; reflexivity). subst l.
        pose proof (bN_range a). constructor; [lia|rewrite octets_1; lia].
      * destruct (N.eqb (bN l) 130) eqn:S2; [|discriminate]. apply N.eqb_eq in S2. destruct r as [|a [|b r]]; try discriminate.
        destruct (N.ltb (bN a * 256 + bN b) 256) eqn:A; [discriminate|]. apply N.ltb_ge in A.
        destruct (take_bytes _ r) as [[v' rest']|] eqn:T; [|discriminate]. intro E. injection E as -> -> ->.
        apply take_iff in T. destruct T as [-> T]. split; [exact L|]. exists (tag :: [l; a; b] ++ v). split; [reflexivity|].
        exists [l; a; b]. split; [|reflexivity]. assert (l = x82) by (apply bN_inj; rewrite S2; reflexivity). subst l.
        constructor; [lia|rewrite octets_2; lia].
  - intros (L & head & -> & len & D & ->). unfold low_tag in L. apply N.eqb_neq in L.
    remember (length v) as n eqn:N. inversion D as [n' a H1 H2|n' a H1 H2|n' a b H1 H2]; subst n' len; cbn [app der_read]; rewrite L.
    + rewrite octets_1 in H2. replace (N.ltb (bN a) 128) with true by (symmetry; apply N.ltb_lt; lia).
      rewrite (proj2 (take_iff _ (v ++ rest) v rest)); [reflexivity|]. split; [reflexivity|lia].
    + rewrite octets_1 in H2. change (N.ltb (bN x81) 128) with false. change (N.eqb (bN x81) 129) with true. cbn iota.
      replace (N.ltb (bN a) 128) with false by (symmetry; apply N.ltb_ge; lia).
      rewrite (proj2 (take_iff _ (v ++ rest) v rest)); [reflexivity|]. split; [reflexivity|lia].
    + rewrite octets_2 in H2. change (N.ltb (bN x82) 128) with false. change (N.eqb (bN x82) 129) with false. change (N.eqb (bN x82) 130) with true. cbn iota.
      replace (N.ltb (bN a * 256 + bN b) 256) with false by (symmetry; apply N.ltb_ge; lia).
      rewrite (proj2 (take_iff _ (v ++ rest) v rest)); [reflexivity|]. split; [reflexivity|lia].
Qed.

Lemma der_expect_iff tag s v rest : low_tag tag ->
  der_expect tag s = Some (v, rest) <-> exists head, s = head ++ rest /\ der tag v head.
Proof.
  intro L. unfold der_expect. split.
  - destruct (der_read s) as [[[t v'] r']|] eqn:E; [|discriminate]. destruct (beq t tag) eqn:Q; [|discriminate].
    apply beq_true in Q. subst t. intro H. injection H as -> ->. apply der_read_iff in E. exact (proj2 E).
  - intro H. rewrite (proj2 (der_read_iff s tag v rest) (conj L H)). rewrite (proj2 (beq_true tag tag) eq_refl). reflexivity.
Qed.

Lemma der_text_eq tag c t t' : der tag c t -> der tag c t' -> t = t'.
Proof.
  intros (l & D & ->) (l' & D' & ->). f_equal. f_equal. remember (length c) as n.
  inversion D; inversion D'; subst; try lia; rewrite ?octets_1, ?octets_2 in *.
  - f_equal. apply bN_inj. lia.
  - do 2 f_equal. apply bN_inj. lia.
  - pose proof (bN_range a). pose proof (bN_range b). pose proof (bN_range a0). pose proof (bN_range b0).
    f_equal. f_equal; [apply bN_inj; nia|]. f_equal. apply bN_inj. nia.
Qed.

(** * Integers *)

Lemma nonnegative_sound s m rest : der_nonnegative s = Some (m, rest) ->
  exists head, s = head ++ rest /\ der_integer (octets m) head.
Proof.
  unfold der_nonnegative. destruct (der_expect x02 s) as [[v r]|] eqn:E; [|discriminate].
  apply der_expect_iff in E; [|discriminate]. destruct E as (head & -> & D). destruct v as [|a [|b t]]; [discriminate| |].
  - destruct (N.ltb (bN a) 128) eqn:A; [|discriminate]. apply N.ltb_lt in A. intro H. injection H as <- <-. exists head. split; [reflexivity|].
    exists a, []. repeat split; auto.
  - destruct (N.eqb (bN a) 0) eqn:Z0.
    + apply N.eqb_eq in Z0. assert (a = x00) by (apply bN_inj; exact Z0). subst a.
      destruct (N.leb 128 (bN b)) eqn:Hb; [|discriminate]. apply N.leb_le in Hb. intro H. injection H as <- <-. exists head. split; [reflexivity|].
      exists x00, (b :: t). split; [exact D|]. split; [apply octets_cons_0|]. split; [cbn; lia|]. intros _. right. eauto.
    + apply N.eqb_neq in Z0. destruct (N.ltb (bN a) 128) eqn:A; [|discriminate]. apply N.ltb_lt in A. intro H. injection H as <- <-.
      exists head. split; [reflexivity|]. exists a, (b :: t). split; [exact D|]. split; [reflexivity|]. split; [exact A|].
      intros ->. exfalso. apply Z0. reflexivity.
Qed.

Lemma nonnegative_complete v head rest : der_integer v head ->
  exists m, der_nonnegative (head ++ rest) = Some (m, rest) /\ octets m = v.
Proof.
  intros (a & r & D & <- & A & M). unfold der_nonnegative. rewrite (proj2 (der_expect_iff x02 (head ++ rest) (a :: r) rest ltac:(discriminate))) by eauto.
  destruct r as [|b t].
  - replace (N.ltb (bN a) 128) with true by (symmetry; apply N.ltb_lt; exact A). eauto.
  - destruct (N.eqb (bN a) 0) eqn:Z0.
    + apply N.eqb_eq in Z0. assert (a = x00) by (apply bN_inj; exact Z0). subst a.
      destruct (M eq_refl) as [Q|(b' & r' & Q & Hb)]; [discriminate|]. injection Q as <- <-.
      replace (N.leb 128 (bN b)) with true by (symmetry; apply N.leb_le; exact Hb). exists (b :: t). split; [reflexivity|]. symmetry. apply octets_cons_0.
    + replace (N.ltb (bN a) 128) with true by (symmetry; apply N.ltb_lt; exact A). eauto.
Qed.

Lemma version_sound s a rest : der_small s = Some (a, rest) -> bN a = 0%N -> exists head, s = head ++ rest /\ der_integer 0 head.
Proof.
  unfold der_small. destruct (der_nonnegative s) as [[m r]|] eqn:E; [|discriminate]. destruct m as [|x [|y m]]; try discriminate.
  intros H Z0. injection H as -> ->. apply nonnegative_sound in E. rewrite octets_1, Z0 in E. exact E.
Qed.

Lemma version_complete head rest : der_integer 0 head -> der_small (head ++ rest) = Some (x00, rest).
Proof.
  intros (a & r & D & V & A & M). unfold der_small, der_nonnegative.
  rewrite (proj2 (der_expect_iff x02 (head ++ rest) (a :: r) rest ltac:(discriminate))) by eauto.
  cbn [octets] in V. pose proof (octets_range r) as R. assert (0 < 256 ^ Z.of_nat (length r)) by (apply Z.pow_pos_nonneg; lia).
  assert (Z0 : bN a = 0%N) by nia. assert (a = x00) by (apply bN_inj; exact Z0). subst a.
  destruct (M eq_refl) as [->|(b & t & -> & Hb)]; [reflexivity|].
  cbn [octets] in V. pose proof (octets_range t). assert (0 < 256 ^ Z.of_nat (length t)) by (apply Z.pow_pos_nonneg; lia).
  change (Z.of_N (bN x00)) with 0 in V. nia.
Qed.

(** * Keys *)

Definition values_of (c : components) : rsa_key :=
  {| r_n := octets (c_n c); r_e := octets (c_e c); r_d := octets (c_d c); r_p := octets (c_p c); r_q := octets (c_q c);
     r_dp := octets (c_dp c); r_dq := octets (c_dq c); r_qinv := octets (c_qinv c) |}.

Ltac nn E := match type of E with context [der_nonnegative ?r] =>
  let m := fresh "m" in let r' := fresh "r" in let Q := fresh "Q" in
  destruct (der_nonnegative r) as [[m r']|] eqn:Q; [|discriminate E]; apply nonnegative_sound in Q end.

Lemma private_key_sound text c : rsa_private_key text = Some c -> pkcs1_text (values_of c) text.
Proof.
  unfold rsa_private_key. intro E. destruct (der_expect x30 text) as [[body [|? ?]]|] eqn:X; [|discriminate E..].
  apply der_expect_iff in X; [|discriminate]. destruct X as (head & -> & D). rewrite app_nil_r.
  destruct (der_small body) as [[v r]|] eqn:V; [|discriminate E]. destruct (N.eqb (bN v) 0) eqn:V0; cbn [negb] in E; [|discriminate E]. apply N.eqb_eq in V0.
  apply version_sound in V; [|exact V0]. do 8 nn E. destruct r7 as [|? ?]; [|discriminate E]. injection E as <-.
  destruct V as (t0 & -> & V).
  repeat match goal with Q : exists head, ?x = head ++ _ /\ _ |- _ => let t := fresh "t" in let I := fresh "I" in destruct Q as (t & -> & I) end.
  rewrite app_nil_r in D. do 9 eexists. repeat (split; [eassumption|]). exact D.
Qed.

Ltac nc := match goal with
  | I : der_integer ?v ?t |- context [der_nonnegative (?t ++ ?r)] =>
      let m := fresh "m" in let E := fresh "E" in let V := fresh "V" in
      destruct (nonnegative_complete v t r I) as (m & E & V); rewrite E
  end.

Lemma private_key_complete text k : pkcs1_text k text -> exists c, rsa_private_key text = Some c /\ values_of c = k.
Proof.
  intros (t0 & t1 & t2 & t3 & t4 & t5 & t6 & t7 & t8 & I0 & I1 & I2 & I3 & I4 & I5 & I6 & I7 & I8 & D).
  unfold rsa_private_key. rewrite (proj2 (der_expect_iff x30 text _ [] ltac:(discriminate))) by (exists text; rewrite app_nil_r; eauto).
  rewrite (version_complete t0 _ I0). cbn [bN]. change (negb (N.eqb (bN x00) 0)) with false. cbn iota.
  rewrite <- (app_nil_r t8). do 8 nc. eexists. split; [reflexivity|]. destruct k. cbn in *. unfold values_of. cbn. subst. reflexivity.
Qed.

Lemma algorithm_iff oid null : der x06 rsa_oid oid -> der x05 [] null -> oid ++ null = rsa_encryption.
Proof.
  intros D1 D2.
  assert (oid = x06 :: [x09] ++ rsa_oid).
  { eapply der_text_eq; [exact D1|]. exists [x09]. split; [|reflexivity]. apply dl_short; [cbn; lia|reflexivity]. }
  assert (null = x05 :: [x00] ++ []).
  { eapply der_text_eq; [exact D2|]. exists [x00]. split; [|reflexivity]. apply dl_short; [cbn; lia|reflexivity]. }
  subst. reflexivity.
Qed.

Lemma str_eqb_iff a b : str_eqb a b = true <-> a = b.
Proof.
  revert b. induction a as [|x a IH]; intros [|y b]; cbn; split; intro H; try discriminate; try reflexivity.
  - apply andb_true_iff in H. destruct H as [H1 H2]. apply beq_true in H1. apply IH in H2. congruence.
  - injection H as -> ->. rewrite (proj2 (beq_true y y) eq_refl). apply IH. reflexivity.
Qed.

Lemma pkcs8_sound text key c : pkcs8_unwrap text = Some key -> rsa_private_key key = Some c -> pkcs8_text (values_of c) text.
Proof.
  intros H K. apply private_key_sound in K. unfold pkcs8_unwrap in H.
  destruct (der_expect x30 text) as [[info [|? ?]]|] eqn:X; [|discriminate H..].
  apply der_expect_iff in X; [|discriminate]. destruct X as (head & -> & D). rewrite app_nil_r.
  destruct (der_small info) as [[v r]|] eqn:V; [|discriminate H]. destruct (N.eqb (bN v) 0) eqn:V0; cbn [negb] in H; [|discriminate H]. apply N.eqb_eq in V0.
  apply version_sound in V; [|exact V0]. destruct V as (version & -> & V).
  destruct (der_expect x30 r) as [[alg r1]|] eqn:A; [|discriminate H]. apply der_expect_iff in A; [|discriminate]. destruct A as (algorithm & -> & A).
  destruct (str_eqb alg rsa_encryption) eqn:Q; cbn [negb] in H; [|discriminate H]. apply str_eqb_iff in Q. subst alg.
  destruct (der_expect x04 r1) as [[key' r2]|] eqn:O; [|discriminate H]. apply der_expect_iff in O; [|discriminate]. destruct O as (oct & -> & O).
  assert (D1 : der x06 rsa_oid (x06 :: [x09] ++ rsa_oid)) by (exists [x09]; split; [apply dl_short; [cbn; lia|reflexivity]|reflexivity]).
  assert (D2 : der x05 [] (x05 :: [x00] ++ [])) by (exists [x00]; split; [apply dl_short; [cbn; lia|reflexivity]|reflexivity]).
  rewrite <- (algorithm_iff _ _ D1 D2) in A.
  assert (At : key' = key /\ (r2 = [] \/ exists c, der xa0 c r2)).
  { destruct r2 as [|x r2]; [injection H as ->; auto|]. destruct (der_expect xa0 (x :: r2)) as [[v2 [|? ?]]|] eqn:Y; [|discriminate H..].
    injection H as ->. split; [reflexivity|]. right. apply der_expect_iff in Y; [|discriminate]. destruct Y as (h & -> & Y). rewrite app_nil_r. eauto. }
  destruct At as [-> At]. do 7 eexists. repeat (split; [eassumption|]). exact D.
Qed.

Lemma pkcs8_complete text k : pkcs8_text k text ->
  exists key c, pkcs8_unwrap text = Some key /\ rsa_private_key key = Some c /\ values_of c = k.
Proof.
  intros (version & oid & null & algorithm & key & oct & att & V & D1 & D2 & A & K & O & At & D).
  destruct (private_key_complete key k K) as (c & Ec & Ev). exists key, c. split; [|split; assumption].
  unfold pkcs8_unwrap. rewrite (proj2 (der_expect_iff x30 text _ [] ltac:(discriminate))) by (exists text; rewrite app_nil_r; eauto).
  rewrite (version_complete version _ V). change (negb (N.eqb (bN x00) 0)) with false. cbn iota.
  rewrite (proj2 (der_expect_iff x30 (algorithm ++ oct ++ att) _ (oct ++ att) ltac:(discriminate))) by eauto.
  rewrite (algorithm_iff _ _ D1 D2). rewrite (proj2 (str_eqb_iff rsa_encryption rsa_encryption) eq_refl). cbn [negb].
  rewrite (proj2 (der_expect_iff x04 (oct ++ att) _ att ltac:(discriminate))) by eauto.
  destruct At as [->|(c' & At)]; [reflexivity|].
  assert (E : der_expect xa0 att = Some (c', [])) by (apply der_expect_iff; [discriminate|]; exists att; rewrite app_nil_r; auto).
  destruct att as [|x att]; [destruct At as (l & _ & At); discriminate At|]. rewrite E. reflexivity.
Qed.
