(** The model of SHA-256 meets its specification. *)
From Verif Require Import Base BaseFacts SpecCodec CodecFacts Sha256 SpecSha.
Local Open Scope N_scope.

(** * Bits *)

Lemma bits_app a b n : bits (a + b) n = bits a (N.shiftr n (N.of_nat b)) ++ bits b n.
Proof.
  induction a as [|a IH]; [reflexivity|]. cbn [Nat.add bits app]. rewrite IH. f_equal. rewrite N.shiftr_spec by lia. f_equal. lia.
Qed.

Lemma bits_low w n m : (forall i, (i < w)%nat -> N.testbit n (N.of_nat i) = N.testbit m (N.of_nat i)) -> bits w n = bits w m.
Proof. induction w as [|w IH]; intros H; [reflexivity|]. cbn [bits]. rewrite H by lia. f_equal. apply IH. intros i Hi. apply H. lia. Qed.

Lemma bits_low_inv w n m : bits w n = bits w m -> forall i, (i < w)%nat -> N.testbit n (N.of_nat i) = N.testbit m (N.of_nat i).
Proof.
  induction w as [|w IH]; intros H i Hi; [lia|]. cbn [bits] in H. injection H as H1 H2. destruct (Nat.eq_dec i w) as [->|]; [exact H1|]. apply IH; [exact H2|lia].
Qed.

Lemma bits_mod w n : bits w (n mod 2 ^ N.of_nat w) = bits w n.
Proof. apply bits_low. intros i Hi. apply N.mod_pow2_bits_low. lia. Qed.

Lemma bits_inj w n m : n < 2 ^ N.of_nat w -> m < 2 ^ N.of_nat w -> bits w n = bits w m -> n = m.
Proof.
  intros Hn Hm H. rewrite <- (N.mod_small n (2 ^ N.of_nat w)), <- (N.mod_small m (2 ^ N.of_nat w)) by assumption. apply N.bits_inj. intros i.
  destruct (N.lt_ge_cases i (N.of_nat w)) as [L|L]; [|rewrite !N.mod_pow2_bits_high by assumption; reflexivity].
  rewrite !N.mod_pow2_bits_low by assumption. pose proof (bits_low_inv _ _ _ H (N.to_nat i)) as G. rewrite N2Nat.id in G. apply G. lia.
Qed.

Lemma bits_concat_inj w l m : Forall (fun x => x < 2 ^ N.of_nat (S w)) l -> Forall (fun x => x < 2 ^ N.of_nat (S w)) m ->
  flat_map (bits (S w)) l = flat_map (bits (S w)) m -> l = m.
Proof.
  intros Hl. revert m. induction Hl as [|x l Hx Hl IH]; intros m Hm E; destruct Hm as [|y m Hy Hm]; [reflexivity|discriminate E|discriminate E|].
  cbn [flat_map] in E. apply app_inv_len in E; [|rewrite !bits_length; reflexivity]. destruct E as [E1 E2].
  f_equal; [apply (bits_inj (S w)); assumption|]. apply IH; assumption.
Qed.

Lemma flat_bits_length w l : length (flat_map (bits w) l) = (w * length l)%nat.
Proof. induction l as [|x l IH]; [cbn; lia|]. cbn [flat_map length]. rewrite app_length, bits_length, IH. lia. Qed.

Lemma byte_bits_app a b : byte_bits (a ++ b) = byte_bits a ++ byte_bits b.
Proof. apply flat_map_app. Qed.

Lemma be_bits k v : byte_bits (be_bytes k v) = bits (8 * k) v.
Proof.
  induction k as [|k IH]; [reflexivity|]. cbn [be_bytes]. change (byte_bits (?x :: ?l)) with (bits 8 (bN x) ++ byte_bits l). rewrite IH.
  replace (8 * S k)%nat with (8 + 8 * k)%nat by lia. rewrite bits_app. f_equal.
  rewrite bN_nb by (apply N.mod_lt; lia). rewrite <- (bits_mod 8 (N.shiftr v _)). f_equal. change (2 ^ N.of_nat 8) with 256. f_equal. f_equal. lia.
Qed.

Lemma word_bits a b c d : bits 32 (bN a * 16777216 + bN b * 65536 + bN c * 256 + bN d) = bits 8 (bN a) ++ bits 8 (bN b) ++ bits 8 (bN c) ++ bits 8 (bN d).
Proof.
  pose proof (bN_lt a). pose proof (bN_lt b). pose proof (bN_lt c). pose proof (bN_lt d).
  set (n := bN a * 16777216 + bN b * 65536 + bN c * 256 + bN d).
  change 32%nat with (8 + (8 + (8 + 8)))%nat. rewrite !bits_app. rewrite !N.shiftr_div_pow2.
  assert (E : forall x y k, (k = 8)%nat -> x mod 256 = y mod 256 -> bits k x = bits k y).
  { intros x y k -> HH. rewrite <- (bits_mod 8 x), <- (bits_mod 8 y). f_equal. exact HH. }
  change (2 ^ N.of_nat (8 + (8 + 8))) with 16777216. change (2 ^ N.of_nat (8 + 8)) with 65536. change (2 ^ N.of_nat 8) with 256.
  f_equal; [|f_equal; [|f_equal]].
  - apply E; [reflexivity|]. f_equal. symmetry. apply (N.div_unique n 16777216 _ (bN b * 65536 + bN c * 256 + bN d)); lia.
  - apply E; [reflexivity|]. replace (n / 65536) with (bN a * 256 + bN b); [|apply (N.div_unique n 65536 _ (bN c * 256 + bN d)); lia].
    rewrite N.add_comm, N.mod_add by lia. reflexivity.
  - apply E; [reflexivity|]. replace (n / 256) with ((bN a * 256 + bN b) * 256 + bN c); [|apply (N.div_unique n 256 _ (bN d)); lia].
    rewrite N.add_comm, N.mod_add by lia. reflexivity.
  - apply E; [reflexivity|]. replace n with (bN d + (bN a * 65536 + bN b * 256 + bN c) * 256) by lia. apply N.mod_add. lia.
Qed.

Lemma words_ind4 (P : str -> Prop) : P [] -> (forall a, P [a]) -> (forall a b, P [a; b]) -> (forall a b c, P [a; b; c]) ->
  (forall a b c d r, P r -> P (a :: b :: c :: d :: r)) -> forall s, P s.
Proof.
  intros H0 H1 H2 H3 H4 s. assert (G : forall n s, (length s <= n)%nat -> P s).
  { induction n as [|n IH]; intros t L; [destruct t; [exact H0|cbn in L; lia]|].
    destruct t as [|a [|b [|c [|d r]]]]; auto. apply H4. apply IH. cbn in L. lia. }
  apply (G (length s)). lia.
Qed.

Lemma words_length s : length (words s) = (length s / 4)%nat.
Proof.
  pattern s; apply words_ind4; clear s; [|intros a|intros a b|intros a b c|intros a b c d s IHs]; try reflexivity. cbn [words length]. rewrite IHs.
  replace (S (S (S (S (length s))))) with (1 * 4 + length s)%nat by lia. rewrite Nat.div_add_l by lia. lia.
Qed.

Lemma words_bits s : (length s mod 4 = 0)%nat -> flat_map (bits 32) (words s) = byte_bits s.
Proof.
  pattern s; apply words_ind4; clear s; [|intros a|intros a b|intros a b c|intros a b c d s IHs]; intros L; try (cbn in L; lia); [reflexivity|]. cbn [words flat_map]. rewrite IHs.
  - rewrite word_bits, <- !app_assoc. reflexivity.
  - cbn [length] in L. replace (S (S (S (S (length s))))) with (length s + 1 * 4)%nat in L by lia. rewrite Nat.mod_add in L by lia. exact L.
Qed.

Lemma words_lt s : Forall (fun w => w < 2 ^ 32) (words s).
Proof.
  pattern s; apply words_ind4; clear s; [|intros a|intros a b|intros a b c|intros a b c d s IHs]; cbn [words]; try constructor; [|assumption].
  pose proof (bN_lt a). pose proof (bN_lt b). pose proof (bN_lt c). pose proof (bN_lt d). change (2 ^ 32) with 4294967296. lia.
Qed.

(** * Words *)

Lemma pow32 : 2 ^ 32 = 4294967296. Proof. reflexivity. Qed.

Lemma lor_add a b k : a < 2 ^ k -> N.lor a (b * 2 ^ k) = a + b * 2 ^ k.
Proof.
  intros H. assert (L : N.land a (b * 2 ^ k) = 0).
  { apply N.bits_inj_0. intros i. rewrite N.land_spec. destruct (N.lt_ge_cases i k) as [C|C].
    - rewrite N.mul_pow2_bits_low by exact C. apply andb_false_r.
    - rewrite <- (N.mod_small a (2 ^ k) H), N.mod_pow2_bits_high by exact C. reflexivity. }
  rewrite <- N.lxor_lor by exact L. symmetry. apply N.add_nocarry_lxor. exact L.
Qed.

Lemma rotr_rotate n x : n <= 32 -> x < 2 ^ 32 -> rotr n x = rotate n x.
Proof.
  intros Hn Hx. unfold rotr, rotate. rewrite N.shiftr_div_pow2. rewrite <- lor_add.
  - f_equal. rewrite N.shiftl_mul_pow2. unfold w32. rewrite <- pow32. replace (2 ^ 32) with (2 ^ n * 2 ^ (32 - n)) by (rewrite <- N.pow_add_r; f_equal; lia).
    apply N.mul_mod_distr_r; apply N.pow_nonzero; lia.
  - apply N.div_lt_upper_bound; [apply N.pow_nonzero; lia|]. rewrite <- N.pow_add_r. replace (n + (32 - n)) with 32 by lia. exact Hx.
Qed.

Lemma lt32_high x i : x < 2 ^ 32 -> 32 <= i -> N.testbit x i = false.
Proof. intros H L. rewrite <- (N.mod_small x (2 ^ 32) H). apply N.mod_pow2_bits_high. exact L. Qed.

Lemma lxor_lt a b : a < 2 ^ 32 -> b < 2 ^ 32 -> N.lxor a b < 2 ^ 32.
Proof.
  intros Ha Hb. destruct (N.eq_dec (N.lxor a b) 0) as [->|E]; [reflexivity|]. apply N.log2_lt_pow2; [lia|].
  eapply N.le_lt_trans; [apply N.log2_lxor|]. apply N.max_lub_lt.
  - destruct (N.eq_dec a 0) as [->|]; [reflexivity|]. apply N.log2_lt_pow2; [lia|assumption].
  - destruct (N.eq_dec b 0) as [->|]; [reflexivity|]. apply N.log2_lt_pow2; [lia|assumption].
Qed.

Lemma Ch_choice x y z : z < 2 ^ 32 -> Ch x y z = choice x y z.
Proof.
  intros Hz. unfold Ch, choice, not32. apply N.bits_inj. intros i. rewrite N.lxor_spec, N.lor_spec, !N.land_spec, N.lxor_spec, N.ldiff_spec.
  change 4294967295 with (N.ones 32). destruct (N.lt_ge_cases i 32) as [C|C].
  - rewrite N.ones_spec_low by exact C. destruct (N.testbit x i), (N.testbit y i), (N.testbit z i); reflexivity.
  - rewrite N.ones_spec_high by exact C. rewrite (lt32_high z i Hz C). destruct (N.testbit x i), (N.testbit y i); reflexivity.
Qed.

Lemma Maj_majority x y z : Maj x y z = majority x y z.
Proof.
  unfold Maj, majority. apply N.bits_inj. intros i. rewrite !N.lxor_spec, !N.lor_spec, !N.land_spec, !N.lor_spec.
  destruct (N.testbit x i), (N.testbit y i), (N.testbit z i); reflexivity.
Qed.

Lemma bsig0_Sigma x : x < 2 ^ 32 -> bsig0 x = Sigma0 x.
Proof. intros H. unfold bsig0, Sigma0, xor3. rewrite !rotr_rotate by (assumption || lia). apply N.lxor_assoc. Qed.
Lemma bsig1_Sigma x : x < 2 ^ 32 -> bsig1 x = Sigma1 x.
Proof. intros H. unfold bsig1, Sigma1, xor3. rewrite !rotr_rotate by (assumption || lia). apply N.lxor_assoc. Qed.
Lemma ssig0_sigma x : x < 2 ^ 32 -> ssig0 x = sigma0 x.
Proof. intros H. unfold ssig0, sigma0, xor3, shift. rewrite !rotr_rotate by (assumption || lia). rewrite N.shiftr_div_pow2. apply N.lxor_assoc. Qed.
Lemma ssig1_sigma x : x < 2 ^ 32 -> ssig1 x = sigma1 x.
Proof. intros H. unfold ssig1, sigma1, xor3, shift. rewrite !rotr_rotate by (assumption || lia). rewrite N.shiftr_div_pow2. apply N.lxor_assoc. Qed.

Lemma add32_lt a b : add32 a b < 2 ^ 32.
Proof. apply N.mod_lt. discriminate. Qed.
Lemma total_lt l : total l < 2 ^ 32.
Proof. apply N.mod_lt. discriminate. Qed.

Lemma total_mod_l a l : total ((a mod 2 ^ 32) :: l) = total (a :: l).
Proof. unfold total. cbn [fold_right]. apply N.add_mod_idemp_l. discriminate. Qed.
Lemma add32_total2 a b : add32 a b = total [a; b].
Proof. unfold add32, total, w32. cbn [fold_right]. rewrite N.add_0_r. reflexivity. Qed.
Lemma total_swap a b : total [a; b] = add32 b a.
Proof. rewrite add32_total2. unfold total. cbn [fold_right]. f_equal. lia. Qed.
Lemma sum4 a b c d : add32 (add32 a b) (add32 c d) = total [a; b; c; d].
Proof.
  unfold add32, total, w32. cbn [fold_right]. rewrite pow32. rewrite <- N.add_mod by lia. f_equal. lia.
Qed.
Lemma sum5 a b c d e : add32 (add32 (add32 a b) (add32 c d)) e = total [a; b; c; d; e].
Proof.
  unfold add32, total, w32. cbn [fold_right]. rewrite pow32. rewrite <- N.add_mod by lia. rewrite N.add_mod_idemp_l by lia. f_equal. lia.
Qed.

(** * Constants *)

Definition cube_check (p k : N) : bool :=
  existsb (fun h => let n := h * 2 ^ 32 + k in (n ^ 3 <=? p * 2 ^ 96) && (p * 2 ^ 96 <? (n + 1) ^ 3) && (k <? 2 ^ 32)) [0; 1; 2; 3; 4; 5; 6].
Definition square_check (p k : N) : bool :=
  existsb (fun h => let n := h * 2 ^ 32 + k in (n ^ 2 <=? p * 2 ^ 64) && (p * 2 ^ 64 <? (n + 1) ^ 2) && (k <? 2 ^ 32)) [0; 1; 2; 3; 4; 5; 6].

Lemma high_low h k : k < 2 ^ 32 -> k = (h * 2 ^ 32 + k) mod 2 ^ 32.
Proof. intros H. rewrite N.add_comm, N.mod_add by discriminate. symmetry. apply N.mod_small. exact H. Qed.

Lemma cube_check_ok p k : cube_check p k = true -> cube_root_bits p k.
Proof.
  intros H. apply existsb_exists in H. destruct H as (h & _ & H). cbv zeta in H. apply andb_true_iff in H. destruct H as [H H3].
  apply andb_true_iff in H. destruct H as [H1 H2]. apply N.leb_le in H1. apply N.ltb_lt in H2, H3. exists (h * 2 ^ 32 + k). split; [split; assumption|apply high_low; exact H3].
Qed.
Lemma square_check_ok p k : square_check p k = true -> square_root_bits p k.
Proof.
  intros H. apply existsb_exists in H. destruct H as (h & _ & H). cbv zeta in H. apply andb_true_iff in H. destruct H as [H H3].
  apply andb_true_iff in H. destruct H as [H1 H2]. apply N.leb_le in H1. apply N.ltb_lt in H2, H3. exists (h * 2 ^ 32 + k). split; [split; assumption|apply high_low; exact H3].
Qed.

Lemma constants_check : forallb (fun p => cube_check (fst p) (snd p)) (combine first_primes K256) = true.
Proof. vm_compute. reflexivity. Qed.
Lemma initial_check : forallb (fun p => square_check (fst p) (snd p)) (combine (firstn 8 first_primes) H256) = true.
Proof. vm_compute. reflexivity. Qed.

Lemma nth_error_combine {A C} (l : list A) (m : list C) i x y : nth_error l i = Some x -> nth_error m i = Some y -> nth_error (combine l m) i = Some (x, y).
Proof.
  revert m i. induction l as [|a l IH]; intros m i Hx Hy; [destruct i; discriminate Hx|]. destruct m as [|b m]; [destruct i; discriminate Hy|].
  destruct i as [|i]; [cbn in *; congruence|]. cbn in *. apply IH; assumption.
Qed.

Lemma constant_ok t k : nth_error K256 t = Some k -> round_constant t k.
Proof.
  intros H. assert (L : (t < 64)%nat) by (change 64%nat with (length K256); apply nth_error_Some; rewrite H; discriminate).
  destruct (nth_error first_primes t) as [p|] eqn:E; [|apply nth_error_None in E; cbn in E; lia].
  exists p. split; [exact E|]. apply cube_check_ok. pose proof constants_check as C. rewrite forallb_forall in C.
  apply (C (p, k)). eapply nth_error_In. apply nth_error_combine; eassumption.
Qed.

Lemma cube_root_unique p k k' : cube_root_bits p k -> cube_root_bits p k' -> k = k'.
Proof.
  intros (n & [H1 H2] & ->) (m & [G1 G2] & ->). f_equal.
  assert (L : forall a b, a ^ 3 < (b + 1) ^ 3 -> a <= b).
  { intros a b H. destruct (N.lt_ge_cases b a) as [C|C]; [|exact C]. exfalso. apply (N.lt_irrefl (a ^ 3)). eapply N.lt_le_trans; [exact H|]. apply N.pow_le_mono_l. lia. }
  apply N.le_antisymm; apply L; eapply N.le_lt_trans; eassumption.
Qed.
Lemma square_root_unique p k k' : square_root_bits p k -> square_root_bits p k' -> k = k'.
Proof.
  intros (n & [H1 H2] & ->) (m & [G1 G2] & ->). f_equal.
  assert (L : forall a b, a ^ 2 < (b + 1) ^ 2 -> a <= b).
  { intros a b H. destruct (N.lt_ge_cases b a) as [C|C]; [|exact C]. exfalso. apply (N.lt_irrefl (a ^ 2)). eapply N.lt_le_trans; [exact H|]. apply N.pow_le_mono_l. lia. }
  apply N.le_antisymm; apply L; eapply N.le_lt_trans; eassumption.
Qed.
Lemma constant_unique t k k' : round_constant t k -> round_constant t k' -> k = k'.
Proof. intros (p & E & H) (p' & E' & H'). rewrite E in E'. injection E' as <-. eapply cube_root_unique; eassumption. Qed.

Definition of_list (l : list N) : vars :=
  mkvars (nth 0 l 0) (nth 1 l 0) (nth 2 l 0) (nth 3 l 0) (nth 4 l 0) (nth 5 l 0) (nth 6 l 0) (nth 7 l 0).
Lemma of_variables s : of_list (variables s) = s.
Proof. destruct s; reflexivity. Qed.
Lemma variables_inj s s' : variables s = variables s' -> s = s'.
Proof. intros H. rewrite <- (of_variables s), H, of_variables. reflexivity. Qed.

Definition small (s : vars) : Prop := Forall (fun x => x < 2 ^ 32) (variables s).

Lemma initial_ok : initial (of_list H256).
Proof.
  unfold initial. cbn [variables of_list H256 nth va vb vc vd ve vf vg vh firstn first_primes].
  pose proof initial_check as C. rewrite forallb_forall in C.
  repeat (constructor; [apply square_check_ok; apply (C (_, _)); cbn; tauto|]). constructor.
Qed.

Lemma forall2_fun {A C} (R : A -> C -> Prop) l m m' : (forall x y z, R x y -> R x z -> y = z) -> Forall2 R l m -> Forall2 R l m' -> m = m'.
Proof.
  intros U H. revert m'. induction H as [|x y l m Hxy H IH]; intros m' H'; inversion H'; subst; [reflexivity|]. f_equal; eauto.
Qed.

Lemma initial_unique h h' : initial h -> initial h' -> h = h'.
Proof. intros H H'. apply variables_inj. eapply forall2_fun; [apply square_root_unique|exact H|exact H']. Qed.

Lemma initial_small h : initial h -> small h.
Proof.
  intros H. unfold small. unfold initial in H. apply Forall_forall. intros x Hx. clear - H Hx. induction H as [|p k l m (n & _ & ->) H IH]; [destruct Hx|].
  destruct Hx as [<-|Hx]; [apply N.mod_lt; discriminate|auto].
Qed.

(** * Schedule *)

Lemma extend_length n w : length (extend n w) = (n + length w)%nat.
Proof. revert w. induction n as [|n IH]; intros w; [reflexivity|]. cbn [extend]. rewrite IH. cbn [length]. lia. Qed.

Lemma extend_suffix n w : exists p, extend n w = p ++ w /\ length p = n.
Proof.
  revert w. induction n as [|n IH]; intros w; [exists []; split; reflexivity|]. cbn [extend].
  match goal with |- context [extend n (?t :: w)] => destruct (IH (t :: w)) as (p & E & L); exists (p ++ [t]) end.
  rewrite E, <- app_assoc. split; [reflexivity|]. rewrite app_length. cbn. lia.
Qed.

Definition step_word (w : list N) : N := add32 (add32 (ssig1 (nth 1 w 0)) (nth 6 w 0)) (add32 (ssig0 (nth 14 w 0)) (nth 15 w 0)).

(** Every word pushed by [extend] is computed from the words after it. *)
Lemma extend_word n w i : (i < n)%nat -> nth i (extend n w) 0 = step_word (skipn (S i) (extend n w)).
Proof.
  revert w i. induction n as [|n IH]; intros w i Hi; [lia|]. cbn [extend]. fold (step_word w).
  destruct (Nat.eq_dec i n) as [->|Ne].
  - destruct (extend_suffix n (step_word w :: w)) as (p & E & L). rewrite E. rewrite app_nth2 by lia. rewrite L, Nat.sub_diag. cbn [nth].
    rewrite skipn_app. rewrite (skipn_all2 p) by lia. cbn [app]. rewrite L. replace (S n - n)%nat with 1%nat by lia. reflexivity.
  - apply IH. lia.
Qed.

Lemma nth_skipn {A} i j (l : list A) d : nth j (skipn i l) d = nth (i + j) l d.
Proof. revert l. induction i as [|i IH]; intros l; [reflexivity|]. destruct l as [|x l]; [destruct j; reflexivity|]. cbn. apply IH. Qed.

Definition word_at (block : list N) (t : nat) : N := nth t (rev (extend 48 (rev block))) 0.

Lemma word_at_rev block t : length block = 16%nat -> (t < 64)%nat -> word_at block t = nth (63 - t) (extend 48 (rev block)) 0.
Proof.
  intros L H. unfold word_at. rewrite rev_nth by (rewrite extend_length, rev_length; lia). f_equal. rewrite extend_length, rev_length. lia.
Qed.

Lemma extend_small n w : Forall (fun x => x < 2 ^ 32) w -> Forall (fun x => x < 2 ^ 32) (extend n w).
Proof. revert w. induction n as [|n IH]; intros w H; [exact H|]. cbn [extend]. apply IH. constructor; [apply add32_lt|exact H]. Qed.

Lemma word_at_small block t : Forall (fun x => x < 2 ^ 32) block -> word_at block t < 2 ^ 32.
Proof.
  intros H. unfold word_at. destruct (Nat.lt_ge_cases t (length (rev (extend 48 (rev block))))) as [C|C].
  - assert (F : Forall (fun x => x < 2 ^ 32) (rev (extend 48 (rev block)))) by (apply Forall_rev; apply extend_small; apply Forall_rev; exact H).
    rewrite Forall_forall in F. apply F. apply nth_In. exact C.
  - rewrite nth_overflow by exact C. reflexivity.
Qed.

Lemma schedule_ok block : length block = 16%nat -> Forall (fun x => x < 2 ^ 32) block -> schedule block (word_at block).
Proof.
  intros L F. split.
  - intros t Ht. rewrite word_at_rev by (assumption || lia). destruct (extend_suffix 48 (rev block)) as (p & E & Lp). rewrite E, app_nth2 by lia.
    rewrite rev_nth by (rewrite L, Lp; lia). rewrite L, Lp. replace (16 - S (63 - t - 48))%nat with t by lia. apply nth_error_nth'. lia.
  - intros t Ht. rewrite (word_at_rev block t) by (assumption || lia). rewrite extend_word by lia. unfold step_word. rewrite !nth_skipn.
    assert (G : forall k, (k < 16)%nat -> nth (S (63 - t) + k) (extend 48 (rev block)) 0 = word_at block (t - S k)).
    { intros k Hk. rewrite word_at_rev by (assumption || lia). f_equal. lia. }
    rewrite !G by lia. rewrite sum4. rewrite ssig1_sigma, ssig0_sigma by (apply word_at_small; exact F). reflexivity.
Qed.

Lemma schedule_unique block W W' : schedule block W -> schedule block W' -> forall t, (t < 64)%nat -> W t = W' t.
Proof.
  intros [H1 H2] [G1 G2] t. induction t as [t IH] using lt_wf_ind. intros Ht. destruct (Nat.lt_ge_cases t 16) as [C|C].
  - specialize (H1 t C). specialize (G1 t C). congruence.
  - rewrite H2, G2 by lia. rewrite !IH by lia. reflexivity.
Qed.

(** * Rounds *)

Lemma round_ok s k w : small s -> one_round k w s (of_list (round (variables s) (k, w))) /\ variables (of_list (round (variables s) (k, w))) = round (variables s) (k, w) /\
  small (of_list (round (variables s) (k, w))).
Proof.
  intros H. destruct s as [a b c d e f g h]. unfold small in *. cbn [variables va vb vc vd ve vf vg vh] in *.
  inversion H as [|? ? Ha X1]; subst. inversion X1 as [|? ? Hb X2]; subst. inversion X2 as [|? ? Hc X3]; subst. inversion X3 as [|? ? Hd X4]; subst.
  inversion X4 as [|? ? He X5]; subst. inversion X5 as [|? ? Hf X6]; subst. inversion X6 as [|? ? Hg X7]; subst. clear X1 X2 X3 X4 X5 X6 X7.
  split; [|split].
  - eexists. eexists. split; [reflexivity|]. split; [reflexivity|]. cbn [variables round of_list nth fst snd va vb vc vd ve vf vg vh].
    rewrite sum5, !add32_total2, Ch_choice, Maj_majority, bsig0_Sigma, bsig1_Sigma by assumption. reflexivity.
  - reflexivity.
  - cbn [round of_list nth variables va vb vc vd ve vf vg vh fst snd]. repeat constructor; try assumption; apply add32_lt.
Qed.

(** The state after [t] rounds. *)
Definition state_at (h : vars) (w : nat -> N) (t : nat) : vars :=
  of_list (fold_left round (firstn t (combine K256 (map w (seq 0 64)))) (variables h)).

Lemma firstn_snoc {A} (l : list A) t x : nth_error l t = Some x -> firstn (S t) l = firstn t l ++ [x].
Proof. revert l. induction t as [|t IH]; intros [|a l] H; try discriminate H; [cbn in *; congruence|]. cbn [firstn app]. f_equal. apply IH. exact H. Qed.

Lemma fold_round_ok (l : list (N * N)) h : small h ->
  variables (of_list (fold_left round l (variables h))) = fold_left round l (variables h) /\ small (of_list (fold_left round l (variables h))).
Proof.
  revert h. induction l as [|[k w] l IH]; intros h H; [cbn [fold_left]; rewrite of_variables; auto|].
  cbn [fold_left]. destruct (round_ok h k w H) as (_ & E & S). rewrite <- E. apply IH. exact S.
Qed.

Lemma state_step h w t : small h -> (t < 64)%nat -> exists k, round_constant t k /\ one_round k (w t) (state_at h w t) (state_at h w (t + 1)).
Proof.
  intros H Ht. destruct (nth_error K256 t) as [k|] eqn:E; [|apply nth_error_None in E; cbn in E; lia]. exists k. split; [apply constant_ok; exact E|].
  unfold state_at. rewrite Nat.add_1_r. rewrite (firstn_snoc _ t (k, w t)).
  - rewrite fold_left_app. cbn [fold_left]. destruct (fold_round_ok (firstn t (combine K256 (map w (seq 0 64)))) h H) as [V S].
    rewrite <- V at 2. apply round_ok. exact S.
  - apply nth_error_combine; [exact E|]. rewrite nth_error_map. replace (nth_error (seq 0 64) t) with (Some t); [reflexivity|].
    symmetry. rewrite (nth_error_nth' (seq 0 64) 0%nat) by (rewrite seq_length; exact Ht). rewrite seq_nth by exact Ht. reflexivity.
Qed.

Lemma list_as_map (l : list N) n : length l = n -> l = map (fun t => nth t l 0) (seq 0 n).
Proof.
  intros L. apply (nth_ext _ _ 0 0); [rewrite map_length, seq_length; exact L|]. intros i Hi.
  rewrite (nth_indep (map (fun t => nth t l 0) (seq 0 n)) 0 ((fun t => nth t l 0) 0%nat)) by (rewrite map_length, seq_length; lia).
  rewrite (map_nth (fun t => nth t l 0) (seq 0 n) 0%nat i), seq_nth by lia. reflexivity.
Qed.

Lemma compress_ok block h : length block = 16%nat -> Forall (fun x => x < 2 ^ 32) block -> small h ->
  block_hash block h (of_list (compress (variables h) block)) /\
  variables (of_list (compress (variables h) block)) = compress (variables h) block /\ small (of_list (compress (variables h) block)).
Proof.
  intros L F H. assert (E : rev (extend 48 (rev block)) = map (word_at block) (seq 0 64)).
  { apply list_as_map. rewrite rev_length, extend_length, rev_length. lia. }
  unfold compress. cbv zeta. rewrite E. destruct (fold_round_ok (combine K256 (map (word_at block) (seq 0 64))) h H) as [V S].
  set (r := of_list (fold_left round (combine K256 (map (word_at block) (seq 0 64))) (variables h))) in *. rewrite <- V.
  assert (R : r = state_at h (word_at block) 64).
  { unfold state_at. rewrite firstn_all2; [reflexivity|]. rewrite combine_length, map_length, seq_length. cbn. lia. }
  clearbody r. split; [|split].
  - exists (word_at block), (state_at h (word_at block)). split; [apply schedule_ok; assumption|]. split; [apply of_variables|].
    split; [intros t Ht; apply state_step; assumption|]. rewrite <- R. destruct r as [r1 r2 r3 r4 r5 r6 r7 r8], h as [h1 h2 h3 h4 h5 h6 h7 h8]. cbn [of_list variables combine map nth fst snd va vb vc vd ve vf vg vh].
    repeat (constructor; [apply total_swap|]). constructor.
  - destruct r as [r1 r2 r3 r4 r5 r6 r7 r8], h as [h1 h2 h3 h4 h5 h6 h7 h8]. reflexivity.
  - destruct r as [r1 r2 r3 r4 r5 r6 r7 r8], h as [h1 h2 h3 h4 h5 h6 h7 h8]. unfold small. cbn. repeat (constructor; [apply add32_lt|]). constructor.
Qed.

Lemma block_hash_unique block h h1 h2 : block_hash block h h1 -> block_hash block h h2 -> h1 = h2.
Proof.
  intros (W & S & HW & H0 & HS & HF) (W' & S' & HW' & H0' & HS' & HF').
  assert (E : forall t, (t <= 64)%nat -> S t = S' t).
  { induction t as [|t IH]; intros Ht; [congruence|]. destruct (HS t) as (k & K & T1 & T2 & -> & -> & R); [lia|]. destruct (HS' t) as (k' & K' & T1' & T2' & -> & -> & R'); [lia|].
    rewrite Nat.add_1_r in R, R'. rewrite R, R'. rewrite (constant_unique t k k' K K'). rewrite IH by lia. rewrite (schedule_unique block W W' HW HW' t) by lia. reflexivity. }
  rewrite (E 64%nat) in HF by lia. apply variables_inj. eapply forall2_fun; [|exact HF|exact HF']. intros x y z; cbn; congruence.
Qed.

Lemma blocks_hash_unique l h h1 h2 : blocks_hash l h h1 -> blocks_hash l h h2 -> h1 = h2.
Proof.
  intros H. revert h2. induction H as [h|b l h ha hb Hb H IH]; intros h2 H2; inversion H2; subst; [reflexivity|].
  apply IH. rewrite (block_hash_unique _ _ _ _ Hb ltac:(eassumption)). assumption.
Qed.

(** * Blocks *)

Fixpoint chunk (fuel : nat) (ws : list N) : list (list N) :=
  match fuel, ws with
  | S f, _ :: _ => firstn 16 ws :: chunk f (skipn 16 ws)
  | _, _ => []
  end.

Lemma chunk_concat fuel ws : (length ws <= fuel)%nat -> concat (chunk fuel ws) = ws.
Proof.
  revert ws. induction fuel as [|f IH]; intros [|w ws] L; try reflexivity; [cbn in L; lia|]. cbn [chunk concat]. rewrite IH; [apply firstn_skipn|].
  rewrite skipn_length. cbn [length] in *. lia.
Qed.

Lemma chunk_16 fuel ws n : length ws = (16 * n)%nat -> Forall (fun b => length b = 16%nat) (chunk fuel ws).
Proof.
  revert ws n. induction fuel as [|f IH]; intros [|w ws] n L; try constructor.
  - rewrite firstn_length, L. destruct n; [cbn in L; lia|lia].
  - apply (IH _ (n - 1)%nat). rewrite skipn_length, L. lia.
Qed.

Lemma concat_forall {A} (P : A -> Prop) l : Forall P (concat l) -> Forall (Forall P) l.
Proof. induction l as [|x l IH]; intros H; constructor; cbn in H; apply Forall_app in H; [apply H|apply IH; apply H]. Qed.

Lemma chunk_small fuel ws : (length ws <= fuel)%nat -> Forall (fun x => x < 2 ^ 32) ws -> Forall (Forall (fun x => x < 2 ^ 32)) (chunk fuel ws).
Proof. intros L H. apply concat_forall. rewrite chunk_concat by exact L. exact H. Qed.

Lemma blocks_ok fuel ws h : Forall (fun b => length b = 16%nat) (chunk fuel ws) -> Forall (Forall (fun x => x < 2 ^ 32)) (chunk fuel ws) -> small h ->
  blocks_hash (chunk fuel ws) h (of_list (blocks fuel (variables h) ws)) /\ variables (of_list (blocks fuel (variables h) ws)) = blocks fuel (variables h) ws.
Proof.
  revert ws h. induction fuel as [|f IH]; intros ws h L F H; [cbn [chunk blocks]; rewrite of_variables; split; [constructor|reflexivity]|].
  destruct ws as [|w ws]; [cbn [chunk blocks]; rewrite of_variables; split; [constructor|reflexivity]|].
  cbn [chunk] in *. inversion L as [|? ? L1 L2]; subst. inversion F as [|? ? F1 F2]; subst. cbn [blocks].
  destruct (compress_ok _ h L1 F1 H) as (Hc & V & S). destruct (IH (skipn 16 (w :: ws)) _ L2 F2 S) as [Hb Vb]. rewrite V in Hb, Vb.
  split; [econstructor; [exact Hc|exact Hb]|exact Vb].
Qed.

(** * Padding *)

Lemma be_length k v : length (be_bytes k v) = k.
Proof. induction k as [|k IH]; [reflexivity|]. cbn [be_bytes length]. rewrite IH. reflexivity. Qed.

Lemma pad_zeros m : exists n, length (sha_pad m) = (64 * n)%nat.
Proof.
  unfold sha_pad. cbv zeta. rewrite !app_length, repeat_length, be_length. cbn [length].
  set (l := length m). exists (l / 64 + (1 + (l mod 64 + 8) / 64))%nat.
  assert (Hl : (l mod 64 < 64)%nat) by (apply Nat.mod_upper_bound; lia). pose proof (Nat.div_mod l 64 ltac:(lia)) as E.
  assert (Em : N.of_nat l mod 64 = N.of_nat (l mod 64)) by (rewrite Nat2N.inj_mod; reflexivity). rewrite Em.
  set (r := (l mod 64)%nat) in *. clearbody r. set (q := (l / 64)%nat) in *. clearbody q.
  destruct (Nat.lt_ge_cases r 56) as [C|C].
  - replace ((119 - N.of_nat r) mod 64) with (55 - N.of_nat r).
    + replace ((r + 8) / 64)%nat with 0%nat by (symmetry; apply Nat.div_small; lia). lia.
    + apply (N.mod_unique _ _ 1); lia.
  - replace ((119 - N.of_nat r) mod 64) with (119 - N.of_nat r) by (symmetry; apply N.mod_small; lia).
    replace ((r + 8) / 64)%nat with 1%nat; [lia|]. apply (Nat.div_unique _ _ _ (r + 8 - 64)); lia.
Qed.

Lemma repeat_bits n : byte_bits (repeat x00%byte n) = repeat false (8 * n).
Proof.
  induction n as [|n IH]; [reflexivity|]. cbn [repeat]. change (byte_bits (?x :: ?l)) with (bits 8 (bN x) ++ byte_bits l). rewrite IH.
  replace (8 * S n)%nat with (8 + 8 * n)%nat by lia. rewrite repeat_app. reflexivity.
Qed.

Lemma sha_pad_bits m : exists zeros, (zeros < 512)%nat /\ byte_bits (sha_pad m) = byte_bits m ++ true :: repeat false zeros ++ bits 64 (8 * N.of_nat (length m)).
Proof.
  unfold sha_pad. cbv zeta. set (z := (119 - N.of_nat (length m) mod 64) mod 64). exists (7 + 8 * N.to_nat z)%nat. split.
  { assert (z < 64) by (apply N.mod_lt; lia). lia. }
  rewrite !byte_bits_app, repeat_bits, be_bits. f_equal. change (byte_bits [x80%byte]) with (true :: repeat false 7). cbn [app]. f_equal.
  rewrite repeat_app, <- app_assoc. f_equal. f_equal. rewrite <- (bits_mod 64 (8 * N.of_nat (length m))). reflexivity.
Qed.

Lemma padded_ok m : padded m (chunk (length (words (sha_pad m))) (words (sha_pad m))).
Proof.
  destruct (pad_zeros m) as [n Hn]. destruct (sha_pad_bits m) as (zeros & Hz & E). exists zeros. split; [exact Hz|].
  assert (L : length (words (sha_pad m)) = (16 * n)%nat). { rewrite words_length, Hn. replace (64 * n)%nat with (16 * n * 4)%nat by lia. apply Nat.div_mul. lia. }
  split.
  - pose proof (chunk_16 (length (words (sha_pad m))) _ n L) as F1. pose proof (chunk_small (length (words (sha_pad m))) _ (le_n _) (words_lt (sha_pad m))) as F2.
    rewrite Forall_forall in *. auto.
  - rewrite chunk_concat by lia. rewrite words_bits; [symmetry; exact E|]. rewrite Hn. replace (64 * n)%nat with (16 * n * 4)%nat by lia. apply Nat.mod_mul. lia.
Qed.

Lemma concat_16_inj (a b : list (list N)) : Forall (fun x => length x = 16%nat) a -> Forall (fun x => length x = 16%nat) b -> concat a = concat b -> a = b.
Proof.
  intros Ha. revert b. induction Ha as [|x a Hx Ha IH]; intros b Hb E; destruct Hb as [|y b Hy Hb]; [reflexivity| | |].
  - destruct y; [discriminate Hy|discriminate E].
  - destruct x; [discriminate Hx|discriminate E].
  - cbn [concat] in E. apply app_inv_len in E; [|congruence]. destruct E as [-> E]. f_equal. auto.
Qed.

Lemma padded_unique m a b : padded m a -> padded m b -> a = b.
Proof.
  intros (z & Hz & Fa & Ea) (z' & Hz' & Fb & Eb).
  assert (La : Forall (fun x => length x = 16%nat) a) by (eapply Forall_impl; [|exact Fa]; intros x [H _]; exact H).
  assert (Lb : Forall (fun x => length x = 16%nat) b) by (eapply Forall_impl; [|exact Fb]; intros x [H _]; exact H).
  assert (C : forall l : list (list N), Forall (fun x => length x = 16%nat) l -> length (concat l) = (16 * length l)%nat).
  { induction 1 as [|x l H F IH]; [reflexivity|]. cbn [concat length]. rewrite app_length, H, IH. lia. }
  assert (z = z') as ->.
  { pose proof (f_equal (@length bool) Ea) as G. pose proof (f_equal (@length bool) Eb) as G'. rewrite flat_bits_length, C in G, G' by assumption.
    rewrite app_length in G, G'. cbn [length] in G, G'. rewrite app_length, repeat_length, bits_length in G, G'. lia. }
  rewrite Ea in Eb. apply concat_16_inj; [exact La|exact Lb|]. apply (bits_concat_inj 31); [| |exact Eb].
  - clear - Fa. induction Fa as [|x l [_ H] F IH]; [constructor|]. cbn [concat]. apply Forall_app. split; assumption.
  - clear - Fb. induction Fb as [|x l [_ H] F IH]; [constructor|]. cbn [concat]. apply Forall_app. split; assumption.
Qed.

(** * The digest *)

Lemma flat_be l : byte_bits (flat_map (be_bytes 4) l) = flat_map (bits 32) l.
Proof. induction l as [|x l IH]; [reflexivity|]. cbn [flat_map]. rewrite byte_bits_app, IH, be_bits. reflexivity. Qed.

Lemma digest_unique m a b : digest_of m a -> digest_of m b -> a = b.
Proof.
  intros (bl & h & h' & P & I & Hh & E) (bl' & k & k' & P' & I' & Hk & E'). rewrite (padded_unique _ _ _ P P') in Hh. rewrite (initial_unique _ _ I I') in Hh.
  rewrite (blocks_hash_unique _ _ _ _ Hh Hk) in E. apply byte_bits_inj. congruence.
Qed.

Lemma sha256_digest_of m : digest_of m (sha256 m).
Proof.
  pose proof (padded_ok m) as P. exists (chunk (length (words (sha_pad m))) (words (sha_pad m))), (of_list H256).
  destruct P as (z & Hz & F & E). destruct (blocks_ok (length (words (sha_pad m))) (words (sha_pad m)) (of_list H256)) as [Hb V].
  - eapply Forall_impl; [|exact F]. intros x [H _]. exact H.
  - eapply Forall_impl; [|exact F]. intros x [_ H]. exact H.
  - apply initial_small. apply initial_ok.
  - eexists. split; [exists z; auto|]. split; [apply initial_ok|]. split; [exact Hb|]. unfold sha256. cbv zeta. rewrite flat_be. f_equal. symmetry. exact V.
Qed.

Lemma digest_iff m d : digest_of m d <-> d = sha256 m.
Proof. split; [intros H; eapply digest_unique; [exact H|apply sha256_digest_of]|intros ->; apply sha256_digest_of]. Qed.

Lemma sha256_length m : length (sha256 m) = 32%nat.
Proof.
  destruct (sha256_digest_of m) as (bl & h & h' & _ & _ & _ & E). apply (f_equal (@length bool)) in E.
  rewrite byte_bits_length, flat_bits_length in E. cbn [variables length] in E. lia.
Qed.
