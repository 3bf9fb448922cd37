(** Number theory for RSA: Fermat's little theorem, exponents that undo each other, the Chinese
    remainder theorem for two primes. *)
From Coq Require Import Znumtheory Zpow_facts Permutation.
From Verif Require Import Base.
Local Open Scope Z_scope.

(** * Congruence as divisibility *)

Lemma cong_mod a b n : 0 < n -> (n | a - b) <-> a mod n = b mod n.
Proof.
  intro P. split.
  - intros [k E]. replace a with (b + k * n) by lia. apply Z_mod_plus_full.
  - intro E. apply Zmod_divide; [lia|]. rewrite Zminus_mod, E, Z.sub_diag. apply Zmod_0_l.
Qed.

Lemma cong_refl a n : (n | a - a).
Proof. rewrite Z.sub_diag. apply Z.divide_0_r. Qed.

Lemma cong_sym a b n : (n | a - b) -> (n | b - a).
Proof. intros [k E]. exists (- k). lia. Qed.

Lemma cong_trans a b c n : (n | a - b) -> (n | b - c) -> (n | a - c).
Proof. intros [k E] [l F]. exists (k + l). lia. Qed.

Lemma cong_mul a b c d n : (n | a - b) -> (n | c - d) -> (n | a * c - b * d).
Proof. intros [k E] [l F]. exists (k * c + b * l). replace (a * c - b * d) with ((a - b) * c + b * (c - d)) by ring. rewrite E, F. ring. Qed.

Lemma cong_pow a b k n : (n | a - b) -> 0 <= k -> (n | a ^ k - b ^ k).
Proof.
  intros H. revert k. apply natlike_ind.
  - rewrite !Z.pow_0_r. apply cong_refl.
  - intros k P IH. rewrite !Z.pow_succ_r by assumption. apply cong_mul; assumption.
Qed.

Lemma cong_mod_self a n : 0 < n -> (n | a - a mod n).
Proof. intro P. apply cong_mod; [assumption|]. rewrite Zmod_mod. reflexivity. Qed.

(** * Fermat *)

Definition prodZ (l : list Z) : Z := fold_right Z.mul 1 l.

Lemma prodZ_perm l l' : Permutation l l' -> prodZ l = prodZ l'.
Proof.
  induction 1 as [|x l l' H IH|x y l|l l' l'' H IH H' IH'].
  - reflexivity.
  - cbn. fold (prodZ l). fold (prodZ l'). rewrite IH. reflexivity.
  - cbn. ring.
  - rewrite IH. exact IH'.
Qed.

Lemma prodZ_map a p l : 0 < p -> (p | prodZ (map (fun x => (a * x) mod p) l) - a ^ Z.of_nat (length l) * prodZ l).
Proof.
  intro P. induction l as [|x l IH].
  - cbn. exists 0. lia.
  - cbn [map prodZ fold_right length]. fold (prodZ l). fold (prodZ (map (fun x => (a * x) mod p) l)).
    rewrite Nat2Z.inj_succ, Z.pow_succ_r by lia.
    replace (a * a ^ Z.of_nat (length l) * (x * prodZ l)) with ((a * x) * (a ^ Z.of_nat (length l) * prodZ l)) by ring.
    apply cong_mul; [|exact IH]. apply cong_sym, cong_mod_self. exact P.
Qed.

Lemma prodZ_prime p l : prime p -> Forall (fun x => 0 < x < p) l -> ~ (p | prodZ l).
Proof.
  intros P F. induction F as [|x l X F IH].
  - cbn. intro D. apply prime_ge_2 in P. apply Z.divide_1_r_nonneg in D; lia.
  - cbn. fold (prodZ l). intro D. apply prime_mult in D; [|exact P]. destruct D as [D|D]; [|exact (IH D)].
    apply Z.divide_pos_le in D; lia.
Qed.

Theorem fermat p a : prime p -> ~ (p | a) -> (p | a ^ (p - 1) - 1).
Proof.
  intros P N. pose proof (prime_ge_2 p P) as G.
  set (l := map Z.of_nat (seq 1 (Z.to_nat (p - 1)))).
  assert (R : Forall (fun x => 0 < x < p) l).
  { apply Forall_forall. intros x I. apply in_map_iff in I. destruct I as (k & <- & I). apply in_seq in I. lia. }
  assert (ND : NoDup l).
  { unfold l. apply FinFun.Injective_map_NoDup; [|apply seq_NoDup]. intros x y E. lia. }
  assert (L : Z.of_nat (length l) = p - 1) by (unfold l; rewrite map_length, seq_length; lia).
  set (f := fun x => (a * x) mod p).
  assert (In1 : forall x, In x l <-> 0 < x < p).
  { intro x. split; [intro I; rewrite Forall_forall in R; exact (R x I)|].
    intro I. apply in_map_iff. exists (Z.to_nat x). split; [lia|]. apply in_seq. lia. }
  assert (ND' : NoDup (map f l)).
  { assert (X : forall l, Forall (fun x => 0 < x < p) l -> NoDup l -> NoDup (map f l)).
    { clear -P N G. induction l as [|x l IH]; intros F D; [constructor|]. inversion F as [|? ? X F']; subst. inversion D as [|? ? X1 D']; subst.
      cbn. constructor; [|apply IH; assumption]. intro I. apply in_map_iff in I. destruct I as (y & E & I). unfold f in E.
      apply cong_mod in E; [|lia]. replace (a * y - a * x) with (a * (y - x)) in E by ring.
      apply prime_mult in E; [|exact P]. destruct E as [E|E]; [exact (N E)|].
      rewrite Forall_forall in F'. specialize (F' y I). assert (y = x).
      { destruct (Z.eq_dec y x) as [Q|Q]; [exact Q|]. exfalso. apply Z.divide_abs_r in E. apply Z.divide_pos_le in E; lia. }
      subst y. exact (X1 I). }
    exact (X l R ND). }
  assert (PM : Permutation (map f l) l).
  { apply NoDup_Permutation_bis; [exact ND'|rewrite map_length; lia|].
    intros y I. apply in_map_iff in I. destruct I as (x & <- & I). apply In1 in I. apply In1. unfold f.
    pose proof (Z.mod_pos_bound (a * x) p ltac:(lia)) as M. assert ((a * x) mod p <> 0); [|lia].
    intro Z0. apply Zmod_divide in Z0; [|lia]. apply prime_mult in Z0; [|exact P]. destruct Z0 as [D|D]; [exact (N D)|].
    apply Z.divide_pos_le in D; lia. }
  pose proof (prodZ_map a p l ltac:(lia)) as Q. fold f in Q. rewrite (prodZ_perm _ _ PM), L in Q.
  replace (prodZ l - a ^ (p - 1) * prodZ l) with (prodZ l * (1 - a ^ (p - 1))) in Q by ring.
  apply prime_mult in Q; [|exact P]. destruct Q as [Q|Q]; [exfalso; exact (prodZ_prime p l P R Q)|].
  apply cong_sym. exact Q.
Qed.

(** Exponents that undo each other modulo [p - 1] undo each other modulo [p]. *)
Lemma pow_undo p x e d : prime p -> 0 <= e -> 0 <= d -> (p - 1 | e * d - 1) -> 0 < e * d -> (p | (x ^ e) ^ d - x).
Proof.
  intros P E D [k K] H. pose proof (prime_ge_2 p P) as G. rewrite <- Z.pow_mul_r by assumption.
  assert (0 <= k) by nia. replace (e * d) with ((p - 1) * k + 1) by lia.
  rewrite Z.pow_add_r, Z.pow_mul_r, Z.pow_1_r by nia.
  destruct (Zdivide_dec p x) as [Dx|Dx].
  - apply Z.divide_sub_r; [|exact Dx]. apply Z.divide_mul_r. exact Dx.
  - replace (x) with (1 * x) at 3 by ring. apply cong_mul; [|apply cong_refl].
    rewrite <- (Z.pow_1_l k) at 2 by assumption. apply cong_pow; [|assumption]. apply fermat; assumption.
Qed.

(** * Two primes *)

Lemma prime_coprime p q : prime p -> prime q -> p <> q -> rel_prime p q.
Proof.
  intros P Q N. apply prime_rel_prime; [exact P|]. intro D. apply prime_div_prime in D; [|exact P|exact Q].
  exact (N D).
Qed.

Lemma two_divide p q x : rel_prime p q -> (p | x) -> (q | x) -> (p * q | x).
Proof.
  intros R [k ->] D. rewrite Z.mul_comm in D. apply Gauss in D; [|apply rel_prime_sym; exact R].
  destruct D as [j ->]. exists j. ring.
Qed.

Lemma small_cong a b n : 0 <= a < n -> 0 <= b < n -> (n | a - b) -> a = b.
Proof.
  intros A C D. destruct (Z.eq_dec a b) as [E|E]; [exact E|]. exfalso.
  apply Z.divide_abs_r in D. apply Z.divide_pos_le in D; lia.
Qed.

Lemma pow_injective p q e dp dq x y :
  prime p -> prime q -> p <> q -> 0 < e -> 0 < dp -> 0 < dq -> (p - 1 | e * dp - 1) -> (q - 1 | e * dq - 1) ->
  0 <= x < p * q -> 0 <= y < p * q -> (p * q | x ^ e - y ^ e) -> x = y.
Proof.
  intros P Q N E D1 D2 H1 H2 X Y H. apply (small_cong x y (p * q)); try assumption.
  assert (S : forall r d, prime r -> 0 < d -> (r - 1 | e * d - 1) -> (r | p * q) -> (r | x - y)).
  { intros r d Pr Dr Hr Rr. eapply cong_trans; [apply cong_sym, (pow_undo r x e d); try assumption; nia|].
    eapply cong_trans; [|apply (pow_undo r y e d); try assumption; nia].
    apply cong_pow; [|lia]. eapply Z.divide_trans; eassumption. }
  apply two_divide; [apply prime_coprime; assumption|apply (S p dp); try assumption; apply Z.divide_factor_l|apply (S q dq); try assumption; apply Z.divide_factor_r].
Qed.

(** * Primes of the form k 2^m + 1 (Proth) *)

Lemma prime_divisor n : 1 < n -> exists r, prime r /\ (r | n).
Proof.
  intro H0. refine (Z_lt_induction (fun n => 1 < n -> exists r, prime r /\ (r | n)) _ n ltac:(lia) H0).
  clear n H0. intros n IH H. destruct (prime_dec n) as [Q|Q]; [exists n; split; [exact Q|apply Z.divide_refl]|].
  destruct (not_prime_divide n H Q) as (m & M & D). destruct (IH m ltac:(lia) ltac:(lia)) as (r & R & E).
  exists r. split; [exact R|]. eapply Z.divide_trans; eassumption.
Qed.

Lemma two_part n : 0 < n -> exists i t, 0 <= i /\ n = 2 ^ i * (2 * t + 1).
Proof.
  intro H0. refine (Z_lt_induction (fun n => 0 < n -> exists i t, 0 <= i /\ n = 2 ^ i * (2 * t + 1)) _ n ltac:(lia) H0).
  clear n H0. intros n IH H. destruct (Zeven_odd_dec n) as [E|O].
  - apply Zeven_ex in E. destruct E as [h ->]. destruct (IH h ltac:(lia) ltac:(lia)) as (i & t & I & E). exists (Z.succ i), t.
    split; [lia|]. rewrite Z.pow_succ_r by exact I. rewrite E at 1. ring.
  - apply Zodd_ex in O. destruct O as [t ->]. exists 0, t. split; [lia|]. rewrite Z.pow_0_r. ring.
Qed.

Lemma proth_divisor k m a r : 0 < k -> 1 <= m -> prime r -> (r | k * 2 ^ m + 1) -> (r | a ^ (k * 2 ^ (m - 1)) + 1) -> (2 ^ m | r - 1).
Proof.
  intros K M P D H. pose proof (prime_ge_2 r P) as G.
  assert (E2 : 2 ^ m = 2 * 2 ^ (m - 1)) by (rewrite <- Z.pow_succ_r by lia; f_equal; lia).
  assert (Pm : 0 < 2 ^ (m - 1)) by (apply Z.pow_pos_nonneg; lia).
  assert (R2 : ~ (r | 2)).
  { intro Q. assert (r = 2) by (apply prime_div_prime; [exact P|exact prime_2|exact Q]). subst r. destruct D as [x X]. rewrite E2 in X. lia. }
  destruct (two_part (r - 1) ltac:(lia)) as (i & t & I & E). destruct (Z_le_gt_dec m i) as [L|L].
  - rewrite E. exists (2 ^ (i - m) * (2 * t + 1)). replace (2 ^ i) with (2 ^ (i - m) * 2 ^ m) by (rewrite <- Z.pow_add_r by lia; f_equal; lia). ring.
  - exfalso. apply R2. assert (T : 0 <= t) by (assert (0 < 2 ^ i) by (apply Z.pow_pos_nonneg; lia); nia).
    set (c := a ^ (k * 2 ^ (m - 1))) in *.
    assert (H1 : (r | c ^ (2 * t + 1) - (-1) ^ (2 * t + 1))) by (apply cong_pow; [replace (c - -1) with (c + 1) by ring; exact H|lia]).
    replace ((-1) ^ (2 * t + 1)) with (-1) in H1 by (rewrite Z.pow_add_r, Z.pow_mul_r by lia; change ((-1) ^ 2) with 1; rewrite (Z.pow_1_l t) by lia; reflexivity).
    assert (N : ~ (r | a)).
    { intro Q. assert (Q1 : (r | c)). { unfold c. replace (k * 2 ^ (m - 1)) with (Z.succ (k * 2 ^ (m - 1) - 1)) by ring. rewrite Z.pow_succ_r by nia. apply Z.divide_mul_l. exact Q. }
      assert (Q2 : (r | 1)) by (replace 1 with ((c + 1) - c) by ring; apply Z.divide_sub_r; assumption). apply Z.divide_1_r_nonneg in Q2; lia. }
    assert (H2 : (r | c ^ (2 * t + 1) - 1)).
    { unfold c. rewrite <- Z.pow_mul_r by nia. replace (k * 2 ^ (m - 1) * (2 * t + 1)) with ((r - 1) * (k * 2 ^ (m - 1 - i))).
      - set (w := k * 2 ^ (m - 1 - i)). assert (W : 0 <= w) by (unfold w; apply Z.mul_nonneg_nonneg; [lia|apply Z.pow_nonneg; lia]).
        rewrite Z.pow_mul_r by lia. pose proof (cong_pow _ _ w _ (fermat r a P N) W) as X. rewrite Z.pow_1_l in X by exact W. exact X.
      - rewrite E. replace (2 ^ (m - 1)) with (2 ^ i * 2 ^ (m - 1 - i)) by (rewrite <- Z.pow_add_r by lia; f_equal; lia). ring. }
    replace 2 with ((c ^ (2 * t + 1) - -1) - (c ^ (2 * t + 1) - 1)) by ring. apply Z.divide_sub_r; assumption.
Qed.

Lemma proth k m a : 0 < k < 2 ^ m -> 1 <= m -> (k * 2 ^ m + 1 | a ^ (k * 2 ^ (m - 1)) + 1) -> prime (k * 2 ^ m + 1).
Proof.
  intros K M H. set (p := k * 2 ^ m + 1) in *. assert (1 < p) by (unfold p; nia).
  assert (B : forall r, prime r -> (r | p) -> 2 ^ m + 1 <= r).
  { intros r P D. pose proof (prime_ge_2 r P). assert (X : (2 ^ m | r - 1)) by (apply (proth_divisor k m a); try assumption; try lia; eapply Z.divide_trans; eassumption).
    apply Z.divide_pos_le in X; lia. }
  destruct (prime_dec p) as [Q|Q]; [exact Q|]. exfalso. destruct (not_prime_divide p ltac:(assumption) Q) as (x & X & [y Y]).
  assert (Y1 : 1 < y) by nia. destruct (prime_divisor x ltac:(lia)) as (r & R & D). destruct (prime_divisor y Y1) as (s & S & E).
  pose proof (B r R ltac:(eapply Z.divide_trans; [exact D|exists y; exact Y])) as B1.
  pose proof (B s S ltac:(eapply Z.divide_trans; [exact E|exists x; lia])) as B2.
  apply Z.divide_pos_le in D; [|lia]. apply Z.divide_pos_le in E; [|lia]. unfold p in Y. nia.
Qed.

(** Squaring [n] times modulo [k 2^m + 1], reducing with a division by [k] only. *)
Definition proth_square (k m x : Z) : Z :=
  let y := x * x in
  let hi := Z.shiftr y m in
  let u := hi / k in
  y - u * (k * 2 ^ m + 1).

Fixpoint proth_squares (k m : Z) (n : nat) (x : Z) : Z :=
  match n with O => x | S n => proth_squares k m n (proth_square k m x) end.

Lemma proth_squares_cong k m n x : (k * 2 ^ m + 1 | proth_squares k m n x - x ^ (2 ^ Z.of_nat n)).
Proof.
  revert x. induction n as [|n IH]; intro x; cbn [proth_squares].
  - change (2 ^ Z.of_nat 0) with 1. rewrite Z.pow_1_r. apply cong_refl.
  - eapply cong_trans; [apply IH|]. rewrite Nat2Z.inj_succ, Z.pow_succ_r, Z.pow_mul_r by lia.
    apply cong_pow; [|lia]. rewrite Z.pow_2_r. unfold proth_square. cbn zeta. exists (- (Z.shiftr (x * x) m / k)). ring.
Qed.

Lemma proth_check k m n a : m = Z.of_nat (S n) -> 0 < k < 2 ^ m ->
  (proth_squares k m n (a ^ k mod (k * 2 ^ m + 1)) + 1) mod (k * 2 ^ m + 1) = 0 -> prime (k * 2 ^ m + 1).
Proof.
  intros M K H. apply (proth k m a); [exact K|lia|]. assert (P : 0 < k * 2 ^ m + 1) by nia.
  replace (m - 1) with (Z.of_nat n) by lia. rewrite Z.pow_mul_r by (try apply Z.pow_nonneg; lia).
  apply Zmod_divide in H; [|lia]. set (p := k * 2 ^ m + 1) in *.
  pose proof (proth_squares_cong k m n (a ^ k mod p)) as C1. fold p in C1.
  assert (C2 : (p | (a ^ k mod p) ^ 2 ^ Z.of_nat n - (a ^ k) ^ 2 ^ Z.of_nat n)) by (apply cong_pow; [apply cong_sym, cong_mod_self; exact P|apply Z.pow_nonneg; lia]).
  pose proof (cong_trans _ _ _ _ C1 C2) as C.
  replace ((a ^ k) ^ 2 ^ Z.of_nat n + 1) with ((proth_squares k m n (a ^ k mod p) + 1) - (proth_squares k m n (a ^ k mod p) - (a ^ k) ^ 2 ^ Z.of_nat n)) by ring.
  apply Z.divide_sub_r; assumption.
Qed.
