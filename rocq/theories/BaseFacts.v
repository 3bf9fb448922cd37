(** Lemmas about Base.v. *)
From Verif Require Import Base.
From Coq Require Import Permutation Sorted.

(** * Bytes *)

Lemma beq_refl a : beq a a = true.
Proof. destruct a; reflexivity. Qed.

Lemma beq_eq a b : beq a b = true <-> a = b.
Proof.
  split; [|intros ->; apply beq_refl].
  unfold beq. apply Byte.byte_dec_bl.
Qed.

Lemma beq_neq a b : beq a b = false <-> a <> b.
Proof.
  split.
  - intros H ->. rewrite beq_refl in H. discriminate.
  - intros H. destruct (beq a b) eqn:E; [|reflexivity]. apply beq_eq in E. contradiction.
Qed.

Lemma beq_sym a b : beq a b = beq b a.
Proof.
  destruct (beq a b) eqn:E.
  - apply beq_eq in E. subst. symmetry. apply beq_refl.
  - apply beq_neq in E. symmetry. apply beq_neq. congruence.
Qed.

Lemma beq_spec a b : reflect (a = b) (beq a b).
Proof. destruct (beq a b) eqn:E; constructor; [apply beq_eq|apply beq_neq]; exact E. Qed.

Lemma bN_inj a b : bN a = bN b -> a = b.
Proof.
  unfold bN. intros H. pose proof (Byte.of_to_N a) as Ha. pose proof (Byte.of_to_N b) as Hb.
  rewrite H in Ha. congruence.
Qed.

Lemma bN_lt a : (bN a < 256)%N.
Proof. destruct a; reflexivity. Qed.

Lemma nb_bN a : nb (bN a) = a.
Proof. unfold nb, bN. rewrite Byte.of_to_N. reflexivity. Qed.

Lemma bN_nb n : (n < 256)%N -> bN (nb n) = n.
Proof.
  intros H. unfold nb, bN. destruct (Byte.of_N n) eqn:E.
  - apply Byte.to_of_N in E. exact E.
  - apply Byte.of_N_None_iff in E. lia.
Qed.

Lemma byte_sweep (P : byte -> bool) :
  forallb (fun n => P (nb (N.of_nat n))) (seq 0 256) = true -> forall b, P b = true.
Proof.
  intros H b. rewrite forallb_forall in H.
  specialize (H (N.to_nat (bN b))).
  rewrite N2Nat.id, nb_bN in H. apply H.
  apply in_seq. pose proof (bN_lt b). lia.
Qed.

(** * Strings *)

Lemma str_eqb_eq a b : str_eqb a b = true <-> a = b.
Proof.
  revert b; induction a as [|x a IH]; intros [|y b]; cbn [str_eqb]; split; intros H;
    try reflexivity; try discriminate.
  - apply andb_true_iff in H. destruct H as [H1 H2]. apply beq_eq in H1. apply IH in H2. congruence.
  - injection H as -> ->. rewrite beq_refl. apply IH. reflexivity.
Qed.

Lemma str_eqb_refl a : str_eqb a a = true.
Proof. apply str_eqb_eq. reflexivity. Qed.

Lemma str_eqb_neq a b : str_eqb a b = false <-> a <> b.
Proof.
  split.
  - intros H ->. rewrite str_eqb_refl in H. discriminate.
  - intros H. destruct (str_eqb a b) eqn:E; [|reflexivity]. apply str_eqb_eq in E. contradiction.
Qed.

Lemma str_eqb_spec a b : reflect (a = b) (str_eqb a b).
Proof. destruct (str_eqb a b) eqn:E; constructor; [apply str_eqb_eq|apply str_eqb_neq]; exact E. Qed.

Lemma str_eqb_sym a b : str_eqb a b = str_eqb b a.
Proof.
  destruct (str_eqb_spec a b) as [->|Hn]; [symmetry; apply str_eqb_refl|].
  symmetry. apply str_eqb_neq. congruence.
Qed.

Definition str_eq_dec (a b : str) : {a = b} + {a <> b}.
Proof. destruct (str_eqb a b) eqn:E; [left; apply str_eqb_eq|right; apply str_eqb_neq]; exact E. Defined.

Lemma str_leb_refl a : str_leb a a = true.
Proof. induction a as [|x a IH]; cbn [str_leb]; [reflexivity|]. rewrite N.ltb_irrefl. exact IH. Qed.

Lemma str_leb_total a b : str_leb a b = true \/ str_leb b a = true.
Proof.
  revert b; induction a as [|x a IH]; intros [|y b]; cbn [str_leb]; auto.
  destruct (N.ltb_spec (bN x) (bN y)); [left; reflexivity|].
  destruct (N.ltb_spec (bN y) (bN x)); [right; reflexivity|].
  apply IH.
Qed.

Lemma str_leb_antisym a b : str_leb a b = true -> str_leb b a = true -> a = b.
Proof.
  revert b; induction a as [|x a IH]; intros [|y b]; cbn [str_leb]; try discriminate; auto.
  destruct (N.ltb_spec (bN x) (bN y)); destruct (N.ltb_spec (bN y) (bN x)); try discriminate; try lia.
  intros H1 H2. f_equal; [apply bN_inj; lia|apply IH; assumption].
Qed.

Lemma str_leb_trans a b c : str_leb a b = true -> str_leb b c = true -> str_leb a c = true.
Proof.
  revert b c; induction a as [|x a IH]; intros [|y b] [|z c]; cbn [str_leb]; try discriminate; auto.
  destruct (N.ltb_spec (bN x) (bN y)); destruct (N.ltb_spec (bN y) (bN x)); try discriminate; try lia;
  destruct (N.ltb_spec (bN y) (bN z)); destruct (N.ltb_spec (bN z) (bN y)); try discriminate; try lia;
  intros H3 H4;
  destruct (N.ltb_spec (bN x) (bN z)); destruct (N.ltb_spec (bN z) (bN x)); try reflexivity; try lia.
  eapply IH; eassumption.
Qed.

Lemma str_ltb_irrefl a : str_ltb a a = false.
Proof. unfold str_ltb. rewrite str_leb_refl. reflexivity. Qed.

Lemma str_ltb_leb a b : str_ltb a b = true -> str_leb a b = true.
Proof.
  unfold str_ltb. destruct (str_leb_total a b) as [H|H]; [auto|]. rewrite H. discriminate.
Qed.

Lemma str_ltb_trans a b c : str_ltb a b = true -> str_ltb b c = true -> str_ltb a c = true.
Proof.
  unfold str_ltb. rewrite !negb_true_iff. intros H1 H2.
  destruct (str_leb c a) eqn:E; [|reflexivity].
  assert (Hab : str_leb a b = true) by (destruct (str_leb_total a b); congruence).
  rewrite (str_leb_trans c a b E Hab) in H2. discriminate.
Qed.

Lemma str_ltb_neq a b : str_ltb a b = true -> a <> b.
Proof. intros H ->. rewrite str_ltb_irrefl in H. discriminate. Qed.

Lemma str_ltb_of_leb a b : str_leb a b = true -> a <> b -> str_ltb a b = true.
Proof.
  unfold str_ltb. intros H Hn. apply negb_true_iff. destruct (str_leb b a) eqn:E; [|reflexivity].
  exfalso. apply Hn. apply str_leb_antisym; assumption.
Qed.

Lemma strip_prefix_app p s : strip_prefix p (p ++ s) = Some s.
Proof. induction p as [|x p IH]; cbn; [reflexivity|]. rewrite beq_refl. exact IH. Qed.

Lemma strip_prefix_some p s r : strip_prefix p s = Some r -> s = p ++ r.
Proof.
  revert s; induction p as [|x p IH]; intros s; cbn.
  - congruence.
  - destruct s as [|y s]; [discriminate|].
    destruct (beq_spec x y) as [->|]; [|discriminate]. intros H. f_equal. apply IH. exact H.
Qed.

Lemma strip_prefix_none p s : strip_prefix p s = None -> forall r, s <> p ++ r.
Proof. intros H r ->. rewrite strip_prefix_app in H. discriminate. Qed.

(** ** split_once *)

Lemma split_once_none sep s : ~ In sep s -> split_once sep s = (s, None).
Proof.
  induction s as [|c s IH]; cbn; [reflexivity|]. intros H.
  destruct (beq_spec c sep) as [->|]; [exfalso; apply H; left; reflexivity|].
  rewrite IH; [reflexivity|]. tauto.
Qed.

Lemma split_once_app sep a s : ~ In sep a -> split_once sep (a ++ sep :: s) = (a, Some s).
Proof.
  induction a as [|c a IH]; cbn; intros H.
  - rewrite beq_refl. reflexivity.
  - destruct (beq_spec c sep) as [->|]; [exfalso; apply H; left; reflexivity|].
    rewrite IH; [reflexivity|]. tauto.
Qed.

Lemma split_once_spec sep s :
  match split_once sep s with
  | (a, None) => s = a /\ ~ In sep a
  | (a, Some r) => s = a ++ sep :: r /\ ~ In sep a
  end.
Proof.
  induction s as [|c s IH]; cbn.
  - auto.
  - destruct (beq_spec c sep) as [->|Hn].
    + split; [reflexivity|intros []].
    + destruct (split_once sep s) as [a [r|]]; destruct IH as [-> IH]; cbn; (split; [reflexivity|]);
        intros [H|H]; congruence || tauto.
Qed.

(** ** Sorting *)

Definition str_le (a b : str) : Prop := str_leb a b = true.
Definition str_lt (a b : str) : Prop := str_ltb a b = true.

Lemma insert_sorted_perm x l : Permutation (insert_sorted x l) (x :: l).
Proof.
  induction l as [|y l IH]; cbn; [apply Permutation_refl|].
  destruct (str_leb x y); [apply Permutation_refl|].
  transitivity (y :: x :: l); [apply perm_skip; exact IH|apply perm_swap].
Qed.

Lemma sort_perm l : Permutation (str_sort l) l.
Proof.
  induction l as [|x l IH]; cbn; [apply Permutation_refl|].
  transitivity (x :: str_sort l); [apply insert_sorted_perm|apply perm_skip; exact IH].
Qed.

Lemma insert_sorted_sorted x l : StronglySorted str_le l -> StronglySorted str_le (insert_sorted x l).
Proof.
  induction l as [|y l IH]; cbn; intros H.
  - constructor; constructor.
  - inversion H as [|? ? Hl Hy]; subst.
    destruct (str_leb x y) eqn:E.
    + constructor; [exact H|]. constructor; [exact E|].
      eapply Forall_impl; [|exact Hy]. intros z Hz. eapply str_leb_trans; eassumption.
    + constructor; [apply IH; exact Hl|].
      assert (Hyx : str_leb y x = true) by (destruct (str_leb_total y x); congruence).
      eapply Permutation_Forall; [symmetry; apply insert_sorted_perm|].
      constructor; assumption.
Qed.

Lemma sort_sorted l : StronglySorted str_le (str_sort l).
Proof. induction l as [|x l IH]; cbn; [constructor|]. apply insert_sorted_sorted. exact IH. Qed.

Lemma sorted_perm_unique l1 l2 :
  StronglySorted str_le l1 -> StronglySorted str_le l2 -> Permutation l1 l2 -> l1 = l2.
Proof.
  revert l2; induction l1 as [|x l1 IH]; intros l2 H1 H2 Hp.
  - apply Permutation_nil in Hp. congruence.
  - destruct l2 as [|y l2]; [symmetry in Hp; apply Permutation_nil in Hp; discriminate|].
    inversion H1 as [|? ? Hs1 Hf1]; subst. inversion H2 as [|? ? Hs2 Hf2]; subst.
    assert (x = y) as ->.
    { assert (Hx : In x (y :: l2)) by (eapply Permutation_in; [exact Hp|left; reflexivity]).
      assert (Hy : In y (x :: l1)) by (eapply Permutation_in; [symmetry; exact Hp|left; reflexivity]).
      destruct Hx as [->|Hx]; [reflexivity|]. destruct Hy as [->|Hy]; [reflexivity|].
      rewrite Forall_forall in Hf1, Hf2. apply str_leb_antisym; [apply Hf1|apply Hf2]; assumption. }
    f_equal. apply IH; [assumption|assumption|]. eapply Permutation_cons_inv. exact Hp.
Qed.

Lemma sort_permutation l1 l2 : Permutation l1 l2 -> str_sort l1 = str_sort l2.
Proof.
  intros H. apply sorted_perm_unique; [apply sort_sorted|apply sort_sorted|].
  transitivity l1; [apply sort_perm|]. transitivity l2; [exact H|symmetry; apply sort_perm].
Qed.

Lemma sort_in l x : In x (str_sort l) <-> In x l.
Proof.
  split; apply Permutation_in; [apply sort_perm|symmetry; apply sort_perm].
Qed.

(** ** BTreeSet *)

Lemma bset_insert_in x y l : In x (bset_insert y l) <-> x = y \/ In x l.
Proof.
  induction l as [|z l IH]; cbn; [intuition|].
  destruct (str_eqb_spec y z) as [->|Hn]; cbn; [intuition|].
  destruct (str_leb y z); cbn; [intuition|].
  rewrite IH. intuition.
Qed.

Lemma bset_insert_sorted x l : StronglySorted str_lt l -> StronglySorted str_lt (bset_insert x l).
Proof.
  induction l as [|y l IH]; cbn; intros H; [constructor; constructor|].
  inversion H as [|? ? Hl Hy]; subst.
  destruct (str_eqb_spec x y) as [->|Hn]; [exact H|].
  destruct (str_leb x y) eqn:E.
  - assert (Hxy : str_lt x y) by (apply str_ltb_of_leb; assumption).
    constructor; [exact H|]. constructor; [exact Hxy|].
    eapply Forall_impl; [|exact Hy]. intros z Hz. eapply str_ltb_trans; eassumption.
  - constructor; [apply IH; exact Hl|].
    apply Forall_forall. intros z Hz. apply bset_insert_in in Hz. destruct Hz as [->|Hz].
    + apply str_ltb_of_leb; [destruct (str_leb_total y x); congruence|congruence].
    + rewrite Forall_forall in Hy. apply Hy. exact Hz.
Qed.

Lemma bset_of_list_fold_in l acc x :
  In x (fold_left (fun s y => bset_insert y s) l acc) <-> In x l \/ In x acc.
Proof.
  revert acc; induction l as [|y l IH]; intros acc; cbn [fold_left In]; [tauto|].
  rewrite IH, bset_insert_in. intuition.
Qed.

Lemma bset_of_list_in l x : In x (bset_of_list l) <-> In x l.
Proof. unfold bset_of_list. rewrite bset_of_list_fold_in. cbn. tauto. Qed.

Lemma bset_of_list_sorted l : StronglySorted str_lt (bset_of_list l).
Proof.
  unfold bset_of_list. assert (H : StronglySorted str_lt []) by constructor. revert H.
  generalize (@nil str) as acc. induction l as [|x l IH]; intros acc H; cbn; [exact H|].
  apply IH. apply bset_insert_sorted. exact H.
Qed.

Lemma strict_sorted_unique l1 l2 :
  StronglySorted str_lt l1 -> StronglySorted str_lt l2 -> (forall x, In x l1 <-> In x l2) -> l1 = l2.
Proof.
  revert l2; induction l1 as [|x l1 IH]; intros l2 H1 H2 Hin.
  - destruct l2 as [|y l2]; [reflexivity|]. exfalso. apply (Hin y). left. reflexivity.
  - destruct l2 as [|y l2]; [exfalso; apply (Hin x); left; reflexivity|].
    inversion H1 as [|? ? Hs1 Hf1]; subst. inversion H2 as [|? ? Hs2 Hf2]; subst.
    rewrite Forall_forall in Hf1, Hf2.
    assert (x = y) as ->.
    { assert (Hx : In x (y :: l2)) by (apply Hin; left; reflexivity).
      assert (Hy : In y (x :: l1)) by (apply Hin; left; reflexivity).
      destruct Hx as [->|Hx]; [reflexivity|]. destruct Hy as [->|Hy]; [reflexivity|].
      pose proof (str_ltb_trans _ _ _ (Hf1 _ Hy) (Hf2 _ Hx)) as Hc.
      rewrite str_ltb_irrefl in Hc. discriminate. }
    f_equal. apply IH; [assumption|assumption|]. intros z. specialize (Hin z). cbn in Hin.
    split; intros Hz.
    + destruct (proj1 Hin (or_intror Hz)) as [<-|H]; [|exact H].
      specialize (Hf1 _ Hz). red in Hf1. rewrite str_ltb_irrefl in Hf1. discriminate.
    + destruct (proj2 Hin (or_intror Hz)) as [<-|H]; [|exact H].
      specialize (Hf2 _ Hz). red in Hf2. rewrite str_ltb_irrefl in Hf2. discriminate.
Qed.

Lemma strict_sorted_nodup l : StronglySorted str_lt l -> NoDup l.
Proof.
  induction l as [|x l IH]; intros H; [constructor|].
  inversion H as [|? ? Hl Hf]; subst. constructor; [|apply IH; exact Hl].
  intros Hin. rewrite Forall_forall in Hf. specialize (Hf _ Hin). red in Hf.
  rewrite str_ltb_irrefl in Hf. discriminate.
Qed.

(** ** BTreeMap *)

Fixpoint lookup {V} (k : str) (m : list (str * V)) : option V :=
  match m with
  | [] => None
  | (k', v) :: m' => if str_eqb k k' then Some v else lookup k m'
  end.

Lemma bmap_push_keys {V} k (v : V) m : map fst (bmap_push k v m) = bset_insert k (map fst m).
Proof.
  induction m as [|[k' vs] m IH]; cbn; [reflexivity|].
  destruct (str_eqb k k'); cbn; [reflexivity|].
  destruct (str_leb k k'); cbn; [reflexivity|]. rewrite IH. reflexivity.
Qed.

Lemma bmap_push_lookup {V} k k' (v : V) m :
  StronglySorted str_lt (map fst m) ->
  lookup k' (bmap_push k v m) =
  if str_eqb k' k then Some (unwrap_or (lookup k m) [] ++ [v]) else lookup k' m.
Proof.
  induction m as [|[k0 vs] m IH]; cbn; intros Hs.
  - destruct (str_eqb k' k); reflexivity.
  - inversion Hs as [|? ? Hl Hf]; subst.
    destruct (str_eqb_spec k k0) as [->|Hn]; cbn.
    + destruct (str_eqb_spec k' k0) as [->|Hn']; reflexivity.
    + destruct (str_leb k k0) eqn:E; cbn.
      * destruct (str_eqb_spec k' k) as [->|Hn']; [|reflexivity].
        assert (lookup k m = None) as ->; [|reflexivity].
        destruct (lookup k m) eqn:El; [|reflexivity]. exfalso.
        assert (Hin : In k (map fst m)).
        { clear -El. induction m as [|[a b] m IHm]; cbn in *; [discriminate|].
          destruct (str_eqb_spec k a) as [->|]; [left; reflexivity|right; apply IHm; exact El]. }
        rewrite Forall_forall in Hf. specialize (Hf _ Hin).
        assert (k0 = k) by (apply str_leb_antisym; [apply str_ltb_leb; exact Hf|exact E]). congruence.
      * rewrite (IH Hl). destruct (str_eqb_spec k' k0) as [->|]; [|reflexivity].
        destruct (str_eqb_spec k0 k) as [->|]; [congruence|reflexivity].
Qed.

(** ** join *)

Lemma join_cons2 sep x y l : join sep (x :: y :: l) = x ++ sep ++ join sep (y :: l).
Proof. reflexivity. Qed.

Lemma join_app sep l1 l2 : l1 <> [] -> l2 <> [] -> join sep (l1 ++ l2) = join sep l1 ++ sep ++ join sep l2.
Proof.
  induction l1 as [|x l1 IH]; [congruence|]. intros _ H2.
  destruct l1 as [|y l1].
  - cbn [app]. destruct l2; [congruence|]. reflexivity.
  - cbn [app]. rewrite !join_cons2. cbn [app] in IH. rewrite IH; [|discriminate|exact H2].
    rewrite !app_assoc. reflexivity.
Qed.

Lemma join_snoc sep l x : l <> [] -> join sep (l ++ [x]) = join sep l ++ sep ++ x.
Proof. intros H. rewrite join_app; [reflexivity|exact H|discriminate]. Qed.

(** * Numbers *)

Lemma is_digit_digit n : (n < 10)%N -> is_digit (digit n) = true.
Proof.
  intros H. unfold is_digit, in_range, digit. rewrite bN_nb by lia.
  apply andb_true_iff; split; apply N.leb_le; lia.
Qed.

Lemma bN_digit n : (n < 10)%N -> bN (digit n) = (48 + n)%N.
Proof. intros H. unfold digit. apply bN_nb. lia. Qed.

Lemma is_digit_range c : is_digit c = true -> (48 <= bN c <= 57)%N.
Proof.
  unfold is_digit, in_range. intros H. apply andb_true_iff in H. destruct H as [H1 H2].
  apply N.leb_le in H1, H2. lia.
Qed.

Lemma digit_bN c : is_digit c = true -> digit (bN c - 48) = c.
Proof.
  intros H. apply is_digit_range in H. apply bN_inj. rewrite bN_digit by lia. lia.
Qed.

Lemma undec_acc_app acc s t :
  undec_acc acc (s ++ t) = match undec_acc acc s with Some a => undec_acc a t | None => None end.
Proof.
  revert acc; induction s as [|c s IH]; intros acc; cbn [app undec_acc]; [reflexivity|].
  destruct (is_digit c); [apply IH|reflexivity].
Qed.

Lemma dec_fuel_spec fuel n :
  (n < 2 ^ N.of_nat fuel)%N ->
  dec_fuel fuel n <> [] /\ Forall (fun c => is_digit c = true) (dec_fuel fuel n) /\
  undec_acc 0 (dec_fuel fuel n) = Some n.
Proof.
  revert n; induction fuel as [|f IH]; intros n Hn.
  - cbn in Hn. assert (n = 0)%N as -> by lia. cbn. repeat split; [discriminate|repeat constructor].
  - cbn [dec_fuel]. destruct (N.ltb_spec n 10) as [H|H].
    + repeat split; [discriminate|constructor; [apply is_digit_digit; exact H|constructor]|].
      cbn [undec_acc]. rewrite is_digit_digit by exact H. rewrite bN_digit by exact H. f_equal. lia.
    + assert (Hm : (n mod 10 < 10)%N) by (apply N.mod_lt; lia).
      destruct (IH (n / 10)%N) as (H1 & H2 & H3).
      { apply N.div_lt_upper_bound; [lia|].
        rewrite Nat2N.inj_succ, N.pow_succ_r in Hn by lia.
        set (p := (2 ^ N.of_nat f)%N) in *. lia. }
      repeat split.
      * destruct (dec_fuel f (n / 10)); discriminate.
      * apply Forall_app; split; [exact H2|]. constructor; [apply is_digit_digit; exact Hm|constructor].
      * rewrite undec_acc_app, H3. cbn [undec_acc]. rewrite is_digit_digit by exact Hm.
        rewrite bN_digit by exact Hm. f_equal.
        pose proof (N.div_mod' n 10) as Hd. set (q := (n / 10)%N) in *. set (r := (n mod 10)%N) in *. clearbody q r. lia.
Qed.

Lemma size_bound n : (n < 2 ^ N.of_nat (N.to_nat (N.size n)))%N.
Proof. rewrite N2Nat.id. apply N.size_gt. Qed.

Lemma undec_dec n : undec (dec n) = Some n.
Proof.
  unfold dec. pose proof (dec_fuel_spec _ _ (size_bound n)) as (H1 & _ & H3).
  unfold undec. destruct (dec_fuel _ n); [congruence|exact H3].
Qed.

Lemma dec_digits n : Forall (fun c => is_digit c = true) (dec n).
Proof. unfold dec. apply dec_fuel_spec. apply size_bound. Qed.

Lemma dec_nonempty n : dec n <> [].
Proof. unfold dec. apply dec_fuel_spec. apply size_bound. Qed.

Lemma dec_inj a b : dec a = dec b -> a = b.
Proof. intros H. pose proof (undec_dec a). pose proof (undec_dec b). congruence. Qed.

Lemma dec_fuel_head fuel n : (n < 2 ^ N.of_nat fuel)%N -> (0 < n)%N ->
  exists c r, dec_fuel fuel n = c :: r /\ c <> "0"%byte.
Proof.
  revert n; induction fuel as [|f IH]; intros n Hn Hp.
  - cbn in Hn. lia.
  - cbn [dec_fuel]. destruct (N.ltb_spec n 10) as [H|H].
    + exists (digit n), []. split; [reflexivity|]. intros E.
      apply (f_equal bN) in E. rewrite bN_digit in E by exact H. change (bN "0"%byte) with 48%N in E. lia.
    + destruct (IH (n / 10)%N) as (c & r & E & Hc).
      * apply N.div_lt_upper_bound; [lia|].
        rewrite Nat2N.inj_succ, N.pow_succ_r in Hn by lia.
        set (p := (2 ^ N.of_nat f)%N) in *. lia.
      * apply N.div_str_pos. lia.
      * rewrite E. exists c, (r ++ [digit (n mod 10)]). split; [reflexivity|exact Hc].
Qed.

(** The decimal text of a positive number does not start with a zero. *)
Lemma dec_head n : (0 < n)%N -> exists c r, dec n = c :: r /\ c <> "0"%byte.
Proof. intros H. apply dec_fuel_head; [apply size_bound|exact H]. Qed.

Lemma dec_zero : dec 0 = B "0".
Proof. reflexivity. Qed.
