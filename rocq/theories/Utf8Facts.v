(** UTF-8 validity is being the text of a sequence of characters. *)
From Verif Require Import Base BaseFacts Utf8 FormUrl CodecFacts FormUrlFacts SpecUtf8.
From Coq Require Import ZifyBool ZifyNat ZifyN.
Ltac Zify.zify_post_hook ::= Z.div_mod_to_equations.

Local Ltac split_first :=
  repeat match goal with
         | |- context [if ?c then _ else _] => destruct c eqn:?
         | |- context [match ?l with [] => _ | _ :: _ => _ end] => destruct l
         end.

Lemma nb_plus (b : byte) (n a : N) : (bN b = n + a)%N -> nb (n + a) = b.
Proof. intros <-. apply nb_bN. Qed.

(** The bytes of the first character of a valid text. *)
Lemma utf8_first_char s : s <> [] -> fst (utf8_first s) = true ->
  exists n, char_bytes n (firstn (snd (utf8_first s)) s).
Proof.
  destruct s as [|b0 r]; [congruence|]. intros _. unfold utf8_first.
  destruct (bN b0 <? 128)%N eqn:H0.
  { intros _. exists (bN b0). cbn [fst snd firstn]. rewrite <- (nb_bN b0) at 2. apply cb_1. lia. }
  destruct (in_range 194 223 b0) eqn:H1.
  { destruct r as [|b1 r]; [discriminate|]. destruct (is_cont b1) eqn:C1; [|discriminate]. intros _. cbn [fst snd firstn].
    unfold in_range, is_cont, in_range in *.
    exists (64 * (bN b0 - 192) + (bN b1 - 128))%N.
    rewrite <- (nb_plus b0 192 (bN b0 - 192)) at 2 by lia. rewrite <- (nb_plus b1 128 (bN b1 - 128)) at 2 by lia.
    apply cb_2; lia. }
  destruct (in_range 224 239 b0) eqn:H2.
  { destruct r as [|b1 r]; [discriminate|].
    destruct (if bN b0 =? 224 then in_range 160 191 b1 else if bN b0 =? 237 then in_range 128 159 b1 else is_cont b1)%N eqn:C1; [|discriminate].
    destruct r as [|b2 r]; [discriminate|]. destruct (is_cont b2) eqn:C2; [|discriminate]. intros _. cbn [fst snd firstn].
    unfold in_range, is_cont, in_range in *.
    exists (64 * (64 * (bN b0 - 224) + (bN b1 - 128)) + (bN b2 - 128))%N.
    assert (R : (128 <= bN b1 <= 191)%N) by (destruct (bN b0 =? 224)%N; [lia|]; destruct (bN b0 =? 237)%N; lia).
    rewrite <- (nb_plus b0 224 (bN b0 - 224)) at 2 by lia. rewrite <- (nb_plus b1 128 (bN b1 - 128)) at 2 by lia.
    rewrite <- (nb_plus b2 128 (bN b2 - 128)) at 2 by lia.
    apply cb_3; unfold scalar_value; destruct (bN b0 =? 224)%N eqn:?; try lia; destruct (bN b0 =? 237)%N eqn:?; lia. }
  destruct (in_range 240 244 b0) eqn:H3; [|discriminate].
  destruct r as [|b1 r]; [discriminate|].
  destruct (if bN b0 =? 240 then in_range 144 191 b1 else if bN b0 =? 244 then in_range 128 143 b1 else is_cont b1)%N eqn:C1; [|discriminate].
  destruct r as [|b2 r]; [discriminate|]. destruct (is_cont b2) eqn:C2; [|discriminate].
  destruct r as [|b3 r]; [discriminate|]. destruct (is_cont b3) eqn:C3; [|discriminate]. intros _. cbn [fst snd firstn].
  unfold in_range, is_cont, in_range in *.
  exists (64 * (64 * (64 * (bN b0 - 240) + (bN b1 - 128)) + (bN b2 - 128)) + (bN b3 - 128))%N.
  assert (R : (128 <= bN b1 <= 191)%N) by (destruct (bN b0 =? 240)%N; [lia|]; destruct (bN b0 =? 244)%N; lia).
  rewrite <- (nb_plus b0 240 (bN b0 - 240)) at 2 by lia. rewrite <- (nb_plus b1 128 (bN b1 - 128)) at 2 by lia.
  rewrite <- (nb_plus b2 128 (bN b2 - 128)) at 2 by lia. rewrite <- (nb_plus b3 128 (bN b3 - 128)) at 2 by lia.
  apply cb_4; unfold scalar_value; destruct (bN b0 =? 240)%N eqn:?; try lia; destruct (bN b0 =? 244)%N eqn:?; lia.
Qed.

(** A character in front of a text is its first character. *)
Lemma char_first n w s : char_bytes n w -> utf8_first (w ++ s) = (true, length w).
Proof.
  intros H. destruct H as [a H|a b Ha Hb H|a b c Ha Hb Hc H [_ V]|a b c e Ha Hb Hc He H [V _]];
    cbn [app length]; unfold utf8_first, in_range, is_cont, in_range; rewrite !bN_nb by lia.
  - replace (a <? 128)%N with true by lia. reflexivity.
  - replace (192 + a <? 128)%N with false by lia.
    replace ((194 <=? 192 + a) && (192 + a <=? 223))%N with true by lia.
    replace ((128 <=? 128 + b) && (128 + b <=? 191))%N with true by lia. reflexivity.
  - replace (224 + a <? 128)%N with false by lia.
    replace ((194 <=? 224 + a) && (224 + a <=? 223))%N with false by lia.
    replace ((224 <=? 224 + a) && (224 + a <=? 239))%N with true by lia.
    replace ((128 <=? 128 + c) && (128 + c <=? 191))%N with true by lia.
    match goal with |- context [if ?x then _ else (false, 1%nat)] => replace x with true; [reflexivity|] end.
    destruct (224 + a =? 224)%N eqn:?; [lia|]. destruct (224 + a =? 237)%N eqn:?; lia.
  - replace (240 + a <? 128)%N with false by lia.
    replace ((194 <=? 240 + a) && (240 + a <=? 223))%N with false by lia.
    replace ((224 <=? 240 + a) && (240 + a <=? 239))%N with false by lia.
    replace ((240 <=? 240 + a) && (240 + a <=? 244))%N with true by lia.
    replace ((128 <=? 128 + c) && (128 + c <=? 191))%N with true by lia.
    replace ((128 <=? 128 + e) && (128 + e <=? 191))%N with true by lia.
    match goal with |- context [if ?x then _ else (false, 1%nat)] => replace x with true; [reflexivity|] end.
    destruct (240 + a =? 240)%N eqn:?; [lia|]. destruct (240 + a =? 244)%N eqn:?; lia.
Qed.

Lemma char_bytes_nonempty n w : char_bytes n w -> w <> [].
Proof. intros []; discriminate. Qed.

Lemma utf8_valid_spec s : utf8_valid s = true <-> exists l, text_of_chars l s.
Proof.
  split.
  - induction s as [|s Hs IH] using utf8_ind; [intros _; exists []; constructor|].
    rewrite utf8_valid_step by exact Hs. intros H. apply andb_prop in H. destruct H as [H1 H2].
    destruct (IH H2) as [l Hl]. destruct (utf8_first_char s Hs H1) as [n Hn]. exists (n :: l).
    rewrite <- (firstn_skipn (snd (utf8_first s)) s) at 1. constructor; assumption.
  - intros [l H]. induction H as [|n w l s H1 H2 IH]; [reflexivity|].
    assert (w ++ s <> []) by (intros E; apply app_eq_nil in E; exact (char_bytes_nonempty _ _ H1 (proj1 E))).
    rewrite utf8_valid_step by assumption. rewrite (char_first _ _ _ H1). cbn [fst snd andb].
    rewrite skipn_app, skipn_all, Nat.sub_diag. exact IH.
Qed.

Lemma nb_inj_lt a b : (a < 256)%N -> (b < 256)%N -> nb a = nb b -> a = b.
Proof. intros H1 H2 E. rewrite <- (bN_nb a H1), <- (bN_nb b H2), E. reflexivity. Qed.

Lemma cons_inj {A} (x y : A) l m : x :: l = y :: m -> x = y /\ l = m.
Proof. intros H. injection H as -> ->. auto. Qed.

Lemma char_bytes_unique n m w : char_bytes n w -> char_bytes m w -> n = m.
Proof.
  intros H1 H2. remember w as v eqn:E in H2. revert E.
  destruct H1; intros E; revert E; destruct H2; intros E; try discriminate E;
    repeat match goal with H : _ :: _ = _ :: _ |- _ => apply cons_inj in H; destruct H end;
    repeat match goal with H : nb _ = nb _ |- _ => apply nb_inj_lt in H; [|lia|lia] end; lia.
Qed.

(** The characters of a text are determined by its bytes. *)
Lemma text_of_chars_unique l m s : text_of_chars l s -> text_of_chars m s -> l = m.
Proof.
  intros H. revert m. induction H as [|n w l s H1 H2 IH]; intros m M.
  - remember [] as t eqn:E. revert E. destruct M as [|n w m t H1 H2]; intros E; [reflexivity|].
    apply app_eq_nil in E. destruct (char_bytes_nonempty _ _ H1 (proj1 E)).
  - remember (w ++ s) as t eqn:E. revert E. destruct M as [|n' w' m t H1' H2']; intros E.
    + symmetry in E. apply app_eq_nil in E. destruct (char_bytes_nonempty _ _ H1 (proj1 E)).
    + pose proof (char_first _ _ s H1) as F1. pose proof (char_first _ _ t H1') as F2. rewrite E in F2.
      rewrite F1 in F2. injection F2 as F2.
      assert (w' = w /\ t = s) as [-> ->].
      { apply app_inv_len in E; [exact E|]. congruence. }
      f_equal; [eapply char_bytes_unique; eassumption|]. apply IH. exact H2'.
Qed.

Lemma char_bytes_total n : scalar_value n -> exists w, char_bytes n w.
Proof.
  intros [H1 H2]. destruct (N.ltb_spec n 128); [eexists; apply cb_1; assumption|].
  destruct (N.ltb_spec n 2048).
  { replace n with (64 * (n / 64) + n mod 64)%N by lia. eexists. apply cb_2; lia. }
  destruct (N.ltb_spec n 65536).
  { replace n with (64 * (64 * (n / 4096) + n / 64 mod 64) + n mod 64)%N by lia. eexists. apply cb_3; unfold scalar_value; lia. }
  replace n with (64 * (64 * (64 * (n / 262144) + n / 4096 mod 64) + n / 64 mod 64) + n mod 64)%N by lia.
  eexists. apply cb_4; unfold scalar_value; lia.
Qed.
