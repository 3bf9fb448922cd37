(** serde_json's reader and writer against the JSON grammar of SpecJson.v. *)
From Verif Require Import Base BaseFacts Utf8 Json SpecJson.
From Coq Require Import ZifyBool ZifyNat ZifyN.
Ltac Zify.zify_post_hook ::= Z.div_mod_to_equations.
Local Open Scope byte_scope.

(** * Strings *)

(** Texts accepted between quotes before escapes are interpreted. *)
Inductive rstr : str -> Prop :=
| rs_nil : rstr []
| rs_plain c t : (32 <= bN c)%N -> c <> """" -> c <> "\" -> rstr t -> rstr (c :: t)
| rs_esc e t : simple_escape e <> None -> e <> "u" -> rstr t -> rstr ("\" :: e :: t)
| rs_u a b c d t : is_hex a = true -> is_hex b = true -> is_hex c = true -> is_hex d = true -> rstr t ->
    rstr ("\" :: "u" :: a :: b :: c :: d :: t).

Lemma scan_string_complete t rest : rstr t -> scan_string (t ++ """" :: rest) = Some (t, rest).
Proof.
  induction 1 as [|c t H1 H2 H3 Ht IH|e t H1 H2 Ht IH|a b c d t Ha Hb Hc Hd Ht IH].
  - reflexivity.
  - cbn [app scan_string]. apply beq_neq in H2, H3. rewrite H2, H3.
    replace (bN c <? 32)%N with false by lia. rewrite IH. reflexivity.
  - cbn [app scan_string]. change (beq "\" """") with false. change (beq "\" "\") with true. cbv iota.
    apply beq_neq in H2. rewrite H2. destruct (simple_escape e); [|congruence]. rewrite IH. reflexivity.
  - cbn [app scan_string]. change (beq "\" """") with false. change (beq "\" "\") with true.
    change (beq "u" "u") with true. cbv iota. rewrite Ha, Hb, Hc, Hd. cbn [andb]. rewrite IH. reflexivity.
Qed.

Lemma scan_string_sound s t rest : scan_string s = Some (t, rest) -> rstr t /\ s = t ++ """" :: rest.
Proof.
  remember (length s) as n eqn:E. assert (L : (length s <= n)%nat) by lia. clear E. revert s t rest L.
  induction n as [|n IH]; intros s t rest L H.
  - destruct s; [discriminate|cbn in L; lia].
  - destruct s as [|c r]; [discriminate|]. cbn [scan_string] in H. cbn [length] in L.
    destruct (beq_spec c """") as [->|Nq].
    + injection H as <- <-. split; [constructor|reflexivity].
    + destruct (beq_spec c "\") as [->|Nb].
      * destruct r as [|e r1]; [discriminate|]. destruct (beq_spec e "u") as [->|Nu].
        -- destruct r1 as [|a [|b [|c [|d r2]]]]; try discriminate.
           destruct (is_hex a && is_hex b && is_hex c && is_hex d) eqn:Hx; [|discriminate].
           destruct (scan_string r2) as [[t' rest']|] eqn:Es; [|discriminate].
           injection H as <- <-. apply IH in Es; [|cbn [length] in L; lia]. destruct Es as [R ->].
           rewrite !andb_true_iff in Hx. destruct Hx as (((? & ?) & ?) & ?).
           split; [constructor; assumption|reflexivity].
        -- destruct (simple_escape e) eqn:Ee; [|discriminate].
           destruct (scan_string r1) as [[t' rest']|] eqn:Es; [|discriminate].
           injection H as <- <-. apply IH in Es; [|cbn [length] in L; lia]. destruct Es as [R ->].
           split; [constructor; try assumption; congruence|reflexivity].
      * destruct (N.ltb_spec (bN c) 32); [discriminate|].
        destruct (scan_string r) as [[t' rest']|] eqn:Es; [|discriminate].
        injection H as <- <-. apply IH in Es; [|lia]. destruct Es as [R ->].
        split; [constructor; assumption|reflexivity].
Qed.

Lemma hex_digit_unhexd c n : hex_digit c n <-> unhexd c = Some n.
Proof.
  split.
  - intros H. destruct H as [c Hc|c Hc|c Hc].
    + unfold unhexd. rewrite Hc. reflexivity.
    + cbn in Hc. repeat (destruct Hc as [<-|Hc]; [reflexivity|]). destruct Hc.
    + cbn in Hc. repeat (destruct Hc as [<-|Hc]; [reflexivity|]). destruct Hc.
  - unfold unhexd. destruct (is_digit c) eqn:D.
    + intros E. injection E as <-. apply hex_dec. exact D.
    + assert (Sw : forall c, (negb (in_range 97 102 c) || existsb (beq c) ["a"; "b"; "c"; "d"; "e"; "f"])
                    && (negb (in_range 65 70 c) || existsb (beq c) ["A"; "B"; "C"; "D"; "E"; "F"]) = true)
        by (apply byte_sweep; vm_compute; reflexivity).
      specialize (Sw c). destruct (in_range 97 102 c).
      * intros E. injection E as <-. apply hex_low. apply andb_true_iff in Sw. destruct Sw as [Sw _].
        cbn [negb orb] in Sw. apply existsb_exists in Sw. destruct Sw as (x & Hx & E). apply beq_eq in E. subst. exact Hx.
      * destruct (in_range 65 70 c); [|discriminate].
        intros E. injection E as <-. apply hex_up. apply andb_true_iff in Sw. destruct Sw as [_ Sw].
        cbn [negb orb] in Sw. apply existsb_exists in Sw. destruct Sw as (x & Hx & E). apply beq_eq in E. subst. exact Hx.
Qed.

Lemma hex_quad_hex4 a b c d n : hex_quad [a; b; c; d] n <-> hex4 a b c d = Some n.
Proof.
  unfold hex4. split.
  - intros H. inversion H as [? ? ? ? na nb nc nd Ha Hb Hc Hd]; subst.
    apply hex_digit_unhexd in Ha, Hb, Hc, Hd. rewrite Ha, Hb, Hc, Hd. f_equal. lia.
  - destruct (unhexd a) as [na|] eqn:Ha; [|discriminate]. destruct (unhexd b) as [nb|] eqn:Hb; [|discriminate].
    destruct (unhexd c) as [nc|] eqn:Hc; [|discriminate]. destruct (unhexd d) as [nd|] eqn:Hd; [|discriminate].
    intros E. injection E as <-. apply hex_digit_unhexd in Ha, Hb, Hc, Hd.
    replace (na * 4096 + nb * 256 + nc * 16 + nd)%N with (((na * 16 + nb) * 16 + nc) * 16 + nd)%N by lia.
    constructor; assumption.
Qed.

Lemma hex4_is_hex a b c d n : hex4 a b c d = Some n ->
  is_hex a = true /\ is_hex b = true /\ is_hex c = true /\ is_hex d = true.
Proof.
  unfold hex4, is_hex. destruct (unhexd a), (unhexd b), (unhexd c), (unhexd d); try discriminate. auto.
Qed.

Lemma hex_quad_inv q n : hex_quad q n -> exists a b c d, q = [a; b; c; d] /\ hex4 a b c d = Some n.
Proof.
  intros H. pose proof H as H'. destruct H as [a b c d ? ? ? ? ? ? ? ?]. exists a, b, c, d. split; [reflexivity|].
  apply hex_quad_hex4. exact H'.
Qed.

Lemma simple_escape_spec e b : simple_escape e = Some b <-> In (e, b) escapes.
Proof.
  unfold simple_escape. split.
  - intros H. cbn [escapes In].
    repeat (match type of H with (if beq e ?c then _ else _) = _ => destruct (beq_spec e c) as [->|?]; [injection H as <-; tauto|] end).
    discriminate.
  - cbn [escapes In]. intros H.
    repeat (destruct H as [H|H]; [injection H as <- <-; reflexivity|]). destruct H.
Qed.

Lemma simple_escape_u : simple_escape "u" = None.
Proof. reflexivity. Qed.

Lemma unescape_jstring s t : jstring s t -> rstr t /\ unescape t = Some s.
Proof.
  induction 1 as [|c s t H1 H2 H3 Ht [IH1 IH2]|e b s t He Ht [IH1 IH2]|q n s t Hq Hn Ht [IH1 IH2]
    |q1 n1 q2 n2 s t Hq1 Hn1 Hq2 Hn2 Ht [IH1 IH2]].
  - split; [constructor|reflexivity].
  - split; [constructor; assumption|]. cbn [unescape]. apply beq_neq in H3. rewrite H3, IH2. reflexivity.
  - apply simple_escape_spec in He. assert (Nu : e <> "u") by (intros ->; discriminate He).
    split; [constructor; congruence|]. cbn [unescape]. change (beq "\" "\") with true. cbv iota.
    apply beq_neq in Nu. rewrite Nu, He, IH2. reflexivity.
  - apply hex_quad_inv in Hq. destruct Hq as (a & b & c & d & -> & Hq).
    destruct (hex4_is_hex _ _ _ _ _ Hq) as (? & ? & ? & ?). cbn [app].
    split; [constructor; assumption|]. cbn [unescape]. change (beq "\" "\") with true. change (beq "u" "u") with true.
    cbv iota. rewrite Hq. replace ((56320 <=? n)%N && (n <=? 57343)%N) with false by lia.
    replace ((55296 <=? n)%N && (n <=? 56319)%N) with false by lia. rewrite IH2. reflexivity.
  - apply hex_quad_inv in Hq1. destruct Hq1 as (a & b & c & d & -> & Hq1).
    apply hex_quad_inv in Hq2. destruct Hq2 as (a' & b' & c' & d' & -> & Hq2).
    destruct (hex4_is_hex _ _ _ _ _ Hq1) as (? & ? & ? & ?). destruct (hex4_is_hex _ _ _ _ _ Hq2) as (? & ? & ? & ?).
    cbn [app]. split; [apply rs_u; try assumption; apply rs_u; assumption|].
    cbn [unescape]. change (beq "\" "\") with true. change (beq "u" "u") with true. cbv iota. rewrite Hq1.
    replace ((56320 <=? n1)%N && (n1 <=? 57343)%N) with false by lia.
    replace ((55296 <=? n1)%N && (n1 <=? 56319)%N) with true by lia. cbn [andb]. rewrite Hq2.
    replace ((56320 <=? n2)%N && (n2 <=? 57343)%N) with true by lia. rewrite IH2. do 3 f_equal. lia.
Qed.

Lemma jstring_unescape s t : rstr t -> unescape t = Some s -> jstring s t.
Proof.
  remember (length t) as n eqn:E. assert (L : (length t <= n)%nat) by lia. clear E. revert s t L.
  induction n as [|n IH]; intros s t L R H.
  - destruct t; [injection H as <-; constructor|cbn in L; lia].
  - destruct R as [|c t H1 H2 H3 Ht|e t H1 H2 Ht|a b c d t Ha Hb Hc Hd Ht]; cbn [length] in L.
    + injection H as <-. constructor.
    + cbn [unescape] in H. apply beq_neq in H3. rewrite H3 in H. apply beq_neq in H3.
      destruct (unescape t) as [s'|] eqn:Eu; [|discriminate]. injection H as <-.
      constructor; try assumption. apply IH; [lia|assumption|assumption].
    + cbn [unescape] in H. change (beq "\" "\") with true in H. cbv iota in H. apply beq_neq in H2. rewrite H2 in H.
      destruct (simple_escape e) as [b|] eqn:Ee; [|discriminate]. destruct (unescape t) as [s'|] eqn:Eu; [|discriminate].
      injection H as <-. apply js_esc; [apply simple_escape_spec; exact Ee|]. apply IH; [lia|assumption|assumption].
    + cbn [unescape] in H. change (beq "\" "\") with true in H. change (beq "u" "u") with true in H. cbv iota in H.
      destruct (hex4 a b c d) as [m|] eqn:Hx; [|discriminate].
      destruct ((56320 <=? m)%N && (m <=? 57343)%N) eqn:R1; [discriminate|].
      destruct ((55296 <=? m)%N && (m <=? 56319)%N) eqn:R2.
      * destruct t as [|c' [|e' [|g1 [|g2 [|g3 [|g4 r3]]]]]]; try discriminate H.
        destruct (beq_spec c' "\") as [->|]; [|discriminate H]. destruct (beq_spec e' "u") as [->|]; [|discriminate H].
        cbn [andb] in H. destruct (hex4 g1 g2 g3 g4) as [m2|] eqn:Hx2; [|discriminate].
        destruct ((56320 <=? m2)%N && (m2 <=? 57343)%N) eqn:R3; [|discriminate].
        destruct (unescape r3) as [s'|] eqn:Eu; [|discriminate]. injection H as <-.
        inversion Ht as [|? ? ? ? Nb|? ? Es Nu|? ? ? ? ? ? ? ? ? Ht']; subst; [congruence|congruence|].
        replace ((m - 55296) * 1024 + (m2 - 56320) + 65536)%N with (65536 + (m - 55296) * 1024 + (m2 - 56320))%N by lia.
        apply (js_pair [a; b; c; d] m [g1; g2; g3; g4] m2); try (apply hex_quad_hex4; assumption); try lia.
        apply IH; [cbn [length] in L; lia|assumption|assumption].
      * destruct (unescape t) as [s'|] eqn:Eu; [|discriminate]. injection H as <-.
        apply (js_u [a; b; c; d] m); [apply hex_quad_hex4; exact Hx|lia|].
        apply IH; [lia|assumption|assumption].
Qed.

(** * Numbers *)

Definition num_stop (s : str) : Prop :=
  match s with
  | [] => True
  | c :: _ => is_digit c = false /\ c <> "." /\ c <> "e" /\ c <> "E"
  end.

Definition dig_stop (s : str) : Prop := match s with [] => True | c :: _ => is_digit c = false end.

Lemma take_digits_app ds s : all_digits ds -> dig_stop s -> take_digits (ds ++ s) = (ds, s).
Proof.
  intros H Hs. induction H as [|c ds Hc Hd IH].
  - destruct s as [|c s]; [reflexivity|]. cbn in *. rewrite Hs. reflexivity.
  - cbn [app take_digits]. rewrite Hc, IH. reflexivity.
Qed.

Lemma take_digits_spec s d t : take_digits s = (d, t) -> all_digits d /\ dig_stop t /\ s = d ++ t.
Proof.
  revert d t; induction s as [|c s IH]; intros d t H.
  - injection H as <- <-. split; [constructor|split; [exact I|reflexivity]].
  - cbn [take_digits] in H. destruct (is_digit c) eqn:D.
    + destruct (take_digits s) as [d' t'] eqn:E. injection H as <- <-. destruct (IH _ _ eq_refl) as (A & Bs & ->).
      split; [constructor; assumption|split; [assumption|reflexivity]].
    + injection H as <- <-. split; [constructor|split; [exact D|reflexivity]].
Qed.

Lemma digit_not_dot c : is_digit c = true -> c <> "." /\ c <> "-" /\ c <> "e" /\ c <> "E" /\ c <> "+" /\ is_ws c = false.
Proof.
  intros H. repeat split; try (intros ->; discriminate H).
  assert (Sw : forall c, negb (is_digit c) || negb (is_ws c) = true) by (apply byte_sweep; vm_compute; reflexivity).
  specialize (Sw c). rewrite H in Sw. destruct (is_ws c); [discriminate|reflexivity].
Qed.

Lemma scan_int_complete i s : int_tok i -> dig_stop s -> scan_int (i ++ s) = Some (i, s).
Proof.
  intros H Hs. destruct H as [|c ds Hc Hn Hd].
  - reflexivity.
  - cbn [app scan_int]. apply beq_neq in Hn. rewrite Hn, Hc. rewrite take_digits_app by assumption. reflexivity.
Qed.

Lemma scan_int_sound s i t : scan_int s = Some (i, t) -> int_tok i /\ s = i ++ t.
Proof.
  destruct s as [|c r]; [discriminate|]. cbn [scan_int]. destruct (beq_spec c "0") as [->|Hn].
  - intros H. injection H as <- <-. split; [constructor|reflexivity].
  - destruct (is_digit c) eqn:D; [|discriminate]. destruct (take_digits r) as [d t'] eqn:E. intros H. injection H as <- <-.
    apply take_digits_spec in E. destruct E as (A & _ & ->). split; [constructor; assumption|reflexivity].
Qed.

Lemma scan_frac_complete f s : frac_tok f -> dig_stop s -> (match s with c :: _ => c <> "." | [] => True end) ->
  scan_frac (f ++ s) = Some (f, s).
Proof.
  intros H Hs Hd. destruct H as [|d ds H1 H2].
  - destruct s as [|c s]; [reflexivity|]. cbn [app scan_frac]. apply beq_neq in Hd. rewrite Hd. reflexivity.
  - cbn [app scan_frac]. change (beq "." ".") with true. cbv iota.
    change (d :: ds ++ s) with ((d :: ds) ++ s). rewrite take_digits_app; [reflexivity|constructor; assumption|exact Hs].
Qed.

Lemma scan_frac_sound s f t : scan_frac s = Some (f, t) -> frac_tok f /\ s = f ++ t.
Proof.
  destruct s as [|c r]; cbn [scan_frac].
  - intros H. injection H as <- <-. split; [constructor|reflexivity].
  - destruct (beq_spec c ".") as [->|Hn].
    + destruct (take_digits r) as [d t'] eqn:E. apply take_digits_spec in E. destruct E as (A & _ & ->).
      destruct d as [|d ds]; [discriminate|]. intros H. injection H as <- <-.
      inversion A; subst. split; [constructor; assumption|reflexivity].
    + intros H. injection H as <- <-. split; [constructor|reflexivity].
Qed.

Lemma scan_exp_complete e s : exp_tok e -> dig_stop s -> (match s with c :: _ => c <> "e" /\ c <> "E" | [] => True end) ->
  scan_exp (e ++ s) = Some (e, s).
Proof.
  intros H Hs Hd. destruct H as [|e sg d ds He Hsg H1 H2].
  - destruct s as [|c s]; [reflexivity|]. cbn [app scan_exp]. destruct Hd as [E1 E2]. apply beq_neq in E1, E2. rewrite E1, E2.
    reflexivity.
  - cbn [app scan_exp]. assert (Ee : (beq e "e" || beq e "E") = true).
    { cbn in He. destruct He as [<-|[<-|[]]]; reflexivity. }
    rewrite Ee. destruct (digit_not_dot d H1) as (_ & Nm & _ & _ & Np & _).
    assert (Es : (match (sg ++ d :: ds) ++ s with
                  | x :: r' => if beq x "+" || beq x "-" then ([x], r') else ([], (sg ++ d :: ds) ++ s)
                  | [] => ([], (sg ++ d :: ds) ++ s)
                  end) = (sg, (d :: ds) ++ s)).
    { cbn in Hsg. destruct Hsg as [<-|[<-|[<-|[]]]]; try reflexivity.
      cbn [app]. apply beq_neq in Nm, Np. rewrite Nm, Np. reflexivity. }
    rewrite Es. rewrite take_digits_app; [|constructor; assumption|exact Hs]. reflexivity.
Qed.

Lemma scan_exp_sound s e t : scan_exp s = Some (e, t) -> exp_tok e /\ s = e ++ t.
Proof.
  destruct s as [|c r]; cbn [scan_exp].
  - intros H. injection H as <- <-. split; [constructor|reflexivity].
  - destruct (beq c "e" || beq c "E") eqn:Ec.
    + set (m := match r with
                | x :: r' => if beq x "+" || beq x "-" then ([x], r') else ([], r)
                | [] => ([], r)
                end).
      assert (Hm : exists sg r1, m = (sg, r1) /\ In sg [[]; ["+"]; ["-"]] /\ r = sg ++ r1).
      { subst m. destruct r as [|x r']; [exists [], []; cbn; auto 8|].
        destruct (beq_spec x "+") as [->|]; [exists ["+"], r'; cbn; auto 8|].
        destruct (beq_spec x "-") as [->|]; [exists ["-"], r'; cbn; auto 8|].
        exists [], (x :: r'). cbn; auto 8. }
      destruct Hm as (sg & r1 & -> & Hsg & ->).
      destruct (take_digits r1) as [d t'] eqn:E. apply take_digits_spec in E. destruct E as (A & _ & ->).
      destruct d as [|d ds]; [discriminate|]. intros H. injection H as <- <-. inversion A; subst.
      split.
      * apply exp_some; try assumption. apply orb_true_iff in Ec. destruct Ec as [Ec|Ec]; apply beq_eq in Ec; subst; cbn; auto.
      * cbn [app]. rewrite <- app_assoc. reflexivity.
    + intros H. injection H as <- <-. split; [constructor|reflexivity].
Qed.

Lemma int_tok_head i : int_tok i -> exists c r, i = c :: r /\ is_digit c = true.
Proof. intros H. destruct H as [|c ds Hc]; [exists "0", []; auto|eauto]. Qed.

Lemma scan_number_complete t s : num_tok t -> num_stop s -> scan_number (t ++ s) = Some (t, s).
Proof.
  intros H Hs. destruct H as [sg i f e Hsg Hi Hf He]. unfold scan_number.
  assert (E : match (sg ++ i ++ f ++ e) ++ s with
              | c :: r => if beq c "-" then ([c], r) else ([], (sg ++ i ++ f ++ e) ++ s)
              | [] => ([], (sg ++ i ++ f ++ e) ++ s)
              end = (sg, i ++ f ++ e ++ s)).
  { destruct (int_tok_head i Hi) as (c & r & -> & Hc). destruct (digit_not_dot c Hc) as (_ & Nm & _).
    cbn in Hsg. destruct Hsg as [<-|[<-|[]]].
    - cbn [app]. apply beq_neq in Nm. rewrite Nm. rewrite <- !app_assoc. reflexivity.
    - cbn [app]. change (beq "-" "-") with true. cbv iota. rewrite <- !app_assoc. reflexivity. }
  match goal with |- (let (_, _) := ?m in _) = _ => replace m with (sg, i ++ f ++ e ++ s) by (symmetry; exact E) end. clear E.
  assert (S2 : num_stop s -> dig_stop (e ++ s) /\ (match e ++ s with c :: _ => c <> "." | [] => True end)).
  { intros _. destruct He as [|e sg' d ds He]; cbn [app].
    - destruct s as [|c s]; [cbn; auto|]. cbn in Hs. cbn. tauto.
    - cbn in He. destruct He as [<-|[<-|[]]]; (split; [reflexivity|discriminate]). }
  destruct (S2 Hs) as [Sd Sp].
  assert (S1 : dig_stop (f ++ e ++ s)) by (destruct Hf; [exact Sd|reflexivity]).
  rewrite scan_int_complete by assumption. rewrite scan_frac_complete by assumption.
  rewrite scan_exp_complete; [reflexivity|exact He| |].
  - destruct s; [exact I|apply Hs].
  - destruct s; [exact I|]. cbn in Hs. tauto.
Qed.

Lemma scan_number_sound s t rest : scan_number s = Some (t, rest) -> num_tok t /\ s = t ++ rest.
Proof.
  unfold scan_number. set (m := match s with c :: r => if beq c "-" then ([c], r) else ([], s) | [] => ([], s) end).
  assert (Hm : exists sg s0, m = (sg, s0) /\ In sg [[]; ["-"]] /\ s = sg ++ s0).
  { subst m. destruct s as [|c r]; [exists [], []; cbn; auto|]. destruct (beq_spec c "-") as [->|].
    - exists ["-"], r. cbn; auto.
    - exists [], (c :: r). cbn; auto. }
  destruct Hm as (sg & s0 & -> & Hsg & ->).
  destruct (scan_int s0) as [[i s1]|] eqn:E1; [|discriminate]. apply scan_int_sound in E1. destruct E1 as [H1 ->].
  destruct (scan_frac s1) as [[f s2]|] eqn:E2; [|discriminate]. apply scan_frac_sound in E2. destruct E2 as [H2 ->].
  destruct (scan_exp s2) as [[e s3]|] eqn:E3; [|discriminate]. apply scan_exp_sound in E3. destruct E3 as [H3 ->].
  intros H. injection H as <- <-. split; [constructor; assumption|]. rewrite <- !app_assoc. reflexivity.
Qed.

Lemma num_tok_head t : num_tok t -> exists c r, t = c :: r /\ (is_digit c = true \/ c = "-").
Proof.
  intros H. destruct H as [sg i f e Hsg Hi _ _]. destruct (int_tok_head i Hi) as (c & r & -> & Hc).
  cbn in Hsg. destruct Hsg as [<-|[<-|[]]]; cbn [app]; eauto.
Qed.

(** * White space *)

Lemma is_ws_spec c : is_ws c = true <-> In c [x20; x09; x0a; x0d].
Proof.
  unfold is_ws. rewrite !orb_true_iff, !beq_eq. cbn. split; intros H.
  - destruct H as [[[->| ->]| ->]| ->]; auto.
  - destruct H as [<-|[<-|[<-|[<-|[]]]]]; auto.
Qed.

Definition ws_stop (s : str) : Prop := match s with [] => True | c :: _ => is_ws c = false end.

Lemma skip_ws_app w s : ws w -> ws_stop s -> skip_ws (w ++ s) = s.
Proof.
  intros H Hs. induction H as [|c w Hc Hw IH].
  - destruct s as [|c s]; [reflexivity|]. cbn in *. rewrite Hs. reflexivity.
  - cbn [app skip_ws]. apply is_ws_spec in Hc. rewrite Hc. exact IH.
Qed.

Lemma skip_ws_spec s : exists w, ws w /\ s = w ++ skip_ws s /\ ws_stop (skip_ws s).
Proof.
  induction s as [|c s (w & Hw & E & St)].
  - exists []. split; [constructor|split; [reflexivity|exact I]].
  - cbn [skip_ws]. destruct (is_ws c) eqn:Ec.
    + exists (c :: w). split; [constructor; [apply is_ws_spec; exact Ec|exact Hw]|]. split; [cbn; congruence|exact St].
    + exists []. split; [constructor|split; [reflexivity|exact Ec]].
Qed.

(** * Values *)

(** The grammar with uninterpreted strings. *)
Inductive rvalue : raw -> str -> Prop :=
| rv_null : rvalue RNull (B "null")
| rv_true : rvalue (RBool true) (B "true")
| rv_false : rvalue (RBool false) (B "false")
| rv_num t : num_tok t -> rvalue (RNum t) t
| rv_str t : rstr t -> rvalue (RStr t) (B """" ++ t ++ B """")
| rv_arr0 w : ws w -> rvalue (RArr []) (B "[" ++ w ++ B "]")
| rv_arr l t : relems l t -> rvalue (RArr l) (B "[" ++ t ++ B "]")
| rv_obj0 w : ws w -> rvalue (RObj []) (B "{" ++ w ++ B "}")
| rv_obj l t : rmembers l t -> rvalue (RObj l) (B "{" ++ t ++ B "}")
with relems : list raw -> str -> Prop :=
| re_one w1 v t w2 : ws w1 -> rvalue v t -> ws w2 -> relems [v] (w1 ++ t ++ w2)
| re_more w1 v t w2 l u : ws w1 -> rvalue v t -> ws w2 -> relems l u ->
    relems (v :: l) (w1 ++ t ++ w2 ++ B "," ++ u)
with rmembers : list (str * raw) -> str -> Prop :=
| rm_one w1 k w2 w3 v t w4 : ws w1 -> rstr k -> ws w2 -> ws w3 -> rvalue v t -> ws w4 ->
    rmembers [(k, v)] (w1 ++ B """" ++ k ++ B """" ++ w2 ++ B ":" ++ w3 ++ t ++ w4)
| rm_more w1 k w2 w3 v t w4 l u :
    ws w1 -> rstr k -> ws w2 -> ws w3 -> rvalue v t -> ws w4 -> rmembers l u ->
    rmembers ((k, v) :: l)
      (w1 ++ B """" ++ k ++ B """" ++ w2 ++ B ":" ++ w3 ++ t ++ w4 ++ B "," ++ u).

Scheme rvalue_mind := Induction for rvalue Sort Prop
  with relems_mind := Induction for relems Sort Prop
  with rmembers_mind := Induction for rmembers Sort Prop.
Combined Scheme raw_grammar_ind from rvalue_mind, relems_mind, rmembers_mind.

Definition raw_text (r : raw) (s : str) : Prop :=
  exists w1 t w2, ws w1 /\ ws w2 /\ rvalue r t /\ s = w1 ++ t ++ w2.

(** What may follow a value. *)
Definition after_value (s : str) : Prop :=
  match s with
  | [] => True
  | c :: _ => In c [x20; x09; x0a; x0d; ","; "]"; "}"]
  end.

Lemma after_value_num s : after_value s -> num_stop s.
Proof.
  destruct s as [|c s]; [trivial|]. cbn. intros H.
  repeat (destruct H as [<-|H]; [repeat split; try reflexivity; discriminate|]). destruct H.
Qed.

Lemma ws_after w s : ws w -> after_value s -> after_value (w ++ s).
Proof. intros H Hs. destruct H as [|c w Hc]; [exact Hs|]. cbn in *. tauto. Qed.

Lemma rvalue_head r t : rvalue r t -> exists c u, t = c :: u /\ is_ws c = false /\ c <> "]" /\ c <> "}".
Proof.
  intros H. destruct H; cbn [B app String.list_byte_of_string];
    try (eexists; eexists; split; [reflexivity|]; split; [reflexivity|split; discriminate]).
  destruct (num_tok_head t H) as (c & u & -> & Hc). exists c, u. split; [reflexivity|].
  destruct Hc as [Hc| ->]; [|repeat split; discriminate || reflexivity].
  destruct (digit_not_dot c Hc) as (_ & _ & _ & _ & _ & Hw). split; [exact Hw|].
  split; intros ->; discriminate Hc.
Qed.

Lemma rvalue_ws_stop r t s : rvalue r t -> ws_stop (t ++ s).
Proof. intros H. destruct (rvalue_head r t H) as (c & u & -> & Hc & _). exact Hc. Qed.

Lemma p_value_num f t rest : num_tok t -> num_stop rest -> p_value (S f) (t ++ rest) = Some (RNum t, rest).
Proof.
  intros H Hr. pose proof (scan_number_complete t rest H Hr) as Sc.
  destruct (num_tok_head t H) as (c & u & -> & Hc). cbn [app] in *. cbn [p_value skip_ws].
  assert (Hw : is_ws c = false).
  { destruct Hc as [Hc| ->]; [apply (digit_not_dot c Hc)|reflexivity]. }
  rewrite Hw.
  assert (Hn : forall x, In x [""""; "["; "{"; "n"; "t"; "f"] -> beq c x = false).
  { intros x Hx. apply beq_neq. intros ->. destruct Hc as [Hc|Hc]; cbn in Hx;
      repeat (destruct Hx as [<-|Hx]; [discriminate|]); exact Hx. }
  rewrite !Hn by (cbn; tauto). rewrite Sc. reflexivity.
Qed.

Lemma quote_cons x : B """" ++ x = """" :: x.
Proof. reflexivity. Qed.

Lemma parse_complete :
  (forall r t, rvalue r t -> forall w rest f, ws w -> after_value rest -> (2 * length t <= f)%nat ->
     p_value f (w ++ t ++ rest) = Some (r, rest)) /\
  (forall l t, relems l t -> forall rest f, (2 * length t + 1 <= f)%nat ->
     p_elems f (t ++ "]" :: rest) = Some (l, rest)) /\
  (forall l t, rmembers l t -> forall rest f, (2 * length t + 1 <= f)%nat ->
     p_members f (t ++ "}" :: rest) = Some (l, rest)).
Proof.
  apply raw_grammar_ind.
  - intros w rest f Hw _ Hf. destruct f as [|f]; [cbn in Hf; lia|]. cbn [p_value].
    rewrite skip_ws_app by (assumption || reflexivity). reflexivity.
  - intros w rest f Hw _ Hf. destruct f as [|f]; [cbn in Hf; lia|]. cbn [p_value].
    rewrite skip_ws_app by (assumption || reflexivity). reflexivity.
  - intros w rest f Hw _ Hf. destruct f as [|f]; [cbn in Hf; lia|]. cbn [p_value].
    rewrite skip_ws_app by (assumption || reflexivity). reflexivity.
  - intros t Ht w rest f Hw Hr Hf. destruct f as [|f].
    { destruct (num_tok_head t Ht) as (c & u & -> & _). cbn in Hf. lia. }
    pose proof (p_value_num f t rest Ht (after_value_num _ Hr)) as E.
    assert (St : ws_stop (t ++ rest)) by (apply (rvalue_ws_stop (RNum t)); constructor; exact Ht).
    cbn [p_value] in *. rewrite skip_ws_app by assumption.
    replace (skip_ws (t ++ rest)) with (t ++ rest) in E; [exact E|].
    symmetry. apply (skip_ws_app [] (t ++ rest)); [constructor|exact St].
  - intros t Ht w rest f Hw Hr Hf. destruct f as [|f]; [cbn in Hf; lia|]. cbn [p_value].
    rewrite skip_ws_app by (assumption || reflexivity). rewrite <- !app_assoc.
    rewrite !quote_cons. cbv iota beta. change (beq """" """") with true. cbv iota.
    rewrite scan_string_complete by exact Ht. reflexivity.
  - intros w0 Hw0 w rest f Hw Hr Hf. destruct f as [|f]; [cbn in Hf; lia|]. cbn [p_value].
    rewrite skip_ws_app by (assumption || reflexivity). rewrite <- !app_assoc.
    change (B "[" ++ ?x) with ("[" :: x). cbv iota beta. change (beq "[" """") with false. change (beq "[" "[") with true.
    cbv iota. rewrite skip_ws_app by (assumption || reflexivity). reflexivity.
  - intros l t Ht IH w rest f Hw Hr Hf. destruct f as [|f]; [cbn in Hf; lia|]. cbn [p_value].
    rewrite skip_ws_app by (assumption || reflexivity). rewrite <- !app_assoc.
    change (B "[" ++ ?x) with ("[" :: x). cbv iota beta. change (beq "[" """") with false. change (beq "[" "[") with true.
    cbv iota.
    assert (Hh : exists c u, skip_ws (t ++ B "]" ++ rest) = c :: u /\ c <> "]").
    { destruct Ht as [w1 v t w2 H1 H2 H3|w1 v t w2 l u H1 H2 H3 H4]; destruct (rvalue_head v t H2) as (c & u0 & -> & Hc & Hb & _);
        rewrite <- !app_assoc; rewrite skip_ws_app by (assumption || exact Hc); cbn [app]; eauto. }
    destruct Hh as (c & u & -> & Hc). apply beq_neq in Hc. rewrite Hc.
    change (B "]" ++ rest) with ("]" :: rest). rewrite IH; [reflexivity|].
    rewrite !app_length in Hf. cbn in Hf. lia.
  - intros w0 Hw0 w rest f Hw Hr Hf. destruct f as [|f]; [cbn in Hf; lia|]. cbn [p_value].
    rewrite skip_ws_app by (assumption || reflexivity). rewrite <- !app_assoc.
    change (B "{" ++ ?x) with ("{" :: x). cbv iota beta. change (beq "{" """") with false. change (beq "{" "[") with false.
    change (beq "{" "{") with true.
    cbv iota. rewrite skip_ws_app by (assumption || reflexivity). reflexivity.
  - intros l t Ht IH w rest f Hw Hr Hf. destruct f as [|f]; [cbn in Hf; lia|]. cbn [p_value].
    rewrite skip_ws_app by (assumption || reflexivity). rewrite <- !app_assoc.
    change (B "{" ++ ?x) with ("{" :: x). cbv iota beta. change (beq "{" """") with false. change (beq "{" "[") with false.
    change (beq "{" "{") with true. cbv iota.
    assert (Hh : exists u, skip_ws (t ++ B "}" ++ rest) = """" :: u).
    { destruct Ht; rewrite <- !app_assoc; rewrite skip_ws_app by (assumption || reflexivity); cbn; eauto. }
    destruct Hh as (u & ->). change (beq """" "}") with false. cbv iota.
    change (B "}" ++ rest) with ("}" :: rest). rewrite IH; [reflexivity|].
    rewrite !app_length in Hf. cbn in Hf. lia.
  - intros w1 v t w2 H1 H2 IH H3 rest f Hf. destruct f as [|f]; [lia|]. cbn [p_elems].
    rewrite <- !app_assoc. rewrite IH.
    + rewrite skip_ws_app by (assumption || reflexivity). reflexivity.
    + exact H1.
    + apply ws_after; [exact H3|]. cbn. tauto.
    + rewrite !app_length in Hf. lia.
  - intros w1 v t w2 l u H1 H2 IH H3 H4 IHl rest f Hf. destruct f as [|f]; [lia|]. cbn [p_elems].
    rewrite <- !app_assoc. rewrite !app_length in Hf. change (length (B ",")) with 1%nat in Hf. rewrite IH.
    + rewrite skip_ws_app by (assumption || reflexivity). change (B "," ++ ?x) with ("," :: x). cbv iota beta.
      change (beq "," "]") with false. change (beq "," ",") with true. cbv iota.
      rewrite IHl by lia. reflexivity.
    + exact H1.
    + apply ws_after; [exact H3|]. cbn. tauto.
    + lia.
  - intros w1 k w2 w3 v t w4 H1 Hk H2 H3 Hv IH H4 rest f Hf. destruct f as [|f]; [lia|]. cbn [p_members].
    rewrite <- !app_assoc. rewrite skip_ws_app by (assumption || reflexivity).
    rewrite !quote_cons. cbv iota beta. change (beq """" """") with true. cbv iota.
    rewrite scan_string_complete by exact Hk. rewrite skip_ws_app by (assumption || reflexivity).
    change (B ":" ++ ?x) with (":" :: x). cbv iota beta. change (beq ":" ":") with true. cbv iota.
    rewrite !app_length in Hf. rewrite IH.
    + rewrite skip_ws_app by (assumption || reflexivity). reflexivity.
    + exact H3.
    + apply ws_after; [exact H4|]. cbn. tauto.
    + lia.
  - intros w1 k w2 w3 v t w4 l u H1 Hk H2 H3 Hv IH H4 Hl IHl rest f Hf. destruct f as [|f]; [lia|]. cbn [p_members].
    rewrite <- !app_assoc. rewrite skip_ws_app by (assumption || reflexivity).
    rewrite !quote_cons. cbv iota beta. change (beq """" """") with true. cbv iota.
    rewrite scan_string_complete by exact Hk. rewrite skip_ws_app by (assumption || reflexivity).
    change (B ":" ++ ?x) with (":" :: x). cbv iota beta. change (beq ":" ":") with true. cbv iota.
    rewrite !app_length in Hf. change (length (B ",")) with 1%nat in Hf. rewrite IH.
    + rewrite skip_ws_app by (assumption || reflexivity). change (B "," ++ ?x) with ("," :: x). cbv iota beta.
      change (beq "," "}") with false. change (beq "," ",") with true. cbv iota.
      rewrite IHl by lia. reflexivity.
    + exact H3.
    + apply ws_after; [exact H4|]. cbn. tauto.
    + lia.
Qed.

Lemma skip_ws_inv s c r : skip_ws s = c :: r -> exists w, ws w /\ s = w ++ c :: r.
Proof. intros E. destruct (skip_ws_spec s) as (w & Hw & Es & _). rewrite E in Es. eauto. Qed.

Lemma parse_sound f :
  (forall s r rest, p_value f s = Some (r, rest) -> exists w t, ws w /\ rvalue r t /\ s = w ++ t ++ rest) /\
  (forall s l rest, p_elems f s = Some (l, rest) -> exists t, relems l t /\ s = t ++ "]" :: rest) /\
  (forall s l rest, p_members f s = Some (l, rest) -> exists t, rmembers l t /\ s = t ++ "}" :: rest).
Proof.
  induction f as [|f (IHv & IHe & IHm)]; [repeat split; discriminate|]. split; [|split].
  - intros s r rest H. cbn [p_value] in H. destruct (skip_ws s) as [|c u] eqn:Es; [discriminate|].
    apply skip_ws_inv in Es. destruct Es as (w & Hw & ->). exists w.
    destruct (beq_spec c """") as [->|].
    { destruct (scan_string u) as [[t rest']|] eqn:E; [|discriminate]. injection H as <- <-.
      apply scan_string_sound in E. destruct E as [R ->]. exists (B """" ++ t ++ B """").
      split; [exact Hw|]. split; [constructor; exact R|]. rewrite <- !app_assoc. reflexivity. }
    destruct (beq_spec c "[") as [->|].
    { destruct (skip_ws u) as [|c1 r1] eqn:E1; [discriminate|]. destruct (beq_spec c1 "]") as [->|].
      - injection H as <- <-. apply skip_ws_inv in E1. destruct E1 as (w1 & Hw1 & ->).
        exists (B "[" ++ w1 ++ B "]"). split; [exact Hw|]. split; [constructor; exact Hw1|]. rewrite <- !app_assoc. reflexivity.
      - destruct (p_elems f u) as [[l rest']|] eqn:E; [|discriminate]. injection H as <- <-.
        apply IHe in E. destruct E as (t & Ht & ->). exists (B "[" ++ t ++ B "]").
        split; [exact Hw|]. split; [constructor; exact Ht|]. rewrite <- !app_assoc. reflexivity. }
    destruct (beq_spec c "{") as [->|].
    { destruct (skip_ws u) as [|c1 r1] eqn:E1; [discriminate|]. destruct (beq_spec c1 "}") as [->|].
      - injection H as <- <-. apply skip_ws_inv in E1. destruct E1 as (w1 & Hw1 & ->).
        exists (B "{" ++ w1 ++ B "}"). split; [exact Hw|]. split; [constructor; exact Hw1|]. rewrite <- !app_assoc. reflexivity.
      - destruct (p_members f u) as [[l rest']|] eqn:E; [|discriminate]. injection H as <- <-.
        apply IHm in E. destruct E as (t & Ht & ->). exists (B "{" ++ t ++ B "}").
        split; [exact Hw|]. split; [constructor; exact Ht|]. rewrite <- !app_assoc. reflexivity. }
    destruct (beq_spec c "n") as [->|].
    { destruct (strip_prefix (B "ull") u) as [rest'|] eqn:E; [|discriminate]. injection H as <- <-.
      apply strip_prefix_some in E. subst u. exists (B "null"). split; [exact Hw|]. split; [constructor|reflexivity]. }
    destruct (beq_spec c "t") as [->|].
    { destruct (strip_prefix (B "rue") u) as [rest'|] eqn:E; [|discriminate]. injection H as <- <-.
      apply strip_prefix_some in E. subst u. exists (B "true"). split; [exact Hw|]. split; [constructor|reflexivity]. }
    destruct (beq_spec c "f") as [->|].
    { destruct (strip_prefix (B "alse") u) as [rest'|] eqn:E; [|discriminate]. injection H as <- <-.
      apply strip_prefix_some in E. subst u. exists (B "false"). split; [exact Hw|]. split; [constructor|reflexivity]. }
    destruct (scan_number (c :: u)) as [[t rest']|] eqn:E; [|discriminate]. injection H as <- <-.
    apply scan_number_sound in E. destruct E as [R E]. exists t. split; [exact Hw|]. split; [constructor; exact R|].
    rewrite E. reflexivity.
  - intros s l rest H. cbn [p_elems] in H. destruct (p_value f s) as [[v r]|] eqn:Ev; [|discriminate].
    apply IHv in Ev. destruct Ev as (w & t & Hw & Hv & ->).
    destruct (skip_ws r) as [|c r1] eqn:Es; [discriminate|]. apply skip_ws_inv in Es. destruct Es as (w2 & Hw2 & ->).
    destruct (beq_spec c "]") as [->|].
    + injection H as <- <-. exists (w ++ t ++ w2). split; [constructor; assumption|]. rewrite <- !app_assoc. reflexivity.
    + destruct (beq_spec c ",") as [->|]; [|discriminate].
      destruct (p_elems f r1) as [[l' rest']|] eqn:E; [|discriminate]. injection H as <- <-.
      apply IHe in E. destruct E as (u & Hu & ->). exists (w ++ t ++ w2 ++ B "," ++ u).
      split; [constructor; assumption|]. rewrite <- !app_assoc. reflexivity.
  - intros s l rest H. cbn [p_members] in H. destruct (skip_ws s) as [|q r] eqn:Es; [discriminate|].
    apply skip_ws_inv in Es. destruct Es as (w1 & Hw1 & ->). destruct (beq_spec q """") as [->|]; [|discriminate].
    destruct (scan_string r) as [[k r1]|] eqn:Ek; [|discriminate]. apply scan_string_sound in Ek. destruct Ek as [Rk ->].
    destruct (skip_ws r1) as [|c r2] eqn:Es; [discriminate|]. apply skip_ws_inv in Es. destruct Es as (w2 & Hw2 & ->).
    destruct (beq_spec c ":") as [->|]; [|discriminate].
    destruct (p_value f r2) as [[v r3]|] eqn:Ev; [|discriminate]. apply IHv in Ev. destruct Ev as (w3 & t & Hw3 & Hv & ->).
    destruct (skip_ws r3) as [|c' r4] eqn:Es; [discriminate|]. apply skip_ws_inv in Es. destruct Es as (w4 & Hw4 & ->).
    destruct (beq_spec c' "}") as [->|].
    + injection H as <- <-. exists (w1 ++ B """" ++ k ++ B """" ++ w2 ++ B ":" ++ w3 ++ t ++ w4).
      split; [constructor; assumption|]. rewrite <- !app_assoc. reflexivity.
    + destruct (beq_spec c' ",") as [->|]; [|discriminate].
      destruct (p_members f r4) as [[l' rest']|] eqn:E; [|discriminate]. injection H as <- <-.
      apply IHm in E. destruct E as (u & Hu & ->).
      exists (w1 ++ B """" ++ k ++ B """" ++ w2 ++ B ":" ++ w3 ++ t ++ w4 ++ B "," ++ u).
      split; [constructor; assumption|]. rewrite <- !app_assoc. reflexivity.
Qed.

Lemma skip_ws_nil s : skip_ws s = [] <-> ws s.
Proof.
  split.
  - intros E. destruct (skip_ws_spec s) as (w & Hw & Es & _). rewrite E, app_nil_r in Es. subst. exact Hw.
  - intros H. rewrite <- (app_nil_r s). apply (skip_ws_app s []); [exact H|exact I].
Qed.

Lemma from_str_raw_spec s r : from_str_raw s = Some r <-> raw_text r s.
Proof.
  unfold from_str_raw, raw_text. split.
  - destruct (p_value _ s) as [[v rest]|] eqn:E; [|discriminate]. destruct (parse_sound (2 * length s + 2)) as (P & _).
    apply P in E. destruct E as (w & t & Hw & Hv & ->).
    destruct (skip_ws rest) eqn:Es; [|discriminate]. intros H. injection H as <-.
    exists w, t, rest. apply skip_ws_nil in Es. auto.
  - intros (w1 & t & w2 & H1 & H2 & Hv & ->). destruct parse_complete as (P & _).
    rewrite (P r t Hv).
    + apply skip_ws_nil in H2. rewrite H2. reflexivity.
    + exact H1.
    + rewrite <- (app_nil_r w2). apply ws_after; [exact H2|exact I].
    + rewrite !app_length. lia.
Qed.

(** * Interpreted values *)

Scheme jvalue_mind := Induction for jvalue Sort Prop
  with jelems_mind := Induction for jelems Sort Prop
  with jmembers_mind := Induction for jmembers Sort Prop.
Combined Scheme json_grammar_ind from jvalue_mind, jelems_mind, jmembers_mind.

Notation any_num := (fun _ : str => true).

Definition member_to_json (ok : str -> bool) (kv : str * raw) : option (str * json) :=
  match unescape (fst kv), raw_to_json ok (snd kv) with
  | Some k, Some v => Some (k, v)
  | _, _ => None
  end.

Lemma json_to_raw :
  (forall j t, jvalue j t -> exists r, rvalue r t /\ raw_to_json any_num r = Some j) /\
  (forall l t, jelems l t -> exists rl, relems rl t /\ traverse (raw_to_json any_num) rl = Some l) /\
  (forall l t, jmembers l t -> exists rl, rmembers rl t /\ traverse (member_to_json any_num) rl = Some l).
Proof.
  apply json_grammar_ind.
  - exists RNull. split; [constructor|reflexivity].
  - exists (RBool true). split; [constructor|reflexivity].
  - exists (RBool false). split; [constructor|reflexivity].
  - intros t Ht. exists (RNum t). split; [constructor; exact Ht|reflexivity].
  - intros s t Hs. apply unescape_jstring in Hs. destruct Hs as [R U]. exists (RStr t).
    split; [constructor; exact R|]. cbn [raw_to_json]. rewrite U. reflexivity.
  - intros w Hw. exists (RArr []). split; [constructor; exact Hw|reflexivity].
  - intros l t _ (rl & R & T). exists (RArr rl). split; [constructor; exact R|]. cbn [raw_to_json]. rewrite T. reflexivity.
  - intros w Hw. exists (RObj []). split; [constructor; exact Hw|reflexivity].
  - intros l t _ (rl & R & T). exists (RObj rl). split; [constructor; exact R|]. cbn [raw_to_json].
    unfold member_to_json in T. rewrite T. reflexivity.
  - intros w1 v t w2 H1 _ (r & R & T) H2. exists [r]. split; [constructor; assumption|]. cbn [traverse]. rewrite T. reflexivity.
  - intros w1 v t w2 l u H1 _ (r & R & T) H2 _ (rl & Rl & Tl). exists (r :: rl). split; [constructor; assumption|].
    cbn [traverse]. rewrite T, Tl. reflexivity.
  - intros w1 k kt w2 w3 v t w4 H1 Hk H2 H3 _ (r & R & T) H4. apply unescape_jstring in Hk. destruct Hk as [Rk Uk].
    exists [(kt, r)]. split; [constructor; assumption|]. cbn [traverse]. unfold member_to_json. cbn [fst snd].
    rewrite Uk, T. reflexivity.
  - intros w1 k kt w2 w3 v t w4 l u H1 Hk H2 H3 _ (r & R & T) H4 _ (rl & Rl & Tl).
    apply unescape_jstring in Hk. destruct Hk as [Rk Uk].
    exists ((kt, r) :: rl). split; [constructor; assumption|]. cbn [traverse]. unfold member_to_json at 1. cbn [fst snd].
    rewrite Uk, T, Tl. reflexivity.
Qed.

Lemma raw_to_json_grammar ok :
  (forall r t, rvalue r t -> forall j, raw_to_json ok r = Some j -> jvalue j t) /\
  (forall rl t, relems rl t -> forall l, traverse (raw_to_json ok) rl = Some l -> jelems l t) /\
  (forall rl t, rmembers rl t -> forall l, traverse (member_to_json ok) rl = Some l -> jmembers l t).
Proof.
  apply raw_grammar_ind; cbn [raw_to_json traverse].
  - intros j H. injection H as <-. constructor.
  - intros j H. injection H as <-. constructor.
  - intros j H. injection H as <-. constructor.
  - intros t Ht j H. destruct (ok t); [|discriminate]. injection H as <-. constructor. exact Ht.
  - intros t Ht j H. destruct (unescape t) as [s|] eqn:U; [|discriminate]. injection H as <-. constructor.
    apply jstring_unescape; assumption.
  - intros w Hw j H. injection H as <-. constructor. exact Hw.
  - intros l t _ IH j H. destruct (traverse _ l) as [l'|]; [|discriminate]. injection H as <-. constructor. auto.
  - intros w Hw j H. injection H as <-. constructor. exact Hw.
  - intros l t _ IH j H. fold (member_to_json ok) in H. change (fun kv : str * raw => _) with (member_to_json ok) in H.
    destruct (traverse _ l) as [l'|]; [|discriminate]. injection H as <-. constructor. auto.
  - intros w1 v t w2 H1 _ IH H2 l H. destruct (raw_to_json ok v) as [j|]; [|discriminate]. injection H as <-.
    constructor; auto.
  - intros w1 v t w2 rl u H1 _ IH H2 _ IHl l H. destruct (raw_to_json ok v) as [j|]; [|discriminate].
    destruct (traverse _ rl) as [l'|]; [|discriminate]. injection H as <-. constructor; auto.
  - intros w1 k w2 w3 v t w4 H1 Hk H2 H3 _ IH H4 l H. unfold member_to_json in H. cbn [fst snd] in H.
    destruct (unescape k) as [k'|] eqn:U; [|discriminate]. destruct (raw_to_json ok v) as [j|]; [|discriminate].
    injection H as <-. constructor; auto. apply jstring_unescape; assumption.
  - intros w1 k w2 w3 v t w4 rl u H1 Hk H2 H3 _ IH H4 _ IHl l H. unfold member_to_json at 1 in H. cbn [fst snd] in H.
    destruct (unescape k) as [k'|] eqn:U; [|discriminate]. destruct (raw_to_json ok v) as [j|]; [|discriminate].
    destruct (traverse _ rl) as [l'|]; [|discriminate]. injection H as <-. constructor; auto. apply jstring_unescape; assumption.
Qed.

Lemma json_text_raw j s : json_text j s <-> exists r, raw_text r s /\ raw_to_json any_num r = Some j.
Proof.
  split.
  - intros (w1 & t & w2 & H1 & H2 & Hv & ->). destruct json_to_raw as (P & _). destruct (P j t Hv) as (r & R & T).
    exists r. split; [|exact T]. exists w1, t, w2. auto.
  - intros (r & (w1 & t & w2 & H1 & H2 & Hv & ->) & T). exists w1, t, w2. repeat split; try assumption.
    destruct (raw_to_json_grammar any_num) as (P & _). eapply P; eassumption.
Qed.

Lemma raw_text_unique r1 r2 s : raw_text r1 s -> raw_text r2 s -> r1 = r2.
Proof. intros H1 H2. apply from_str_raw_spec in H1, H2. congruence. Qed.

(** A text denotes at most one tree. *)
Lemma json_text_unique j1 j2 s : json_text j1 s -> json_text j2 s -> j1 = j2.
Proof.
  intros H1 H2. apply json_text_raw in H1, H2. destruct H1 as (r1 & R1 & T1). destruct H2 as (r2 & R2 & T2).
  pose proof (raw_text_unique _ _ _ R1 R2). subst. congruence.
Qed.

Lemma traverse_map_ext {A C} (f g : A -> option C) l :
  Forall (fun x => f x = g x) l -> traverse f l = traverse g l.
Proof. induction 1 as [|x l Hx Hl IH]; [reflexivity|]. cbn [traverse]. rewrite Hx, IH. reflexivity. Qed.

Lemma raw_to_json_ok ok r j :
  raw_to_json ok r = Some j <-> (raw_to_json any_num r = Some j /\ json_nums (fun t => ok t = true) j).
Proof.
  revert j. induction r as [|b|t|s|l IH|l IH] using raw_ind'; intros j; cbn [raw_to_json].
  - split; [intros H; injection H as <-; cbn; auto|tauto].
  - split; [intros H; injection H as <-; cbn; auto|tauto].
  - destruct (ok t) eqn:E.
    + split; [intros H; injection H as <-; cbn; auto|tauto].
    + split; [discriminate|]. intros [H1 H2]. injection H1 as <-. cbn in H2. congruence.
  - destruct (unescape s); split; try tauto; try discriminate; intros H; try (injection H as <-); cbn; auto.
  - assert (G : forall l', traverse (raw_to_json ok) l = Some l' <->
        (traverse (raw_to_json any_num) l = Some l' /\ fold_right (fun x acc => json_nums (fun t => ok t = true) x /\ acc) True l')).
    { induction IH as [|x l Hx Hl IHl]; intros l'; cbn [traverse].
      - split; [intros H; injection H as <-; cbn; auto|tauto].
      - split.
        + destruct (raw_to_json ok x) as [y|] eqn:E1; [|discriminate]. destruct (traverse (raw_to_json ok) l) as [ys|] eqn:E2; [|discriminate].
          intros H. injection H as <-. destruct (proj1 (Hx y) eq_refl) as [Ha Hb].
          destruct (proj1 (IHl ys) eq_refl) as [Hc Hd]. rewrite Ha, Hc. cbn. auto.
        + intros [H1 H2]. destruct (raw_to_json any_num x) as [y|] eqn:E1; [|discriminate].
          destruct (traverse (raw_to_json any_num) l) as [ys|] eqn:E2; [|discriminate]. injection H1 as <-.
          cbn in H2. destruct H2 as [Ha Hb]. rewrite (proj2 (Hx y) (conj eq_refl Ha)).
          rewrite (proj2 (IHl ys) (conj eq_refl Hb)). reflexivity. }
    split.
    + destruct (traverse (raw_to_json ok) l) as [l'|] eqn:E; [|discriminate]. intros H. injection H as <-.
      destruct (proj1 (G l') eq_refl) as [Ha Hb]. rewrite Ha. split; [reflexivity|exact Hb].
    + intros [H1 H2]. destruct (traverse (raw_to_json any_num) l) as [l'|] eqn:E; [|discriminate]. injection H1 as <-.
      rewrite (proj2 (G l') (conj eq_refl H2)). reflexivity.
  - change (fun kv : str * raw => match unescape (fst kv) with _ => _ end) with (member_to_json ok) at 1.
    change (fun kv : str * raw => match unescape (fst kv) with _ => _ end) with (member_to_json any_num).
    assert (G : forall l', traverse (member_to_json ok) l = Some l' <->
        (traverse (member_to_json any_num) l = Some l' /\ fold_right (fun kv acc => json_nums (fun t => ok t = true) (snd kv) /\ acc) True l')).
    { induction IH as [|[k x] l Hx Hl IHl]; intros l'; cbn [traverse].
      - split; [intros H; injection H as <-; cbn; auto|tauto].
      - unfold member_to_json at 1 3. cbn [fst snd] in *. split.
        + destruct (unescape k) as [k'|]; [|discriminate].
          destruct (raw_to_json ok x) as [y|] eqn:E1; [|discriminate]. destruct (traverse (member_to_json ok) l) as [ys|] eqn:E2; [|discriminate].
          intros H. injection H as <-. destruct (proj1 (Hx y) eq_refl) as [Ha Hb].
          destruct (proj1 (IHl ys) eq_refl) as [Hc Hd]. rewrite Ha, Hc. cbn. auto.
        + destruct (unescape k) as [k'|]; [|intros [? _]; discriminate].
          intros [H1 H2]. destruct (raw_to_json any_num x) as [y|] eqn:E1; [|discriminate].
          destruct (traverse (member_to_json any_num) l) as [ys|] eqn:E2; [|discriminate]. injection H1 as <-.
          cbn in H2. destruct H2 as [Ha Hb]. rewrite (proj2 (Hx y) (conj eq_refl Ha)).
          rewrite (proj2 (IHl ys) (conj eq_refl Hb)). reflexivity. }
    split.
    + destruct (traverse (member_to_json ok) l) as [l'|] eqn:E; [|discriminate]. intros H. injection H as <-.
      destruct (proj1 (G l') eq_refl) as [Ha Hb]. rewrite Ha. split; [reflexivity|exact Hb].
    + intros [H1 H2]. destruct (traverse (member_to_json any_num) l) as [l'|] eqn:E; [|discriminate]. injection H1 as <-.
      rewrite (proj2 (G l') (conj eq_refl H2)). reflexivity.
Qed.

Lemma raw_depth_json ok r j : raw_to_json ok r = Some j -> raw_depth r = json_depth j.
Proof.
  revert j. induction r as [|b|t|s|l IH|l IH] using raw_ind'; intros j; cbn [raw_to_json].
  - intros H; injection H as <-; reflexivity.
  - intros H; injection H as <-; reflexivity.
  - destruct (ok t); [|discriminate]. intros H; injection H as <-; reflexivity.
  - destruct (unescape s); [|discriminate]. intros H; injection H as <-; reflexivity.
  - destruct (traverse _ l) as [l'|] eqn:E; [|discriminate]. intros H; injection H as <-. cbn [raw_depth json_depth]. f_equal.
    unfold list_max. revert l' E. induction IH as [|x l Hx Hl IHl]; intros l' E; cbn [traverse] in E; [injection E as <-; reflexivity|].
    destruct (raw_to_json ok x) as [y|] eqn:E1; [|discriminate]. destruct (traverse (raw_to_json ok) l) as [ys|] eqn:E2; [|discriminate].
    injection E as <-. cbn. rewrite (Hx y eq_refl), (IHl ys eq_refl). reflexivity.
  - change (fun kv : str * raw => match unescape (fst kv) with _ => _ end) with (member_to_json ok).
    destruct (traverse _ l) as [l'|] eqn:E; [|discriminate]. intros H; injection H as <-. cbn [raw_depth json_depth]. f_equal.
    unfold list_max. revert l' E. induction IH as [|[k x] l Hx Hl IHl]; intros l' E; cbn [traverse] in E; [injection E as <-; reflexivity|].
    unfold member_to_json at 1 in E. cbn [fst snd] in *. destruct (unescape k) as [k'|]; [|discriminate].
    destruct (raw_to_json ok x) as [y|] eqn:E1; [|discriminate]. destruct (traverse (member_to_json ok) l) as [ys|] eqn:E2; [|discriminate].
    injection E as <-. cbn. rewrite (Hx y eq_refl), (IHl ys eq_refl). reflexivity.
Qed.

(** [serde_json::from_str::<Value>] reads exactly the JSON texts within its two limits. *)
Lemma from_str_value_spec ok s j :
  from_str_value ok s = Some j <->
  (json_text j s /\ (json_depth j <= 127)%nat /\ json_nums (fun t => ok t = true) j).
Proof.
  unfold from_str_value. split.
  - destruct (from_str_raw s) as [r|] eqn:E; [|discriminate]. apply from_str_raw_spec in E.
    destruct (Nat.leb_spec (raw_depth r) 127); [|discriminate]. intros T.
    rewrite <- (raw_depth_json _ _ _ T). apply raw_to_json_ok in T. destruct T as [T1 T2].
    repeat split; try assumption. apply json_text_raw. eauto.
  - intros (H1 & H2 & H3). apply json_text_raw in H1. destruct H1 as (r & R & T).
    apply from_str_raw_spec in R. rewrite R. rewrite (raw_depth_json _ _ _ T).
    destruct (Nat.leb_spec (json_depth j) 127); [|lia]. apply raw_to_json_ok. auto.
Qed.

(** * The writer *)

Definition esc (s : str) : str := flat_map escape_byte s.

Lemma esc_jstring s : jstring s (esc s).
Proof.
  induction s as [|c s IH]; [constructor|]. unfold esc. cbn [flat_map]. fold (esc s). unfold escape_byte.
  repeat (match goal with |- context [if beq c ?x then _ else _] =>
    destruct (beq_spec c x) as [->|?]; [apply (js_esc _ _ s (esc s)); [cbn; tauto|exact IH]|] end).
  destruct (N.ltb_spec (bN c) 32) as [L|L].
  - assert (Sw : forall c, (negb (bN c <? 32)%N || (match hex4 "0" "0" (hexd (bN c / 16)) (hexd (bN c mod 16)) with
        | Some n => (n =? bN c)%N | None => false end)) = true) by (apply byte_sweep; vm_compute; reflexivity).
    specialize (Sw c). replace (bN c <? 32)%N with true in Sw by lia. cbn [negb orb] in Sw.
    destruct (hex4 "0" "0" _ _) as [m|] eqn:Hx; [|discriminate]. apply N.eqb_eq in Sw. subst m.
    apply hex_quad_hex4 in Hx.
    pose proof (js_u _ _ s (esc s) Hx ltac:(lia) IH) as J.
    unfold utf8_encode in J. replace (bN c <? 128)%N with true in J by lia. rewrite nb_bN in J. exact J.
  - apply js_plain; try assumption.
Qed.

Fixpoint raw_of (j : json) : raw :=
  match j with
  | JNull => RNull
  | JBool b => RBool b
  | JNum t => RNum t
  | JStr s => RStr (esc s)
  | JArr l => RArr (map raw_of l)
  | JObj l => RObj (map (fun kv => (esc (fst kv), raw_of (snd kv))) l)
  end.

Lemma ws_nil : ws [].
Proof. constructor. Qed.

Lemma jprint_grammar j : json_nums num_tok j -> jvalue j (jprint j) /\ rvalue (raw_of j) (jprint j).
Proof.
  induction j as [|b|t|s|l IH|l IH] using json_ind'; intros Hn.
  - split; constructor.
  - destruct b; split; constructor.
  - split; constructor; exact Hn.
  - split; (apply jv_str || apply rv_str); [apply esc_jstring|apply (unescape_jstring s); apply esc_jstring].
  - cbn [jprint raw_of].
    assert (G : forall x l, Forall (fun j => json_nums num_tok j -> jvalue j (jprint j) /\ rvalue (raw_of j) (jprint j)) (x :: l) ->
       fold_right (fun x acc => json_nums num_tok x /\ acc) True (x :: l) ->
       jelems (x :: l) (join (B ",") (map jprint (x :: l))) /\
       relems (map raw_of (x :: l)) (join (B ",") (map jprint (x :: l)))).
    { clear. intros x l. revert x. induction l as [|y l IHl]; intros x IH Hn.
      - inversion IH; subst. destruct Hn as [Hx _]. destruct (H1 Hx) as [A1 A2]. cbn [map join].
        rewrite <- (app_nil_r (jprint x)). split.
        + apply (je_one [] x (jprint x) []); auto using ws_nil.
        + apply (re_one [] (raw_of x) (jprint x) []); auto using ws_nil.
      - inversion IH; subst. destruct Hn as [Hx Hr]. destruct (H1 Hx) as [A1 A2].
        destruct (IHl y H2 Hr) as [B1 B2]. split.
        + exact (je_more [] x (jprint x) [] (y :: l) _ ws_nil A1 ws_nil B1).
        + exact (re_more [] (raw_of x) (jprint x) [] (map raw_of (y :: l)) _ ws_nil A2 ws_nil B2). }
    destruct l as [|x l].
    + split; [apply (jv_arr0 []); apply ws_nil|apply (rv_arr0 []); apply ws_nil].
    + destruct (G x l IH Hn) as [A1 A2]. split; [apply jv_arr; exact A1|apply rv_arr; exact A2].
  - cbn [jprint raw_of].
    set (pr := fun kv : str * json => quote (fst kv) ++ B ":" ++ jprint (snd kv)).
    set (ro := fun kv : str * json => (esc (fst kv), raw_of (snd kv))).
    assert (G : forall x l, Forall (fun kv => json_nums num_tok (snd kv) -> jvalue (snd kv) (jprint (snd kv)) /\ rvalue (raw_of (snd kv)) (jprint (snd kv))) (x :: l) ->
       fold_right (fun kv acc => json_nums num_tok (snd kv) /\ acc) True (x :: l) ->
       jmembers (x :: l) (join (B ",") (map pr (x :: l))) /\
       rmembers (map ro (x :: l)) (join (B ",") (map pr (x :: l)))).
    { clear. intros x l. revert x. induction l as [|y l IHl]; intros [k x] IH Hn.
      - inversion IH; subst. destruct Hn as [Hx _]. destruct (H1 Hx) as [A1 A2]. cbn [map join fst snd] in *.
        assert (E : pr (k, x) = [] ++ B """" ++ esc k ++ B """" ++ [] ++ B ":" ++ [] ++ jprint x ++ []).
        { unfold pr, quote. cbn [fst snd app]. rewrite app_nil_r. change (flat_map escape_byte k) with (esc k).
          rewrite <- app_assoc. reflexivity. }
        rewrite E. split.
        + apply jm_one; auto using ws_nil, esc_jstring.
        + apply rm_one; auto using ws_nil. apply (unescape_jstring k). apply esc_jstring.
      - inversion IH; subst. destruct Hn as [Hx Hr]. destruct (H1 Hx) as [A1 A2].
        destruct (IHl y H2 Hr) as [B1 B2]. cbn [fst snd] in *.
        change (map pr ((k, x) :: y :: l)) with (pr (k, x) :: map pr (y :: l)).
        change (map ro ((k, x) :: y :: l)) with (ro (k, x) :: map ro (y :: l)).
        assert (E : join (B ",") (pr (k, x) :: map pr (y :: l)) =
          [] ++ B """" ++ esc k ++ B """" ++ [] ++ B ":" ++ [] ++ jprint x ++ [] ++ B "," ++ join (B ",") (map pr (y :: l))).
        { change (join (B ",") (pr (k, x) :: map pr (y :: l))) with (pr (k, x) ++ B "," ++ join (B ",") (map pr (y :: l))).
          unfold pr at 1, quote. cbn [fst snd]. change (flat_map escape_byte k) with (esc k).
          rewrite <- !app_assoc. reflexivity. }
        rewrite E. split.
        + apply jm_more; auto using ws_nil, esc_jstring.
        + apply (rm_more [] (esc k) [] [] (raw_of x)); auto using ws_nil. apply (unescape_jstring k). apply esc_jstring. }
    destruct l as [|x l].
    + split; [apply (jv_obj0 []); apply ws_nil|apply (rv_obj0 []); apply ws_nil].
    + destruct (G x l IH Hn) as [A1 A2]. split; [apply jv_obj; exact A1|apply rv_obj; exact A2].
Qed.

Lemma jprint_text j : json_nums num_tok j -> json_text j (jprint j).
Proof.
  intros H. exists [], (jprint j), []. repeat split; try apply ws_nil; [apply jprint_grammar; exact H|].
  cbn [app]. rewrite app_nil_r. reflexivity.
Qed.

Lemma jprint_raw j : json_nums num_tok j -> from_str_raw (jprint j) = Some (raw_of j).
Proof.
  intros H. apply from_str_raw_spec. exists [], (jprint j), []. repeat split; try apply ws_nil; [apply jprint_grammar; exact H|].
  cbn [app]. rewrite app_nil_r. reflexivity.
Qed.

Lemma unescape_esc s : unescape (esc s) = Some s.
Proof. apply unescape_jstring. apply esc_jstring. Qed.

Lemma dec_num_tok n : num_tok (dec n).
Proof.
  assert (I : int_tok (dec n)).
  { destruct (N.eq_dec n 0) as [->|Hn]; [constructor|].
    pose proof (dec_digits n) as D. pose proof (dec_head n) as Hh. destruct (dec n) as [|c ds] eqn:E.
    - exfalso. exact (dec_nonempty n E).
    - inversion D; subst. destruct (Hh ltac:(lia)) as (c0 & r & E2 & Hc). injection E2 as <- <-. constructor; assumption. }
  replace (dec n) with ([] ++ dec n ++ [] ++ []) by (cbn; rewrite app_nil_r; reflexivity).
  constructor; [cbn; auto|exact I|constructor|constructor].
Qed.

Lemma jobj_get_spec k l v : jobj_get k l = Some v <-> last_member k l v.
Proof.
  unfold jobj_get, last_member.
  assert (G : forall l acc, fold_left (fun acc kv => if str_eqb (fst kv) k then Some (snd kv) else acc) l acc = Some v <->
    ((exists a b, l = a ++ (k, v) :: b /\ ~ In k (map fst b)) \/ (acc = Some v /\ ~ In k (map fst l)))).
  { clear. induction l as [|[k' v'] l IH]; intros acc; cbn [fold_left fst snd map In].
    - split; [auto|]. intros [(a & b & E & _)|[E _]]; [destruct a; discriminate E|exact E].
    - rewrite IH. destruct (str_eqb_spec k' k) as [->|Hn].
      + split.
        * intros [(a & b & -> & Hb)|[E Hb]].
          -- left. exists ((k, v') :: a), b. auto.
          -- injection E as ->. left. exists [], l. auto.
        * intros [(a & b & E & Hb)|[_ Hb]]; [|tauto]. destruct a as [|x a].
          -- cbn in E. injection E as -> ->. right. auto.
          -- cbn in E. injection E as _ ->. left. eauto.
      + split.
        * intros [(a & b & -> & Hb)|[E Hb]].
          -- left. exists ((k', v') :: a), b. auto.
          -- right. split; [exact E|]. intros [?|?]; [congruence|tauto].
        * intros [(a & b & E & Hb)|[E Hb]].
          -- destruct a as [|x a]; cbn in E; [injection E; congruence|]. injection E as _ ->. left. eauto.
          -- right. split; [exact E|tauto]. }
  rewrite G. split; [intros [H|[H _]]; [exact H|discriminate]|auto].
Qed.

Lemma jobj_get_none k l : jobj_get k l = None <-> ~ In k (map fst l).
Proof.
  unfold jobj_get.
  assert (G : forall l (acc : option json), fold_left (fun acc kv => if str_eqb (fst kv) k then Some (snd kv) else acc) l acc = None <->
    (acc = None /\ ~ In k (map fst l))).
  { clear. induction l as [|[k' v'] l IH]; intros acc; cbn [fold_left fst snd map In]; [tauto|].
    rewrite IH. destruct (str_eqb_spec k' k) as [->|Hn]; [|tauto]. split; [intros [? _]; discriminate|tauto]. }
  rewrite G. tauto.
Qed.
