(** The PEM reader of Rsa.v: it finds what the texts of SpecRsa.v contain, and nothing else. *)
From Verif Require Import Base Utf8 Base64 SpecCodec CodecFacts FormUrlFacts Rsa SpecRsa DerFacts.
Local Open Scope nat_scope.

(** * Markers *)

Lemma read_sound marker input : forall found seen rest before,
  read_until marker found seen input = Some (rest, before) ->
  found <= length marker -> firstn found seen = rev (firstn found marker) -> found <= length seen ->
  rev seen ++ input = before ++ marker ++ rest.
Proof.
  induction input as [|c r IH]; intros found seen rest before H L F Ls; cbn [read_until] in H.
  - destruct (Nat.eqb found (length marker)) eqn:E; [|discriminate]. apply Nat.eqb_eq in E. injection H as <- <-.
    rewrite <- (firstn_skipn found seen) at 1. rewrite F, rev_app_distr, rev_involutive, E, firstn_all, !app_nil_r. reflexivity.
  - destruct (Nat.eqb found (length marker)) eqn:E.
    + apply Nat.eqb_eq in E. injection H as <- <-.
      rewrite <- (firstn_skipn found seen) at 1. rewrite F, rev_app_distr, rev_involutive, E, firstn_all, <- app_assoc. reflexivity.
    + apply Nat.eqb_neq in E. replace (rev seen ++ c :: r) with (rev (c :: seen) ++ r) by (cbn; rewrite <- app_assoc; reflexivity).
      destruct (nth_error marker found) as [m|] eqn:M.
      * destruct (beq m c) eqn:Q.
        -- apply beq_true in Q. subst m. apply (IH _ _ _ _ H); [lia| |cbn; lia].
           change (firstn (S found) (c :: seen)) with (c :: firstn found seen). rewrite F. clear -M. apply nth_error_split in M. destruct M as (a & b & -> & La). subst found.
           assert (G : forall x y : str, firstn (length x) (x ++ y) = x) by (intros x y; rewrite firstn_app, Nat.sub_diag, firstn_all; apply app_nil_r).
           rewrite G. replace (S (length a)) with (length (a ++ [c])) by (rewrite app_length; cbn; lia).
           replace (a ++ c :: b) with ((a ++ [c]) ++ b) by (rewrite <- app_assoc; reflexivity).
           rewrite G, rev_app_distr. reflexivity.
        -- apply (IH _ _ _ _ H); [lia|reflexivity|lia].
      * apply (IH _ _ _ _ H); [lia|reflexivity|lia].
Qed.

Lemma read_sound0 marker input rest before : read_until marker 0 [] input = Some (rest, before) -> input = before ++ marker ++ rest.
Proof. intro H. apply read_sound in H; [exact H|lia|reflexivity|lia]. Qed.

Lemma read_rest a b rest : forall seen, read_until (a ++ b) (length a) seen (b ++ rest) = Some (rest, rev (skipn (length a) seen)).
Proof.
  revert a. induction b as [|c b IH]; intros a seen.
  - rewrite app_nil_r. cbn [app]. destruct rest; cbn [read_until]; rewrite Nat.eqb_refl; reflexivity.
  - cbn [app read_until]. rewrite app_length. cbn [length]. replace (Nat.eqb (length a) (length a + S (length b))) with false by (symmetry; apply Nat.eqb_neq; lia).
    rewrite nth_error_app2, Nat.sub_diag by lia. cbn [nth_error]. rewrite (proj2 (beq_true c c) eq_refl).
    replace (a ++ c :: b) with ((a ++ [c]) ++ b) by (rewrite <- app_assoc; reflexivity).
    replace (S (length a)) with (length (a ++ [c])) by (rewrite app_length; cbn; lia).
    rewrite IH. rewrite app_length. cbn [length]. replace (length a + 1) with (S (length a)) by lia. reflexivity.
Qed.

Lemma read_found c0 m rest : forall pre seen, ~ In c0 pre ->
  read_until (c0 :: m) 0 seen (pre ++ (c0 :: m) ++ rest) = Some (rest, rev seen ++ pre).
Proof.
  induction pre as [|c pre IH]; intros seen N.
  - cbn [app]. rewrite app_nil_r. exact (read_rest [] (c0 :: m) rest seen).
  - cbn [app read_until length Nat.eqb nth_error]. destruct (beq c0 c) eqn:Q.
    + apply beq_true in Q. exfalso. apply N. left. symmetry. exact Q.
    + change (c0 :: m ++ rest) with ((c0 :: m) ++ rest). rewrite IH by (intro I; apply N; right; exact I). cbn [rev]. rewrite <- app_assoc. reflexivity.
Qed.

(** * Lines *)

Lemma split_line x r : ~ In x0a x -> split_lf (x ++ x0a :: r) = x :: split_lf r.
Proof.
  induction x as [|c x IH]; intro N; [reflexivity|]. cbn [app split_lf]. destruct (beq c x0a) eqn:Q.
  - apply beq_true in Q. exfalso. apply N. left. exact Q.
  - rewrite IH by (intro I; apply N; right; exact I). reflexivity.
Qed.

Lemma split_join s : exists l ls, split_lf s = l :: ls /\ s = join [x0a] (l :: ls).
Proof.
  induction s as [|c s (l & ls & E & J)]; [exists [], []; split; reflexivity|]. cbn [split_lf]. rewrite E. destruct (beq c x0a) eqn:Q.
  - apply beq_true in Q. subst c. exists [], (l :: ls). split; [reflexivity|]. cbn [join app]. rewrite J at 1. reflexivity.
  - exists (c :: l), ls. split; [reflexivity|]. rewrite J at 1. destruct ls; reflexivity.
Qed.

(** * White space *)

Lemma white_app a b : white a -> white b -> white (a ++ b).
Proof. intros (x & F & ->) (y & G & ->). exists (x ++ y). split; [apply Forall_app; auto|symmetry; apply concat_app]. Qed.

Lemma white_nil : white [].
Proof. exists []. split; [constructor|reflexivity]. Qed.

Lemma white_one c : In c white_characters -> white c.
Proof. intro I. exists [c]. split; [constructor; auto|cbn; rewrite app_nil_r; reflexivity]. Qed.

Lemma trim_rev_white n : forall s, length s <= n -> exists w, white w /\ rev s = rev (trim_rev s) ++ w.
Proof.
  induction n as [|n IH]; intros s L.
  - destruct s; [|cbn in L; lia]. exists []. split; [apply white_nil|reflexivity].
  - assert (Stay : exists w, white w /\ rev s = rev s ++ w) by (exists []; split; [apply white_nil|rewrite app_nil_r; reflexivity]).
    assert (Go : forall x t, s = rev x ++ t -> In x white_characters -> exists w, white w /\ rev s = rev (trim_rev t) ++ w).
    { intros x t E I. assert (Lt : length t <= n).
      { assert (x <> []) by (intros ->; cbn in I; intuition discriminate). destruct x as [|y x]; [congruence|]. subst s. rewrite app_length, rev_length in L. cbn in L. lia. }
      destruct (IH t Lt) as (w & W & Et). exists (w ++ x). split; [apply white_app; [exact W|apply white_one; exact I]|].
      rewrite E, rev_app_distr, rev_involutive, Et, app_assoc. reflexivity. }
    destruct s as [|c r]; [exact Stay|]. cbn [trim_rev].
    destruct (beq c " " || ((9 <=? bN c)%N && (bN c <=? 13)%N)) eqn:W1.
    { apply (Go [c]); [reflexivity|]. clear -W1. destruct c; try discriminate W1; cbn; tauto. }
    destruct r as [|b r2]; [exact Stay|]. destruct (beq b xc2 && (beq c x85 || beq c xa0)) eqn:W2.
    { apply (Go [b; c]); [reflexivity|]. clear -W2. apply andb_true_iff in W2. destruct W2 as [Wb Wc]. apply beq_true in Wb. subst b.
      apply orb_true_iff in Wc. destruct Wc as [Wc|Wc]; apply beq_true in Wc; subst c; cbn; tauto. }
    destruct r2 as [|a r3]; [exact Stay|]. match goal with |- context [if ?x then _ else _] => destruct x eqn:W3 end; [|exact Stay].
    apply (Go [a; b; c]); [reflexivity|]. clear -W3. rewrite !orb_true_iff, !andb_true_iff in W3. destruct W3 as [[[W|W]|W]|W].
    + destruct W as ((Wa & Wb) & Wc). apply beq_true in Wa, Wb, Wc. subst. cbn; tauto.
    + destruct W as ((Wa & Wb) & Wc). apply beq_true in Wa, Wb. subst. clear -Wc. destruct c; try (exfalso; cbn in Wc; intuition discriminate); cbn; tauto.
    + destruct W as ((Wa & Wb) & Wc). apply beq_true in Wa, Wb, Wc. subst. cbn; tauto.
    + destruct W as ((Wa & Wb) & Wc). apply beq_true in Wa, Wb, Wc. subst. cbn; tauto.
Qed.

Lemma trim_end_white s : exists w, white w /\ s = trim_end s ++ w.
Proof.
  destruct (trim_rev_white _ (rev s) (le_n _)) as (w & W & E). exists w. split; [exact W|]. rewrite rev_involutive in E. exact E.
Qed.

Definition solid (c : byte) : Prop := In c (b64_alphabet ++ ["="%byte]).

Lemma trim_rev_solid c r : solid c -> trim_rev (c :: r) = c :: r.
Proof.
  intro S. cbn [trim_rev].
  assert (H : beq c " " || ((9 <=? bN c)%N && (bN c <=? 13)%N) = false /\ beq c x85 = false /\ beq c xa0 = false /\ beq c x80 = false /\
    ((128 <=? bN c)%N && (bN c <=? 138)%N) = false /\ beq c xa8 = false /\ beq c xa9 = false /\ beq c xaf = false /\ beq c x9f = false).
  { unfold solid in S. cbn in S. repeat (destruct S as [<-|S]; [vm_compute; repeat split; reflexivity|]). destruct S. }
  destruct H as (H1 & H2 & H3 & H4 & H5 & H6 & H7 & H8 & H9). rewrite H1, H2, H3, H4, H5, H6, H7, H8, H9. cbn [orb].
  destruct r as [|b r2]; [reflexivity|]. rewrite !andb_false_r. destruct r2 as [|a r3]; [reflexivity|]. rewrite !andb_false_r. reflexivity.
Qed.

Lemma trim_rev_blanks bl s : Forall (fun c => In c [x20; x09; x0d]) bl -> trim_rev (bl ++ s) = trim_rev s.
Proof.
  induction 1 as [|c bl I F IH]; [reflexivity|]. cbn [app trim_rev].
  replace (beq c " " || ((9 <=? bN c)%N && (bN c <=? 13)%N)) with true; [exact IH|].
  cbn in I. repeat (destruct I as [<-|I]; [reflexivity|]). destruct I.
Qed.

Lemma trim_end_line x bl : x <> [] -> Forall solid x -> Forall (fun c => In c [x20; x09; x0d]) bl -> trim_end (x ++ bl) = x.
Proof.
  intros N S F. unfold trim_end. rewrite rev_app_distr, trim_rev_blanks by (apply Forall_rev; exact F).
  destruct (rev x) as [|c r] eqn:E; [apply (f_equal (@rev byte)) in E; rewrite rev_involutive in E; cbn in E; congruence|].
  rewrite trim_rev_solid.
  - rewrite <- E. apply rev_involutive.
  - apply Forall_rev in S. rewrite E in S. inversion S; assumption.
Qed.

(** * Base64 texts *)

Lemma base64_solid content t : base64_of content t -> Forall solid t.
Proof.
  intros (chars & fill & pad & _ & _ & S & -> & _). apply Forall_app. split.
  - clear -S. induction S as [|c i chars bs N S IH]; constructor; [|exact IH]. apply in_or_app. left. eapply nth_error_In. exact N.
  - apply Forall_forall. intros c I. apply repeat_spec in I. subst c. apply in_or_app. right. left. reflexivity.
Qed.

Lemma solid_facts c : solid c -> (bN c < 128)%N /\ c <> x0a /\ c <> x0d /\ c <> "-"%byte /\ c <> x20 /\ c <> x09.
Proof.
  unfold solid. intro S. cbn in S. repeat (destruct S as [<-|S]; [repeat split; try discriminate; cbn; lia|]). destruct S.
Qed.

Lemma solid_lf : ~ solid x0a.
Proof. intro S. apply solid_facts in S. destruct S as (_ & S & _). congruence. Qed.

(** * Texts as tools write them *)

Definition body (lines : list (str * str)) : str := concat (map (fun l => fst l ++ snd l) lines).

Definition proper (lines : list (str * str)) : Prop := Forall (fun l => fst l <> [] /\ Forall solid (fst l) /\ line_end (snd l)) lines.

Lemma line_blanks bl c : Forall (fun c => In c [x20; x09; x0d]) bl -> In c bl -> (bN c < 128)%N /\ c <> x0a /\ c <> "-"%byte.
Proof.
  intros F I. rewrite Forall_forall in F. specialize (F c I). cbn in F.
  repeat (destruct F as [<-|F]; [repeat split; try discriminate; cbn; lia|]). destruct F.
Qed.

Lemma body_data lines : proper lines -> flat_map trim_end (split_lf (body lines)) = concat (map fst lines).
Proof.
  induction 1 as [|[x e] lines (N & S & (bl & Ee & F)) P IH]; [reflexivity|]. cbn [fst snd] in *. subst e. unfold body. cbn [map concat fst snd]. fold (body lines).
  replace ((x ++ bl ++ [x0a]) ++ body lines) with ((x ++ bl) ++ x0a :: body lines) by (rewrite <- !app_assoc; reflexivity).
  rewrite split_line; [cbn [flat_map]; rewrite IH, trim_end_line by assumption; reflexivity|].
  intro I. apply in_app_or in I. destruct I as [I|I].
  - rewrite Forall_forall in S. exact (solid_lf (S _ I)).
  - apply (line_blanks _ _ F) in I. destruct I as (_ & I & _). apply I. reflexivity.
Qed.

Lemma body_ascii lines : proper lines -> Forall (fun c => (bN c < 128)%N /\ c <> "-"%byte) (body lines).
Proof.
  induction 1 as [|[x e] lines (N & S & (bl & Ee & F)) P IH]; [constructor|]. cbn [fst snd] in *. subst e. unfold body. cbn [map concat fst snd]. fold (body lines).
  rewrite !Forall_app. split; [split; [|split]|exact IH].
  - eapply Forall_impl; [|exact S]. intros c Sc. apply solid_facts in Sc. tauto.
  - apply Forall_forall. intros c I. apply (line_blanks _ _ F) in I. tauto.
  - constructor; [|constructor]. split; [cbn; lia|discriminate].
Qed.

Lemma split_unique x r : ~ In x0a x -> forall a y, x ++ x0a :: r = a ++ x0a :: y -> (a = x /\ r = y) \/ exists a', r = a' ++ x0a :: y.
Proof.
  induction x as [|c x IH]; intros N a y E.
  - destruct a as [|c a]; [left; injection E as <-; auto|]. right. injection E as <- E. exists a. exact E.
  - destruct a as [|c' a].
    + injection E as -> _. exfalso. apply N. left. reflexivity.
    + injection E as <- E. apply IH in E; [|intro I; apply N; right; exact I]. destruct E as [[-> ->]|E]; [left; auto|right; exact E].
Qed.

Lemma body_after lines : proper lines -> forall a c b, body lines = a ++ x0a :: c :: b -> solid c.
Proof.
  induction 1 as [|[x e] lines (N & S & (bl & Ee & F)) P IH]; intros a c b E; [destruct a; discriminate E|].
  cbn [fst snd] in *. subst e. unfold body in E. cbn [map concat fst snd] in E. fold (body lines) in E.
  replace ((x ++ bl ++ [x0a]) ++ body lines) with ((x ++ bl) ++ x0a :: body lines) in E by (rewrite <- !app_assoc; reflexivity).
  apply split_unique in E.
  - destruct E as [[_ E]|[a' E]]; [|exact (IH _ _ _ E)]. destruct P as [|[x' e'] lines (N' & S' & _) P]; [discriminate E|].
    unfold body in E. cbn [map concat fst snd] in *. destruct x' as [|c' x']; [congruence|]. injection E as -> _. inversion S'; assumption.
  - intro I. apply in_app_or in I. destruct I as [I|I].
    + rewrite Forall_forall in S. exact (solid_lf (S _ I)).
    + apply (line_blanks _ _ F) in I. destruct I as (_ & I & _). apply I. reflexivity.
Qed.

Lemma no_headers lines : proper lines -> read_until [x0a; x0a] 0 [] (body lines) = None /\ read_until [x0d; x0a; x0d; x0a] 0 [] (body lines) = None.
Proof.
  intro P. split.
  - destruct (read_until _ 0 [] _) as [[rest before]|] eqn:E; [|reflexivity]. exfalso. apply read_sound0 in E. cbn [app] in E.
    apply body_after in E; [|exact P]. apply solid_facts in E. destruct E as (_ & E & _). apply E. reflexivity.
  - destruct (read_until _ 0 [] _) as [[rest before]|] eqn:E; [|reflexivity]. exfalso. apply read_sound0 in E. cbn [app] in E.
    replace (before ++ x0d :: x0a :: x0d :: x0a :: rest) with ((before ++ [x0d]) ++ x0a :: x0d :: x0a :: rest) in E by (rewrite <- app_assoc; reflexivity).
    apply body_after in E; [|exact P]. apply solid_facts in E. destruct E as (_ & _ & E & _). apply E. reflexivity.
Qed.

Lemma skip_blanks bl s : Forall (fun c => In c [x20; x09; x0d]) bl -> skip_whitespace (bl ++ x0a :: s) = skip_whitespace s.
Proof.
  induction 1 as [|c bl I F IH]; [reflexivity|]. cbn [app skip_whitespace].
  replace (beq c " " || beq c x09 || beq c x0a || beq c x0d) with true; [exact IH|].
  cbn in I. repeat (destruct I as [<-|I]; [reflexivity|]). destruct I.
Qed.

Lemma skip_body lines s : lines <> [] -> proper lines -> skip_whitespace (body lines ++ s) = body lines ++ s.
Proof.
  intros N P. destruct lines as [|[x e] lines]; [congruence|]. inversion P as [|? ? (Nx & S & _) P']; subst. cbn [fst snd] in *. destruct x as [|c x]; [congruence|].
  unfold body. cbn [map concat fst snd app skip_whitespace]. inversion S as [|? ? Sc _]; subst. apply solid_facts in Sc. destruct Sc as (_ & H1 & H2 & _ & H3 & H4).
  assert (Q : forall y, c <> y -> beq c y = false) by (intros y D; destruct (beq c y) eqn:E; [apply beq_true in E; congruence|reflexivity]).
  rewrite !Q by assumption. reflexivity.
Qed.

Lemma hyphen_not x : Forall (fun c => (bN c < 128)%N /\ c <> "-"%byte) x -> ~ In "-"%byte x.
Proof. intros F I. rewrite Forall_forall in F. apply (F _ I). reflexivity. Qed.

Lemma pem_complete content text : pem_text content text -> pem_parse text = Some content.
Proof.
  intros (before & label & first & lines & after & Nb & Nl & Fl & (bl & -> & Fb) & Nn & Ls & B64 & ->).
  assert (P : proper lines).
  { pose proof (base64_solid _ _ B64) as S. clear -Ls S. induction Ls as [|[x e] lines [N E] Ls IH]; [constructor|]. cbn [map concat fst snd] in *.
    apply Forall_app in S. destruct S as [S1 S2]. constructor; [auto|apply IH; exact S2]. }
  fold (body lines). assert (Hl : ~ In "-"%byte label) by (intro I; rewrite Forall_forall in Fl; apply (Fl _ I); reflexivity).
  unfold pem_parse, pem_captures.
  change (B "-----BEGIN ") with ("-"%byte :: B "----BEGIN "). rewrite read_found by exact Nb. cbn [rev app].
  change (B "-----" ++ ?x) with (("-"%byte :: B "----") ++ x). change (read_until (B "-----")) with (read_until ("-"%byte :: B "----")). rewrite read_found by exact Hl. cbn [rev app].
  rewrite <- app_assoc. cbn [app]. rewrite skip_blanks by exact Fb. rewrite skip_body by assumption.
  change (B "-----END " ++ ?x) with (("-"%byte :: B "----END ") ++ x). change (read_until (B "-----END ")) with (read_until ("-"%byte :: B "----END ")).
  rewrite read_found by (apply hyphen_not, body_ascii; exact P). cbn [rev app].
  rewrite read_found by exact Hl. cbn [rev app]. destruct (no_headers lines P) as [-> ->].
  assert (Ul : utf8_valid label = true) by (apply utf8_valid_ascii; eapply Forall_impl; [|exact Fl]; intros c [R _]; lia).
  rewrite Ul, (utf8_valid_ascii (body lines)) by (eapply Forall_impl; [|apply body_ascii; exact P]; intros c [R _]; exact R).
  change (utf8_valid []) with true. cbn [andb negb].
  assert (El : str_eqb label [] = false) by (destruct label; [congruence|reflexivity]). rewrite El. cbn [orb].
  rewrite (proj2 (str_eqb_iff label label) eq_refl). cbn [negb]. change (pem_headers_ok []) with true. cbn [negb].
  rewrite body_data by exact P. apply b64_decode_spec. exact B64.
Qed.

(** * What any text contains *)

Lemma pieces_of ls l : exists pieces, concat (map fst pieces) = flat_map trim_end (l :: ls) /\ Forall (fun x => white (snd x)) pieces /\
  concat (map (fun x => fst x ++ snd x) pieces) = join [x0a] (l :: ls).
Proof.
  revert l. induction ls as [|l2 ls IH]; intro l; destruct (trim_end_white l) as (w & W & E).
  - exists [(trim_end l, w)]. split; [reflexivity|]. split; [constructor; [exact W|constructor]|]. cbn [map concat fst snd join]. rewrite app_nil_r. symmetry. exact E.
  - destruct (IH l2) as (ps & E1 & F & E2). exists ((trim_end l, w ++ [x0a]) :: ps). split; [cbn [map concat fst flat_map]; rewrite E1; reflexivity|].
    split; [constructor; [|exact F]; cbn [snd]; apply white_app; [exact W|apply white_one; cbn; tauto]|].
    cbn [map concat fst snd]. rewrite E2. change (join [x0a] (l :: l2 :: ls)) with (l ++ [x0a] ++ join [x0a] (l2 :: ls)). rewrite E at 2. rewrite <- !app_assoc. reflexivity.
Qed.

Lemma skip_suffix s : exists w, s = w ++ skip_whitespace s.
Proof.
  induction s as [|c s (w & E)]; [exists []; reflexivity|]. cbn [skip_whitespace]. destruct (beq c " " || _ || _ || _).
  - exists (c :: w). cbn [app]. rewrite <- E. reflexivity.
  - exists []. reflexivity.
Qed.

Lemma pem_sound content text : pem_parse text = Some content -> pem_contains content text.
Proof.
  unfold pem_parse, pem_captures.
  destruct (read_until (B "-----BEGIN ") 0 [] text) as [[i1 before]|] eqn:R1; [|discriminate]. apply read_sound0 in R1.
  destruct (read_until (B "-----") 0 [] i1) as [[i2 begin]|] eqn:R2; [|discriminate]. apply read_sound0 in R2.
  destruct (read_until (B "-----END ") 0 [] (skip_whitespace i2)) as [[i3 bod]|] eqn:R3; [|discriminate]. apply read_sound0 in R3.
  destruct (read_until (B "-----") 0 [] i3) as [[i4 end_]|] eqn:R4; [|discriminate]. apply read_sound0 in R4.
  destruct (skip_suffix i2) as (ws & R5).
  match goal with |- context [let '(_, _) := ?x in _] => destruct x as [headers data] eqn:HD end.
  assert (X : exists h, bod = h ++ data).
  { destruct (read_until [x0a; x0a] 0 [] bod) as [[d h]|] eqn:Q1.
    - apply read_sound0 in Q1. injection HD as <- <-. exists (h ++ [x0a; x0a]). rewrite Q1, <- app_assoc. reflexivity.
    - destruct (read_until [x0d; x0a; x0d; x0a] 0 [] bod) as [[d h]|] eqn:Q2.
      + apply read_sound0 in Q2. injection HD as <- <-. exists (h ++ [x0d; x0a; x0d; x0a]). rewrite Q2, <- app_assoc. reflexivity.
      + injection HD as <- <-. exists []. reflexivity. }
  destruct X as (h & X).
  destruct (utf8_valid begin && _ && _ && _); cbn [negb]; [|discriminate].
  destruct (str_eqb begin [] || str_eqb end_ []) eqn:N1; [discriminate|]. destruct (str_eqb begin end_) eqn:N2; cbn [negb]; [|discriminate].
  destruct (pem_headers_ok headers); cbn [negb]; [|discriminate]. intro D. apply b64_decode_spec in D. apply str_eqb_iff in N2. subst end_.
  destruct (split_join data) as (l & ls & E & J). rewrite E in D. destruct (pieces_of ls l) as (ps & P1 & P2 & P3).
  exists before, begin, (ws ++ h), ps, i4, (flat_map trim_end (l :: ls)). split.
  { intros ->. cbn in N1. discriminate. }
  split; [exact D|]. split; [exact P1|]. split; [exact P2|]. rewrite P3, <- J.
  rewrite R1, R2, R5, R3, X, R4. rewrite <- !app_assoc. reflexivity.
Qed.
