(** C89: the path of a signed URL for every bucket and object name. *)
From Verif Require Import Base BaseFacts FormUrl FormUrlFacts CodecFacts SpecCodec Effects EffectsFacts Keys Url SignedUrl UrlFacts SpecUrl UrlSpecFacts SignedUrlFacts UrlResult
  Demo Prop_UrlPath SpecPath.
Local Open Scope byte_scope.

Notation enc caret := (pct_encode (set_path caret)).

(** * Dot segments and drive letters *)

Lemma unhexd_2 h : unhexd h = Some 2%N -> h = "2".
Proof.
  pose proof (byte_sweep (fun c => implb (match unhexd c with Some n => N.eqb n 2 | None => false end) (beq c "2")) eq_refl h) as G. cbv beta in G.
  intros E. rewrite E in G. apply beq_eq. exact G.
Qed.
Lemma unhexd_e h : unhexd h = Some 14%N -> h = "e" \/ h = "E".
Proof.
  pose proof (byte_sweep (fun c => implb (match unhexd c with Some n => N.eqb n 14 | None => false end) (beq c "e" || beq c "E")) eq_refl h) as G. cbv beta in G.
  intros E. rewrite E in G. cbn [N.eqb implb Pos.eqb] in G. apply orb_true_iff in G. destruct G as [G|G]; apply beq_eq in G; auto.
Qed.

(** A text that starts with a dot when unescaped. *)
Lemma decode_dot s t : pct_decode s = "." :: t -> exists a r, In a [B "."; B "%2e"; B "%2E"] /\ s = a ++ r /\ pct_decode r = t.
Proof.
  intros E. destruct s as [|c s]; [discriminate E|]. destruct (is_triplet (c :: s)) eqn:T.
  - apply pct_decode_triplet in T. destruct T as (h & l & r & a & b & Es & Ha & Hb & D). rewrite D in E. assert (E' : pct_decode r = t) by congruence. apply (f_equal (hd x00)) in E. change (nb (16 * a + b) = ".") in E. rewrite Es. clear Es D.
    pose proof (unhexd_range _ _ Ha) as Ra. pose proof (unhexd_range _ _ Hb) as Rb. apply (f_equal bN) in E. rewrite bN_nb in E by lia. change (bN ".") with 46%N in E.
    assert (a = 2 /\ b = 14)%N as [-> ->] by lia. apply unhexd_2 in Ha. apply unhexd_e in Hb. subst h. destruct Hb as [->| ->].
    + exists (B "%2e"), r. split; [cbn; tauto|]. auto.
    + exists (B "%2E"), r. split; [cbn; tauto|]. auto.
  - rewrite pct_decode_cons_no in E by exact T. injection E as -> E. exists (B "."), s. split; [cbn; tauto|]. auto.
Qed.

Lemma decode_nil s : pct_decode s = [] -> s = [].
Proof.
  destruct s as [|c s]; [reflexivity|]. intros E. destruct (is_triplet (c :: s)) eqn:T.
  - apply pct_decode_triplet in T. destruct T as (h & l & r & a & b & _ & _ & _ & D). rewrite D in E. discriminate E.
  - rewrite pct_decode_cons_no in E by exact T. discriminate E.
Qed.

Lemma stays_iff caret s : stays s <-> is_dot (enc caret s) = true.
Proof.
  unfold stays. rewrite unescaped_iff. split.
  - intros E. symmetry in E. apply decode_dot in E. destruct E as (a & r & I & -> & E). apply decode_nil in E. subst r. rewrite app_nil_r.
    cbn [In] in I. destruct I as [<-|[<-|[<-|[]]]]; destruct caret; reflexivity.
  - intros E. apply dot_decodes in E. rewrite pct_decode_encode in E by apply path_set_ok. symmetry. exact E.
Qed.

Lemma ups_iff caret s : ups s <-> is_dotdot (enc caret s) = true.
Proof.
  unfold ups. rewrite unescaped_iff. split.
  - intros E. symmetry in E. apply decode_dot in E. destruct E as (a & r & I & -> & E). apply decode_dot in E. destruct E as (a' & r' & I' & -> & E). apply decode_nil in E. subst r'. rewrite app_nil_r.
    cbn [In] in I, I'. destruct I as [<-|[<-|[<-|[]]]], I' as [<-|[<-|[<-|[]]]]; destruct caret; reflexivity.
  - intros E. apply dotdot_decodes in E. rewrite pct_decode_encode in E by apply path_set_ok. symmetry. exact E.
Qed.

Lemma stays_dec s : {stays s} + {~ stays s}.
Proof. destruct (is_dot (enc true s)) eqn:E; [left|right]; rewrite (stays_iff true); congruence. Qed.
Lemma ups_dec s : {ups s} + {~ ups s}.
Proof. destruct (is_dotdot (enc true s)) eqn:E; [left|right]; rewrite (ups_iff true); congruence. Qed.
Lemma stays_ups s : stays s -> ~ ups s.
Proof. unfold stays, ups. rewrite !unescaped_iff. intros E1 E2. rewrite <- E1 in E2. discriminate E2. Qed.

Lemma letter_iff a : is_alpha a = true <-> ((65 <= bN a <= 90) \/ (97 <= bN a <= 122))%N.
Proof.
  unfold is_alpha, is_upper, is_lower, in_range. rewrite orb_true_iff, !andb_true_iff, !N.leb_le. reflexivity.
Qed.

Lemma drive_iff caret x : drive x <-> is_drive (enc caret x) = true.
Proof.
  split.
  - intros (a & L & E). apply letter_iff in L. assert (Sa : set_path caret a = false).
    { pose proof (byte_sweep (fun c => implb (is_alpha c) (negb (set_path true c || set_path false c))) eq_refl a) as G. cbv beta in G. rewrite L in G. apply negb_true_iff in G. apply orb_false_iff in G. destruct caret; apply G. }
    destruct E as [-> | ->]; rewrite !pct_encode_cons, Sa; destruct caret; cbn; rewrite L; reflexivity.
  - intros H. destruct x as [|a x]; [discriminate H|]. rewrite pct_encode_cons in H. destruct (set_path caret a); [discriminate H|]. cbn [app] in H.
    destruct x as [|b x]; [discriminate H|]. rewrite pct_encode_cons in H. destruct (set_path caret b); [discriminate H|]. cbn [app is_drive] in H.
    destruct x as [|c x]; [|rewrite pct_encode_cons in H; destruct (set_path caret c); discriminate H]. cbn [pct_encode flat_map] in H.
    apply andb_true_iff in H. destruct H as [L H]. apply letter_iff in L. exists a. split; [exact L|]. apply orb_true_iff in H. destruct H as [H|H]; apply beq_eq in H; subst b; auto.
Qed.

(** * The parser *)

(** What is reached is determined by the segments. *)
Lemma reached_last l s st : reached (l ++ [s]) st ->
  (stays s /\ reached l st) \/
  (ups s /\ exists st0, reached l st0 /\ ((st0 = [] /\ st = []) \/ (exists x, st0 = st ++ [x] /\ ~ drive x) \/ (exists st' x, st0 = st' ++ [x] /\ st = st0 /\ drive x))) \/
  (~ stays s /\ ~ ups s /\ exists st0, reached l st0 /\ st = st0 ++ [s]).
Proof.
  intros H. inversion H as [E|l' s' st' R S E|l' s' st' x R U N E|l' s' st' x R U N E|l' s' R U E|l' s' st' R N1 N2 E].
  - symmetry in E. destruct l; discriminate E.
  - apply app_inj_tail in E. destruct E as [-> ->]. left. auto.
  - apply app_inj_tail in E. destruct E as [-> ->]. right. left. split; [exact U|]. exists (st ++ [x]). split; [exact R|]. right. left. eauto.
  - apply app_inj_tail in E. destruct E as [-> ->]. right. left. split; [exact U|]. exists (st' ++ [x]). split; [exact R|]. right. right. eauto.
  - apply app_inj_tail in E. destruct E as [-> ->]. right. left. split; [exact U|]. exists []. auto.
  - apply app_inj_tail in E. destruct E as [-> ->]. right. right. eauto.
Qed.

Lemma reached_unique l : forall a b, reached l a -> reached l b -> a = b.
Proof.
  induction l as [|s l IH] using rev_ind; intros a b H1 H2.
  - assert (G : forall c, reached [] c -> c = []). { intros c H. inversion H as [E|? ? ? ? ? E|? ? ? ? ? ? ? E|? ? ? ? ? ? ? E|? ? ? ? E|? ? ? ? ? ? E]; [reflexivity|..]; destruct l; discriminate E. }
    rewrite (G a H1), (G b H2). reflexivity.
  - apply reached_last in H1, H2.
    destruct H1 as [[S1 R1]|[(U1 & x1 & R1 & C1)|(N1 & M1 & x1 & R1 & ->)]], H2 as [[S2 R2]|[(U2 & x2 & R2 & C2)|(N2 & M2 & x2 & R2 & ->)]]; try contradiction;
      try (exfalso; eapply stays_ups; eassumption).
    + exact (IH _ _ R1 R2).
    + pose proof (IH _ _ R1 R2) as <-. destruct C1 as [[-> ->]|[(y & -> & D1)|(st' & y & E1 & -> & D1)]], C2 as [[E ->]|[(z & E & D2)|(st'' & z & E & E3 & D2)]];
        try (symmetry in E; apply app_eq_nil in E; destruct E as [_ E]; discriminate E); try reflexivity.
      * apply app_eq_nil in E. destruct E as [_ E]. discriminate E.
      * apply app_inj_tail in E. destruct E as [-> _]. reflexivity.
      * apply app_inj_tail in E. destruct E as [_ ->]. contradiction.
      * subst. apply app_eq_nil in E. destruct E as [_ E]; discriminate E.
      * rewrite E1 in E. apply app_inj_tail in E. destruct E as [_ ->]. contradiction.
      * congruence.
    + rewrite (IH _ _ R1 R2). reflexivity.
Qed.

Lemma path_segments_unique l a b : path_segments l a -> path_segments l b -> a = b.
Proof.
  intros H1 H2. destruct H1 as [l s st R N M|l s st R C].
  - inversion H2 as [l' s' st' R' N' M' E|l' s' st' R' C' E]; apply app_inj_tail in E; destruct E as [-> ->]; [|tauto]. rewrite (reached_unique _ _ _ R R'). reflexivity.
  - inversion H2 as [l' s' st' R' N' M' E|l' s' st' R' C' E]; apply app_inj_tail in E; destruct E as [-> ->]; [tauto|]. rewrite (reached_unique _ _ _ R R'). reflexivity.
Qed.

Lemma walk_reached caret segs : segs <> [] -> forall l raws, reached l (rev raws) ->
  exists out, path_segments (l ++ segs) out /\ walk_path caret (map (enc caret) raws) segs = "/" :: join (B "/") (map (enc caret) out).
Proof.
  intros Ne. induction segs as [|s segs IH]; [congruence|]. clear Ne. intros l raws R.
  assert (Step : exists raws', reached (l ++ [s]) (rev raws') /\
    map (enc caret) raws' = (if is_dotdot (enc caret s) then pop_segment (map (enc caret) raws) else if is_dot (enc caret s) then map (enc caret) raws else enc caret s :: map (enc caret) raws)).
  { destruct (is_dotdot (enc caret s)) eqn:D2.
    - apply ups_iff in D2. destruct raws as [|x raws]; [exists []; split; [apply re_top; assumption|reflexivity]|]. cbn [map pop_segment].
      destruct (is_drive (enc caret x)) eqn:Dr.
      + apply drive_iff in Dr. exists (x :: raws). cbn [rev] in *. split; [apply re_drive; assumption|reflexivity].
      + exists raws. cbn [rev] in *. split; [|reflexivity]. eapply re_up; [exact R|exact D2|]. rewrite (drive_iff caret). congruence.
    - destruct (is_dot (enc caret s)) eqn:D1.
      + apply stays_iff in D1. exists raws. split; [apply re_stays; assumption|reflexivity].
      + exists (s :: raws). cbn [rev map]. split; [apply re_enter; [exact R|rewrite (stays_iff caret); congruence|rewrite (ups_iff caret); congruence]|reflexivity]. }
  destruct Step as (raws' & R' & E). destruct segs as [|s2 segs].
  - clear IH. cbn [walk_path]. assert (Dir : (is_dotdot (enc caret s) = true \/ is_dot (enc caret s) = true) ->
      exists out, path_segments (l ++ [s]) out /\ render_path (map (enc caret) raws') [] = "/" :: join (B "/") (map (enc caret) out)).
    { intros C. exists (rev raws' ++ [[]]). split.
      - apply pa_directory; [exact R'|]. destruct C as [C|C]; [right; eapply ups_iff; exact C|left; eapply stays_iff; exact C].
      - rewrite render_join, map_app, map_rev. reflexivity. }
    destruct (is_dotdot (enc caret s)) eqn:D2; [rewrite <- E; auto|]. destruct (is_dot (enc caret s)) eqn:D1; [rewrite <- E; auto|].
    exists (rev raws ++ [s]). split; [apply pa_last; [exact R|rewrite (stays_iff caret); congruence|rewrite (ups_iff caret); congruence]|].
    rewrite render_join, map_app, map_rev. reflexivity.
  - rewrite walk_path_cons2. cbv zeta. rewrite <- E. destruct (IH ltac:(discriminate) _ _ R') as (out & P & W). exists out. split; [|exact W]. rewrite <- app_assoc in P. exact P.
Qed.

Lemma rev_tail_inj (p q w z : str) c c' : p ++ [c] ++ w = q ++ [c'] ++ z -> (32 < bN c)%N -> (32 < bN c')%N -> Forall (fun x => (bN x <= 32)%N) w -> Forall (fun x => (bN x <= 32)%N) z -> p ++ [c] = q ++ [c'].
Proof.
  revert z. induction w as [|x w IH] using rev_ind; intros z E Hc Hc' Fw Fz.
  - destruct z as [|y z _] using rev_ind; [exact E|]. exfalso. rewrite !app_assoc, app_nil_r in E. apply app_inj_tail in E. destruct E as [_ ->].
    apply Forall_app in Fz. destruct Fz as [_ Fz]. inversion Fz; subst. lia.
  - destruct z as [|y z _] using rev_ind.
    + exfalso. rewrite !app_assoc, app_nil_r in E. apply app_inj_tail in E. destruct E as [_ E]. apply Forall_app in Fw. destruct Fw as [_ Fw]. inversion Fw; subst. lia.
    + rewrite !app_assoc in E. apply app_inj_tail in E. destruct E as [E _]. rewrite <- !app_assoc in E. apply Forall_app in Fw, Fz. apply (IH z); tauto.
Qed.

Lemma without_end_unique s u v : without_end s u -> without_end s v -> u = v.
Proof.
  intros (w & E & F & L) (z & E' & F' & L'). rewrite E' in E. clear s E'.
  destruct u as [|c u _] using rev_ind; (destruct v as [|c' v _] using rev_ind); [reflexivity|..].
  - exfalso. cbn [app] in E. specialize (L' _ _ eq_refl). rewrite <- E, <- app_assoc in F. apply Forall_app in F. destruct F as [_ F]. inversion F; subst. lia.
  - exfalso. cbn [app] in E. specialize (L _ _ eq_refl). rewrite E, <- app_assoc in F'. apply Forall_app in F'. destruct F' as [_ F']. inversion F'; subst. lia.
  - specialize (L _ _ eq_refl). specialize (L' _ _ eq_refl). rewrite <- !app_assoc in E. symmetry. eapply rev_tail_inj; eassumption.
Qed.

Lemma without_breaks_unique s u : without_breaks s u -> forall v, without_breaks s v -> u = v.
Proof.
  induction 1 as [|c s t I H IH|c s t I H IH]; intros v Hv; inversion Hv; subst; try contradiction; auto. f_equal. auto.
Qed.

Lemma before_marks_unique v : forall p q, before_marks v p -> before_marks v q -> p = q.
Proof.
  assert (W : forall p q c r, ~ In "?" p -> ~ In "#" p -> p = q ++ c :: r -> c = "?" \/ c = "#" -> False).
  { intros p q c r N1 N2 -> [-> | ->]; [apply N1|apply N2]; apply in_or_app; right; left; reflexivity. }
  intros p q (P1 & P2 & P3) (Q1 & Q2 & Q3).
  destruct P3 as [->|(c & r & -> & C)], Q3 as [E|(c' & r' & E & C')].
  - exact E.
  - exfalso. exact (W _ _ _ _ P1 P2 E C').
  - exfalso. symmetry in E. exact (W _ _ _ _ Q1 Q2 E C).
  - clear W. revert q Q1 Q2 E. induction p as [|x p IH]; intros q Q1 Q2 E; destruct q as [|y q]; [reflexivity|..]; cbn [app] in E; injection E as -> E.
    + exfalso. destruct C as [-> | ->]; [apply Q1|apply Q2]; left; reflexivity.
    + exfalso. destruct C' as [-> | ->]; [apply P1|apply P2]; left; reflexivity.
    + f_equal. apply IH; try assumption; intros I; [apply P1|apply P2|apply Q1|apply Q2]; right; exact I.
Qed.

Lemma separated_unique s l : separated s l -> forall m, separated s m -> l = m.
Proof.
  assert (W : forall p q c r, ~ In "/" p -> ~ In "\" p -> p = q ++ c :: r -> c = "/" \/ c = "\" -> False).
  { intros p q c r N1 N2 -> [-> | ->]; [apply N1|apply N2]; apply in_or_app; right; left; reflexivity. }
  assert (V : forall c c' r r' p q, p ++ c :: r = q ++ c' :: r' -> c = "/" \/ c = "\" -> c' = "/" \/ c' = "\" -> ~ In "/" p -> ~ In "\" p -> ~ In "/" q -> ~ In "\" q -> p = q /\ r = r').
  { clear. intros c c' r r' p. induction p as [|x p IH]; intros q E C C' P1 P2 Q1 Q2; destruct q as [|y q]; cbn [app] in E; injection E as -> E.
    - auto.
    - exfalso. destruct C as [-> | ->]; [apply Q1|apply Q2]; left; reflexivity.
    - exfalso. destruct C' as [-> | ->]; [apply P1|apply P2]; left; reflexivity.
    - destruct (IH q E C C') as [-> ->]; [..|auto]; intros I; [apply P1|apply P2|apply Q1|apply Q2]; right; exact I. }
  induction 1 as [s N1 N2|s c r l N1 N2 C H IH]; intros m Hm.
  - inversion Hm as [s' N1' N2' E|s' c' r' l' N1' N2' C' H' E]; subst; [reflexivity|]. exfalso. exact (W _ _ _ _ N1 N2 eq_refl C').
  - inversion Hm as [s' N1' N2' E|s' c' r' l' N1' N2' C' H' E]; [exfalso; exact (W _ _ _ _ N1' N2' eq_refl C)|]. destruct (V _ _ _ _ _ _ E C' C) as [-> ->]; try assumption. f_equal. auto.
Qed.

Lemma named_segments_unique s a b : named_segments s a -> named_segments s b -> a = b.
Proof.
  intros (u & v & p & H1 & H2 & H3 & H4) (u' & v' & p' & H1' & H2' & H3' & H4').
  pose proof (without_end_unique _ _ _ H1 H1') as <-. pose proof (without_breaks_unique _ _ H2 _ H2') as <-. pose proof (before_marks_unique _ _ _ H3 H3') as <-. exact (separated_unique _ _ H4 _ H4').
Qed.

Lemma trim_end_spec s : without_end s (trim_end s).
Proof.
  induction s as [|c s (w & E & F & L)] using rev_ind.
  - exists []. split; [reflexivity|]. split; [constructor|]. intros p c E. destruct p; discriminate E.
  - unfold trim_end in *. rewrite rev_app_distr. cbn [rev app drop_while]. destruct (N.leb_spec (bN c) 32) as [H|H].
    + exists (w ++ [c]). split; [rewrite app_assoc, <- E; reflexivity|]. split; [apply Forall_app; auto|exact L].
    + cbn [rev]. rewrite rev_involutive. exists []. split; [rewrite app_nil_r; reflexivity|]. split; [constructor|]. intros p c' E'. apply app_inj_tail in E'. destruct E' as [_ <-]. exact H.
Qed.

Lemma trim_end_slash s : trim_end ("/" :: s) = "/" :: trim_end s.
Proof.
  unfold trim_end. cbn [rev]. induction (rev s) as [|c l IH]; [reflexivity|]. cbn [app drop_while]. destruct (N.leb (bN c) 32); [exact IH|].
  cbn [rev]. rewrite rev_app_distr. reflexivity.
Qed.

Lemma drop_tabs_spec s : without_breaks s (drop_tabs s).
Proof.
  induction s as [|c s IH]; [constructor|]. unfold drop_tabs in *. cbn [filter]. destruct (beq_spec c x09) as [->|N1]; [cbn; apply wb_break; [cbn; tauto|exact IH]|].
  destruct (beq_spec c x0a) as [->|N2]; [cbn; apply wb_break; [cbn; tauto|exact IH]|]. destruct (beq_spec c x0d) as [->|N3]; [cbn; apply wb_break; [cbn; tauto|exact IH]|].
  cbn. apply wb_other; [|exact IH]. cbn. intros [E|[E|[E|[]]]]; congruence.
Qed.

Lemma split_segments_cons c p : split_segments (c :: p) =
  if beq c "/" || beq c "\" then [] :: split_segments p else match split_segments p with [] => [[c]] | x :: l => (c :: x) :: l end.
Proof. unfold split_segments. cbn [map split_on]. destruct (beq_spec c "\") as [->|N]; [reflexivity|]. rewrite orb_false_r. reflexivity. Qed.

Lemma split_segments_spec p : separated p (split_segments p).
Proof.
  induction p as [|c p IH]; [apply (se_last []); intros []|]. rewrite split_segments_cons.
  destruct (beq_spec c "/") as [->|N1]; [apply (se_more [] "/" p); auto|]. destruct (beq_spec c "\") as [->|N2]; [apply (se_more [] "\" p); auto|]. cbn [orb].
  inversion IH as [s M1 M2 Es El|s c' r l M1 M2 C R Es El]; subst.
  - apply se_last; intros [E|I]; congruence || contradiction.
  - apply (se_more (c :: s) c'); try assumption; intros [E|I]; congruence || contradiction.
Qed.

Lemma segments_not_nil p : split_segments p <> [].
Proof. pose proof (split_segments_spec p) as H. destruct H; discriminate. Qed.

(** The path that the parser makes. *)
Lemma parsed_path d s : exists segs out, named_segments s segs /\ path_segments segs out /\ u_path (url_parse d s) = "/" :: join (B "/") (map (enc (d_path_caret d)) out).
Proof.
  pose proof (split_path_spec ("/" :: drop_tabs (trim_end s))) as Sp. unfold url_parse. rewrite trim_end_slash. change (drop_tabs ("/" :: trim_end s)) with ("/" :: drop_tabs (trim_end s)).
  destruct (split_path ("/" :: drop_tabs (trim_end s))) as [p r] eqn:E. destruct Sp as (A & N1 & N2 & R). cbn [split_path beq] in E.
  destruct (split_path (drop_tabs (trim_end s))) as [p' r'] eqn:E'. cbn in E. injection E as <- <-. cbn [tl app] in *. injection A as A.
  destruct (walk_reached (d_path_caret d) (split_segments p') (segments_not_nil p') [] [] re_root) as (out & P & W). exists (split_segments p'), out. split; [|split; [exact P|]].
  - exists (trim_end s), (drop_tabs (trim_end s)), p'. split; [apply trim_end_spec|]. split; [apply drop_tabs_spec|]. split; [|apply split_segments_spec].
    split; [intros I; apply N1; right; exact I|]. split; [intros I; apply N2; right; exact I|]. destruct R as [->|(t & [-> | ->])]; [left; rewrite A, app_nil_r; reflexivity|right; eauto..].
  - cbn [map] in W. destruct r' as [|c t]; [exact W|]. destruct (beq c "?"); [|exact W]. destruct (split_once "#" t). exact W.
Qed.

Lemma enc_no_slash caret s : ~ In "/" s -> ~ In "/" (enc caret s).
Proof.
  intros N I. unfold pct_encode in I. apply in_flat_map in I. destruct I as (x & Hx & I). 
  pose proof (byte_sweep (fun c => implb (negb (beq c "/")) (negb (existsb (beq "/") (enc true [c])) && negb (existsb (beq "/") (enc false [c])))) eq_refl x) as G. cbv beta in G.
  destruct (beq_spec x "/") as [->|Nx]; [contradiction|]. cbn [negb implb] in G. apply andb_true_iff in G. destruct G as [G1 G2].
  assert (G : existsb (beq "/") (enc caret [x]) = true). { apply existsb_exists. exists "/". split; [|reflexivity]. unfold pct_encode. cbn [flat_map]. rewrite app_nil_r. exact I. }
  destruct caret; rewrite G in *; discriminate.
Qed.

Lemma separated_no_slash s l : separated s l -> Forall (fun x => ~ In "/" x) l.
Proof. induction 1; constructor; auto. Qed.
Lemma reached_from l st : reached l st -> incl st l.
Proof.
  induction 1 as [|l s st R IH S|l s st x R IH U N|l s st x R IH U D|l s R IH U|l s st R IH N M].
  - intros x [].
  - intros y I. apply in_or_app. auto.
  - intros y I. apply in_or_app. left. apply IH. apply in_or_app. auto.
  - intros y I. apply in_or_app. auto.
  - intros y [].
  - apply incl_app; [intros y I; apply in_or_app; auto|]. intros y [<-|[]]. apply in_or_app. right. left. reflexivity.
Qed.
Lemma segments_no_slash segs out : Forall (fun x => ~ In "/" x) segs -> path_segments segs out -> Forall (fun x => ~ In "/" x) out.
Proof.
  intros F P. rewrite Forall_forall in *. destruct P as [l s st R N M|l s st R C]; intros x I; apply in_app_or in I.
  - apply F. apply in_or_app. destruct I as [I|I]; [left; exact (reached_from _ _ R _ I)|auto].
  - destruct I as [I|[<-|[]]]; [apply F; exact (reached_from _ _ R _ I)|intros []].
Qed.

Lemma path_with_enc caret out : Forall (fun x => ~ In "/" x) out -> path_with out ("/" :: join (B "/") (map (enc caret) out)).
Proof.
  intros F. exists (map (enc caret) out). split.
  - induction F as [|s l N F IH]; constructor; [|exact IH]. split; [apply enc_no_slash; exact N|]. intros t. rewrite !unescaped_iff, pct_decode_encode by apply path_set_ok. reflexivity.
  - eexists. split; [apply glued_iff; reflexivity|reflexivity].
Qed.

(** * C89 *)

(** For all names, the path is that of the name's segments after "." and ".." are followed. *)
Theorem C89_path d o tr url path query sig segs out :
  returns (build_signed_url d o) tr (Ok url) -> url_parts url path query sig ->
  named_segments (requested o) segs -> path_segments segs out -> path_with out path.
Proof.
  intros H P Ns Ps. destruct (url_ok_inv _ _ _ _ H) as (? & pre & t1 & t2 & email & verb & block & s & _ & _ & S).
  destruct (success_parts _ _ _ _ _ _ _ _ _ _ _ _ _ S P) as (-> & _ & _). unfold path_of.
  destruct (parsed_path d (requested o)) as (segs' & out' & Ns' & Ps' & ->). pose proof (named_segments_unique _ _ _ Ns Ns') as <-. pose proof (path_segments_unique _ _ _ Ps Ps') as <-.
  apply path_with_enc. destruct Ns as (u & v & p & _ & _ & _ & Se). eapply segments_no_slash; [|exact Ps]. eapply separated_no_slash. exact Se.
Qed.

(** Every name has such segments. *)
Theorem C89_total s : exists segs out, named_segments s segs /\ path_segments segs out /\
  (forall segs', named_segments s segs' -> segs' = segs) /\ (forall out', path_segments segs out' -> out' = out).
Proof.
  destruct (parsed_path demo_deps s) as (segs & out & H1 & H2 & _). exists segs, out. split; [exact H1|]. split; [exact H2|].
  split; intros x Hx; [exact (named_segments_unique _ _ _ Hx H1)|exact (path_segments_unique _ _ _ Hx H2)].
Qed.

Lemma inside_reached b l n : inside l n -> ~ stays b -> ~ ups b -> exists st, reached (b :: l) (b :: st) /\ (n <= length st)%nat.
Proof.
  intros I Nb Mb. induction I as [|l s n I (st & R & L) S|l s n I (st & R & L) U|l s n I (st & R & L) N M].
  - exists []. split; [apply (re_enter [] b []); [constructor|assumption..]|cbn; lia].
  - exists st. split; [apply (re_stays (b :: l)); assumption|exact L].
  - destruct st as [|x st _] using rev_ind; [cbn in L; lia|]. rewrite app_length in L. cbn in L.
    destruct (is_drive (enc true x)) eqn:D.
    + apply drive_iff in D. exists (st ++ [x]). split; [apply (re_drive (b :: l) s (b :: st)); assumption|]. rewrite app_length. cbn. lia.
    + exists st. split; [apply (re_up (b :: l) s (b :: st) x); [exact R|exact U|rewrite (drive_iff true); congruence]|lia].
  - exists (st ++ [s]). split; [apply (re_enter (b :: l) s (b :: st)); assumption|]. rewrite app_length. cbn. lia.
Qed.

(** A name that never goes up more often than down stays in the bucket. *)
Theorem C89_inside d o tr url path query sig b l s n :
  returns (build_signed_url d o) tr (Ok url) -> url_parts url path query sig ->
  named_segments (requested o) (b :: l ++ [s]) -> ~ stays b -> ~ ups b -> inside (l ++ [s]) n ->
  exists out, out <> [] /\ path_with (b :: out) path.
Proof.
  intros H P Ns Nb Mb I. destruct (inside_reached _ _ _ I Nb Mb) as (st & R & _).
  assert (Ps : exists out, out <> [] /\ path_segments ((b :: l) ++ [s]) (b :: out)).
  { destruct (stays_dec s) as [S|N]; [|destruct (ups_dec s) as [U|M]].
    - exists (st ++ [[]]). split; [destruct st; discriminate|]. apply (pa_directory (b :: l) s (b :: st)); auto.
    - exists (st ++ [[]]). split; [destruct st; discriminate|]. apply (pa_directory (b :: l) s (b :: st)); auto.
    - pose proof (reached_last (b :: l) s _ R) as C. destruct C as [[? _]|[[? _]|(_ & _ & st0 & R0 & E)]]; [contradiction|contradiction|].
      destruct st0 as [|b0 st0].
      + cbn in E. injection E as -> ->. exfalso. clear - R0 I N M. assert (I' : exists m, inside l m).
        { inversion I as [E|l' s' n' I' S E|l' s' n' I' U E|l' s' n' I' N' M' E]; [destruct l; discriminate E|..]; apply app_inj_tail in E; destruct E as [-> ->]; eauto. }
        destruct I' as [m I']. destruct (inside_reached s l m I' N M) as (st & R & _). pose proof (reached_unique _ _ _ R R0) as E. discriminate E.
      + cbn in E. injection E as <- E. subst st. exists (st0 ++ [s]). split; [destruct st0; discriminate|]. apply (pa_last (b :: l) s (b :: st0)); assumption. }
  destruct Ps as (out & No & Ps). exists out. split; [exact No|]. exact (C89_path _ _ _ _ _ _ _ _ _ H P Ns Ps).
Qed.

Lemma path_segments_after l1 l2 out : reached l1 [] -> path_segments l2 out -> path_segments (l1 ++ l2) out.
Proof.
  intros R1 P2. assert (G : forall l st, reached l st -> reached (l1 ++ l) st).
  { induction 1 as [|l s st R IH S|l s st x R IH U N|l s st x R IH U D|l s R IH U|l s st R IH N M]; rewrite ?app_assoc; [rewrite app_nil_r; exact R1|..];
      [apply re_stays|eapply re_up|apply re_drive|apply re_top|apply re_enter]; eassumption. }
  destruct P2 as [l s st R N M|l s st R C].
  - rewrite app_assoc. apply pa_last; auto.
  - apply G in R. rewrite app_assoc in *. apply pa_directory; assumption.
Qed.

(** Segments that lead back to the root, the bucket among them, do not count. *)
Theorem C89_outside d o tr url path query sig l1 l2 out :
  returns (build_signed_url d o) tr (Ok url) -> url_parts url path query sig ->
  named_segments (requested o) (l1 ++ l2) -> reached l1 [] -> path_segments l2 out -> path_with out path.
Proof.
  intros H P Ns R1 P2. apply (C89_path _ _ _ _ _ _ _ _ out H P Ns).
  apply path_segments_after; assumption.
Qed.

Lemma named_after p c r segs : ~ In "/" p -> ~ In "\" p -> ~ In "?" p -> ~ In "#" p -> (forall x, In x [x09; x0a; x0d] -> ~ In x p) -> c = "/" \/ c = "\" ->
  named_segments r segs -> named_segments (p ++ c :: r) (p :: segs).
Proof.
  intros N1 N2 N3 N4 N5 C (u & v & q & (w & -> & Fw & L) & H2 & (M1 & M2 & M3) & H4).
  assert (Mc : c <> "?" /\ c <> "#" /\ ~ In c [x09; x0a; x0d] /\ (32 < bN c)%N).
  { destruct C as [-> | ->]; (split; [discriminate|]; split; [discriminate|]; split; [intros [E|[E|[E|[]]]]; discriminate E|reflexivity]). }
  destruct Mc as (C1 & C2 & C3 & C4).
  exists (p ++ c :: u), (p ++ c :: v), (p ++ c :: q). split; [|split; [|split]].
  - exists w. split; [rewrite <- app_assoc; reflexivity|]. split; [exact Fw|]. intros p' c' E. destruct u as [|x u _] using rev_ind.
    + apply app_inj_tail in E. destruct E as [_ <-]. exact C4.
    + assert (E' : (p ++ c :: u) ++ [x] = p' ++ [c']) by (rewrite <- app_assoc; exact E). apply app_inj_tail in E'. destruct E' as [_ <-]. apply (L u). reflexivity.
  - clear - N5 C3 H2. induction p as [|x p IH]; [apply wb_other; assumption|]. cbn [app]. apply wb_other; [intros I; apply (N5 x I); left; reflexivity|].
    apply IH. intros y Iy Hy. apply (N5 y Iy). right. exact Hy.
  - assert (Q : forall m, m <> c -> ~ In m p -> ~ In m q -> ~ In m (p ++ c :: q)). { intros m A1 A2 A3 I. apply in_app_or in I. destruct I as [I|[I|I]]; congruence || contradiction. }
    split; [apply Q; congruence || assumption|]. split; [apply Q; congruence || assumption|]. destruct M3 as [->|(c' & r' & -> & C')]; [left; reflexivity|].
    right. exists c', r'. split; [rewrite <- app_assoc; reflexivity|exact C'].
  - apply se_more; assumption.
Qed.

Lemma escape_parse d b target : (forall x, In x (B "/\?#" ++ [x09; x0a; x0d]) -> ~ In x b) -> ~ stays b -> ~ ups b -> ~ drive b ->
  u_path (url_parse d (b ++ B "/" ++ B "../" ++ target)) = u_path (url_parse d target).
Proof.
  intros Nb N1 N2 N3. destruct (parsed_path d (b ++ B "/" ++ B "../" ++ target)) as (segs & out & Ns & Ps & ->). destruct (parsed_path d target) as (segs' & out' & Ns' & Ps' & ->).
  assert (Q : named_segments (b ++ B "/" ++ B "../" ++ target) (b :: B ".." :: segs')).
  { apply (named_after b "/" (B "../" ++ target)); try (apply Nb; cbn; tauto); [|auto|].
    - intros y I. apply Nb. apply in_or_app. right. exact I.
    - apply (named_after (B "..") "/" target); auto; try (intros I; cbn in I; intuition discriminate). intros y I J. cbn in I, J. intuition congruence. }
  pose proof (named_segments_unique _ _ _ Ns Q) as ->.
  assert (R : reached [b; B ".."] []).
  { apply (re_up [b] (B "..") [] b); [|apply unescaped_iff; reflexivity|exact N3]. apply (re_enter [] b []); [constructor|assumption..]. }
  assert (G : path_segments ([b; B ".."] ++ segs') out') by (apply path_segments_after; assumption).
  rewrite (path_segments_unique _ _ _ Ps G). reflexivity.
Qed.

(** So whoever chooses the object name chooses the bucket: with "../" in front of another bucket's object, the path is the same as for that object. *)
Theorem C89_escape d o o' tr tr' url url' path path' query query' sig sig' :
  returns (build_signed_url d o) tr (Ok url) -> url_parts url path query sig ->
  returns (build_signed_url d o') tr' (Ok url') -> url_parts url' path' query' sig' ->
  (forall x, In x (B "/\?#" ++ [x09; x0a; x0d]) -> ~ In x (o_bucket_name o)) -> ~ stays (o_bucket_name o) -> ~ ups (o_bucket_name o) -> ~ drive (o_bucket_name o) ->
  o_object_name o = B "../" ++ o_bucket_name o' ++ B "/" ++ o_object_name o' ->
  path = path'.
Proof.
  intros H P H' P' Nb N1 N2 N3 E.
  destruct (url_ok_inv _ _ _ _ H) as (? & pre & t1 & t2 & email & verb & block & s & _ & _ & S). destruct (success_parts _ _ _ _ _ _ _ _ _ _ _ _ _ S P) as (-> & _ & _).
  destruct (url_ok_inv _ _ _ _ H') as (? & pre' & t1' & t2' & email' & verb' & block' & s' & _ & _ & S'). destruct (success_parts _ _ _ _ _ _ _ _ _ _ _ _ _ S' P') as (-> & _ & _).
  unfold path_of, requested at 1. rewrite E. apply escape_parse; assumption.
Qed.

(** ** Cases *)

Lemma named_by s segs : split_segments (fst (split_path (drop_tabs (trim_end s)))) = segs -> named_segments s segs.
Proof.
  intros <-. exists (trim_end s), (drop_tabs (trim_end s)). pose proof (split_path_spec (drop_tabs (trim_end s))) as Sp. destruct (split_path (drop_tabs (trim_end s))) as [p r].
  destruct Sp as (A & N1 & N2 & R). exists p. split; [apply trim_end_spec|]. split; [apply drop_tabs_spec|]. split; [|apply split_segments_spec].
  split; [exact N1|]. split; [exact N2|]. destruct R as [->|(t & [-> | ->])]; [left; rewrite A, app_nil_r; reflexivity|right; eauto..].
Qed.
Lemma stays_b s : is_dot (enc true s) = true -> stays s.
Proof. apply stays_iff. Qed.
Lemma ups_b s : is_dotdot (enc true s) = true -> ups s.
Proof. apply ups_iff. Qed.
Lemma not_stays_b s : is_dot (enc true s) = false -> ~ stays s.
Proof. rewrite (stays_iff true). congruence. Qed.
Lemma not_ups_b s : is_dotdot (enc true s) = false -> ~ ups s.
Proof. rewrite (ups_iff true). congruence. Qed.
Lemma not_drive_b s : is_drive (enc true s) = false -> ~ drive s.
Proof. rewrite (drive_iff true). congruence. Qed.
Lemma drive_b s : is_drive (enc true s) = true -> drive s.
Proof. apply drive_iff. Qed.

Ltac dots := first [apply stays_b | apply ups_b | apply not_stays_b | apply not_ups_b | apply not_drive_b | apply drive_b]; vm_compute; reflexivity.
(* the last segment of a concrete list *)
Ltac enter := match goal with |- reached ?l ?st => let l' := eval cbv in (removelast l) in let x := eval cbv in (last l []) in let st' := eval cbv in (removelast st) in
  change (reached (l' ++ [x]) (st' ++ [x])); apply re_enter; [|dots|dots] end.
Ltac up x := match goal with |- reached ?l ?st => let l' := eval cbv in (removelast l) in let s := eval cbv in (last l []) in
  change (reached (l' ++ [s]) st); apply (re_up l' s st x); [cbn [app]|dots|dots] end.
Ltac keep := match goal with |- reached ?l ?st => let l' := eval cbv in (removelast l) in let s := eval cbv in (last l []) in let st' := eval cbv in (removelast st) in let x := eval cbv in (last st []) in
  change (reached (l' ++ [s]) (st' ++ [x])); apply re_drive; [cbn [app]|dots|dots] end.

Example C89_case : let o := demo_named (B "C|/../x y?z") in
  (exists url path query sig, returns (build_signed_url demo_deps o) [] (Ok url) /\ url_parts url path query sig /\ path = B "/bucket1/C|/x%20y") /\
  named_segments (requested o) [B "bucket1"; B "C|"; B ".."; B "x y"] /\ path_segments [B "bucket1"; B "C|"; B ".."; B "x y"] [B "bucket1"; B "C|"; B "x y"].
Proof.
  intros o. split; [|split].
  - destruct (demo_named_ok (B "C|/../x y?z")) as (url & path & q & s & R & P & E); [vm_compute; reflexivity|]. exists url, path, q, s. split; [exact R|]. split; [exact P|]. rewrite E. vm_compute. reflexivity.
  - apply named_by. vm_compute. reflexivity.
  - apply (pa_last [B "bucket1"; B "C|"; B ".."] (B "x y") [B "bucket1"; B "C|"]); [|dots|dots]. keep. enter. enter. constructor.
Qed.

Example C89_inside_case : let o := demo_named (B "a/../b/%2e/") in
  (exists url path query sig, returns (build_signed_url demo_deps o) [] (Ok url) /\ url_parts url path query sig /\ path = B "/bucket1/b/") /\
  named_segments (requested o) (B "bucket1" :: [B "a"; B ".."; B "b"; B "%2e"] ++ [[]]) /\ ~ stays (B "bucket1") /\ ~ ups (B "bucket1") /\ inside ([B "a"; B ".."; B "b"; B "%2e"] ++ [[]]) 2.
Proof.
  intros o. split; [|split; [|split; [dots|split; [dots|]]]].
  - destruct (demo_named_ok (B "a/../b/%2e/")) as (url & path & q & s & R & P & E); [vm_compute; reflexivity|]. exists url, path, q, s. split; [exact R|]. split; [exact P|]. rewrite E. vm_compute. reflexivity.
  - apply named_by. vm_compute. reflexivity.
  - apply in_enter; [|dots|dots]. apply (in_stays [B "a"; B ".."; B "b"] (B "%2e")); [|dots]. apply (in_enter [B "a"; B ".."] (B "b")); [|dots|dots].
    apply (in_up [B "a"] (B "..")); [|dots]. apply (in_enter [] (B "a")); [constructor|dots|dots].
Qed.

Example C89_outside_case : let o := demo_named (B "a\%2e%2E/../other/./x#y") in
  (exists url path query sig, returns (build_signed_url demo_deps o) [] (Ok url) /\ url_parts url path query sig /\ path = B "/other/x") /\
  named_segments (requested o) ([B "bucket1"; B "a"; B "%2e%2E"; B ".."] ++ [B "other"; B "."; B "x"]) /\
  reached [B "bucket1"; B "a"; B "%2e%2E"; B ".."] [] /\ path_segments [B "other"; B "."; B "x"] [B "other"; B "x"].
Proof.
  intros o. split; [|split; [|split]].
  - destruct (demo_named_ok (B "a\%2e%2E/../other/./x#y")) as (url & path & q & s & R & P & E); [vm_compute; reflexivity|]. exists url, path, q, s. split; [exact R|]. split; [exact P|]. rewrite E. vm_compute. reflexivity.
  - apply named_by. vm_compute. reflexivity.
  - up (B "bucket1"). up (B "a"). enter. enter. constructor.
  - apply (pa_last [B "other"; B "."] (B "x") [B "other"]); [|dots|dots]. apply (re_stays [B "other"] (B ".")); [|dots]. enter. constructor.
Qed.

Example C89_escape_case : let o := demo_named (B "../bucket2/secret") in let o' := demo_url_with (B "bucket2") (B "secret") None [] [] demo_account false in
  (exists url path query sig, returns (build_signed_url demo_deps o) [] (Ok url) /\ url_parts url path query sig /\ path = B "/bucket2/secret") /\
  (exists url path query sig, returns (build_signed_url demo_deps o') [] (Ok url) /\ url_parts url path query sig /\ path = B "/bucket2/secret") /\
  (forall x, In x (B "/\?#" ++ [x09; x0a; x0d]) -> ~ In x (o_bucket_name o)) /\ ~ stays (o_bucket_name o) /\ ~ ups (o_bucket_name o) /\ ~ drive (o_bucket_name o) /\
  o_object_name o = B "../" ++ o_bucket_name o' ++ B "/" ++ o_object_name o'.
Proof.
  intros o o'. split; [|split; [|split; [|split; [dots|split; [dots|split; [dots|reflexivity]]]]]].
  - destruct (demo_named_ok (B "../bucket2/secret")) as (url & path & q & s & R & P & E); [vm_compute; reflexivity|]. exists url, path, q, s. split; [exact R|]. split; [exact P|]. rewrite E. vm_compute. reflexivity.
  - destruct (demo_success o' eq_refl eq_refl eq_refl ltac:(vm_compute; reflexivity)) as [sig R]. do 4 eexists. split; [exact R|]. split; [apply url_parts_of|]. vm_compute. reflexivity.
  - intros x I J. cbn in I, J. intuition congruence.
Qed.
