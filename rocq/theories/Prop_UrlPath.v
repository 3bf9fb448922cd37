(** Properties of [build_signed_url]: the path and the characters of the URL (C14, C15, C51). *)
From Coq Require Import Sorted Permutation.
From Verif Require Import Base BaseFacts Utf8 FormUrl FormUrlFacts Sha256 SpecCodec CodecFacts Time TimeFacts SpecCalendar SpecPolicy SpecForm FormFacts
  Effects EffectsFacts Keys Scope Url SignedUrl UrlFacts SpecUrl UrlSpecFacts SpecToken SpecTrace SpecSign SignFacts SignedUrlFacts HeaderFacts
  HtmlForm Calls Demo UrlResult.
Local Open Scope byte_scope.

(** * C14: the path denotes the requested object *)

Lemma lower_only c x : lower c = x -> negb (is_alpha x) = true -> c = x.
Proof.
  intros <- H. pose proof (byte_sweep (fun c => implb (negb (is_alpha (lower c))) (beq c (lower c))) eq_refl c) as G. cbv beta in G.
  rewrite H in G. apply beq_eq in G. exact G.
Qed.
Lemma lower_e c : lower c = "e" -> unhexd c = Some 14%N.
Proof.
  intros E. pose proof (byte_sweep (fun c => implb (beq (lower c) "e") (match unhexd c with Some n => N.eqb n 14 | None => false end)) eq_refl c) as G.
  cbv beta in G. rewrite E in G. cbn in G. destruct (unhexd c); [|discriminate G]. apply N.eqb_eq in G. congruence.
Qed.

Ltac pick_apart := repeat match goal with
  | H : map lower ?e = ?x :: ?l |- _ => destruct e as [|? e]; [discriminate H|]; cbn [map] in H; injection H; clear H; intros
  | H : map lower ?e = [] |- _ => destruct e; [clear H|discriminate H]
  | H : lower ?c = "e" |- _ => apply lower_e in H
  | H : lower ?c = ?x |- _ => apply (fun E => lower_only c x E eq_refl) in H; subst c
  end.

Lemma dot_decodes e : is_dot e = true -> pct_decode e = B ".".
Proof.
  unfold is_dot, lower_str. intros H. apply orb_true_iff in H. destruct H as [H|H]; apply str_eqb_eq in H; cbn in H; pick_apart; [reflexivity|].
  cbn; repeat match goal with H : unhexd _ = _ |- _ => rewrite H end; reflexivity.
Qed.

Lemma dotdot_decodes e : is_dotdot e = true -> pct_decode e = B "..".
Proof.
  unfold is_dotdot, lower_str. intros H. repeat (apply orb_true_iff in H; destruct H as [H|H]); apply str_eqb_eq in H; cbn in H; pick_apart; cbn;
    repeat match goal with H : unhexd _ = _ |- _ => rewrite H end; reflexivity.
Qed.

Lemma walk_plain caret segs last done :
  Forall (fun s => is_dot (pct_encode (set_path caret) s) = false /\ is_dotdot (pct_encode (set_path caret) s) = false) (segs ++ [last]) ->
  walk_path caret done (segs ++ [last]) = render_path (rev (map (pct_encode (set_path caret)) segs) ++ done) (pct_encode (set_path caret) last).
Proof.
  revert done. induction segs as [|s segs IH]; intros done F; cbn [app] in F |- *.
  - inversion F as [|? ? [F1 F2] _]; subst. cbn [walk_path]. rewrite F1, F2. reflexivity.
  - inversion F as [|? ? [F1 F2] F']; subst. destruct (segs ++ [last]) as [|y m] eqn:E; [destruct segs; discriminate E|].
    rewrite walk_path_cons2. cbv zeta. rewrite F1, F2, IH by exact F'. cbn [map rev]. rewrite <- app_assoc. reflexivity.
Qed.

Lemma encode_join caret l : join (B "/") (map (pct_encode (set_path caret)) l) = pct_encode (set_path caret) (join (B "/") l).
Proof.
  induction l as [|x l IH]; [reflexivity|]. destruct l as [|y l]; [reflexivity|]. cbn [map] in *. rewrite !join_cons2, IH, !pct_encode_app.
  destruct caret; reflexivity.
Qed.

Lemma drop_tabs_tidy s : tidy s -> drop_tabs s = s.
Proof.
  intros (H1 & H2 & H3 & _). unfold drop_tabs. induction s as [|c s IH]; [reflexivity|]. cbn [filter].
  rewrite IH; [|intros I; apply H1; right; exact I|intros I; apply H2; right; exact I|intros I; apply H3; right; exact I].
  destruct (beq_spec c x09) as [->|]; [exfalso; apply H1; left; reflexivity|]. destruct (beq_spec c x0a) as [->|]; [exfalso; apply H2; left; reflexivity|].
  destruct (beq_spec c x0d) as [->|]; [exfalso; apply H3; left; reflexivity|]. reflexivity.
Qed.

Lemma tidy_slash s : tidy s -> tidy ("/" :: s).
Proof.
  intros (H1 & H2 & H3 & H4). repeat split; try (intros [E|I]; [discriminate E|auto]).
  intros [|x p] c E; cbn [app] in E; injection E; [intros _ <-; vm_compute; reflexivity|]. intros E' <-. exact (H4 p c E').
Qed.

Lemma trim_end_tidy s : tidy s -> trim_end s = s.
Proof.
  intros (_ & _ & _ & H). destruct s as [|c s _] using rev_ind; [reflexivity|]. apply trim_end_last. apply (H s c). reflexivity.
Qed.

Lemma url_parse_split d s p r : tidy s -> split_path ("/" :: s) = (p, r) ->
  u_path (url_parse d s) = walk_path (d_path_caret d) [] (split_segments (tl p)).
Proof.
  intros T E. unfold url_parse. rewrite trim_end_tidy, drop_tabs_tidy by (apply tidy_slash; exact T). rewrite E.
  destruct r as [|c r]; [reflexivity|]. destruct (beq c "?"); [|reflexivity]. destruct (split_once "#" r). reflexivity.
Qed.

Lemma split_segments_eq s : ~ In "\" s -> split_segments s = split_on "/" s.
Proof.
  intros H. unfold split_segments. f_equal. rewrite <- (map_id s) at 2. apply map_ext_in. intros b Hb. destruct (beq_spec b "\") as [->|]; [contradiction|reflexivity].
Qed.

Lemma walk_spec caret s : ~ In "\" s -> no_dot_segment s -> walk_path caret [] (split_segments s) = pct_encode (set_path caret) ("/" :: s).
Proof.
  intros Hb Hd. rewrite split_segments_eq by exact Hb.
  assert (F : Forall (fun s => is_dot (pct_encode (set_path caret) s) = false /\ is_dotdot (pct_encode (set_path caret) s) = false) (split_on "/" s)).
  { apply Forall_forall. intros x Hx. assert (S : segment s x).
    { exists (split_on "/" s). split; [apply glued_iff; symmetry; apply (join_split_on "/")|]. split; [apply split_on_no_sep|exact Hx]. }
    destruct (Hd x (pct_decode x) S) as [D1 D2]; [apply unescaped_iff; reflexivity|].
    rewrite <- (pct_decode_encode (set_path caret) x) in D1, D2 by apply path_set_ok. split.
    - destruct (is_dot _) eqn:E; [|reflexivity]. apply dot_decodes in E. contradiction.
    - destruct (is_dotdot _) eqn:E; [|reflexivity]. apply dotdot_decodes in E. contradiction. }
  pose proof (join_split_on "/" s) as J. destruct (split_on "/" s) as [|last segs _] using rev_ind; [cbn in J; subst; destruct caret; reflexivity|].
  rewrite walk_plain by exact F. rewrite render_join, app_nil_r, rev_involutive. rewrite pct_encode_cons.
  replace (set_path caret "/") with false by (destruct caret; reflexivity). cbn [app]. f_equal.
  change [pct_encode (set_path caret) last] with (map (pct_encode (set_path caret)) [last]). rewrite <- map_app, encode_join. f_equal. exact J.
Qed.

(** The part of a name before the first ['?'] or ['#']. *)
Lemma path_cut d s p r : tidy s -> s = p ++ r -> ~ In "?" p -> ~ In "#" p -> (r = [] \/ exists t, r = "?" :: t \/ r = "#" :: t) ->
  ~ In "\" p -> no_dot_segment p -> u_path (url_parse d s) = pct_encode (set_path (d_path_caret d)) ("/" :: p).
Proof.
  intros T -> N1 N2 R Hb Hd.
  assert (E : split_path ("/" :: p ++ r) = ("/" :: p, r)).
  { destruct R as [->|[t [->| ->]]].
    - rewrite app_nil_r. apply split_path_none; intros [E|I]; try discriminate E; contradiction.
    - apply (split_path_app ("/" :: p)); [intros [E|I]; [discriminate E|contradiction]|intros [E|I]; [discriminate E|contradiction]|auto].
    - apply (split_path_app ("/" :: p)); [intros [E|I]; [discriminate E|contradiction]|intros [E|I]; [discriminate E|contradiction]|auto]. }
  rewrite (url_parse_split d _ _ _ T E). cbn [tl]. apply walk_spec; assumption.
Qed.

Theorem C14_path d o tr url path query sig :
  returns (build_signed_url d o) tr (Ok url) -> url_parts url path query sig ->
  ~ In "?" (requested o) -> ~ In "#" (requested o) -> ~ In "\" (requested o) -> tidy (requested o) -> no_dot_segment (requested o) ->
  forall t, unescaped path t <-> unescaped ("/" :: requested o) t.
Proof.
  intros H P N1 N2 N3 T D t. destruct (url_ok_inv _ _ _ _ H) as (? & pre & t1 & t2 & email & verb & block & s & _ & _ & S).
  destruct (success_parts _ _ _ _ _ _ _ _ _ _ _ _ _ S P) as (-> & _ & _). unfold path_of.
  rewrite (path_cut d _ (requested o) []) by (try assumption; rewrite ?app_nil_r; auto). rewrite !unescaped_iff, pct_decode_encode by apply path_set_ok. tauto.
Qed.

(** Without escapes in the names, the path is exactly /bucket/object. *)
Theorem C14_plain_path d o tr url path query sig :
  returns (build_signed_url d o) tr (Ok url) -> url_parts url path query sig ->
  ~ In "?" (requested o) -> ~ In "#" (requested o) -> ~ In "\" (requested o) -> tidy (requested o) ->
  plain (requested o) -> (forall seg, segment (requested o) seg -> seg <> B "." /\ seg <> B "..") ->
  unescaped path (B "/" ++ o_bucket_name o ++ B "/" ++ o_object_name o).
Proof.
  intros H P N1 N2 N3 T Pl D. change (B "/" ++ o_bucket_name o ++ B "/" ++ o_object_name o) with ("/" :: requested o).
  apply (C14_path _ _ _ _ _ _ _ H P); try assumption.
  - intros seg t (l & G & F & I) U. assert (seg = t) as <-; [|apply D; exists l; auto]. apply unescaped_iff in U. rewrite U. symmetry. apply pct_decode_no_triplet.
    apply plain_iff. apply glued_iff in G. intros p q b r E Tr. destruct (in_split _ _ I) as (l1 & l2 & ->).
    assert (exists x y, requested o = x ++ (p ++ q) ++ y) as (x & y & R).
    { rewrite <- E, G. clear. revert seg. induction l1 as [|a l1 IH]; intros seg.
      - destruct l2 as [|b l2]; [exists [], []; cbn [app join]; rewrite app_nil_r; reflexivity|]. exists [], (B "/" ++ join (B "/") (b :: l2)). cbn [app]. rewrite join_cons2. reflexivity.
      - destruct (IH seg) as (x & y & E). cbn [app]. destruct (l1 ++ seg :: l2) as [|b m] eqn:Em; [destruct l1; discriminate Em|].
        rewrite join_cons2, E. exists (a ++ B "/" ++ x), y. rewrite <- !app_assoc. reflexivity. }
    destruct Tr as (h & lo & xx & yy & -> & Hx & Hy & Eb). apply (Pl (x ++ p) ("%" :: h :: lo :: r ++ y) b (r ++ y)).
    + rewrite R, <- !app_assoc. reflexivity.
    + exists h, lo, xx, yy. auto.
  - apply unescaped_iff. symmetry. apply pct_decode_no_triplet. cbn [no_triplet]. rewrite (proj1 (plain_iff _) Pl), andb_true_r. destruct (requested o) as [|a [|b r]]; reflexivity.
Qed.

(** A name with spaces, non-ASCII characters, brackets and an isolated percent sign. *)
Definition demo_named (object : str) : url_options := demo_url_with (B "bucket1") object None [] [] demo_account false.
Lemma demo_named_ok object : demo_ready (demo_named object) = true -> exists url path query sig,
  returns (build_signed_url demo_deps (demo_named object)) [] (Ok url) /\ url_parts url path query sig /\ path = u_path (url_parse demo_deps (requested (demo_named object))).
Proof.
  intros H. destruct (demo_success (demo_named object) eq_refl eq_refl eq_refl H) as [sig R]. do 4 eexists. split; [exact R|]. split; [apply url_parts_of|reflexivity].
Qed.

Definition tidy_b (s : str) : bool :=
  forallb (fun c => negb (beq c x09 || beq c x0a || beq c x0d)) s && match rev s with c :: _ => N.ltb 32 (bN c) | [] => true end.
Lemma tidy_b_ok s : tidy_b s = true -> tidy s.
Proof.
  unfold tidy_b. intros H. apply andb_true_iff in H. destruct H as [H1 H2]. rewrite forallb_forall in H1.
  repeat split; try (intros I; apply H1 in I; discriminate I). intros p c ->. rewrite rev_app_distr in H2. cbn in H2. apply N.ltb_lt in H2. exact H2.
Qed.
Definition segments_b (s : str) : bool := forallb (fun x => negb (str_eqb x (B ".")) && negb (str_eqb x (B ".."))) (split_on "/" s).
Lemma segments_b_ok s : segments_b s = true -> s <> [] -> forall seg, segment s seg -> seg <> B "." /\ seg <> B "..".
Proof.
  unfold segments_b. intros H N seg (l & G & F & I). apply glued_iff in G. subst. change (B "/") with ["/"] in *. rewrite split_on_join in H; [|intros ->; destruct I|exact F].
  rewrite forallb_forall in H. apply H in I. apply andb_true_iff in I. destruct I as [I1 I2]. apply negb_true_iff in I1, I2.
  split; intros ->; [rewrite str_eqb_refl in I1; discriminate I1|rewrite str_eqb_refl in I2; discriminate I2].
Qed.
Definition not_in_b (c : byte) (s : str) : bool := forallb (fun x => negb (beq x c)) s.
Lemma not_in_b_ok c s : not_in_b c s = true -> ~ In c s.
Proof. unfold not_in_b. intros H I. rewrite forallb_forall in H. apply H in I. rewrite beq_refl in I. discriminate I. Qed.

Example C14_case : let o := demo_named (B "a/" ++ [xc3; xa9] ++ B " [1]+%.txt") in
  (exists url path query sig, returns (build_signed_url demo_deps o) [] (Ok url) /\ url_parts url path query sig /\ path = B "/bucket1/a/%C3%A9%20[1]+%.txt") /\
  ~ In "?" (requested o) /\ ~ In "#" (requested o) /\ ~ In "\" (requested o) /\ tidy (requested o) /\ plain (requested o) /\
  (forall seg, segment (requested o) seg -> seg <> B "." /\ seg <> B "..").
Proof.
  intros o. split.
  - destruct (demo_named_ok (B "a/" ++ [xc3; xa9] ++ B " [1]+%.txt")) as (url & path & q & s & R & P & E); [vm_compute; reflexivity|].
    exists url, path, q, s. split; [exact R|]. split; [exact P|]. rewrite E. vm_compute. reflexivity.
  - do 3 (split; [apply not_in_b_ok; vm_compute; reflexivity|]). split; [apply tidy_b_ok; vm_compute; reflexivity|].
    split; [apply plain_iff; vm_compute; reflexivity|]. apply segments_b_ok; [vm_compute; reflexivity|discriminate].
Qed.

(** * C15: some names denote another object *)

(** Everything from the first ['?'] or ['#'] of the name on is missing from the path. *)
Theorem C15_cut d o tr url path query sig p c r :
  returns (build_signed_url d o) tr (Ok url) -> url_parts url path query sig ->
  requested o = p ++ c :: r -> c = "?" \/ c = "#" -> ~ In "?" p -> ~ In "#" p -> ~ In "\" p -> tidy (requested o) -> no_dot_segment p ->
  forall t, unescaped path t <-> unescaped ("/" :: p) t.
Proof.
  intros H P E C N1 N2 N3 T D t. destruct (url_ok_inv _ _ _ _ H) as (? & pre & t1 & t2 & email & verb & block & s & _ & _ & S).
  destruct (success_parts _ _ _ _ _ _ _ _ _ _ _ _ _ S P) as (-> & _ & _). unfold path_of.
  rewrite (path_cut d _ p (c :: r)); [|assumption|assumption|assumption|assumption|right; destruct C as [->| ->]; eauto|assumption|assumption].
  rewrite !unescaped_iff, pct_decode_encode by apply path_set_ok. tauto.
Qed.

(** So not every URL is for the requested object. *)
Theorem C15_refuted : ~ (forall d o tr url path query sig, returns (build_signed_url d o) tr (Ok url) -> url_parts url path query sig ->
  unescaped path (B "/" ++ o_bucket_name o ++ B "/" ++ o_object_name o)).
Proof.
  intros H. destruct (demo_named_ok (B "a#b")) as (url & path & q & s & R & P & E); [vm_compute; reflexivity|].
  specialize (H _ _ _ _ _ _ _ R P). apply unescaped_iff in H. rewrite E in H. vm_compute in H. discriminate H.
Qed.

(** Witnesses: a fragment, a query, an escape, dot segments that leave the bucket, a backslash. *)
Theorem C15_witnesses : Forall (fun '(object, path) => exists url query sig,
    returns (build_signed_url demo_deps (demo_named object)) [] (Ok url) /\ url_parts url path query sig) [
  (B "a#b", B "/bucket1/a"); (B "a?b=1", B "/bucket1/a"); (B "a%2Fb", B "/bucket1/a%2Fb"); (B "../other/x", B "/other/x");
  (B "a/./b", B "/bucket1/a/b"); (B "a\b", B "/bucket1/a/b"); (B "a ", B "/bucket1/a"); (B "%2e%2E/other/x", B "/other/x")].
Proof.
  assert (G : forall object, demo_ready (demo_named object) = true -> exists url query sig,
    returns (build_signed_url demo_deps (demo_named object)) [] (Ok url) /\ url_parts url (u_path (url_parse demo_deps (requested (demo_named object)))) query sig).
  { intros object H. destruct (demo_named_ok object H) as (url & path & q & s & R & P & ->). eauto. }
  repeat (constructor; [match goal with |- exists url query sig, returns (build_signed_url _ (demo_named ?x)) _ _ /\ url_parts _ ?p _ _ =>
    let E := fresh in pose proof (G x) as E; replace (u_path (url_parse demo_deps (requested (demo_named x)))) with p in E by (vm_compute; reflexivity);
    apply E; vm_compute; reflexivity end|]). constructor.
Qed.

Example C15_case : exists url path query sig, returns (build_signed_url demo_deps (demo_named (B "a#b"))) [] (Ok url) /\ url_parts url path query sig /\
  requested (demo_named (B "a#b")) = B "bucket1/a" ++ "#" :: B "b" /\ tidy (requested (demo_named (B "a#b"))) /\ path = B "/bucket1/a".
Proof.
  destruct (demo_named_ok (B "a#b")) as (url & path & q & s & R & P & E); [vm_compute; reflexivity|].
  exists url, path, q, s. split; [exact R|]. split; [exact P|]. split; [reflexivity|]. split; [apply tidy_b_ok; vm_compute; reflexivity|]. rewrite E. vm_compute. reflexivity.
Qed.

(** * C51: the characters of the URL *)

Definition uc (c : byte) : bool := existsb (beq c) uri_characters.
Lemma uc_iff c : uc c = true <-> In c uri_characters.
Proof.
  unfold uc. rewrite existsb_exists. split; [intros (x & I & E); apply beq_eq in E; congruence|intros H; exists c; split; [exact H|apply beq_refl]].
Qed.
Lemma uc_all s : Forall (fun c => In c uri_characters) s <-> forallb uc s = true.
Proof. rewrite Forall_forall, forallb_forall. split; intros H c Hc; [apply uc_iff|apply uc_iff]; auto. Qed.

Lemma uc_ascii c : uc c = true -> N.ltb (bN c) 128 = true.
Proof. revert c. apply sweep_impl. vm_compute. reflexivity. Qed.

Lemma uc_lossy s : forallb uc s = true -> utf8_lossy s = s.
Proof.
  intros H. apply utf8_lossy_valid_id. apply utf8_valid_ascii. apply Forall_forall. intros b Hb. rewrite forallb_forall in H. apply N.ltb_lt. apply uc_ascii. auto.
Qed.

Lemma uc_encode s : forallb uc s = true -> forallb uc (percent_encode s) = true.
Proof.
  intros H. apply pct_encode_bytes; [reflexivity|apply (HEXD_sweep uc); vm_compute; reflexivity|]. intros b Hb _. rewrite forallb_forall in H. auto.
Qed.

Lemma uc_join sep l : uc sep = true -> Forall (fun s => forallb uc s = true) l -> forallb uc (join [sep] l) = true.
Proof.
  intros H F. apply forallb_forall. intros x Hx. apply in_glue in Hx. destruct Hx as [->|(s & Hs & Hx)]; [exact H|].
  rewrite Forall_forall in F. specialize (F s Hs). rewrite forallb_forall in F. auto.
Qed.

Lemma walk_bytes (P : byte -> Prop) caret segs : P "/" -> forall done, (forall s, In s done -> Forall P s) ->
  (forall s, In s segs -> Forall P (pct_encode (set_path caret) s)) -> Forall P (walk_path caret done segs).
Proof.
  intros Ps. assert (R : forall done last, (forall s, In s done -> Forall P s) -> Forall P last -> Forall P (render_path done last)).
  { intros done last Hd Hl. rewrite render_join. constructor; [exact Ps|]. apply Forall_forall. intros x Hx. change (B "/") with ["/"] in Hx. apply in_glue in Hx.
    destruct Hx as [->|(s & Hs & Hx)]; [exact Ps|]. assert (F : Forall P s); [|rewrite Forall_forall in F; auto].
    apply in_app_or in Hs. destruct Hs as [Hs|[<-|[]]]; [apply Hd; apply in_rev; exact Hs|exact Hl]. }
  assert (Q : forall done, (forall s, In s done -> Forall P s) -> forall s, In s (pop_segment done) -> Forall P s).
  { intros done Hd s. destruct done as [|x r]; [intros []|]. cbn [pop_segment]. destruct (is_drive x); intros Hs; apply Hd; [exact Hs|right; exact Hs]. }
  induction segs as [|s segs IH]; intros done Hd Hs; [apply R; [exact Hd|constructor]|]. destruct segs as [|s2 segs].
  - cbn [walk_path]. destruct (is_dotdot _); [apply R; [apply Q; exact Hd|constructor]|]. destruct (is_dot _); [apply R; [exact Hd|constructor]|].
    apply R; [exact Hd|apply Hs; left; reflexivity].
  - rewrite walk_path_cons2. cbv zeta. apply IH; [|intros x Hx; apply Hs; right; exact Hx].
    destruct (is_dotdot _); [apply Q; exact Hd|]. destruct (is_dot _); [exact Hd|]. intros x [<-|Hx]; [apply Hs; left; reflexivity|auto].
Qed.

Lemma drop_while_incl f s : incl (drop_while f s) s.
Proof.
  induction s as [|c s IH]; cbn [drop_while]; [intros x []|]. destruct (f c); [intros x Hx; right; apply IH; exact Hx|apply incl_refl].
Qed.
Lemma trim_end_incl s : incl (trim_end s) s.
Proof. unfold trim_end. intros x Hx. apply in_rev in Hx. apply drop_while_incl in Hx. apply in_rev. exact Hx. Qed.
Lemma drop_tabs_incl s : incl (drop_tabs s) s.
Proof. unfold drop_tabs. intros x Hx. apply filter_In in Hx. tauto. Qed.

Lemma split_on_incl sep s p : In p (split_on sep s) -> incl p s.
Proof.
  revert p. induction s as [|c s IH]; intros p; cbn [split_on]; [intros [<-|[]]; apply incl_refl|].
  destruct (beq c sep).
  - intros [<-|Hp]; [intros x []|]. intros x Hx. right. exact (IH p Hp x Hx).
  - destruct (split_on sep s) as [|y l] eqn:E; [intros [<-|[]] x [<-|[]]; left; reflexivity|].
    intros [<-|Hp]; [|intros x Hx; right; apply (IH p); [right; exact Hp|exact Hx]].
    intros x [<-|Hx]; [left; reflexivity|right; apply (IH y); [left; reflexivity|exact Hx]].
Qed.

(** A byte that neither a percent-escape nor a slash brings in does not appear in the path. *)
Lemma path_avoids d s c : ~ In c s -> c <> "/" -> c <> "%" -> (forall n, (n < 16)%N -> HEXD n <> c) -> ~ In c (u_path (url_parse d s)).
Proof.
  intros H N1 N2 N3. assert (W : forall p, ~ In c p -> Forall (fun x => x <> c) (walk_path (d_path_caret d) [] (split_segments p))).
  { intros p Hp. apply walk_bytes; [congruence|intros ? []|]. intros x Hx. unfold split_segments in Hx. apply split_on_incl in Hx.
    assert (Nx : ~ In c x). { intros I. apply Hx in I. apply in_map_iff in I. destruct I as (y & E & I). destruct (beq y "\"); [congruence|]. subst. contradiction. }
    clear - Nx N2 N3. induction x as [|a x IH]; [constructor|]. rewrite pct_encode_cons.
    assert (Ha : a <> c) by (intros ->; apply Nx; left; reflexivity). assert (Hx : ~ In c x) by (intros I; apply Nx; right; exact I). specialize (IH Hx).
    destruct (set_path _ a); cbn [pct app]; repeat constructor; try assumption; try congruence; apply N3; pose proof (bN_lt a); lia. }
  unfold url_parse. destruct (split_path _) as [p r] eqn:E.
  assert (Hp : ~ In c (tl p)).
  { pose proof (split_path_spec (drop_tabs (trim_end ("/" :: s)))) as S. rewrite E in S. destruct S as [S _]. intros I.
    assert (I' : In c ("/" :: s)). { apply trim_end_incl. apply drop_tabs_incl. rewrite S. apply in_or_app. left. destruct p; [destruct I|right; exact I]. }
    destruct I' as [I'|I']; [congruence|contradiction]. }
  specialize (W _ Hp). rewrite Forall_forall in W. destruct r as [|x r]; [intros I; exact (W c I eq_refl)|].
  destruct (beq x "?"); [|intros I; exact (W c I eq_refl)]. destruct (split_once "#" r). intros I. exact (W c I eq_refl).
Qed.

Lemma path_uri d o : ~ In "|" (requested o) -> ~ In "^" (requested o) -> forallb uc (path_of d o) = true.
Proof.
  intros H1 H2. apply forallb_forall. intros c Hc. pose proof (path_ok_bytes _ _ (path_of_ok d o)) as Hb. rewrite forallb_forall in Hb. specialize (Hb c Hc).
  assert (N1 : c <> "|"). { intros ->. revert Hc. apply path_avoids; [exact H1|discriminate|discriminate|]. intros n Hn E.
    pose proof (HEXD_sweep (fun c => negb (beq c "|")) eq_refl n Hn) as G. cbv beta in G. rewrite E in G. discriminate G. }
  assert (N2 : c <> "^"). { intros ->. revert Hc. apply path_avoids; [exact H2|discriminate|discriminate|]. intros n Hn E.
    pose proof (HEXD_sweep (fun c => negb (beq c "^")) eq_refl n Hn) as G. cbv beta in G. rewrite E in G. discriminate G. }
  assert (G : path_byte (d_path_caret d) c && negb (beq c "|") && negb (beq c "^") = true).
  { rewrite Hb. destruct (beq_spec c "|") as [->|]; [congruence|]. destruct (beq_spec c "^") as [->|]; [congruence|]. reflexivity. }
  destruct (d_path_caret d); revert G; revert c Hc Hb N1 N2; intros c _ _ _ _; revert c; apply sweep_impl; vm_compute; reflexivity.
Qed.

Lemma uc_replace_slash s : forallb uc s = true -> forallb uc (replace_slash s) = true.
Proof.
  unfold replace_slash. induction s as [|c s IH]; [reflexivity|]. cbn [forallb flat_map]. intros H. apply andb_true_iff in H. destruct H as [H1 H2].
  rewrite forallb_app, (IH H2). destruct (beq c "/"); [reflexivity|]. cbn [forallb]. rewrite H1. reflexivity.
Qed.

Lemma own_query_none d o : ~ In "?" (requested o) -> own_query d o = [].
Proof.
  intros N. unfold own_query, raw_query, url_parse. destruct (split_path _) as [p r] eqn:E. destruct r as [|c r]; [reflexivity|].
  destruct (beq_spec c "?") as [->|]; [|reflexivity]. exfalso. pose proof (split_path_spec (drop_tabs (trim_end ("/" :: requested o)))) as S. rewrite E in S.
  destruct S as [S _]. assert (I : In "?" ("/" :: requested o)). { apply trim_end_incl. apply drop_tabs_incl. rewrite S. apply in_or_app. right. left. reflexivity. }
  destruct I as [I|I]; [discriminate I|contradiction].
Qed.

Lemma uc_lower s : forallb uc s = true -> forallb uc (ascii_lower s) = true.
Proof.
  rewrite ascii_lower_eq. unfold lower_str. induction s as [|c s IH]; [reflexivity|]. cbn [map forallb]. intros H. apply andb_true_iff in H. destruct H as [H1 H2].
  rewrite (IH H2), andb_true_r. clear - H1. revert c H1. apply (sweep_impl uc (fun c => uc (lower c))). vm_compute. reflexivity.
Qed.

(** With clean names, parameters, region, header names and authorizer, every character is an RFC 3986 one. *)
Theorem C51_characters d o tr url : deps_ok d -> returns (build_signed_url d o) tr (Ok url) ->
  ~ In "?" (requested o) -> ~ In "|" (requested o) -> ~ In "^" (requested o) ->
  Forall (fun kv => Forall (fun c => In c uri_characters) (fst kv) /\ Forall (fun c => In c uri_characters) (snd kv)) (o_query_parameters o) ->
  Forall (fun c => In c uri_characters) (region_of o) ->
  Forall (fun h => Forall (fun c => In c uri_characters) (fst h)) (o_headers o) ->
  exists t1 t2 t3 email, tr = t1 ++ t2 ++ t3 /\ authorized (o_signing_key o) t2 email /\
    (Forall (fun c => In c uri_characters) email -> Forall (fun c => In c uri_characters) url).
Proof.
  intros D H N1 N2 N3 Q R Hh. destruct (url_ok_inv _ _ _ _ H) as (t & pre & t1 & t2 & email & verb & block & sig & T & -> & S).
  exists pre, t1, t2, email. split; [reflexivity|]. split; [apply (authorizer_ok d); apply (sc_auth _ _ _ _ _ _ _ _ _ _ S)|]. intros Em.
  rewrite (sc_url _ _ _ _ _ _ _ _ _ _ S). apply uc_all in R, Em. apply uc_all. unfold url_of. rewrite !forallb_app.
  rewrite path_uri by assumption.
  assert (X : forallb uc (hex_encode sig) = true).
  { apply forallb_forall. intros c Hc. pose proof (hex_sig sig) as F. rewrite Forall_forall in F. apply F in Hc. revert c Hc. apply Forall_forall. repeat constructor. }
  rewrite X. rewrite !andb_true_r. replace (forallb uc origin) with true by (vm_compute; reflexivity). cbn [andb]. apply andb_true_iff. split; [reflexivity|].
  unfold sorted_query. change (B "&") with ["&"]. apply uc_join; [reflexivity|]. apply Forall_forall. intros s Hs.
  apply (proj1 (sort_in _ _)) in Hs. apply in_map_iff in Hs. destruct Hs as (kv & <- & Hk). unfold pairs_of, own_pairs in Hk. rewrite own_query_none in Hk by exact N1.
  cbn [form_parse split_on filter map app] in Hk. apply in_map_iff in Hk. destruct Hk as (x & <- & Hx).
  assert (G : forallb uc (fst x) = true /\ forallb uc (snd x) = true).
  { apply in_app_or in Hx. destruct Hx as [Hx|Hx].
    - rewrite Forall_forall in Q. specialize (Q x Hx). rewrite !uc_all in Q. exact Q.
    - assert (Hd : forall s, forallb date_byte s = true -> forallb uc s = true) by (intros s; apply forallb_impl; apply sweep_impl; vm_compute; reflexivity).
      assert (V : in_years t) by (apply (sc_valid _ _ _ _ _ _ _ _ _ _ S)).
      destruct Hx as [<-|[<-|[<-|[<-|[<-|[]]]]]]; cbn [fst snd]; (split; [vm_compute; reflexivity|]).
      + destruct (o_signing_key o); vm_compute; reflexivity.
      + apply uc_replace_slash. unfold scope_of. rewrite !forallb_app, Em, R, (Hd _ (day_bytes t)). vm_compute. reflexivity.
      + apply Hd. apply iso_bytes. exact V.
      + unfold expiration_to_string. assert (0 <= lifetime o t)%Z. { destruct (sc_valid _ _ _ _ _ _ _ _ _ _ S) as (_ & [Ho _] & _). unfold lifetime. apply Z.div_pos; lia. }
        destruct (Z.ltb_spec (lifetime o t) 0); [lia|]. apply forallb_forall. intros c Hc. pose proof (dec_digits (Z.to_N (lifetime o t))) as F. rewrite Forall_forall in F.
        generalize (F c Hc). clear. revert c. apply sweep_impl. vm_compute. reflexivity.
      + rewrite (names_text d o). change (B ";") with [";"]. apply uc_join; [reflexivity|]. apply Forall_forall. intros n Hn. apply (name_list_in d D o) in Hn.
        unfold values in Hn. destruct (str_eqb_spec n (B "host")) as [Nh|Nh]; [rewrite Nh; vm_compute; reflexivity|]. cbn [app] in Hn.
        destruct (filter _ (o_headers o)) as [|h r] eqn:Ef; [contradiction|].
        assert (I : In h (filter (fun h => str_eqb (ascii_lower (fst h)) n) (o_headers o))) by (rewrite Ef; left; reflexivity).
        apply filter_In in I. destruct I as [I E]. apply str_eqb_eq in E. subst n. apply uc_lower. apply uc_all. rewrite Forall_forall in Hh. auto. }
  destruct G as [G1 G2]. unfold enc_pair, lossy2. cbn [fst snd]. rewrite !forallb_app, !uc_lossy, !uc_encode by assumption. reflexivity.
Qed.

Example C51_case : let o := demo_url_with (B "bucket1") (B "a/" ++ [xc3; xa9] ++ B " {b}") (Some (B "us")) [(B "X-A", B "1")] [(B "q", B "x&y=1+1")] demo_account false in
  deps_ok demo_deps /\ (exists url, returns (build_signed_url demo_deps o) [] (Ok url)) /\
  ~ In "?" (requested o) /\ ~ In "|" (requested o) /\ ~ In "^" (requested o) /\
  Forall (fun kv => Forall (fun c => In c uri_characters) (fst kv) /\ Forall (fun c => In c uri_characters) (snd kv)) (o_query_parameters o) /\
  Forall (fun c => In c uri_characters) (region_of o) /\ Forall (fun h => Forall (fun c => In c uri_characters) (fst h)) (o_headers o).
Proof.
  intros o. split; [exact demo_deps_ok|]. split; [destruct (demo_success o eq_refl eq_refl eq_refl) as [s R]; [vm_compute; reflexivity|eauto]|].
  do 3 (split; [apply not_in_b_ok; vm_compute; reflexivity|]). split; [constructor; [split; apply uc_all; vm_compute; reflexivity|constructor]|].
  split; [apply uc_all; vm_compute; reflexivity|]. constructor; [apply uc_all; vm_compute; reflexivity|constructor].
Qed.

(** In general it is not: a parameter value with a space and a newline is copied. *)
Theorem C51_refuted : ~ (forall d o tr url, deps_ok d -> returns (build_signed_url d o) tr (Ok url) -> Forall (fun c => In c uri_characters) url).
Proof.
  intros H. set (o := demo_url_with (B "bucket1") (B "a") None [] [(B "q", B "a b" ++ [x0a])] demo_account false).
  destruct (demo_success o eq_refl eq_refl eq_refl) as [sig R]; [vm_compute; reflexivity|]. specialize (H _ _ _ _ demo_deps_ok R). apply uc_all in H.
  unfold url_of in H. rewrite !forallb_app in H. repeat (apply andb_true_iff in H; destruct H as [? H]).
  match goal with X : forallb uc (sorted_query _) = true |- _ => vm_compute in X; discriminate X end.
Qed.

(** Every parameter appears as name=value with only the reserved characters escaped. *)
Theorem C51_copied d o tr url path query sig k v : returns (build_signed_url d o) tr (Ok url) -> url_parts url path query sig ->
  In (k, v) (o_query_parameters o) -> utf8_valid k = true -> utf8_valid v = true ->
  exists k' v', escaped k k' /\ escaped v v' /\ query_piece query (k' ++ B "=" ++ v').
Proof.
  intros H P I Uk Uv. destruct (url_ok_inv _ _ _ _ H) as (t & pre & t1 & t2 & email & verb & block & s & _ & _ & S).
  destruct (success_parts _ _ _ _ _ _ _ _ _ _ _ _ _ S P) as (_ & -> & _).
  exists (percent_encode k), (percent_encode v). split; [apply escaped_iff; reflexivity|]. split; [apply escaped_iff; reflexivity|].
  replace (percent_encode k ++ B "=" ++ percent_encode v) with (enc_pair (lossy2 (k, v))).
  - apply sorted_query_piece. unfold pairs_of. apply in_or_app. right. apply in_map. apply in_or_app. left. exact I.
  - unfold enc_pair, lossy2. cbn [fst snd]. rewrite !utf8_lossy_valid_id by assumption. reflexivity.
Qed.
