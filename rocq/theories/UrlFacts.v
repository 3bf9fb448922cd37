(** Lemmas about [url_parse], [uri_parse] and header names. *)
From Verif Require Import Base BaseFacts FormUrl FormUrlFacts Keys Url.
Local Open Scope byte_scope.

(** * Bytes *)

Definition seg_byte (caret : bool) (b : byte) : bool := negb (set_path caret b) && negb (beq b "/") && negb (beq b "\").
Definition path_byte (caret : bool) (b : byte) : bool := negb (set_path caret b) && negb (beq b "\").
Definition query_byte (b : byte) : bool := negb (set_query b).

Lemma sweep_impl (P Q : byte -> bool) :
  forallb (fun n => implb (P (nb (N.of_nat n))) (Q (nb (N.of_nat n)))) (seq 0 256) = true -> forall b, P b = true -> Q b = true.
Proof. intros H b Hb. pose proof (byte_sweep (fun b => implb (P b) (Q b)) H b) as E. cbv beta in E. rewrite Hb in E. exact E. Qed.

Lemma forallb_impl (P Q : byte -> bool) s : (forall b, P b = true -> Q b = true) -> forallb P s = true -> forallb Q s = true.
Proof. intros H. rewrite !forallb_forall. auto. Qed.

Lemma forallb_not_in (P : byte -> bool) c s : P c = false -> forallb P s = true -> ~ In c s.
Proof. intros Hc H I. rewrite forallb_forall in H. rewrite (H c I) in Hc. discriminate Hc. Qed.

Lemma path_byte_uri caret b : path_byte caret b = true -> uri_path_byte b = true.
Proof. destruct caret; revert b; apply sweep_impl; reflexivity. Qed.
Lemma query_byte_uri b : query_byte b = true -> uri_query_byte b = true.
Proof. revert b; apply sweep_impl; reflexivity. Qed.
Definition visible (b : byte) : bool := N.ltb 32 (bN b) && N.ltb (bN b) 127.
Lemma path_byte_visible caret b : path_byte caret b = true -> visible b = true.
Proof. destruct caret; revert b; apply sweep_impl; reflexivity. Qed.
Lemma query_byte_visible b : query_byte b = true -> visible b = true.
Proof. revert b; apply sweep_impl; reflexivity. Qed.
Lemma seg_path_byte caret b : seg_byte caret b = true -> path_byte caret b = true.
Proof. unfold seg_byte, path_byte. intros H. apply andb_true_iff in H. destruct H as [H H']. apply andb_true_iff in H. destruct H as [H _]. rewrite H, H'. reflexivity. Qed.
Lemma form_byte_query b : form_byte b = true -> query_byte b = true.
Proof. revert b. apply sweep_impl. reflexivity. Qed.

(** * Trimming *)

Lemma drop_tabs_visible s : forallb visible s = true -> drop_tabs s = s.
Proof.
  induction s as [|b s IH]; [reflexivity|]. cbn [forallb]. intros H. apply andb_true_iff in H. destruct H as [H1 H2].
  unfold drop_tabs in *. cbn [filter]. rewrite IH by exact H2.
  assert (E : negb (beq b x09 || beq b x0a || beq b x0d) = true); [|rewrite E; reflexivity].
  revert H1. revert b. apply sweep_impl. reflexivity.
Qed.

Lemma trim_end_last s c : (32 < bN c)%N -> trim_end (s ++ [c]) = s ++ [c].
Proof.
  intros H. unfold trim_end. rewrite rev_app_distr. cbn [rev app drop_while].
  destruct (N.leb_spec (bN c) 32); [lia|]. cbn [rev]. rewrite rev_involutive. reflexivity.
Qed.

Lemma trim_end_visible s : forallb visible s = true -> trim_end s = s.
Proof.
  destruct s as [|c s _] using rev_ind; [reflexivity|]. intros H. apply trim_end_last.
  rewrite forallb_app in H. apply andb_true_iff in H. destruct H as [_ H]. cbn [forallb] in H. rewrite andb_true_r in H.
  unfold visible in H. apply andb_true_iff in H. destruct H as [H _]. apply N.ltb_lt in H. exact H.
Qed.

(** * Splitting *)

Lemma split_path_none s : ~ In "?" s -> ~ In "#" s -> split_path s = (s, []).
Proof.
  induction s as [|c s IH]; intros H1 H2; [reflexivity|]. cbn [split_path].
  destruct (beq_spec c "?") as [->|]; [exfalso; apply H1; left; reflexivity|].
  destruct (beq_spec c "#") as [->|]; [exfalso; apply H2; left; reflexivity|].
  cbn [orb]. rewrite IH; [reflexivity| |]; intros I; [apply H1|apply H2]; right; exact I.
Qed.

Lemma split_path_app s c r : ~ In "?" s -> ~ In "#" s -> c = "?" \/ c = "#" -> split_path (s ++ c :: r) = (s, c :: r).
Proof.
  intros H1 H2 Hc. induction s as [|x s IH]; cbn [split_path app].
  - destruct Hc as [->| ->]; reflexivity.
  - destruct (beq_spec x "?") as [->|]; [exfalso; apply H1; left; reflexivity|].
    destruct (beq_spec x "#") as [->|]; [exfalso; apply H2; left; reflexivity|].
    cbn [orb]. rewrite IH; [reflexivity| |]; intros I; [apply H1|apply H2]; right; exact I.
Qed.

Lemma split_path_spec s : let '(p, r) := split_path s in
  s = p ++ r /\ ~ In "?" p /\ ~ In "#" p /\ (r = [] \/ exists t, r = "?" :: t \/ r = "#" :: t).
Proof.
  induction s as [|c s IH]; cbn [split_path].
  - repeat split; auto.
  - destruct (beq_spec c "?") as [->|N1]; [repeat split; eauto|]. destruct (beq_spec c "#") as [->|N2]; [repeat split; eauto|].
    cbn [orb]. destruct (split_path s) as [p r]. destruct IH as (-> & H1 & H2 & H3). repeat split; [| |exact H3].
    + intros [E|I]; [congruence|contradiction].
    + intros [E|I]; [congruence|contradiction].
Qed.

(** * Paths *)

Definition clean (caret : bool) (s : str) : Prop :=
  forallb (seg_byte caret) s = true /\ is_dot s = false /\ is_dotdot s = false.
Definition path_ok (caret : bool) (p : str) : Prop :=
  exists done last, p = render_path done last /\ Forall (clean caret) done /\ clean caret last.

Lemma clean_nil caret : clean caret [].
Proof. repeat split. Qed.

Definition plain_seg (s : str) : Prop := ~ In "/" s /\ ~ In "\" s.

Lemma HEXD_seg caret n : (n < 16)%N -> seg_byte caret (HEXD n) = true.
Proof. destruct caret; revert n; apply (HEXD_sweep (seg_byte _)); reflexivity. Qed.

Lemma encode_seg caret s : plain_seg s -> forallb (seg_byte caret) (pct_encode (set_path caret) s) = true.
Proof.
  intros [H1 H2]. apply pct_encode_bytes; [destruct caret; reflexivity|apply HEXD_seg|].
  intros b Hb E. unfold seg_byte. rewrite E. destruct (beq_spec b "/") as [->|]; [contradiction|]. destruct (beq_spec b "\") as [->|]; [contradiction|]. reflexivity.
Qed.

Lemma pop_clean caret done : Forall (clean caret) done -> Forall (clean caret) (pop_segment done).
Proof. intros H. destruct done as [|x done]; [constructor|]. cbn [pop_segment]. destruct (is_drive x); [exact H|]. inversion H; assumption. Qed.

Lemma walk_ok caret segs : Forall plain_seg segs -> forall done, Forall (clean caret) done -> path_ok caret (walk_path caret done segs).
Proof.
  induction segs as [|s segs IH]; intros HS done HD.
  - exists done, []. split; [reflexivity|]. split; [exact HD|apply clean_nil].
  - inversion HS as [|? ? Hs HS']; subst. pose proof (encode_seg caret s Hs) as HE.
    assert (Step : Forall (clean caret) (if is_dotdot (pct_encode (set_path caret) s) then pop_segment done
       else if is_dot (pct_encode (set_path caret) s) then done else pct_encode (set_path caret) s :: done)).
    { destruct (is_dotdot _) eqn:E2; [apply pop_clean; exact HD|]. destruct (is_dot _) eqn:E1; [exact HD|].
      constructor; [split; [exact HE|split; assumption]|exact HD]. }
    destruct segs as [|s2 segs].
    + cbn [walk_path]. destruct (is_dotdot _) eqn:E2; [eexists _, _; split; [reflexivity|]; split; [exact Step|apply clean_nil]|].
      destruct (is_dot _) eqn:E1; [eexists _, _; split; [reflexivity|]; split; [exact Step|apply clean_nil]|].
      exists done, (pct_encode (set_path caret) s). split; [reflexivity|]. split; [exact HD|]. split; [exact HE|split; assumption].
    + apply (IH HS'). exact Step.
Qed.

Lemma split_segments_plain s : Forall plain_seg (split_segments s).
Proof.
  unfold split_segments. pose proof (split_on_no_sep "/" (map (fun b => if beq b "\" then "/" else b) s)) as H.
  assert (H2 : Forall (fun p => incl p (map (fun b => if beq b "\" then "/" else b) s)) (split_on "/" (map (fun b => if beq b "\" then "/" else b) s))).
  { generalize (map (fun b => if beq b "\" then "/" else b) s). intros t. induction t as [|c t IH]; cbn [split_on].
    - constructor; [intros x []|constructor].
    - destruct (beq c "/").
      + constructor; [intros x []|]. eapply Forall_impl; [|exact IH]. intros p Hp x Hx. right. apply Hp. exact Hx.
      + destruct (split_on "/" t) as [|x l]; [constructor; [intros y [->|[]]; left; reflexivity|constructor]|].
        inversion IH as [|? ? I1 I2]; subst. constructor.
        * intros y [->|Hy]; [left; reflexivity|right; apply I1; exact Hy].
        * eapply Forall_impl; [|exact I2]. intros p Hp y Hy. right. apply Hp. exact Hy. }
  rewrite Forall_forall in *. intros p Hp. split; [apply H; exact Hp|]. intros I. apply (H2 p Hp) in I. apply in_map_iff in I.
  destruct I as (b & E & _). destruct (beq_spec b "\"); [discriminate E|congruence].
Qed.

Lemma render_join done last : render_path done last = "/" :: join (B "/") (rev done ++ [last]).
Proof.
  unfold render_path. f_equal. induction (rev done) as [|x l IH]; [reflexivity|]. cbn [flat_map app].
  destruct (l ++ [last]) as [|y m] eqn:E; [destruct l; discriminate E|]. rewrite join_cons2, <- IH, <- !app_assoc. reflexivity.
Qed.

Lemma walk_path_cons2 caret done s s2 segs : walk_path caret done (s :: s2 :: segs) =
  let e := pct_encode (set_path caret) s in
  walk_path caret (if is_dotdot e then pop_segment done else if is_dot e then done else e :: done) (s2 :: segs).
Proof. reflexivity. Qed.

Lemma walk_clean caret segs last done : Forall (clean caret) segs -> clean caret last ->
  walk_path caret done (segs ++ [last]) = render_path (rev segs ++ done) last.
Proof.
  assert (Enc : forall s, clean caret s -> pct_encode (set_path caret) s = s).
  { intros s (H & _). apply pct_encode_id. revert H. apply forallb_impl. intros b. unfold seg_byte. intros H. apply andb_true_iff in H.
    destruct H as [H _]. apply andb_true_iff in H. tauto. }
  revert done. induction segs as [|s segs IH]; intros done HS HL.
  - cbn [app walk_path rev]. rewrite (Enc _ HL). destruct HL as (_ & E1 & E2). rewrite E1, E2. reflexivity.
  - inversion HS as [|? ? Hs HS']; subst. cbn [app]. destruct (segs ++ [last]) as [|y m] eqn:E; [destruct segs; discriminate E|].
    rewrite walk_path_cons2. cbv zeta. rewrite (Enc _ Hs). destruct Hs as (_ & E1 & E2). rewrite E1, E2. rewrite IH by assumption.
    cbn [rev]. rewrite <- app_assoc. reflexivity.
Qed.

Lemma in_glue (l : list str) sep x : In x (join [sep] l) -> x = sep \/ exists s, In s l /\ In x s.
Proof.
  induction l as [|s l IH]; [intros []|]. destruct l as [|s2 l].
  - cbn [join]. intros H. right. exists s. split; [left; reflexivity|exact H].
  - rewrite join_cons2. intros H. apply in_app_or in H. destruct H as [H|H]; [right; exists s; split; [left; reflexivity|exact H]|].
    destruct H as [<-|H]; [left; reflexivity|]. apply IH in H. destruct H as [->|(t & H1 & H2)]; [left; reflexivity|right; exists t; split; [right; exact H1|exact H2]].
Qed.

Lemma path_ok_bytes caret p : path_ok caret p -> forallb (path_byte caret) p = true.
Proof.
  intros (done & last & -> & HD & HL). rewrite render_join. apply forallb_forall. intros x [<-|Hx]; [destruct caret; reflexivity|].
  change (B "/") with ["/"] in Hx. apply in_glue in Hx. destruct Hx as [->|(s & H1 & H2)]; [destruct caret; reflexivity|].
  apply seg_path_byte. assert (C : clean caret s).
  { apply in_app_or in H1. destruct H1 as [H1|[<-|[]]]; [|exact HL]. apply in_rev in H1. rewrite Forall_forall in HD. auto. }
  destruct C as [C _]. rewrite forallb_forall in C. auto.
Qed.

Lemma path_ok_head caret p : path_ok caret p -> exists r, p = "/" :: r.
Proof. intros (done & last & -> & _). unfold render_path. eauto. Qed.

Lemma rewalk caret p : path_ok caret p -> walk_path caret [] (split_segments (tl p)) = p.
Proof.
  intros H. pose proof (path_ok_bytes _ _ H) as HB. destruct H as (done & last & -> & HD & HL). rewrite render_join in *. cbn [tl].
  unfold split_segments.
  assert (E : forall s, forallb (path_byte caret) s = true -> map (fun b => if beq b "\" then "/" else b) s = s).
  { induction s as [|b s IH]; [reflexivity|]. cbn [forallb map]. intros H. apply andb_true_iff in H. destruct H as [H1 H2].
    rewrite IH by exact H2. destruct (beq_spec b "\") as [->|]; [exfalso; destruct caret; discriminate H1|reflexivity]. }
  rewrite E. 2:{ cbn [forallb] in HB. apply andb_true_iff in HB. tauto. }
  change (B "/") with ["/"]. rewrite split_on_join.
  - rewrite walk_clean; [|apply Forall_rev; exact HD|exact HL]. rewrite rev_involutive, app_nil_r. apply render_join.
  - destruct (rev done); discriminate.
  - assert (X : forall s, clean caret s -> ~ In "/" s) by (intros s [C _]; apply (forallb_not_in (seg_byte caret)); [destruct caret; reflexivity|exact C]).
    apply Forall_app. split; [|constructor; [auto|constructor]]. apply Forall_rev. eapply Forall_impl; [|exact HD]. exact X.
Qed.

(** * Queries *)

Lemma encode_query q : forallb query_byte (pct_encode set_query q) = true.
Proof.
  apply pct_encode_bytes; [reflexivity|apply (HEXD_sweep query_byte); reflexivity|]. intros b _ E. unfold query_byte. rewrite E. reflexivity.
Qed.

Lemma encode_query_id q : forallb query_byte q = true -> pct_encode set_query q = q.
Proof. intros H. apply pct_encode_id. exact H. Qed.

Lemma append_pair_bytes q kv : forallb query_byte q = true -> forallb query_byte (append_pair q kv) = true.
Proof.
  intros H. unfold append_pair. rewrite !forallb_app, H. assert (X : forall s, forallb query_byte (form_serialize s) = true).
  { intros s. eapply forallb_impl; [apply form_byte_query|apply form_serialize_bytes]. }
  rewrite !X. destruct q; reflexivity.
Qed.

Lemma append_pairs_bytes l q : forallb query_byte q = true -> forallb query_byte (fold_left append_pair l q) = true.
Proof. revert q. induction l as [|kv l IH]; intros q H; [exact H|]. cbn [fold_left]. apply IH. apply append_pair_bytes. exact H. Qed.

(** * Parsing *)

Definition raw_query (u : url) : str := unwrap_or (u_query u) [].
Definition fragment_text (u : url) : str := match u_fragment u with Some f => "#" :: f | None => [] end.

Lemma url_parse_ok d s : path_ok (d_path_caret d) (u_path (url_parse d s)) /\ forallb query_byte (raw_query (url_parse d s)) = true.
Proof.
  unfold url_parse. destruct (split_path _) as [p r]. assert (W : path_ok (d_path_caret d) (walk_path (d_path_caret d) [] (split_segments (tl p)))).
  { apply walk_ok; [apply split_segments_plain|constructor]. }
  destruct r as [|c t]; [split; [exact W|reflexivity]|]. destruct (beq c "?"); [|split; [exact W|reflexivity]].
  destruct (split_once "#" t) as [q f]. split; [exact W|]. apply encode_query.
Qed.

Definition too_long (p q f : str) : bool := N.ltb 65534 (N.of_nat (length (origin ++ p ++ "?" :: q ++ f))).

Lemma path_no_mark caret p : path_ok caret p -> ~ In "?" p /\ ~ In "#" p.
Proof. intros H. apply path_ok_bytes in H. split; (apply (forallb_not_in (path_byte caret)); [destruct caret; reflexivity|exact H]). Qed.

Lemma query_no_hash q : forallb query_byte q = true -> ~ In "#" q.
Proof. apply forallb_not_in. reflexivity. Qed.

Lemma uri_parse_url caret p q f : path_ok caret p -> forallb query_byte q = true ->
  uri_parse (p ++ "?" :: q ++ match f with Some f => "#" :: f | None => [] end) =
  if too_long p q (match f with Some f => "#" :: f | None => [] end) then None else Some {| uri_path := p; uri_query := Some q |}.
Proof.
  intros HP HQ. unfold uri_parse, too_long. destruct (N.ltb 65534 _); [reflexivity|].
  destruct (path_no_mark _ _ HP) as [N1 N2]. rewrite split_path_app by auto.
  rewrite (forallb_impl (path_byte caret) uri_path_byte p) by (first [apply path_byte_uri|apply path_ok_bytes; exact HP]). cbn [negb].
  change (beq "?" "?") with true. cbv iota.
  assert (E : split_once "#" (q ++ match f with Some f => "#" :: f | None => [] end) = (q, f)).
  { pose proof (query_no_hash _ HQ). destruct f as [f|]; [apply split_once_app; assumption|rewrite app_nil_r; apply split_once_none; assumption]. }
  rewrite E. rewrite (forallb_impl query_byte uri_query_byte q) by (first [exact query_byte_uri|exact HQ]). reflexivity.
Qed.

(** Parsing a normalised URL again changes nothing. *)
Lemma url_parse_again d p q : path_ok (d_path_caret d) p -> forallb query_byte q = true ->
  url_parse d (tl (uri_rest {| uri_path := p; uri_query := Some q |})) = {| u_path := p; u_query := Some q; u_fragment := None |}.
Proof.
  intros HP HQ. unfold uri_rest. cbn [uri_path uri_query]. destruct (path_ok_head _ _ HP) as [r E].
  assert (V : forallb visible (p ++ "?" :: q) = true).
  { rewrite forallb_app. cbn [forallb]. rewrite (forallb_impl (path_byte (d_path_caret d)) visible p) by (first [apply path_byte_visible|apply path_ok_bytes; exact HP]).
    rewrite (forallb_impl query_byte visible q) by (first [exact query_byte_visible|exact HQ]). reflexivity. }
  destruct (path_no_mark _ _ HP) as [N1 N2]. unfold url_parse.
  assert (E2 : "/" :: tl (p ++ "?" :: q) = p ++ "?" :: q) by (rewrite E; reflexivity).
  rewrite E2. rewrite trim_end_visible, drop_tabs_visible by exact V. rewrite split_path_app by auto.
  change (beq "?" "?") with true. cbv iota. rewrite split_once_none by (apply query_no_hash; exact HQ).
  rewrite rewalk by exact HP. rewrite encode_query_id by exact HQ. reflexivity.
Qed.
