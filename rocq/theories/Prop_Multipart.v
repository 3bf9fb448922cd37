(** C97, C98: the octets of an upload through the image uploader's page, and what a service reads in them. *)
From Coq Require Import Permutation.
From Verif Require Import Base BaseFacts SpecUrl SpecCodec SpecPolicy HtmlForm FormFacts SpecForm Prop_Form Calls SpecServer SpecUpload Prop_Upload SpecCalendar SpecTrace SpecSign Time Effects Keys Demo Uploader SpecUploader UploaderFacts Prop_Uploader Page SpecPage Prop_Page
  Multipart SpecMultipart.
Local Open Scope byte_scope.

(** * The browser's encoding *)

Lemma normalized_spec s : crlf s (normalized s).
Proof.
  remember (length s) as n eqn:E. assert (L : (length s <= n)%nat) by lia. clear E. revert s L. induction n as [|n IH]; intros [|c r] L; cbn [length] in L; try constructor; try lia.
  destruct (beq_spec c x0d) as [->|N1].
  - destruct r as [|d r]; [apply cr_return; [discriminate|constructor]|]. cbn [length] in L. destruct (beq_spec d x0a) as [->|N2]; [apply cr_pair; apply IH; lia|].
    assert (X : normalized (x0d :: d :: r) = x0d :: x0a :: normalized (d :: r)) by (destruct d; try reflexivity; contradiction). rewrite X.
    apply cr_return; [intros t Z; congruence|]. apply IH. cbn [length]. lia.
  - cbn [normalized]. destruct (beq_spec c x0d); [contradiction|].
    destruct (beq_spec c x0a) as [->|N2]; [apply cr_feed; apply IH; lia|]. apply cr_other; [exact N1|exact N2|apply IH; lia].
Qed.
Lemma crlf_fun s t : crlf s t -> forall u, crlf s u -> u = t.
Proof.
  intros H. induction H as [|r r' H IH|r r' N H IH|r r' H IH|c r r' N1 N2 H IH]; intros u K; inversion K; subst; try congruence; try (repeat f_equal; auto; fail).
Qed.
Lemma crlf_iff s t : crlf s t <-> t = normalized s.
Proof. split; [|intros ->; apply normalized_spec]. intros H. exact (crlf_fun _ _ (normalized_spec s) _ H). Qed.

Lemma quoted_iff s t : quoted s t <-> t = escape_name s.
Proof.
  split.
  - intros H. induction H as [|r r' H IH|r r' H IH|r r' H IH|c r r' N1 N2 N3 H IH]; [reflexivity| | | |]; cbn [escape_name flat_map]; fold (escape_name r); try (rewrite IH; reflexivity).
    destruct (beq_spec c x0a); [contradiction|]. destruct (beq_spec c x0d); [contradiction|]. destruct (beq_spec c x22); [contradiction|]. rewrite IH. reflexivity.
  - intros ->. induction s as [|c s IH]; [constructor|]. cbn [escape_name flat_map]. fold (escape_name s).
    destruct (beq_spec c x0a) as [->|]; [constructor; exact IH|]. destruct (beq_spec c x0d) as [->|]; [constructor; exact IH|]. destruct (beq_spec c x22) as [->|]; [constructor; exact IH|]. constructor; assumption.
Qed.

Definition sent (f : str * str) : str * str := (escape_name (normalized (fst f)), normalized (snd f)).
Lemma submitted_iff fields form : submitted fields form <-> form = map sent fields.
Proof.
  unfold submitted. split.
  - intros H. induction H as [|[n v] [n' v'] l l' [(m & C & Q) C'] H IH]; [reflexivity|]. cbn [map]. rewrite IH. unfold sent. cbn [fst snd] in *. apply crlf_iff in C, C'. apply quoted_iff in Q. subst. reflexivity.
  - intros ->. induction fields as [|[n v] l IH]; [constructor|]. cbn [map]. constructor; [|exact IH]. unfold sent. cbn [fst snd]. split; [exists (normalized n); split; [apply crlf_iff|apply quoted_iff]; reflexivity|apply crlf_iff; reflexivity].
Qed.

Lemma escape_clean s c : In c (escape_name s) -> ~ In c [x0d; x0a; x22].
Proof. apply (quoted_clean s). apply quoted_iff. reflexivity. Qed.
Lemma escape_line s : one_line (escape_name s) /\ ~ In x22 (escape_name s).
Proof. unfold one_line. repeat split; intros I; apply escape_clean in I; apply I; cbn [In]; tauto. Qed.

(** * Delimiters *)

Lemma occurs_app w s t : occurs w t -> occurs w (s ++ t).
Proof. intros (u & v & ->). exists (s ++ u), v. rewrite <- app_assoc. reflexivity. Qed.
Lemma skip_char b c s : c <> x0d -> occurs (delimiter b) (c :: s) -> occurs (delimiter b) s.
Proof. intros N (u & v & E). destruct u as [|x u]; cbn [app] in E; [unfold delimiter in E; injection E as -> _; contradiction|]. injection E as _ E. exists u, v. exact E. Qed.
Lemma skip_line b l s : ~ In x0d l -> occurs (delimiter b) (l ++ s) -> occurs (delimiter b) s.
Proof. intros N H. induction l as [|c l IH]; [exact H|]. apply IH; [intros I; apply N; right; exact I|]. apply (skip_char _ c); [intros ->; apply N; left; reflexivity|exact H]. Qed.
Lemma skip_break b c s : c <> "-" -> occurs (delimiter b) (x0d :: x0a :: c :: s) -> occurs (delimiter b) (c :: s).
Proof.
  intros N (u & v & E). destruct u as [|x u]; cbn [app] in E; [unfold delimiter in E; cbn [app] in E; injection E as E _; contradiction|]. injection E as _ E.
  apply (skip_char _ x0a); [discriminate|]. exists u, v. exact E.
Qed.

(** The text of a part is free of the delimiter exactly if its content, on a line of its own, is. *)
Lemma part_free b p text : part_text p text -> Forall (fun l => exists c r, l = c :: r /\ c <> "-") (pt_lines p) -> (~ occurs (delimiter b) text <-> free b (pt_content p)).
Proof.
  intros [L ->] H. unfold free. assert (G : occurs (delimiter b) (flat_map (fun l => l ++ [x0d; x0a]) (pt_lines p) ++ [x0d; x0a] ++ pt_content p) <-> occurs (delimiter b) ([x0d; x0a] ++ pt_content p)); [|tauto].
  split; [|apply occurs_app]. set (tail := [x0d; x0a] ++ pt_content p). assert (T : exists c r, tail = c :: r /\ c <> "-") by (exists x0d, (x0a :: pt_content p); split; [reflexivity|discriminate]).
  clearbody tail. revert L H. generalize (pt_lines p). intros lines. induction lines as [|l lines IH]; intros L H O; [exact O|]. cbn [flat_map] in O. rewrite <- !app_assoc in O.
  inversion L as [|? ? [N1 [N2 _]] L']; subst. inversion H as [|? ? _ H']; subst. apply skip_line in O; [|exact N2]. apply IH; [exact L'|exact H'|].
  assert (X : exists c r, flat_map (fun l => l ++ [x0d; x0a]) lines ++ tail = c :: r /\ c <> "-").
  { destruct lines as [|l' lines]; [exact T|]. inversion H' as [|? ? (c & r & -> & Nc) _]; subst. cbn [flat_map app]. exists c. eexists. split; [reflexivity|exact Nc]. }
  destruct X as (c & r & X & Nc). cbn [app] in O. rewrite X in *. apply skip_break in O; assumption.
Qed.

(** * One reading *)

Lemma cut_unique (c : byte) (l l' x x' : str) : ~ In c l -> ~ In c l' -> l ++ c :: x = l' ++ c :: x' -> l = l' /\ x = x'.
Proof.
  revert l'. induction l as [|a l IH]; intros [|a' l'] N N' E; cbn [app] in E.
  - injection E as ->. auto.
  - injection E as -> _. destruct N'. left. reflexivity.
  - injection E as -> _. destruct N. left. reflexivity.
  - injection E as -> E. destruct (IH l') as [-> ->]; auto; intros I; [apply N|apply N']; right; exact I.
Qed.

Lemma part_unique p p' text : part_text p text -> part_text p' text -> p = p'.
Proof.
  destruct p as [l c], p' as [l' c']. intros [L E] [L' E']. cbn [pt_lines pt_content] in *. subst text. revert l' L' E'. induction l as [|x l IH]; intros [|x' l'] L' E'; cbn [flat_map app] in E'.
  - injection E' as ->. reflexivity.
  - inversion L' as [|? ? [N [O _]] _]; subst. destruct x' as [|a x']; [contradiction|]. cbn [app] in E'. injection E' as <- _. destruct O. left. reflexivity.
  - inversion L as [|? ? [N [O _]] _]; subst. destruct x as [|a x]; [contradiction|]. cbn [app] in E'. injection E' as -> _. destruct O. left. reflexivity.
  - inversion L as [|? ? [N [O _]] L1]; subst. inversion L' as [|? ? [N' [O' _]] L1']; subst. rewrite <- !app_assoc in E'. cbn [app] in E'. apply cut_unique in E'; [|assumption|assumption]. destruct E' as [-> E']. injection E' as E'.
    specialize (IH L1 l' L1' E'). injection IH as -> ->. reflexivity.
Qed.

Lemma delimiter_split b t t' r r' : ~ In x0d b -> ~ occurs (delimiter b) t -> ~ occurs (delimiter b) t' -> t ++ delimiter b ++ r = t' ++ delimiter b ++ r' -> t = t' /\ r = r'.
Proof.
  intros Nb. assert (G : forall t t' l r r', ~ occurs (delimiter b) t -> t = t' ++ l -> delimiter b ++ r' = l ++ delimiter b ++ r -> l = [] /\ r = r').
  { clear t t' r r'. intros t t' l r r' O -> E. destruct l as [|a l]; [split; [reflexivity|]; cbn [app] in E; apply app_inv_head in E; congruence|]. exfalso.
    apply app_eq_app in E. destruct E as (m & [[E1 E2]|[E1 E2]]).
    - destruct m as [|x m]; [apply O; exists t', []; rewrite app_nil_r in E1; rewrite app_nil_r, E1; reflexivity|]. unfold delimiter in E2. cbn [app] in E2. injection E2 as <- _.
      unfold delimiter in E1. cbn [app] in E1. injection E1 as _ E1. assert (I : In x0d (x0a :: "-" :: "-" :: b)) by (rewrite E1; apply in_or_app; right; left; reflexivity).
      repeat destruct I as [I|I]; try discriminate I. contradiction.
    - apply O. exists t', m. rewrite E1, !app_assoc. reflexivity. }
  intros O O' E. apply app_eq_app in E. destruct E as (l & [[E1 E2]|[E1 E2]]).
  - destruct (G t t' l r r' O E1 E2) as [-> ->]. rewrite app_nil_r in E1. auto.
  - destruct (G t' t l r' r O' E1 E2) as [-> ->]. rewrite app_nil_r in E1. auto.
Qed.

Lemma parts_unique b l text : ~ In x0d b -> parts_text b l text -> forall l', parts_text b l' text -> l' = l.
Proof.
  intros N H. induction H as [rest|p t l rest P O H IH]; intros l' H'.
  - remember (B "--" ++ rest) as z eqn:E. destruct H'; [reflexivity|discriminate E].
  - remember ([x0d; x0a] ++ t ++ delimiter b ++ rest) as z eqn:E. destruct H' as [rest'|p' t' l' rest' P' O' H']; [discriminate E|].
    cbn [app] in E. injection E as E. apply delimiter_split in E; [|exact N|assumption|assumption]. destruct E as [-> ->]. f_equal; [eapply part_unique; eassumption|apply IH; assumption].
Qed.

Theorem C97_unique b body form form' filename filename' type type' content content' : boundary_text b ->
  upload_read b body form filename type content -> upload_read b body form' filename' type' content' ->
  form' = form /\ filename' = filename /\ type' = type /\ content' = content.
Proof.
  intros [_ [Nb _]] (l & p & (r & -> & M) & F & (_ & X1 & X2)) (l' & p' & (r' & E & M') & F' & (_ & Y1 & Y2)). apply app_inv_head, app_inv_head in E. subst r'.
  pose proof (parts_unique _ _ _ Nb M _ M') as U. apply app_inj_tail in U. destruct U as [-> ->]. split.
  - clear - F F'. revert form' F'. induction F as [|q [n v] l form (_ & L & C) F IH]; intros form' F'; inversion F' as [|? [n' v'] ? ? (_ & L' & C') G]; subst; [reflexivity|]. rewrite (IH _ G). cbn [fst snd] in *.
    rewrite L in L'. injection L' as L'. apply app_inj_tail in L'. destruct L' as [-> _]. congruence.
  - rewrite X1 in Y1. injection Y1 as Y1 Y3. apply app_inj_tail in Y1. destruct Y1 as [-> _]. repeat split; congruence.
Qed.

(** * What is read *)

Lemma field_free b p nv text : field_part p nv -> part_text p text -> (~ occurs (delimiter b) text <-> free b (snd nv)).
Proof. intros (_ & L & <-) T. apply part_free; [exact T|]. rewrite L. constructor; [|constructor]. exists "C". eexists. split; [reflexivity|discriminate]. Qed.
Lemma file_free b p filename type content text : file_part p filename type content -> part_text p text -> (~ occurs (delimiter b) text <-> free b content).
Proof. intros (_ & L & <-) T. apply part_free; [exact T|]. rewrite L. constructor; [|constructor; [|constructor]]; exists "C"; eexists; (split; [reflexivity|discriminate]). Qed.

Lemma read_free b body form filename type content : upload_read b body form filename type content -> Forall (fun nv => free b (snd nv)) form /\ free b content.
Proof.
  intros (l & p & (rest & _ & H) & F & Fi). revert rest H. induction F as [|q nv l form Fq F IH]; intros rest H; cbn [app] in H; inversion H as [|? text ? rest' P O H']; subst.
  - split; [constructor|]. apply (file_free b _ _ _ _ _ Fi P). exact O.
  - destruct (IH _ H') as [I1 I2]. split; [|exact I2]. constructor; [|exact I1]. apply (field_free b _ _ _ Fq P). exact O.
Qed.

Definition type_text (f : file) : str := match fi_type f with [] => B "application/octet-stream" | t => t end.
Definition entry_part (filename content : str) (e : str * entry) : part :=
  let name := escape_name (normalized (fst e)) in
  match snd e with
  | EText v => {| pt_lines := [disposition name]; pt_content := normalized v |}
  | EFile f => {| pt_lines := [disposition name ++ B "; filename=" ++ [x22] ++ escape_name filename ++ [x22]; B "Content-Type: " ++ type_text f]; pt_content := content |}
  end.
Definition entry_text (filename content : str) (e : str * entry) : str :=
  flat_map (fun l => l ++ [x0d; x0a]) (pt_lines (entry_part filename content e)) ++ [x0d; x0a] ++ pt_content (entry_part filename content e).

Lemma encode_entry_text b filename content e : encode_entry b filename content e = B "--" ++ b ++ [x0d; x0a] ++ entry_text filename content e ++ [x0d; x0a].
Proof.
  destruct e as [n [v|f]]; unfold encode_entry, part_name, entry_text, entry_part, disposition, type_text; cbn [fst snd pt_lines pt_content flat_map]; rewrite <- ?app_assoc; reflexivity.
Qed.

Definition one_line_type (e : str * entry) : Prop := match snd e with EText _ => True | EFile f => one_line (fi_type f) end.
Lemma line_app s t : one_line s -> one_line t -> one_line (s ++ t).
Proof. intros [A C] [A' C']. split; intros I; apply in_app_or in I; tauto. Qed.
Lemma line_text s : forallb (fun c => negb (beq c x0d || beq c x0a)) s = true -> one_line s.
Proof. intros H. rewrite forallb_forall in H. split; intros I; apply H in I; discriminate I. Qed.
Lemma entry_part_ok filename content e : one_line_type e -> part_text (entry_part filename content e) (entry_text filename content e).
Proof.
  intros H. split; [|reflexivity]. assert (Dn : disposition (escape_name (normalized (fst e))) <> [] /\ one_line (disposition (escape_name (normalized (fst e))))).
  { split; [discriminate|]. unfold disposition. apply line_app; [apply line_text; reflexivity|]. apply line_app; [apply line_text; reflexivity|]. apply line_app; [apply escape_line|apply line_text; reflexivity]. }
  destruct e as [n [v|f]]; unfold entry_part; cbn [fst snd pt_lines] in *.
  - constructor; [exact Dn|constructor].
  - constructor; [|constructor; [|constructor]].
    + split; [discriminate|]. apply line_app; [apply Dn|]. apply line_app; [apply line_text; reflexivity|]. apply line_app; [apply line_text; reflexivity|]. apply line_app; [apply escape_line|apply line_text; reflexivity].
    + split; [discriminate|]. apply line_app; [apply line_text; reflexivity|]. unfold type_text. unfold one_line_type in H. cbn [snd] in H. destruct (fi_type f); [apply line_text; reflexivity|exact H].
Qed.

Lemma encoded b filename content l : Forall one_line_type l -> Forall (fun e => ~ occurs (delimiter b) (entry_text filename content e)) l ->
  multipart b (map (entry_part filename content) l) (encode_body b filename content l).
Proof.
  unfold encode_body. intros T H. induction l as [|e l IH]; [exists (B "--" ++ [x0d; x0a]); split; [reflexivity|constructor]|]. inversion T; subst. inversion H; subst.
  destruct IH as (rest & E & P); [assumption|assumption|]. cbn [map flat_map]. rewrite <- !app_assoc, E, encode_entry_text.
  exists ([x0d; x0a] ++ entry_text filename content e ++ delimiter b ++ rest). split; [|constructor; [apply entry_part_ok; assumption|assumption|exact P]].
  unfold delimiter. rewrite <- !app_assoc. reflexivity.
Qed.

Theorem C97_read b filename content fields f form name type : boundary_text b -> one_line (fi_type f) -> NoDup (map fst fields) -> ~ In (B "file") (map fst fields) ->
  submitted fields form -> quoted filename name -> sent_type (fi_type f) type ->
  (upload_read b (encode_body b filename content (upload_body fields f)) form name type content <-> Forall (fun nv => free b (snd nv)) form /\ free b content).
Proof.
  intros Hb Ht ND Nf Sub Q St. rewrite (upload_body_distinct _ _ ND Nf). split; [apply read_free|]. intros [F1 F2]. apply submitted_iff in Sub. apply quoted_iff in Q. subst form name.
  assert (Et : type = type_text f) by (unfold type_text; destruct St as [[E ->]|[E ->]]; [rewrite E; reflexivity|destruct (fi_type f); [contradiction|reflexivity]]). subst type.
  exists (map (entry_part filename content) (map (fun nv : str * str => (fst nv, EText (snd nv))) fields)), (entry_part filename content (B "file", EFile f)).
  assert (P1 : Forall2 field_part (map (entry_part filename content) (map (fun nv : str * str => (fst nv, EText (snd nv))) fields)) (map sent fields)).
  { rewrite map_map. clear. induction fields as [|[n v] l IH]; [constructor|]. cbn [map]. constructor; [|exact IH]. split; [apply escape_line|split; reflexivity]. }
  assert (P2 : file_part (entry_part filename content (B "file", EFile f)) (escape_name filename) (type_text f) content) by (split; [apply escape_line|split; reflexivity]).
  split; [|split; assumption]. unfold entries.
  change [entry_part filename content (B "file", EFile f)] with (map (entry_part filename content) [(B "file", EFile f)]). rewrite <- map_app. apply encoded.
  - apply Forall_app. split; [apply Forall_forall; intros e I; apply in_map_iff in I; destruct I as (x & <- & _); exact Logic.I|constructor; [exact Ht|constructor]].
  - apply Forall_app. split.
    + rewrite Forall_forall in F1. apply Forall_forall. intros e I. apply in_map_iff in I. destruct I as ([n v] & <- & I). cbn [fst snd]. apply (field_free b (entry_part filename content (n, EText v)) (sent (n, v))); [split; [apply escape_line|split; reflexivity]|apply entry_part_ok; exact Logic.I|].
      apply F1. apply in_map. exact I.
    + constructor; [|constructor]. apply (file_free b _ _ _ _ _ P2); [apply entry_part_ok; exact Ht|exact F2].
Qed.

(** * Boundaries that do not occur *)

Lemma crlf_front (w : str) : one_line w -> forall s x, crlf s (w ++ x) -> exists x', s = w ++ x' /\ crlf x' x.
Proof.
  induction w as [|c w IH]; intros [N1 N2] s x H; [exists s; auto|]. cbn [app] in H. inversion H; subst; try (destruct N1; left; reflexivity).
  match goal with K : crlf ?r (w ++ x) |- _ => destruct (IH (conj (fun I => N1 (or_intror I)) (fun I => N2 (or_intror I))) _ _ K) as (x' & -> & K') end. exists x'. auto.
Qed.
Lemma crlf_occurs w s s' : one_line w -> w <> [] -> crlf s s' -> occurs w s' -> occurs w s.
Proof.
  intros L N H (u & v & E). revert u E. induction H as [|r r' H IH|r r' K H IH|r r' H IH|c r r' N1 N2 H IH]; intros u E.
  - exists u, v. exact E.
  - destruct u as [|a [|a' u]]; cbn [app] in E.
    + destruct w as [|c w]; [contradiction|]. injection E as <- _. destruct L as [L _]. destruct L. left. reflexivity.
    + injection E as _ E. destruct w as [|c w]; [contradiction|]. injection E as <- _. destruct L as [_ L]. destruct L. left. reflexivity.
    + injection E as _ _ E. apply IH in E. apply (occurs_app _ [x0d; x0a]). exact E.
  - destruct u as [|a [|a' u]]; cbn [app] in E.
    + destruct w as [|c w]; [contradiction|]. injection E as <- _. destruct L as [L _]. destruct L. left. reflexivity.
    + injection E as _ E. destruct w as [|c w]; [contradiction|]. injection E as <- _. destruct L as [_ L]. destruct L. left. reflexivity.
    + injection E as _ _ E. apply IH in E. apply (occurs_app _ [x0d]). exact E.
  - destruct u as [|a [|a' u]]; cbn [app] in E.
    + destruct w as [|c w]; [contradiction|]. injection E as <- _. destruct L as [L _]. destruct L. left. reflexivity.
    + injection E as _ E. destruct w as [|c w]; [contradiction|]. injection E as <- _. destruct L as [_ L]. destruct L. left. reflexivity.
    + injection E as _ _ E. apply IH in E. apply (occurs_app _ [x0a]). exact E.
  - destruct u as [|a u]; cbn [app] in E.
    + assert (C : crlf (c :: r) (w ++ v)) by (rewrite <- E; constructor; assumption). apply crlf_front in C; [|exact L]. destruct C as (x' & -> & _). exists [], x'. reflexivity.
    + injection E as _ E. apply IH in E. apply (occurs_app _ [c]). exact E.
Qed.
Lemma absent_free b content : ~ occurs b content -> free b content.
Proof.
  intros N (u & v & E). apply N. unfold delimiter in E. destruct u as [|a [|a' u]]; cbn [app] in E.
  - injection E as E. exists ["-"; "-"], v. exact E.
  - injection E as _ E. discriminate E.
  - injection E as _ _ E. exists (u ++ [x0d; x0a; "-"; "-"]), v. rewrite E, <- app_assoc. reflexivity.
Qed.

Theorem C97_absent b fields form content : boundary_text b -> submitted fields form -> Forall (fun nv => ~ occurs b (snd nv)) fields -> ~ occurs b content ->
  Forall (fun nv => free b (snd nv)) form /\ free b content.
Proof.
  intros [Nb Lb] Sub F N. split; [|apply absent_free; exact N]. revert F. induction Sub as [|[n v] [n' v'] l l' [_ C] Sub IH]; intros F; [constructor|]. inversion F as [|? ? Nv F']; subst. constructor; [|auto].
  cbn [fst snd] in *. apply absent_free. intros O. apply Nv. exact (crlf_occurs _ _ _ Lb Nb C O).
Qed.

(** There is always such a boundary. *)
Theorem C97_boundary (fields : list (str * str)) (content : str) : exists b, boundary_text b /\ Forall (fun nv => ~ occurs b (snd nv)) fields /\ ~ occurs b content.
Proof.
  assert (L : forall (b s : str), (length s < length b)%nat -> ~ occurs b s) by (intros b s H (u & v & ->); rewrite !app_length in H; lia).
  set (n := S (length content + list_sum (map (fun nv : str * str => length (snd nv)) fields))). exists (repeat "x" n). split; [|split].
  - split; [discriminate|]. split; intros I; apply repeat_spec in I; discriminate I.
  - apply Forall_forall. intros nv I. apply L. rewrite repeat_length. subst n.
    assert (G : (length (snd nv) <= list_sum (map (fun nv : str * str => length (snd nv)) fields))%nat); [|lia].
    clear - I. induction fields as [|x l IH]; [destruct I|]. cbn [map list_sum fold_right]. fold (list_sum (map (fun nv : str * str => length (snd nv)) l)). destruct I as [<-|I]; [lia|specialize (IH I); lia].
  - apply L. rewrite repeat_length. subst n. lia.
Qed.

(** * Acceptance *)

Lemma one_reading b filename content fields f : boundary_text b -> one_line (fi_type f) -> NoDup (map fst fields) -> ~ In (B "file") (map fst fields) ->
  Forall (fun nv => ~ occurs b (snd nv)) fields -> ~ occurs b content ->
  (exists form name type, upload_read b (encode_body b filename content (upload_body fields f)) form name type content) /\
  forall form name type content', upload_read b (encode_body b filename content (upload_body fields f)) form name type content' -> submitted fields form /\ content' = content.
Proof.
  intros Hb Ht ND Nf Fo Fc. assert (Sub : submitted fields (map sent fields)) by (apply submitted_iff; reflexivity).
  assert (R : upload_read b (encode_body b filename content (upload_body fields f)) (map sent fields) (escape_name filename) (type_text f) content).
  { apply C97_read; try assumption; [apply quoted_iff; reflexivity| |apply (C97_absent b fields); assumption]. unfold sent_type, type_text. destruct (fi_type f); [left; auto|right; split; [discriminate|reflexivity]]. }
  split; [eauto|]. intros form name type content' R'. destruct (C97_unique _ _ _ _ _ _ _ _ _ _ Hb R R') as (-> & _ & _ & ->). auto.
Qed.

Lemma printable_line s : printable s -> one_line s.
Proof. unfold printable. intros P. rewrite Forall_forall in P. split; intros I; apply P in I; revert I; vm_compute; intuition congruence. Qed.

(** Forms of the image uploader. *)
Theorem C98_page d c mine id f fields : upload_form d c mine id (fi_size f) (fi_type f) fields -> bucket_text (c_bucket_name c) -> printable (fi_type f) -> uuid_v4_text id ->
  exists t1 t2 lookup signing email policy s, mine = VNow t1 :: VNow t2 :: lookup ++ signing /\ authorized (c_signing_key c) lookup email /\
    signed d (c_signing_key c) (c_use_sign_blob c) policy signing s /\
    forall b filename content, boundary_text b -> Forall (fun nv => ~ occurs b (snd nv)) fields -> ~ occurs b content -> N.of_nat (length content) = fi_size f ->
      let body := encode_body b filename content (upload_body fields f) in
      (exists form name type, upload_read b body form name type content) /\
      forall form name type content', upload_read b body form name type content' ->
        content' = content /\
        forall (verifies : str -> str -> str -> Prop) now, verifies email policy s -> one_line email ->
          (t2 / 1000000000 <= now < (t1 + 60 * 1000000000) / 1000000000)%Z -> upload_accepted verifies now form (N.of_nat (length content')) email policy s.
Proof.
  intros Fo Bt Pt U. destruct (C93_accepted _ _ _ _ _ _ Fo Bt Pt U) as (t1 & t2 & lookup & signing & email & policy & s & E & Au & Sg & Acc).
  exists t1, t2, lookup, signing, email, policy, s. split; [exact E|]. split; [exact Au|]. split; [exact Sg|]. intros b filename content Hb Fb Fc Len body. subst body.
  assert (X : NoDup (map fst fields) /\ ~ In (B "file") (map fst fields)).
  { destruct Fo as (x1 & x2 & x3 & x4 & x5 & x6 & x7 & x8 & x9 & x10 & x11 & x12 & X). cbn zeta in X. destruct X as (_ & -> & _). split.
    - cbn [map fst]. repeat (constructor; [cbn [In]; intuition discriminate|]). constructor.
    - cbn [map fst In]. intuition discriminate. }
  destruct X as [ND Nf]. destruct (one_reading b filename content fields f Hb (printable_line _ Pt) ND Nf Fb Fc) as [Ex Un]. split; [exact Ex|].
  intros form name type content' R. destruct (Un _ _ _ _ R) as [Sub ->]. split; [reflexivity|]. intros verifies now V [N1 N2] W. rewrite Len. apply Acc; assumption.
Qed.

(** All forms of the library, sent as the page does. *)
Theorem C98_form d calls o tr fields : last_options calls o -> returns (build d (builder_of calls)) tr (Ok fields) -> NoDup (map fst (meta_pairs calls)) ->
  exists t pre t1 t2 email policy s, build_time o t pre /\ tr = pre ++ t1 ++ t2 /\ authorized (so_signing_key o) t1 email /\
    signed d (so_signing_key o) (so_use_sign_blob o) policy t2 s /\
    forall b filename content f, boundary_text b -> one_line (fi_type f) -> Forall (fun nv => ~ occurs b (snd nv)) fields -> ~ occurs b content ->
      let body := encode_body b filename content (upload_body fields f) in
      (exists form name type, upload_read b body form name type content) /\
      forall form name type content', upload_read b body form name type content' ->
        content' = content /\ (form = fields <-> plain_fields fields) /\
        (forall (verifies : str -> str -> str -> Prop) now, verifies email policy s -> plain_fields fields ->
          (forall v n, In (B "Content-Length", v) fields -> decimal_of n v -> N.of_nat (length content) = n) ->
          (t / 1000000000 <= now < so_expiration o / 1000000000)%Z -> upload_accepted verifies now form (N.of_nat (length content)) email policy s) /\
        (forall (verifies : str -> str -> str -> Prop) now size account policy' s', upload_accepted verifies now form size account policy' s' -> plain_fields fields).
Proof.
  intros Lo H ND. destruct (C86_accepted _ _ _ _ _ Lo H ND) as (t & pre & t1 & t2 & email & policy & s & T & E & Au & Sg & _ & Acc).
  exists t, pre, t1, t2, email, policy, s. split; [exact T|]. split; [exact E|]. split; [exact Au|]. split; [exact Sg|]. intros b filename content f Hb Ht Fb Fc body. subst body.
  assert (Nf : ~ In (B "file") (map fst fields)).
  { intros I. apply in_map_iff in I. destruct I as ([n v] & En & I). cbn [fst] in En. subst n. destruct (field_names _ _ _ _ _ _ _ Lo H I) as [J|[m J]]; [|discriminate J].
    unfold documented_names in J. cbn [map In] in J. repeat destruct J as [J|J]; try discriminate J. contradiction. }
  assert (Nd : NoDup (map fst fields)) by (apply (C52_names_distinct _ _ _ _ _ Lo H); exact ND).
  destruct (one_reading b filename content fields f Hb Ht Nd Nf Fb Fc) as [Ex Un]. split; [exact Ex|].
  intros form name type content' R. destruct (Un _ _ _ _ R) as [Sub ->]. split; [reflexivity|]. split; [apply C86_browser; exact Sub|]. split.
  - intros verifies now V Pl Sz W. apply (C86_browser _ _ Sub) in Pl. subst form. apply (Acc verifies now fields [] (N.of_nat (length content))); [exact V|rewrite app_nil_r; apply Permutation_refl|constructor|exact Sz|exact W].
  - intros verifies now size account policy' s' A. exact (C86_plain _ _ _ _ _ _ Lo H Sub _ _ _ _ _ _ A).
Qed.

(** * Cases *)

Definition demo_boundary : str := B "----formdata-9f3a".
Definition occurs_b (w s : str) : bool := existsb (fun k => str_eqb (firstn (length w) (skipn k s)) w) (seq 0 (S (length s))).
Lemma occurs_b_ok w s : occurs_b w s = false -> ~ occurs w s.
Proof.
  intros H (u & v & ->). assert (X : occurs_b w (u ++ w ++ v) = true); [|congruence]. apply existsb_exists. exists (length u). split.
  - apply in_seq. rewrite app_length. lia.
  - rewrite skipn_app, skipn_all, Nat.sub_diag. cbn [app skipn]. rewrite firstn_app, firstn_all, Nat.sub_diag. cbn [firstn]. rewrite app_nil_r. apply str_eqb_refl.
Qed.
Lemma demo_boundary_ok : boundary_text demo_boundary.
Proof. split; [discriminate|apply line_text; reflexivity]. Qed.

(** A quotation mark in a name and line breaks in a value; a value that holds a boundary of its own; three octets of a file. *)
Definition demo_fields : list (str * str) := [(B "a" ++ [x22] ++ B "b", B "1" ++ x0a :: B "2"); (B "key", [x0d; x0a] ++ B "--other" ++ [x0d; x0a])].
Example C97_case : let content := [x00; x0d; x0a] in
  boundary_text demo_boundary /\ one_line (fi_type demo_upload) /\ NoDup (map fst demo_fields) /\ ~ In (B "file") (map fst demo_fields) /\
  Forall (fun nv => ~ occurs demo_boundary (snd nv)) demo_fields /\ ~ occurs demo_boundary content /\
  upload_read demo_boundary (encode_body demo_boundary (B "c.png") content (upload_body demo_fields demo_upload))
    [(B "a%22b", B "1" ++ x0d :: x0a :: B "2"); (B "key", [x0d; x0a] ++ B "--other" ++ [x0d; x0a])] (B "c.png") (B "image/png") content.
Proof.
  intros content. assert (Lt : one_line (fi_type demo_upload)) by (apply line_text; reflexivity).
  assert (ND : NoDup (map fst demo_fields)) by (repeat (constructor; [cbn; intuition discriminate|]); constructor).
  assert (Nf : ~ In (B "file") (map fst demo_fields)) by (cbn; intuition discriminate).
  assert (Fb : Forall (fun nv => ~ occurs demo_boundary (snd nv)) demo_fields) by (repeat (constructor; [apply occurs_b_ok; vm_compute; reflexivity|]); constructor).
  assert (Fc : ~ occurs demo_boundary content) by (apply occurs_b_ok; vm_compute; reflexivity).
  split; [exact demo_boundary_ok|]. split; [exact Lt|]. split; [exact ND|]. split; [exact Nf|]. split; [exact Fb|]. split; [exact Fc|].
  destruct (one_reading demo_boundary (B "c.png") content demo_fields demo_upload demo_boundary_ok Lt ND Nf Fb Fc) as [(form & name & type & R) Un]. destruct (Un _ _ _ _ R) as [Sub _].
  assert (R' : upload_read demo_boundary (encode_body demo_boundary (B "c.png") content (upload_body demo_fields demo_upload)) (map sent demo_fields) (escape_name (B "c.png")) (type_text demo_upload) content); [|exact R'].
  apply C97_read; try assumption; [exact demo_boundary_ok|apply submitted_iff; reflexivity|apply quoted_iff; reflexivity|right; split; [discriminate|reflexivity]|].
  apply (C97_absent _ demo_fields); [exact demo_boundary_ok|apply submitted_iff; reflexivity|exact Fb|exact Fc].
Qed.

(** Whoever knows the boundary can end a value and add a field: the condition of C97_read is needed. *)
Example C97_injection_case : let value := B "1" ++ [x0d; x0a] ++ B "--B" ++ [x0d; x0a] ++ disposition (B "key") ++ [x0d; x0a; x0d; x0a] ++ B "2" in
  ~ free (B "B") value /\
  exists form name type content, upload_read (B "B") (encode_body (B "B") (B "c.png") (B "3") (upload_body [(B "who", value)] demo_upload)) form name type content /\ form = [(B "who", B "1"); (B "key", B "2")].
Proof.
  intros value. split. { intros F. apply F. exists ([x0d; x0a] ++ B "1"), ([x0d; x0a] ++ disposition (B "key") ++ [x0d; x0a; x0d; x0a] ++ B "2"). reflexivity. }
  assert (X : encode_body (B "B") (B "c.png") (B "3") (upload_body [(B "who", value)] demo_upload) = encode_body (B "B") (B "c.png") (B "3") (upload_body [(B "who", B "1"); (B "key", B "2")] demo_upload)) by (vm_compute; reflexivity).
  rewrite X. destruct (one_reading (B "B") (B "c.png") (B "3") [(B "who", B "1"); (B "key", B "2")] demo_upload) as [(form & name & type & R) Un].
  - split; [discriminate|apply line_text; reflexivity].
  - apply line_text; reflexivity.
  - repeat (constructor; [cbn; intuition discriminate|]). constructor.
  - cbn. intuition discriminate.
  - repeat (constructor; [apply occurs_b_ok; vm_compute; reflexivity|]). constructor.
  - apply occurs_b_ok. vm_compute. reflexivity.
  - destruct (Un _ _ _ _ R) as [Sub _]. apply submitted_iff in Sub. exists form, name, type, (B "3"). split; [exact R|exact Sub].
Qed.

(** The case of C93 meets the hypotheses of C98_page; its values have no such boundary. *)
Example C98_case : (exists fields mine, upload_form demo_deps demo_app mine demo_id (fi_size demo_upload) (fi_type demo_upload) fields /\ bucket_text (c_bucket_name demo_app) /\ printable (fi_type demo_upload) /\ uuid_v4_text demo_id) /\
  exists fields, returns (build demo_deps (builder_of (upload_calls (Some demo_time) (B "me ""you""")))) [] (Ok fields) /\ NoDup (map fst (meta_pairs (upload_calls (Some demo_time) (B "me ""you""")))) /\
    plain_fields fields /\ Forall (fun nv => ~ occurs demo_boundary (snd nv)) fields.
Proof.
  split. { destruct C93_case as (tr & a & l & urls & fields & mine & _ & _ & _ & _ & H). exists fields, mine. exact H. }
  eexists. split; [unfold returns; vm_compute; constructor|]. split; [apply upload_distinct|]. split.
  - unfold plain_fields. repeat (apply Forall_cons; [split; [apply clean_iff; reflexivity|apply no_breaks; reflexivity]|]). apply Forall_nil.
  - repeat (apply Forall_cons; [apply occurs_b_ok; vm_compute; reflexivity|]). apply Forall_nil.
Qed.
