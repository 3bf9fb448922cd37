(** What a server reads from the query of a signed URL. *)
From Coq Require Import Sorted Permutation.
From Verif Require Import Base BaseFacts Utf8 FormUrl FormUrlFacts Sha256 SpecCodec CodecFacts Time TimeFacts SpecCalendar SpecPolicy SpecForm FormFacts
  Effects EffectsFacts Keys Scope Url SignedUrl UrlFacts SpecUrl UrlSpecFacts SpecToken SpecTrace SpecSign SignFacts SignedUrlFacts HeaderFacts
  HtmlForm Calls Demo UrlResult.
Local Open Scope byte_scope.

(** * UTF-8 and the replacement of slashes *)

Lemma cont_high b lo hi : in_range lo hi b = true -> (128 <= lo)%N -> (128 <= bN b)%N.
Proof. unfold in_range. intros H L. apply andb_true_iff in H. destruct H as [H _]. apply N.leb_le in H. lia. Qed.

Lemma utf8_first_shape s : fst (utf8_first s) = true -> s <> [] ->
  (exists b r, s = b :: r /\ (bN b < 128)%N /\ snd (utf8_first s) = 1%nat) \/ Forall (fun b => (128 <= bN b)%N) (firstn (snd (utf8_first s)) s).
Proof.
  unfold utf8_first. destruct s as [|b0 r]; [congruence|]. intros H _. revert H.
  destruct (N.ltb_spec (bN b0) 128) as [E0|E0]; [intros _; left; eauto|]. intros H. right. revert H.
  assert (C : forall b, is_cont b = true -> (128 <= bN b)%N) by (intros b Hb; eapply cont_high; [exact Hb|lia]).
  destruct (in_range 194 223 b0) eqn:E1.
  { destruct r as [|b1 r]; [discriminate|]. destruct (is_cont b1) eqn:C1; [|discriminate]. intros _. cbn [snd firstn]. repeat constructor; auto. }
  destruct (in_range 224 239 b0) eqn:E2.
  { destruct r as [|b1 r]; [discriminate|]. cbv zeta.
    destruct (if N.eqb (bN b0) 224 then in_range 160 191 b1 else if N.eqb (bN b0) 237 then in_range 128 159 b1 else is_cont b1) eqn:C1; [|discriminate].
    destruct r as [|b2 r]; [discriminate|]. destruct (is_cont b2) eqn:C2; [|discriminate]. intros _. cbn [snd firstn]. repeat constructor; auto.
    destruct (N.eqb (bN b0) 224); [eapply cont_high; [exact C1|lia]|]. destruct (N.eqb (bN b0) 237); [eapply cont_high; [exact C1|lia]|auto]. }
  destruct (in_range 240 244 b0) eqn:E3; [|discriminate].
  destruct r as [|b1 r]; [discriminate|]. cbv zeta.
  destruct (if N.eqb (bN b0) 240 then in_range 144 191 b1 else if N.eqb (bN b0) 244 then in_range 128 143 b1 else is_cont b1) eqn:C1; [|discriminate].
  destruct r as [|b2 r]; [discriminate|]. destruct (is_cont b2) eqn:C2; [|discriminate].
  destruct r as [|b3 r]; [discriminate|]. destruct (is_cont b3) eqn:C3; [|discriminate]. intros _. cbn [snd firstn]. repeat constructor; auto.
  destruct (N.eqb (bN b0) 240); [eapply cont_high; [exact C1|lia]|]. destruct (N.eqb (bN b0) 244); [eapply cont_high; [exact C1|lia]|auto].
Qed.

Lemma replace_slash_app a b : replace_slash (a ++ b) = replace_slash a ++ replace_slash b.
Proof. apply flat_map_app. Qed.

Lemma replace_slash_id s : ~ In "/" s -> replace_slash s = s.
Proof.
  induction s as [|c s IH]; intros H; [reflexivity|]. cbn [replace_slash flat_map]. destruct (beq_spec c "/") as [->|]; [exfalso; apply H; left; reflexivity|].
  fold (replace_slash s). rewrite IH; [reflexivity|]. intros I. apply H. right. exact I.
Qed.

Lemma replace_slash_valid s : utf8_valid s = true -> utf8_valid (replace_slash s) = true.
Proof.
  induction s as [|s Hs IH] using utf8_ind; [reflexivity|]. intros H. rewrite utf8_valid_step in H by exact Hs. apply andb_true_iff in H.
  destruct H as [Hok Hr]. rewrite <- (firstn_skipn (snd (utf8_first s)) s) at 1. rewrite replace_slash_app, utf8_valid_app; [apply IH; exact Hr|].
  destruct (utf8_first_shape s Hok Hs) as [(b & r & -> & Hb & ->)|F].
  - cbn [firstn replace_slash flat_map]. destruct (beq b "/"); [reflexivity|]. cbn [app]. rewrite utf8_valid_cons by exact Hb. reflexivity.
  - rewrite replace_slash_id; [apply utf8_valid_firstn; assumption|]. intros I. rewrite Forall_forall in F. apply F in I. vm_compute in I. apply I. reflexivity.
Qed.

Lemma replace_slash_encode s : replace_slash s = pct_encode (fun b => beq b "/") s.
Proof.
  unfold replace_slash, pct_encode. apply flat_map_ext. intros b. destruct (beq_spec b "/") as [->|]; reflexivity.
Qed.

Lemma replace_slash_decode s : pct_decode (replace_slash s) = pct_decode s.
Proof. rewrite replace_slash_encode. apply pct_decode_encode. reflexivity. Qed.

(** * Plain texts *)

Lemma no_triplet_cut a c b : c <> "%" -> unhexd c = None -> no_triplet (a ++ c :: b) = (no_triplet a && no_triplet b)%bool.
Proof.
  intros N U. induction a as [|x a IH].
  - cbn [app no_triplet andb]. replace (is_triplet (c :: b)) with false; [reflexivity|]. unfold is_triplet. destruct b as [|h [|l r]]; try reflexivity.
    destruct (beq_spec c "%"); [congruence|reflexivity].
  - cbn [app no_triplet]. rewrite IH, andb_assoc. f_equal. f_equal. f_equal. unfold is_triplet.
    destruct a as [|h [|l a]]; cbn [app].
    + destruct b as [|l b]; [reflexivity|]. rewrite U. apply andb_false_r.
    + destruct (unhexd h); [|apply andb_false_r]. rewrite U. apply andb_false_r.
    + reflexivity.
Qed.

Lemma plain_join a c b : c <> "%" -> unhexd c = None -> (plain (a ++ c :: b) <-> plain a /\ plain b).
Proof. intros N U. rewrite !plain_iff, no_triplet_cut by assumption. apply andb_true_iff. Qed.

Lemma plain_no_percent s : ~ In "%" s -> plain s.
Proof. intros H p q b r -> (h & l & x & y & -> & _). apply H. apply in_or_app. right. left. reflexivity. Qed.

Lemma plain_unescaped s t : plain s -> (unescaped s t <-> t = s).
Proof. intros H. rewrite unescaped_iff, pct_decode_no_triplet by (apply plain_iff; exact H). tauto. Qed.

(** * Own parameters *)

Lemma encode_keeps_out set c s : forallb (fun n => negb (beq (HEXD (N.of_nat n)) c)) (seq 0 16) = true -> c <> "%" -> ~ In c s -> ~ In c (pct_encode set s).
Proof.
  intros Hx Np N I. assert (F : forallb (fun b => negb (beq b c)) (pct_encode set s) = true).
  { apply pct_encode_bytes.
    - destruct (beq_spec "%" c); [congruence|reflexivity].
    - intros n Hn. rewrite forallb_forall in Hx. specialize (Hx (N.to_nat n)). rewrite N2Nat.id in Hx. apply Hx. apply in_seq. lia.
    - intros b Hb _. destruct (beq_spec b c); [subst; contradiction|reflexivity]. }
  rewrite forallb_forall in F. apply F in I. rewrite beq_refl in I. discriminate I.
Qed.

Lemma split_on_encode q : split_on "&" (pct_encode set_query q) = map (pct_encode set_query) (split_on "&" q).
Proof.
  rewrite <- (join_split_on "&" q) at 1.
  assert (E : forall l, pct_encode set_query (join ["&"] l) = join ["&"] (map (pct_encode set_query) l)).
  { induction l as [|x l IH]; [reflexivity|]. destruct l as [|y l]; [reflexivity|]. cbn [map] in *. rewrite !join_cons2, !pct_encode_app, IH. reflexivity. }
  rewrite E. apply split_on_join; [intros X; apply map_eq_nil in X; exact (split_on_nonempty _ _ X)|].
  apply Forall_forall. intros x Hx. apply in_map_iff in Hx. destruct Hx as (y & <- & Hy). pose proof (split_on_no_sep "&" q) as F. rewrite Forall_forall in F.
  apply encode_keeps_out; [reflexivity|discriminate|auto].
Qed.

Lemma split_once_encode p : split_once "=" (pct_encode set_query p) =
  (pct_encode set_query (fst (split_once "=" p)), option_map (pct_encode set_query) (snd (split_once "=" p))).
Proof.
  pose proof (split_once_spec "=" p) as S. destruct (split_once "=" p) as [k [v|]]; destruct S as [-> N]; cbn [fst snd option_map].
  - rewrite pct_encode_app. change (pct_encode set_query ("=" :: v)) with ("=" :: pct_encode set_query v). apply split_once_app.
    apply encode_keeps_out; [reflexivity|discriminate|exact N].
  - apply split_once_none. apply encode_keeps_out; [reflexivity|discriminate|exact N].
Qed.

Lemma form_raw_encode s : form_raw (pct_encode set_query s) = form_raw s.
Proof.
  unfold form_raw. rewrite <- (pct_decode_encode set_query (replace_plus (pct_encode set_query s))), <- (pct_decode_encode set_query (replace_plus s)) by reflexivity.
  f_equal. induction s as [|b s IH]; [reflexivity|]. rewrite pct_encode_cons, replace_plus_app, pct_encode_app, IH.
  change (replace_plus (b :: s)) with ((if beq b "+" then " " else b) :: replace_plus s). rewrite pct_encode_cons. f_equal.
  pose proof (byte_sweep (fun b => str_eqb (pct_encode set_query (replace_plus (if set_query b then pct b else [b])))
    (if set_query (if beq b "+" then " " else b) then pct (if beq b "+" then " " else b) else [if beq b "+" then " " else b])) ltac:(vm_compute; reflexivity) b) as G.
  apply str_eqb_eq in G. exact G.
Qed.

Lemma form_read_encode q : form_read (pct_encode set_query q) = form_read q.
Proof.
  unfold form_read. rewrite split_on_encode. induction (split_on "&" q) as [|p l IH]; [reflexivity|]. cbn [map filter].
  assert (E : nonempty (pct_encode set_query p) = nonempty p).
  { destruct p as [|c p]; [reflexivity|]. rewrite pct_encode_cons. unfold pct. destruct (set_query c); reflexivity. }
  rewrite E. destruct (nonempty p); [|exact IH]. cbn [map]. rewrite IH. f_equal. unfold read_piece. rewrite split_once_encode.
  destruct (split_once "=" p) as [k [v|]]; cbn [fst snd option_map unwrap_or]; rewrite !form_raw_encode; reflexivity.
Qed.

(** The first of ['?'] and ['#'], if any, is a ['#']. *)
Definition no_query (s : str) : Prop := ~ In "?" s \/ exists p f, s = p ++ "#" :: f /\ ~ In "?" p.

Lemma no_query_prefix a b : no_query (a ++ b) -> no_query a.
Proof.
  intros [H|(p & f & E & N)]; [left; intros I; apply H; apply in_or_app; auto|].
  apply app_eq_app in E. destruct E as (l & [[-> E]|[-> E]]).
  - destruct l as [|c l]; [rewrite app_nil_r; left; exact N|]. cbn [app] in E. injection E as <- _. right. eauto.
  - left. intros I. apply N. apply in_or_app. auto.
Qed.

Lemma no_query_filter g s : g "#" = true -> no_query s -> no_query (filter g s).
Proof.
  intros G [H|(p & f & -> & N)]; [left; intros I; apply filter_In in I; tauto|]. right. rewrite filter_app. cbn [filter]. rewrite G.
  eexists. eexists. split; [reflexivity|]. intros I. apply filter_In in I. tauto.
Qed.

Lemma trim_end_prefix s : exists t, s = trim_end s ++ t.
Proof.
  unfold trim_end. assert (D : forall f l, exists t, l = t ++ drop_while f l).
  { intros f l. induction l as [|c l [t IH]]; [exists []; reflexivity|]. cbn [drop_while]. destruct (f c); [exists (c :: t); cbn [app]; congruence|exists []; reflexivity]. }
  destruct (D (fun b => N.leb (bN b) 32) (rev s)) as [t E]. exists (rev t). rewrite <- rev_app_distr, <- E, rev_involutive. reflexivity.
Qed.

Lemma no_query_own d s : no_query s -> raw_query (url_parse d s) = [].
Proof.
  intros H. assert (H1 : no_query ("/" :: s)).
  { destruct H as [H|(p & f & -> & N)]; [left; intros [E|I]; [discriminate E|contradiction]|right]. exists ("/" :: p), f. split; [reflexivity|].
    intros [E|I]; [discriminate E|contradiction]. }
  destruct (trim_end_prefix ("/" :: s)) as [t E]. rewrite E in H1. apply no_query_prefix in H1.
  apply (no_query_filter (fun b => negb (beq b x09 || beq b x0a || beq b x0d))) in H1; [|reflexivity]. fold (drop_tabs (trim_end ("/" :: s))) in H1.
  unfold url_parse. destruct (split_path (drop_tabs (trim_end ("/" :: s)))) as [p r] eqn:Es.
  pose proof (split_path_spec (drop_tabs (trim_end ("/" :: s)))) as S. rewrite Es in S. destruct S as (Ed & N1 & N2 & _). rewrite Ed in H1.
  destruct r as [|c r]; [reflexivity|]. destruct (beq_spec c "?") as [->|]; [|reflexivity]. exfalso.
  destruct H1 as [H1|(a & f & X & N)]; [apply H1; apply in_or_app; right; left; reflexivity|].
  apply app_eq_app in X. destruct X as (l & [[-> X]|[-> X]]).
  - destruct l as [|c l]; cbn [app] in X; injection X; [discriminate|]. intros _ E1. apply N2. apply in_or_app. right. left. congruence.
  - destruct l as [|c l]; cbn [app] in X; injection X; [discriminate|]. intros _ E1. apply N. apply in_or_app. right. left. congruence.
Qed.

Lemma filter_all_true {A} (g : A -> bool) l : (forall x, In x l -> g x = true) -> filter g l = l.
Proof.
  induction l as [|x l IH]; intros H; [reflexivity|]. cbn [filter]. rewrite (H x) by (left; reflexivity). f_equal. apply IH. intros y Hy. apply H. right. exact Hy.
Qed.

Lemma own_pairs_spec d o own : own_parameters (requested o) own ->
  Forall (fun kv => utf8_valid (fst kv) = true /\ utf8_valid (snd kv) = true) own -> own_pairs d o = own.
Proof.
  intros H F. unfold own_pairs, own_query. assert (Z : form_parse [] = []) by reflexivity.
  inversion H as [N|p f E N|p q f own' T E N1 N2 N3 Hf Q]; subst.
  - rewrite no_query_own by (left; exact N). exact Z.
  - rewrite no_query_own by (right; eauto). exact Z.
  - apply form_query_iff in Q. subst own. unfold raw_query, url_parse.
    assert (T' : tidy ("/" :: requested o)).
    { destruct T as (H1 & H2 & H3 & H4). repeat split; try (intros [E1|I]; [discriminate E1|auto]).
      intros [|x y] c E1; cbn [app] in E1; injection E1; [intros _ <-; vm_compute; reflexivity|]. intros E' <-. exact (H4 y c E'). }
    assert (trim_end ("/" :: requested o) = "/" :: requested o) as ->.
    { destruct T' as (_ & _ & _ & T4). destruct (@exists_last _ ("/" :: requested o)) as (y & c & E1); [discriminate|]. rewrite E1. apply trim_end_last. exact (T4 y c E1). }
    assert (drop_tabs ("/" :: requested o) = "/" :: requested o) as ->.
    { destruct T' as (T1 & T2 & T3 & _). unfold drop_tabs. apply filter_all_true. intros x Hx. destruct (beq_spec x x09) as [->|]; [contradiction|].
      destruct (beq_spec x x0a) as [->|]; [contradiction|]. destruct (beq_spec x x0d) as [->|]; [contradiction|]. reflexivity. }
    rewrite E. replace ("/" :: p ++ "?" :: q ++ f) with (("/" :: p) ++ "?" :: q ++ f) by reflexivity.
    rewrite split_path_app; [|intros [E1|I]; [discriminate E1|contradiction]|intros [E1|I]; [discriminate E1|contradiction]|auto].
    change (beq "?" "?") with true. cbv iota.
    assert (S : fst (split_once "#" (q ++ f)) = q).
    { destruct Hf as [->|[t ->]]; [rewrite app_nil_r, split_once_none by exact N3; reflexivity|rewrite split_once_app by exact N3; reflexivity]. }
    destruct (split_once "#" (q ++ f)) as [q' f']. cbn [fst] in S. subst q'. cbn [u_query unwrap_or].
    rewrite form_parse_read, form_read_encode. rewrite <- (map_id (form_read q)) at 2. apply map_ext_in. intros kv Hk. rewrite Forall_forall in F.
    destruct (F kv Hk) as [F1 F2]. unfold lossy2. rewrite !utf8_lossy_valid_id by assumption. destruct kv; reflexivity.
Qed.

(** * Reading the whole query *)

Definition decode2 (kv : str * str) : str * str := (pct_decode (fst kv), pct_decode (snd kv)).

Lemma form_raw_escaped s : form_raw (percent_encode s) = pct_decode s.
Proof.
  unfold form_raw. rewrite replace_plus_id by (apply percent_encode_avoids; reflexivity). apply percent_encode_decode.
Qed.

Lemma sorted_pieces l : exists l', Permutation l l' /\ str_sort (map enc_pair l) = map enc_pair l'.
Proof.
  destruct (Permutation_map_inv enc_pair (l1 := str_sort (map enc_pair l)) l) as (l' & E & P); [apply sort_perm|].
  exists l'. split; [exact P|]. exact E.
Qed.

Lemma query_read l sig : Forall (fun c => In c hex_alphabet) sig ->
  Permutation (form_read (sorted_query l ++ B "&X-Goog-Signature=" ++ sig)) (map decode2 (l ++ [(B "X-Goog-Signature", sig)])).
Proof.
  intros Hs. destruct (sorted_pieces l) as (l' & P & E). unfold sorted_query. rewrite E.
  change (B "&X-Goog-Signature=" ++ sig) with ("&" :: (B "X-Goog-Signature" ++ "=" :: sig)). rewrite form_read_app.
  assert (Hh : forall c, In c hex_alphabet -> c <> "&" /\ c <> "+" /\ c <> "%").
  { intros c Hc. repeat split; intros ->; cbn in Hc; repeat destruct Hc as [Hc|Hc]; try discriminate Hc; exact Hc. }
  rewrite Forall_forall in Hs.
  rewrite form_read_pair; [|apply (forallb_not_in (fun c => negb (beq c "&"))); reflexivity|apply (forallb_not_in (fun c => negb (beq c "="))); reflexivity|intros I; apply Hs in I; apply Hh in I; tauto].
  assert (E1 : form_read (join (B "&") (map enc_pair l')) = map decode2 l').
  { pose proof (form_read_join (map (fun kv => (percent_encode (fst kv), percent_encode (snd kv))) l')) as J. rewrite !map_map in J. cbn [fst snd] in J.
    unfold enc_pair. etransitivity; [apply J|].
    2:{ apply map_ext. intros kv. rewrite !form_raw_escaped. reflexivity. }
    apply Forall_forall. intros x Hx. apply in_map_iff in Hx. destruct Hx as (kv & <- & _). cbn [fst snd]. repeat split; apply percent_encode_avoids; reflexivity. }
  rewrite E1, map_app. apply Permutation_app; [apply Permutation_map; apply Permutation_sym; exact P|].
  cbn [map]. unfold decode2. cbn [fst snd]. unfold form_raw at 2. rewrite (replace_plus_id sig) by (intros I; apply Hs in I; apply Hh in I; tauto). reflexivity.
Qed.

(** The parameters of a successful build, as the model has them. *)
Lemma pairs_of_valid d o t email own : own_parameters (requested o) own ->
  Forall (fun kv => utf8_valid (fst kv) = true /\ utf8_valid (snd kv) = true) (own ++ o_query_parameters o) ->
  utf8_valid (region_of o) = true -> utf8_valid email = true -> in_years t -> (0 <= lifetime o t)%Z ->
  Forall (fun n => utf8_valid n = true) (name_list d o) ->
  algorithm_str (key_algorithm (o_signing_key o)) = B "GOOG4-RSA-SHA256" ->
  pairs_of d o (t / NS)%Z (lifetime o t) (lowered o) email = own ++ o_query_parameters o ++ [
    (B "X-Goog-Algorithm", B "GOOG4-RSA-SHA256");
    (B "X-Goog-Credential", replace_slash (email ++ B "/" ++ scope_of o (t / NS)%Z));
    (B "X-Goog-Date", ut_to_iso8601 (t / NS)%Z);
    (B "X-Goog-Expires", dec (Z.to_N (lifetime o t)));
    (B "X-Goog-SignedHeaders", names_of d (lowered o))].
Proof.
  intros O F R Em Y L N A. apply Forall_app in F. destruct F as [F1 F2]. unfold pairs_of. rewrite (own_pairs_spec d o own O F1). f_equal.
  rewrite map_app. f_equal.
  - rewrite <- (map_id (o_query_parameters o)) at 2. apply map_ext_in. intros kv Hk. rewrite Forall_forall in F2. destruct (F2 kv Hk) as [G1 G2].
    unfold lossy2. rewrite !utf8_lossy_valid_id by assumption. destruct kv; reflexivity.
  - assert (C : forall s, forallb clear_byte s = true -> utf8_valid s = true).
    { intros s H. apply utf8_valid_ascii. apply Forall_forall. intros b Hb. rewrite forallb_forall in H. specialize (H b Hb). apply andb_true_iff in H. destruct H as [H _]. apply N.ltb_lt in H. exact H. }
    assert (X : forall k v, forallb clear_byte k = true -> utf8_valid v = true -> lossy2 (k, v) = (k, v)).
    { intros k v Hk Hv. unfold lossy2. cbn [fst snd]. rewrite clear_lossy by exact Hk. rewrite utf8_lossy_valid_id by exact Hv. reflexivity. }
    unfold five. cbn [map]. rewrite A. unfold expiration_to_string. destruct (Z.ltb_spec (lifetime o t) 0); [lia|].
    rewrite !X; try reflexivity.
    + rewrite names_text. change (B ";") with [";"]. clear - N. induction N as [|x l H N IH]; [reflexivity|]. destruct l as [|y l]; [exact H|].
      rewrite join_cons2, utf8_valid_app by exact H. cbn [app]. rewrite utf8_valid_cons by reflexivity. exact IH.
    + apply C. apply clear_dec.
    + apply C. apply date_clear. apply iso_bytes. exact Y.
    + apply replace_slash_valid. rewrite utf8_valid_app by exact Em. change (B "/" ++ ?x) with ("/" :: x). rewrite utf8_valid_cons by reflexivity.
      unfold scope_of. rewrite utf8_valid_app by (apply C; apply date_clear; apply day_bytes). change (B "/" ++ ?x) with ("/" :: x). rewrite utf8_valid_cons by reflexivity.
      rewrite utf8_valid_app by exact R. reflexivity.
Qed.
