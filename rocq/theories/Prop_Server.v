(** Signed URLs at a server (C54, C55). *)
From Coq Require Import Sorted Permutation.
From Verif Require Import Base BaseFacts Utf8 FormUrl FormUrlFacts Sha256 SpecCodec CodecFacts SpecSha ShaFacts Time CalendarFacts TimeFacts SpecCalendar SpecPolicy SpecForm FormFacts
  Effects EffectsFacts Keys Scope Url SignedUrl UrlFacts SpecUrl UrlSpecFacts SpecToken SpecTrace SpecSign SignFacts SignedUrlFacts HeaderFacts
  HtmlForm Calls Demo UrlResult UrlQueryFacts Prop_Url Prop_UrlQuery Prop_UrlScope Prop_UrlHeaders Prop_UrlPath SpecServer.
Local Open Scope byte_scope.

(** * Encodings *)

Definition escapes (kept : byte -> bool) (c : byte) : bool := negb (kept c).

Lemma encoded_iff kept s t : encoded kept s t <-> t = pct_encode (escapes kept) s.
Proof.
  split.
  - induction 1 as [|c s t K H ->|c h l s t K Hh Hl H ->]; [reflexivity| |]; rewrite pct_encode_cons; change (escapes kept c) with (negb (kept c)); rewrite K; cbn [negb].
    + reflexivity.
    + unfold pct. pose proof (bN_lt c). rewrite HEXD_nth in Hh by lia. rewrite HEXD_nth in Hl by lia. injection Hh as <-. injection Hl as <-. reflexivity.
  - intros ->. induction s as [|c s IH]; [constructor|]. rewrite pct_encode_cons. change (escapes kept c) with (negb (kept c)). destruct (kept c) eqn:K; cbn [negb].
    + apply en_kept; assumption.
    + pose proof (bN_lt c). unfold pct. cbn [app]. apply en_escaped; [exact K|apply HEXD_nth; lia|apply HEXD_nth; lia|exact IH].
Qed.

Definition mem (c : byte) (l : str) : bool := existsb (beq c) l.
Lemma mem_iff c l : mem c l = true <-> In c l.
Proof.
  unfold mem. rewrite existsb_exists. split; [intros (x & I & E); apply beq_eq in E; congruence|intros I; exists c; split; [exact I|apply beq_refl]].
Qed.

Section Server.
Context (sv : server) (OK : server_ok sv).

Lemma sv_clear c : In c unreserved_characters -> sv_query sv c = true /\ sv_path sv c = true.
Proof. apply OK. Qed.
Lemma sv_reserved c : In c ("%" :: reserved_characters) -> sv_query sv c = false /\ sv_path sv c = false.
Proof. apply OK. Qed.

Lemma flat_map_in {A C} (f g : A -> list C) l : (forall x, In x l -> f x = g x) -> flat_map f l = flat_map g l.
Proof. induction l as [|x l IH]; intros H; [reflexivity|]. cbn [flat_map]. rewrite (H x) by (left; reflexivity). rewrite IH; [reflexivity|]. intros y Hy. apply H. right. exact Hy. Qed.

(** Parameter texts are encoded alike. *)
Lemma param_encode s : parameter_text s -> percent_encode s = pct_encode (escapes (sv_query sv)) s.
Proof.
  intros H. unfold percent_encode, pct_encode. apply flat_map_in. intros c Hc. unfold parameter_text in H. rewrite Forall_forall in H. specialize (H c Hc).
  unfold escapes. apply in_app_or in H. destruct H as [H|H].
  - rewrite (proj1 (sv_clear c H)). cbn [negb]. replace (reserved c) with false; [reflexivity|]. symmetry. revert c H Hc. clear. intros c H _. revert c H. apply Forall_forall. repeat constructor.
  - rewrite (proj1 (sv_reserved c (or_intror H))). apply reserved_iff in H. rewrite H. reflexivity.
Qed.

Lemma account_encode s : account_text s -> percent_encode (replace_slash s) = pct_encode (escapes (sv_query sv)) s.
Proof.
  induction 1 as [|c s Hc H IH]; [reflexivity|]. rewrite pct_encode_cons, <- IH. change (replace_slash (c :: s)) with ((if beq c "/" then B "%2F" else [c]) ++ replace_slash s).
  unfold percent_encode. rewrite pct_encode_app. f_equal. destruct Hc as [<-|Hc].
  - unfold escapes. replace (sv_query sv "/") with false by (symmetry; apply OK). reflexivity.
  - destruct (beq_spec c "/") as [->|_].
    { exfalso. apply mem_iff in Hc. vm_compute in Hc. discriminate Hc. }
    assert (P : parameter_text [c]) by (constructor; [exact Hc|constructor]). apply param_encode in P. unfold percent_encode in P. rewrite P, pct_encode_cons. apply app_nil_r.
Qed.

(** So are paths without the characters servers may treat differently. *)
Lemma path_encode caret s : Forall (fun c => ~ In c (B "?#%\^|")) s -> percent_encode (pct_encode (set_path caret) s) = pct_encode (escapes (sv_path sv)) s.
Proof.
  induction 1 as [|c s Hc H IH]; [reflexivity|]. rewrite !pct_encode_cons, <- IH. unfold percent_encode. rewrite pct_encode_app. f_equal.
  assert (S : (mem c (B "?#%\^|") || (mem c ("/" :: unreserved_characters) && str_eqb (pct_encode reserved (if set_path caret c then pct c else [c])) [c])
    || (mem c ("%" :: reserved_characters) || (N.leb (bN c) 32 || N.leb 127 (bN c)) || mem c (B "<>`{}")) && str_eqb (pct_encode reserved (if set_path caret c then pct c else [c])) (pct c))%bool = true).
  { clear. revert c. destruct caret; apply byte_sweep; vm_compute; reflexivity. }
  destruct (mem c (B "?#%\^|")) eqn:E0; [apply mem_iff in E0; contradiction|]. cbn [orb] in S. apply orb_true_iff in S. unfold escapes.
  destruct S as [S|S]; apply andb_true_iff in S; destruct S as [S E]; apply str_eqb_eq in E; (etransitivity; [exact E|]).
  - apply mem_iff in S. destruct S as [<-|S]; [replace (sv_path sv "/") with true by (symmetry; apply OK); reflexivity|]. rewrite (proj2 (sv_clear c S)). reflexivity.
  - apply orb_true_iff in S. destruct S as [S|S]; [apply orb_true_iff in S; destruct S as [S|S]|].
    + apply mem_iff in S. rewrite (proj2 (sv_reserved c S)). reflexivity.
    + replace (sv_path sv c) with false; [reflexivity|]. symmetry. apply OK. left. apply orb_true_iff in S. destruct S as [S|S]; apply N.leb_le in S; auto.
    + apply mem_iff in S. replace (sv_path sv c) with false; [reflexivity|]. symmetry. apply OK. right. exact S.
Qed.

End Server.

(** * Texts *)

Lemma parameter_no_percent s : parameter_text s -> ~ In "%" s.
Proof. intros H I. unfold parameter_text in H. rewrite Forall_forall in H. apply H in I. apply mem_iff in I. vm_compute in I. discriminate I. Qed.
Lemma account_no_percent s : account_text s -> ~ In "%" s.
Proof. intros H I. unfold account_text in H. rewrite Forall_forall in H. apply H in I. apply mem_iff in I. vm_compute in I. discriminate I. Qed.
Lemma parameter_account s : parameter_text s -> account_text s.
Proof. apply Forall_impl. intros c H. right. exact H. Qed.

Lemma account_low s : account_text s -> Forall (fun c => (bN c < 128)%N) s.
Proof.
  apply Forall_impl. intros c H. apply N.ltb_lt. revert c H. apply Forall_forall. repeat constructor.
Qed.
Lemma account_valid s : account_text s -> utf8_valid s = true.
Proof. intros H. apply utf8_valid_ascii. apply account_low. exact H. Qed.
Lemma parameter_valid s : parameter_text s -> utf8_valid s = true.
Proof. intros H. apply account_valid. apply parameter_account. exact H. Qed.

Lemma date_parameter s : forallb date_byte s = true -> parameter_text s.
Proof.
  intros H. apply Forall_forall. intros c Hc. rewrite forallb_forall in H. apply mem_iff.
  generalize (H c Hc). clear. revert c. apply sweep_impl. vm_compute. reflexivity.
Qed.

Lemma decimal_parameter n : parameter_text (dec n).
Proof.
  apply Forall_forall. intros c Hc. pose proof (dec_digits n) as D. rewrite Forall_forall in D. apply mem_iff. generalize (D c Hc). clear. revert c. apply sweep_impl. vm_compute. reflexivity.
Qed.

Lemma literal_text (alphabet s : str) : forallb (fun c => mem c alphabet) s = true -> Forall (fun c => In c alphabet) s.
Proof. intros H. apply Forall_forall. intros c Hc. rewrite forallb_forall in H. apply mem_iff. auto. Qed.

Lemma lower_parameter s : parameter_text s -> parameter_text (ascii_lower s).
Proof.
  intros H. rewrite ascii_lower_eq. apply Forall_forall. intros c Hc. apply in_map_iff in Hc. destruct Hc as (x & <- & Hx). unfold parameter_text in H. rewrite Forall_forall in H.
  specialize (H x Hx). apply mem_iff in H. apply mem_iff. revert x H Hx. intros x H _. revert x H. apply (sweep_impl (fun x => mem x _) (fun x => mem (lower x) _)). vm_compute. reflexivity.
Qed.

Lemma lower_token s : Forall token_character s -> Forall token_character (ascii_lower s).
Proof.
  intros H. rewrite ascii_lower_eq. apply Forall_forall. intros y Hy. apply in_map_iff in Hy. destruct Hy as (x & <- & Hx). rewrite Forall_forall in H. specialize (H x Hx).
  unfold token_character in *. apply mem_iff in H. apply mem_iff. revert x H Hx. intros x H _. revert x H. apply (sweep_impl (fun x => mem x _) (fun x => mem (lower x) _)). vm_compute. reflexivity.
Qed.

Lemma join_text (P : byte -> Prop) sep l : Forall P sep -> Forall (Forall P) l -> Forall P (join sep l).
Proof.
  intros Hs H. induction H as [|x l Hx H IH]; [constructor|]. destruct l as [|y l]; [exact Hx|]. rewrite join_cons2. apply Forall_app. split; [exact Hx|]. apply Forall_app. split; [exact Hs|exact IH].
Qed.

(** * Order *)

Lemma text_le_tail k a b : text_le (k ++ a) (k ++ b) -> text_le a b.
Proof.
  induction k as [|c k IH]; [auto|]. intros [H|H].
  - inversion H; subst; [lia|]. apply IH. left. assumption.
  - injection H as H. apply IH. right. exact H.
Qed.

Lemma text_le_pair k v k' v' : ~ In "=" k -> ~ In "=" k' -> ~ proper_prefix k k' -> ~ proper_prefix k' k ->
  text_le (k ++ B "=" ++ v) (k' ++ B "=" ++ v') -> pair_le (k, v) (k', v').
Proof.
  intros N N' P P' H. assert (L : text_le k k').
  { eapply named_le; [exact H|exists v; auto|exists v'; auto|exact P|exact P']. }
  destruct L as [L| ->]; [left; exact L|]. right. split; [reflexivity|]. cbn [snd]. apply text_le_tail in H. apply (text_le_tail (B "=")). exact H.
Qed.

(** Encoded names are prefixes of each other only if the names are. *)
Lemma encode_prefix a b : parameter_text a -> parameter_text b -> proper_prefix (percent_encode a) (percent_encode b) -> proper_prefix a b.
Proof.
  intros Ha. revert b. induction Ha as [|x a Hx Ha IH]; intros b Hb (c & r & E).
  - destruct b as [|y b]; [discriminate E|]. exists y, b. reflexivity.
  - destruct Hb as [|y b Hy Hb].
    { unfold percent_encode in E. rewrite pct_encode_cons in E. unfold pct in E. destruct (reserved x); discriminate E. }
    unfold percent_encode in E. rewrite !pct_encode_cons in E.
    assert (X : x = y /\ exists c r, percent_encode b = percent_encode a ++ c :: r).
    { assert (Np : forall z, In z (unreserved_characters ++ reserved_characters) -> z <> "%") by (intros z Hz ->; apply mem_iff in Hz; vm_compute in Hz; discriminate Hz).
      destruct (reserved x) eqn:Ex, (reserved y) eqn:Ey; unfold pct in E; cbn [app] in E.
      - injection E as E1 E2 E3. split; [|eauto]. pose proof (bN_lt x). pose proof (bN_lt y).
        rewrite <- (nb_bN x), <- (nb_bN y). f_equal.
        assert (I : forall n m, (n < 16)%N -> (m < 16)%N -> HEXD n = HEXD m -> n = m).
        { intros n m Hn Hm Q. pose proof (HEXD_nth n Hn) as Q1. pose proof (HEXD_nth m Hm) as Q2. rewrite <- Q, <- Q1 in Q2.
          assert (ND : NoDup upper_hex) by (repeat constructor; cbn; intuition discriminate).
          apply N2Nat.inj. apply (proj1 (NoDup_nth_error upper_hex) ND); [rewrite <- (Nat2N.id (length upper_hex)); change (N.of_nat (length upper_hex)) with 16%N; lia|symmetry; exact Q2]. }
        apply I in E1, E2; try lia.
      - injection E as E1 _. exfalso. apply (Np y Hy). symmetry. congruence.
      - injection E as E1 _. exfalso. apply (Np x Hx). congruence.
      - injection E as E1 E2. split; [congruence|eauto]. }
    destruct X as [-> X]. destruct (IH b Hb X) as (c' & r' & ->). exists c', r'. reflexivity.
Qed.

(** * Headers *)

Lemma blank_dec c : {blank c} + {~ blank c}.
Proof.
  unfold blank. destruct (beq_spec c " ") as [E|E]; [left; auto|]. destruct (beq_spec c x09) as [F|F]; [left; auto|]. right. intros [H|H]; contradiction.
Qed.

Lemma trim_left v : exists a w, v = a ++ w /\ Forall blank a /\ forall c s, w = c :: s -> ~ blank c.
Proof.
  induction v as [|c v (a & w & -> & F & H)]; [exists [], []; repeat split; [constructor|discriminate]|].
  destruct (blank_dec c) as [B|B]; [exists (c :: a), w; repeat split; [constructor; assumption|exact H]|].
  exists [], (c :: a ++ w). repeat split; [constructor|]. intros c' s E. injection E as <- _. exact B.
Qed.

Lemma trim_exists v : exists a w b, v = a ++ w ++ b /\ Forall blank a /\ Forall blank b /\ trimmed w.
Proof.
  destruct (trim_left v) as (a & u & -> & Fa & Hu). destruct (trim_left (rev u)) as (b & w & E & Fb & Hw).
  assert (U : u = rev w ++ rev b) by (rewrite <- rev_app_distr, <- E, rev_involutive; reflexivity).
  exists a, (rev w), (rev b). split; [rewrite U; reflexivity|]. split; [exact Fa|]. split; [apply Forall_rev; exact Fb|]. split.
  - intros c s Ec. apply (Hu c (s ++ rev b)). rewrite U, Ec. reflexivity.
  - intros c s Ec. apply (Hw c (rev s)). rewrite <- (rev_involutive w), Ec, rev_app_distr. reflexivity.
Qed.

Lemma trimmed_fix v a w b : trimmed v -> v = a ++ w ++ b -> Forall blank a -> Forall blank b -> w = v.
Proof.
  intros [H1 H2] E Fa Fb. destruct Fa as [|c a Hc Fa]; [|exfalso; apply (H1 c (a ++ w ++ b)); [exact E|exact Hc]]. cbn [app] in E.
  destruct (rev b) as [|c r] eqn:R.
  - apply (f_equal (@rev byte)) in R. rewrite rev_involutive in R. subst b. rewrite app_nil_r in E. congruence.
  - apply (f_equal (@rev byte)) in R. rewrite rev_involutive in R. cbn [rev] in R. subst b. apply Forall_app in Fb. destruct Fb as [_ Fb]. inversion Fb; subst.
    exfalso. apply (H2 c (w ++ rev r)); [rewrite app_assoc; reflexivity|assumption].
Qed.

Lemma received_exists headers : exists seen, Forall2 received headers seen.
Proof.
  induction headers as [|h l [seen IH]]; [exists []; constructor|]. destruct (trim_exists (snd h)) as (a & w & b & E & Fa & Fb & T).
  exists ((ascii_lower (fst h), w) :: seen). constructor; [|exact IH]. split; [reflexivity|]. split; [exact T|]. exists a, b. auto.
Qed.

Lemma received_same headers seen n : Forall2 received headers seen ->
  Forall trimmed (map snd (filter (fun h => str_eqb (ascii_lower (fst h)) n) headers)) ->
  received_values seen n = map snd (filter (fun h => str_eqb (ascii_lower (fst h)) n) headers).
Proof.
  unfold received_values. induction 1 as [|h h' l l' (E & _ & a & b & V & Fa & Fb) F IH]; [reflexivity|]. cbn [filter]. rewrite E.
  destruct (str_eqb (ascii_lower (fst h)) n); [|exact IH]. cbn [map]. intros H. inversion H; subst. f_equal; [|apply IH; assumption].
  eapply trimmed_fix; eassumption.
Qed.

(** * Parameters *)

Lemma filter_perm {A} (f : A -> bool) l l' : Permutation l l' -> Permutation (filter f l) (filter f l').
Proof.
  induction 1 as [|x l l' P IH|x y l|l l' l'' P1 IH1 P2 IH2]; cbn [filter]; [constructor| | |eapply Permutation_trans; eassumption].
  - destruct (f x); [constructor; exact IH|exact IH].
  - destruct (f x), (f y); try reflexivity. apply perm_swap.
Qed.

Lemma given_perm pairs l n v : Permutation pairs l -> filter (fun kv => str_eqb (fst kv) n) l = [(n, v)] -> given pairs n v.
Proof.
  intros P E. unfold given. apply Permutation_length_1_inv. rewrite <- E. symmetry. apply filter_perm. exact P.
Qed.

Lemma filter_none (l : list (str * str)) n : ~ In n (map fst l) -> filter (fun kv => str_eqb (fst kv) n) l = [].
Proof.
  induction l as [|x l IH]; intros H; [reflexivity|]. cbn [filter]. destruct (str_eqb_spec (fst x) n) as [E|_]; [exfalso; apply H; left; exact E|].
  apply IH. intros I. apply H. right. exact I.
Qed.

(** * C54 *)

Lemma url_facts_valid d o tr url path query sig : deps_ok d ->
  returns (build_signed_url d o) tr (Ok url) -> url_parts url path query sig ->
  exists t pre t1 t2 email block s, url_time o t pre /\ tr = pre ++ t1 ++ t2 /\ authorized (o_signing_key o) t1 email /\
    url_valid d o t /\ (0 <= lifetime o t)%Z /\ Forall (fun n => utf8_valid n = true) (name_list d o) /\
    algorithm_str (key_algorithm (o_signing_key o)) = B "GOOG4-RSA-SHA256" /\
    header_block (o_headers o) (name_list d o) block /\
    path = path_of d o /\ query = sorted_query (pairs_of d o (t / NS)%Z (lifetime o t) (lowered o) email) /\ sig = hex_encode s /\
    signed d (o_signing_key o) (o_use_sign_blob o) (message_of o (t / NS)%Z
      (join [x0a] [o_http_method o; percent_encode path; query; block; []; names_of d (lowered o); B "UNSIGNED-PAYLOAD"])) t2 s.
Proof.
  intros D H P. destruct (url_ok_inv _ _ _ _ H) as (t & pre & t1 & t2 & email & verb & block & s & T & -> & S).
  destruct (success_parts _ _ _ _ _ _ _ _ _ _ _ _ _ S P) as (-> & -> & ->). destruct S as [V Ev A _ Eb Hs _].
  exists t, pre, t1, t2, email, block, s. split; [exact T|]. split; [reflexivity|]. split; [apply (authorizer_ok d); exact A|].
  split; [exact V|]. split. { destruct V as (_ & [Ho _] & _). unfold lifetime. apply Z.div_pos; lia. }
  split; [apply names_valid; [exact D|apply V]|]. split; [eapply sign_ok_rsa; exact Hs|]. split; [apply block_text; assumption|].
  split; [reflexivity|]. split; [reflexivity|]. split; [reflexivity|]. apply sign_ok in Hs. unfold canonical_of in Hs. rewrite Ev in Hs. exact Hs.
Qed.

Lemma portable_path d o : portable o -> path_of d o = pct_encode (set_path (d_path_caret d)) ("/" :: requested o).
Proof.
  intros PO. pose proof (po_path o PO) as F. rewrite Forall_forall in F.
  assert (N : forall c, In c (B "?#%\^|") -> ~ In c (requested o)) by (intros c Hc I; exact (F c I Hc)).
  unfold path_of. apply (path_cut d _ (requested o) []); try (apply N; cbn; tauto); [exact (po_tidy o PO)|rewrite app_nil_r; reflexivity|left; reflexivity|].
  intros seg t Hs U. assert (seg = t) as <-; [|apply (po_segments o PO); exact Hs]. destruct Hs as (l & G & _ & I). apply unescaped_iff in U. rewrite U. symmetry.
  apply pct_decode_no_triplet. apply plain_iff. apply plain_no_percent. intros Hp. apply (N "%"); [cbn; tauto|]. apply glued_iff in G. rewrite G.
  revert I Hp. clear. revert seg. induction l as [|a l IH]; intros seg []; [subst|]; intros Hp; destruct l as [|b l]; try (destruct H; fail); cbn [join]; try exact Hp;
    rewrite !in_app_iff; [left; exact Hp|right; right; apply (IH seg); assumption].
Qed.

Definition issued (o : url_options) (path query sig : str) (headers : list (str * str)) : request :=
  {| rq_verb := o_http_method o; rq_path := path; rq_query := query ++ B "&X-Goog-Signature=" ++ sig; rq_headers := headers |}.

Lemma accepted_general d o tr url path query sig headers own : deps_ok d ->
  returns (build_signed_url d o) tr (Ok url) -> url_parts url path query sig -> own_parameters (requested o) own -> sendable own o -> sends o headers ->
  exists t t1 t2 t3 email message s, url_time o t t1 /\ tr = t1 ++ t2 ++ t3 /\ authorized (o_signing_key o) t2 email /\
    signed d (o_signing_key o) (o_use_sign_blob o) message t3 s /\
    forall sv now, server_ok sv -> account_text email -> sv_verifies sv email message s -> server_path sv path (percent_encode path) ->
      (t / 1000000000 <= now < t / 1000000000 + (o_expires o - t) / 1000000000)%Z ->
      accepts sv now (issued o path query sig headers) email message s.
Proof.
  intros D H P Own PO SE. destruct (url_facts_valid _ _ _ _ _ _ _ D H P) as (t & pre & t1 & t2 & email & block & s & T & -> & A & Vd & L & N & Al & Bk & -> & -> & -> & Sg). assert (Y : in_years t) by apply Vd.
  exists t, pre, t1, t2, email, (message_of o (t / NS)%Z (join [x0a] [o_http_method o; percent_encode (path_of d o); sorted_query (pairs_of d o (t / NS)%Z (lifetime o t) (lowered o) email); block; []; names_of d (lowered o); B "UNSIGNED-PAYLOAD"])), s.
  split; [exact T|]. split; [reflexivity|]. split; [exact A|]. split; [exact Sg|]. intros sv now OK Em Vf SP W.
  assert (Vp : Forall (fun kv => utf8_valid (fst kv) = true /\ utf8_valid (snd kv) = true) (own ++ o_query_parameters o)).
  { eapply Forall_impl; [|exact (sd_parameters own o PO)]. intros kv [F1 F2]. split; apply parameter_valid; assumption. }
  pose proof (pairs_of_valid d o t email own Own Vp (account_valid _ (sd_region own o PO)) (account_valid _ Em) Y L N Al) as EL. rewrite app_assoc in EL. rewrite EL in *. clear EL.
  set (params := own ++ o_query_parameters o) in *.
  set (cred := email ++ B "/" ++ scope_of o (t / NS)%Z) in *.
  match goal with |- context [sorted_query ?l] => set (l0 := l) in * end.
  destruct (sorted_pieces l0) as (l' & Pl & El).
  set (goal_pairs := params ++ required_parameters email (ut_to_iso8601 (t / NS)%Z) (scope_of o (t / NS)%Z) (dec (Z.to_N (lifetime o t))) (names_of d (lowered o))).
  assert (Sc : account_text (scope_of o (t / NS)%Z)).
  { unfold scope_of. destruct (scope_spec o t Y) as (day & Dy & G). fold (scope_of o (t / NS)%Z). apply glued_iff in G. rewrite G. apply join_text; [repeat constructor|].
    constructor; [apply parameter_account; apply date_parameter; eapply date_bytes; exact Dy|]. constructor; [exact (sd_region own o PO)|].
    constructor; [apply literal_text; reflexivity|]. constructor; [apply literal_text; reflexivity|constructor]. }
  assert (Cr : account_text cred). { apply Forall_app. split; [exact Em|]. constructor; [left; reflexivity|exact Sc]. }
  assert (Nt : parameter_text (names_of d (lowered o))).
  { rewrite names_text. apply join_text; [apply literal_text; reflexivity|]. apply Forall_forall. intros n Hn. apply (C20_names _ _ (names_spec _ D o)) in Hn.
    destruct Hn as [->|(h & I & <-)]; [apply literal_text; reflexivity|]. apply lower_parameter. pose proof (sd_headers own o PO) as F. rewrite Forall_forall in F. apply (F h I). }
  (* What the server reads and how it writes it. *)
  assert (Q : forall kv, In kv l0 -> encoded_pair (sv_query sv) (decode2 kv) (percent_encode (fst kv), percent_encode (snd kv)) /\ parameter_text (fst kv) /\
     In (fst kv) (map fst (params) ++ goog_names)).
  { assert (G : forall k v, parameter_text k -> parameter_text v -> encoded_pair (sv_query sv) (decode2 (k, v)) (percent_encode k, percent_encode v)).
    { intros k v Hk Hv. unfold decode2. cbn [fst snd]. split; cbn [fst snd]; apply encoded_iff; rewrite (param_encode sv OK) by (rewrite ?(pct_decode_no_triplet _) by (apply plain_iff; apply plain_no_percent; apply parameter_no_percent; assumption); assumption);
        rewrite pct_decode_no_triplet by (apply plain_iff; apply plain_no_percent; apply parameter_no_percent; assumption); reflexivity. }
    intros kv I. unfold l0 in I. apply in_app_or in I. destruct I as [I|I].
    - pose proof (sd_parameters own o PO) as F. rewrite Forall_forall in F. destruct (F kv I) as [F1 F2]. split; [destruct kv; apply G; assumption|]. split; [exact F1|].
      apply in_or_app. left. apply in_map. exact I.
    - assert (K : forall s, forallb (fun c => mem c (unreserved_characters ++ reserved_characters)) s = true -> parameter_text s) by (intros; apply literal_text; assumption).
      destruct I as [<-|[<-|[<-|[<-|[<-|[]]]]]]; cbn [fst snd].
      + split; [apply G; apply K; reflexivity|]. split; [apply K; reflexivity|]. apply in_or_app. right. cbn. tauto.
      + split; [|split; [apply K; reflexivity|apply in_or_app; right; cbn; tauto]]. unfold decode2. cbn [fst snd]. split; cbn [fst snd]; apply encoded_iff.
        * rewrite (param_encode sv OK) by (apply K; reflexivity). reflexivity.
        * rewrite replace_slash_decode. rewrite (account_encode sv OK) by exact Cr. rewrite pct_decode_no_triplet; [reflexivity|].
          apply plain_iff. apply plain_no_percent. apply account_no_percent. exact Cr.
      + split; [apply G; [apply K; reflexivity|apply date_parameter; apply iso_bytes; exact Y]|split; [apply K; reflexivity|apply in_or_app; right; cbn; tauto]].
      + split; [apply G; [apply K; reflexivity|apply decimal_parameter]|split; [apply K; reflexivity|apply in_or_app; right; cbn; tauto]].
      + split; [apply G; [apply K; reflexivity|exact Nt]|split; [apply K; reflexivity|apply in_or_app; right; cbn; tauto]]. }
  assert (Dp : map decode2 l0 = goal_pairs).
  { assert (G : forall k v, account_text k -> account_text v -> decode2 (k, v) = (k, v)).
    { intros k v Hk Hv. unfold decode2. cbn [fst snd]. rewrite !pct_decode_no_triplet by (apply plain_iff; apply plain_no_percent; apply account_no_percent; assumption). reflexivity. }
    unfold l0, goal_pairs. rewrite map_app. f_equal.
    - rewrite <- (map_id (params)) at 2. apply map_ext_in. intros [k v] I. pose proof (sd_parameters own o PO) as F. rewrite Forall_forall in F. destruct (F _ I) as [F1 F2]. apply G; apply parameter_account; assumption.
    - unfold required_parameters. cbn [map]. unfold decode2 at 2. cbn [fst snd]. rewrite replace_slash_decode.
      assert (K : forall s, forallb (fun c => mem c ("/" :: unreserved_characters ++ reserved_characters)) s = true -> account_text s) by (intros; apply literal_text; assumption).
      rewrite !G; try (apply K; reflexivity); try (apply parameter_account; first [apply decimal_parameter|exact Nt|apply date_parameter; apply iso_bytes; exact Y]).
      repeat f_equal. apply pct_decode_no_triplet. apply plain_iff. apply plain_no_percent. apply account_no_percent. exact Cr. }
  set (pairs := form_read (sorted_query l0 ++ B "&X-Goog-Signature=" ++ hex_encode s)).
  assert (Pp : Permutation pairs (goal_pairs ++ [(B "X-Goog-Signature", hex_encode s)])).
  { unfold pairs. eapply Permutation_trans; [apply query_read; apply hex_sig|]. rewrite map_app, Dp. apply Permutation_app_head. cbn [map]. unfold decode2. cbn [fst snd].
    rewrite (pct_decode_no_triplet (hex_encode s)) by (apply plain_iff; apply plain_hex; apply hex_sig). reflexivity. }
  assert (Nn : forall n, In n goog_names -> filter (fun kv => str_eqb (fst kv) n) (params) = []).
  { intros n Hn. apply filter_none. intros I. exact (sd_names own o PO n I Hn). }
  assert (Gv : forall n v, In n goog_names -> filter (fun kv => str_eqb (fst kv) n) (required_parameters email (ut_to_iso8601 (t / NS)%Z) (scope_of o (t / NS)%Z) (dec (Z.to_N (lifetime o t))) (names_of d (lowered o)) ++ [(B "X-Goog-Signature", hex_encode s)]) = [(n, v)] -> given pairs n v).
  { intros n v Hn Ef. eapply given_perm; [exact Pp|]. unfold goal_pairs. rewrite <- app_assoc, filter_app, Nn by exact Hn. exact Ef. }
  destruct SE as [SE1 SE2].
  destruct (received_exists headers) as [seen Fs].
  assert (Rv : forall n, values (o_headers o) n <> [] -> received_values seen n = values (o_headers o) n).
  { intros n Hn. rewrite (received_same _ _ n Fs); [apply SE2; exact Hn|]. rewrite SE2 by exact Hn. apply Forall_forall. intros v Hv. unfold values in Hv. apply in_app_or in Hv.
    destruct Hv as [Hv|Hv].
    - destruct (str_eqb n (B "host")); [|destruct Hv]. destruct Hv as [<-|[]]. split; [intros c x E; injection E as <- _; intros [Z|Z]; discriminate Z|].
      intros c x E. change (B "storage.googleapis.com") with (B "storage.googleapis.co" ++ B "m") in E. apply app_inj_tail in E. destruct E as [_ <-]. intros [Z|Z]; discriminate Z.
    - apply in_map_iff in Hv. destruct Hv as (h & <- & Hh). apply filter_In in Hh. destruct Hh as [Hh _]. pose proof (sd_headers own o PO) as F. rewrite Forall_forall in F. apply (F h Hh). }
  exists pairs, (t / NS)%Z, (region_of o), (ut_to_iso8601 (t / NS)%Z), (scope_of o (t / NS)%Z), (dec (Z.to_N (lifetime o t))), (Z.to_N (lifetime o t)), (name_list d o), (names_of d (lowered o)), (hex_encode s).
  eexists. split.
  { assert (V : In (o_http_method o) methods) by apply Vd. exact V. }
  split; [exact SE1|]. split; [apply form_query_iff; reflexivity|].
  split; [apply Gv; [cbn; tauto|reflexivity]|]. split; [apply Gv; [cbn; tauto|reflexivity]|]. split; [apply scope_spec; exact Y|].
  split; [apply Gv; [cbn; tauto|reflexivity]|]. split; [apply iso8601_spec; apply years_ts; exact Y|].
  split; [apply Gv; [cbn; tauto|reflexivity]|]. split; [apply decimal_dec|].
  split. { assert ((lifetime o t <= 604800)%Z) by apply Vd. lia. }
  split. { rewrite Z2N.id by exact L. exact W. }
  split; [apply Gv; [cbn; tauto|reflexivity]|]. split; [apply glued_iff; apply names_text|]. split; [apply (names_spec _ D o)|].
  split. { apply (proj2 (names_spec _ D o)). discriminate. }
  split.
  { apply Forall_forall. intros n Hn. apply (C20_names _ _ (names_spec _ D o)) in Hn. destruct Hn as [->|(h & I & <-)]; [split; [discriminate|apply literal_text; reflexivity]|].
    pose proof (sd_headers own o PO) as F. rewrite Forall_forall in F. split; [|apply lower_token; apply (F h I)].
    assert (V : headers_valid d o) by apply Vd. unfold headers_valid in V. rewrite Forall_forall in V. destruct (V h I) as [[V1 _] _].
    intros Z. apply V1. destruct (fst h); [reflexivity|discriminate Z]. }
  split; [apply Gv; [cbn; tauto|reflexivity]|]. split; [apply hex_encode_spec|]. split; [|split; [apply message_spec; [exact Y|exact Al]|exact Vf]].
  exists (percent_encode (path_of d o)), (sorted_query l0), block, (names_of d (lowered o)). split; [|split; [|split; [|split]]].
  - exact SP.
  - exists (map decode2 l'), (map (fun kv => (percent_encode (fst kv), percent_encode (snd kv))) l'). split; [|split; [|split]].
    + eapply Permutation_trans; [exact Pp|]. apply Permutation_app_tail. rewrite <- Dp. apply Permutation_map. exact Pl.
    + assert (Q' : Forall (fun kv => encoded_pair (sv_query sv) (decode2 kv) (percent_encode (fst kv), percent_encode (snd kv))) l').
      { apply Forall_forall. intros kv I. apply Q. apply (Permutation_in _ (Permutation_sym Pl)). exact I. }
      clear - Q'. induction Q' as [|x l Hx F IH]; constructor; assumption.
    + assert (So : StronglySorted str_le (map enc_pair l')) by (rewrite <- El; apply sort_sorted).
      assert (Q' : forall kv, In kv l' -> parameter_text (fst kv) /\ In (fst kv) (map fst (params) ++ goog_names)).
      { intros kv I. apply Q. apply (Permutation_in _ (Permutation_sym Pl)). exact I. }
      clear - So Q' PO. induction l' as [|x l' IH]; [constructor|]. cbn [map] in *. inversion So as [|? ? S1 S2]; subst. constructor; [apply IH; [exact S1|intros kv I; apply Q'; right; exact I]|].
      apply Forall_forall. intros z Hz. apply in_map_iff in Hz. destruct Hz as (y & <- & Hy). destruct (Q' x (or_introl eq_refl)) as [X1 X2]. destruct (Q' y (or_intror Hy)) as [Y1 Y2].
      apply text_le_pair; try (apply percent_encode_avoids; reflexivity); try (intros Z; apply encode_prefix in Z; [|assumption|assumption]; revert Z; apply (sd_prefixes own o PO); assumption).
      rewrite Forall_forall in S2. apply text_le_iff. apply (S2 (enc_pair y)). apply in_map. exact Hy.
    + apply glued_iff. unfold sorted_query. rewrite El, map_map. reflexivity.
  - destruct Bk as (lines & Fl & Gl). exists seen, lines. split; [exact Fs|]. split; [|exact Gl].
    assert (J : forall n, In n (name_list d o) -> values (o_headers o) n <> []) by (intros n; apply (proj2 (names_spec _ D o))).
    clear - Fl J Rv. induction Fl as [|n line ns ls (v & G & ->) F IH]; constructor.
    + exists v. rewrite Rv by (apply J; left; reflexivity). split; [apply J; left; reflexivity|]. split; [exact G|reflexivity].
    + apply IH. intros m Hm. apply J. right. exact Hm.
  - apply glued_iff. apply names_text.
  - apply glued_iff. reflexivity.
Qed.

Theorem C54_accepted d o tr url path query sig headers : deps_ok d ->
  returns (build_signed_url d o) tr (Ok url) -> url_parts url path query sig -> portable o -> sends o headers ->
  exists t t1 t2 t3 email message s, url_time o t t1 /\ tr = t1 ++ t2 ++ t3 /\ authorized (o_signing_key o) t2 email /\
    signed d (o_signing_key o) (o_use_sign_blob o) message t3 s /\
    forall sv now, server_ok sv -> account_text email -> sv_verifies sv email message s ->
      (t / 1000000000 <= now < t / 1000000000 + (o_expires o - t) / 1000000000)%Z ->
      accepts sv now (issued o path query sig headers) email message s.
Proof.
  intros D H P PO SE. assert (Own : own_parameters (requested o) []).
  { apply op_none. intros I. pose proof (po_path o PO) as F. rewrite Forall_forall in F. apply (F _ I). left. reflexivity. }
  assert (SD : sendable [] o) by (constructor; apply PO).
  destruct (accepted_general _ _ _ _ _ _ _ _ _ D H P Own SD SE) as (t & t1 & t2 & t3 & email & message & s & T & E & A & Sg & G).
  exists t, t1, t2, t3, email, message, s. split; [exact T|]. split; [exact E|]. split; [exact A|]. split; [exact Sg|]. intros sv now OK Em Vf. apply G; try assumption.
  destruct (url_facts_valid _ _ _ _ _ _ _ D H P) as (_ & _ & _ & _ & _ & _ & _ & _ & _ & _ & _ & _ & _ & _ & _ & -> & _).
  rewrite (portable_path d o PO). exists ("/" :: requested o). split; [apply unescaped_iff; rewrite pct_decode_encode by apply path_set_ok|].
  - symmetry. apply pct_decode_no_triplet. apply plain_iff. apply plain_no_percent. intros [Z|I]; [discriminate Z|]. pose proof (po_path o PO) as F. rewrite Forall_forall in F. apply (F _ I). cbn. tauto.
  - apply encoded_iff. apply (path_encode sv OK). constructor; [intros I; apply mem_iff in I; vm_compute in I; discriminate I|exact (po_path o PO)].
Qed.

(** * C55 *)

Lemma utc_inj a b d h m s : utc_of_seconds a d h m s -> utc_of_seconds b d h m s -> a = b.
Proof.
  assert (G : forall a b, (a < b)%Z -> utc_of_seconds a d h m s -> utc_of_seconds b d h m s -> False).
  { clear. intros a b L H1 H2. apply datetime_lt in L. pose proof (datetime_spec a) as S1. pose proof (datetime_spec b) as S2. cbv zeta in *.
    destruct (utc_of_seconds_unique _ _ _ _ _ _ _ _ _ H1 S1) as (E1 & E2 & E3 & E4). destruct (utc_of_seconds_unique _ _ _ _ _ _ _ _ _ H2 S2) as (F1 & F2 & F3 & F4).
    unfold lex6 in L. rewrite <- E1, <- E2, <- E3, <- E4, <- F1, <- F2, <- F3, <- F4 in L. destruct L as [L|[_ L]]; [unfold date_lt in L; lia|lia]. }
  intros H1 H2. destruct (Z.lt_trichotomy a b) as [L|[L|L]]; [exfalso; eauto|exact L|exfalso; eauto].
Qed.

Lemma utc_basic_inj a b s : utc_basic_text a s -> utc_basic_text b s -> a = b.
Proof.
  intros (d1 & h1 & m1 & s1 & y1 & mo1 & dd1 & th1 & tm1 & ts1 & U1 & A1 & A2 & A3 & A4 & A5 & A6 & E1)
         (d2 & h2 & m2 & s2 & y2 & mo2 & dd2 & th2 & tm2 & ts2 & U2 & B1 & B2 & B3 & B4 & B5 & B6 & E2). subst s.
  assert (L : forall w x y u v, digits w x u -> digits w y v -> length u = length v) by (intros w x y u v [X _] [Y _]; congruence).
  apply app_inv_len in E2; [|eapply L; eassumption]. destruct E2 as [<- E2]. apply app_inv_len in E2; [|eapply L; eassumption]. destruct E2 as [<- E2].
  apply app_inv_len in E2; [|eapply L; eassumption]. destruct E2 as [<- E2]. apply app_inv_head in E2.
  apply app_inv_len in E2; [|eapply L; eassumption]. destruct E2 as [<- E2]. apply app_inv_len in E2; [|eapply L; eassumption]. destruct E2 as [<- E2].
  apply app_inv_len in E2; [|eapply L; eassumption]. destruct E2 as [<- _].
  pose proof (digits_value _ _ _ _ A1 B1) as V1. pose proof (digits_value _ _ _ _ A2 B2) as V2. pose proof (digits_value _ _ _ _ A3 B3) as V3.
  rewrite (digits_value _ _ _ _ A4 B4), (digits_value _ _ _ _ A5 B5), (digits_value _ _ _ _ A6 B6) in U1. destruct d1, d2. cbn in V1, V2, V3. subst.
  eapply utc_inj; eassumption.
Qed.

Lemma encoded_unescaped kept s t : kept "%" = false -> encoded kept s t -> unescaped t s.
Proof.
  intros K. induction 1 as [|c s t Kc H IH|c h l s t Kc Hh Hl H IH]; [constructor| |].
  - apply ue_plain; [|exact IH]. intros b r (h & l & x & y & E & _). injection E as -> _. congruence.
  - eapply ue_triplet; [|exact IH]. exists h, l, (N.to_nat (bN c / 16)), (N.to_nat (bN c mod 16)). split; [reflexivity|]. split; [left; exact Hh|]. split; [left; exact Hl|].
    pose proof (bN_lt c). lia.
Qed.

Lemma encoded_avoids kept x s t : kept x = false -> In x (B "!""#$&'()*+,:;=?@[]" ++ [x0a]) -> encoded kept s t -> ~ In x t.
Proof.
  intros K X. assert (X1 : x <> "%") by (intros ->; apply mem_iff in X; vm_compute in X; discriminate X).
  assert (X2 : forall n c, nth_error upper_hex n = Some c -> c <> x).
  { intros n c E ->. apply nth_error_In in E. revert X. apply mem_iff in E. generalize E. clear. revert x. intros x E X. apply mem_iff in X.
    assert (Z : forall x, mem x upper_hex = true -> mem x (B "!""#$&'()*+,:;=?@[]" ++ [x0a]) = false).
    { intros y Hy. apply negb_true_iff. revert y Hy. apply (sweep_impl (fun y => mem y upper_hex) (fun y => negb (mem y _))). vm_compute. reflexivity. }
    rewrite (Z x E) in X. discriminate X. }
  induction 1 as [|c s t Kc H IH|c h l s t Kc Hh Hl H IH]; [intros []| |].
  - intros [->|I]; [congruence|auto].
  - intros [E|[E|[E|I]]]; [congruence|exact (X2 _ _ Hh E)|exact (X2 _ _ Hl E)|auto].
Qed.

Lemma encoded_form sv s t : server_ok sv -> encoded (sv_query sv) s t -> form_text t s /\ ~ In "=" t /\ ~ In "&" t.
Proof.
  intros OK E. assert (R : forall c, In c ("%" :: reserved_characters) -> sv_query sv c = false) by (intros c Hc; apply OK; exact Hc).
  assert (A : forall x, In x reserved_characters -> ~ In x t).
  { intros x Hx. apply (encoded_avoids (sv_query sv) x s); [apply R; right; exact Hx|apply in_or_app; left; exact Hx|exact E]. }
  split; [|split; apply A; cbn; tauto]. unfold form_text. replace (plus_as_space t) with t; [eapply encoded_unescaped; [apply R; left; reflexivity|exact E]|].
  unfold plus_as_space. rewrite <- (map_id t) at 1. apply map_ext_in. intros c Hc. destruct (beq_spec c "+") as [->|_]; [|reflexivity]. exfalso. apply (A "+"); [cbn; tauto|exact Hc].
Qed.

Lemma server_reads sv rest texts text : server_ok sv -> Forall2 (encoded_pair (sv_query sv)) rest texts ->
  glued (B "&") (map (fun kv => fst kv ++ B "=" ++ snd kv) texts) text -> form_query text rest.
Proof.
  intros OK F G. eexists. split; [exact G|]. clear G. induction F as [|[k v] [k' v'] l l' [E1 E2] F [IH1 IH2]]; [split; constructor|]. cbn [map fst snd] in *.
  apply (encoded_form sv) in E1; [|exact OK]. apply (encoded_form sv) in E2; [|exact OK]. destruct E1 as (E1 & N1 & M1), E2 as (E2 & N2 & M2). split; constructor; try assumption.
  - rewrite !in_app_iff. intros [I|[I|I]]; [contradiction|destruct I as [I|[]]; discriminate I|contradiction].
  - intros Z. apply app_eq_nil in Z. destruct Z as [_ Z]. discriminate Z.
  - apply fp_pair; assumption.
Qed.

Lemma split_canonical verb path query lines names verb' path' query' lines' names' :
  ~ In x0a verb -> ~ In x0a verb' -> ~ In x0a path -> ~ In x0a path' ->
  Forall (fun l => ~ In x0a l) lines -> Forall (fun l => ~ In x0a l) lines' -> length lines = length names -> length lines' = length names' ->
  Forall (fun n => ~ In x0a n /\ ~ In ";" n) names -> Forall (fun n => ~ In x0a n /\ ~ In ";" n) names' -> names <> [] -> names' <> [] ->
  join [x0a] [verb; path; query; join [x0a] lines; []; join [";"] names; B "UNSIGNED-PAYLOAD"] =
  join [x0a] [verb'; path'; query'; join [x0a] lines'; []; join [";"] names'; B "UNSIGNED-PAYLOAD"] ->
  verb = verb' /\ path = path' /\ query = query' /\ lines = lines' /\ names = names'.
Proof.
  intros V V' P P' L L' Ln Ln' N N' Ne Ne' G. cbn [join] in G. repeat change ([x0a] ++ ?x) with (x0a :: x) in G.
  apply split_first in G; [|exact V|exact V']. destruct G as [-> G]. apply split_first in G; [|exact P|exact P']. destruct G as [-> G].
  assert (A : forall q (b n : str), q ++ x0a :: b ++ x0a :: [] ++ x0a :: n ++ x0a :: B "UNSIGNED-PAYLOAD" = (((q ++ x0a :: b) ++ [x0a]) ++ x0a :: n) ++ x0a :: B "UNSIGNED-PAYLOAD").
  { intros. repeat (rewrite <- !app_assoc; cbn [app]). reflexivity. }
  rewrite !A in G. apply split_last in G; [|intros X; apply mem_iff in X; discriminate X..]. destruct G as [G _].
  assert (T : forall ns, Forall (fun n => ~ In x0a n /\ ~ In ";" n) ns -> ~ In x0a (join [";"] ns)).
  { intros ns F X. apply in_glue in X. destruct X as [X|(s & Hs & X)]; [discriminate X|]. rewrite Forall_forall in F. exact (proj1 (F s Hs) X). }
  apply split_last in G; [|apply T; assumption..]. destruct G as [G En]. apply app_inv_tail in G.
  assert (names = names') as <-.
  { rewrite <- (split_on_join ";" names), <- (split_on_join ";" names'); [congruence|exact Ne'| |exact Ne|]; (eapply Forall_impl; [|eassumption]; cbn; tauto). }
  apply join_last in G; [|assumption|assumption|congruence|intros ->; destruct names; [contradiction|discriminate Ln]]. destruct G as [-> ->]. auto.
Qed.

Lemma token_clean n : Forall token_character n -> ~ In x0a n /\ ~ In ";" n.
Proof.
  intros F. rewrite Forall_forall in F. split; intros I; apply F in I; unfold token_character in I; apply mem_iff in I; vm_compute in I; discriminate I.
Qed.

Lemma server_lines_clean headers seen names lines : Forall (fun h => Forall token_character (fst h) /\ valid_value h) headers -> Forall2 received headers seen ->
  Forall (fun n => n <> [] /\ Forall token_character n) names -> Forall2 (server_line seen) names lines -> Forall (fun l => ~ In x0a l) lines.
Proof.
  intros V R N F. assert (S : Forall (fun h => ~ In x0a (snd h)) seen).
  { clear N F. induction R as [|h h' l l' (_ & _ & a & b & E & _) R IH]; inversion V as [|? ? [_ Vh] V']; subst; constructor; [|apply IH; assumption].
    intros I. unfold valid_value in Vh. rewrite E, Forall_forall in Vh. assert (J : In x0a (a ++ snd h' ++ b)) by (rewrite !in_app_iff; auto). apply Vh in J.
    destruct J as [[J _]|J]; [vm_compute in J; apply J; reflexivity|discriminate J]. }
  induction F as [|n line ns ls (v & _ & G & ->) F IH]; inversion N as [|? ? [_ Hn] N']; subst; constructor; [|apply IH; assumption].
  rewrite !in_app_iff. intros [I|[I|I]]; [exact (proj1 (token_clean _ Hn) I)|destruct I as [I|[]]; discriminate I|].
  apply glued_iff in G. subst. change (B ",") with [","] in I. apply in_glue in I. destruct I as [I|(s & Hs & I)]; [discriminate I|].
  unfold received_values in Hs. apply in_map_iff in Hs. destruct Hs as (h & <- & Hh). apply filter_In in Hh. rewrite Forall_forall in S. exact (S h (proj1 Hh) I).
Qed.

Lemma Forall2_len {A C} (R : A -> C -> Prop) l l' : Forall2 R l l' -> length l = length l'.
Proof. induction 1; cbn [length]; congruence. Qed.

Lemma Forall2_in_r {A C} (R : A -> C -> Prop) l l' y : Forall2 R l l' -> In y l' -> exists x, R x y.
Proof. induction 1 as [|a b l l' H F IH]; [intros []|]. intros [<-|I]; [exists a; exact H|auto]. Qed.

(** The server builds the canonical request that was signed, or has found a collision. *)
Lemma accepted_same sv r pairs sig' names canonical' o path query canonical : server_ok sv -> clean_headers (o_headers o) -> In (o_http_method o) methods -> ~ In x0a path ->
  In (rq_verb r) methods -> Forall (fun h => Forall token_character (fst h) /\ valid_value h) (rq_headers r) ->
  Forall (fun n => n <> [] /\ Forall token_character n) names -> In (B "host") names ->
  server_canonical sv r pairs sig' names canonical' -> canonical_text (o_http_method o) path query (o_headers o) canonical -> canonical = canonical' ->
  rq_verb r = o_http_method o /\ ((forall text, unescaped (rq_path r) text <-> unescaped path text) /\ server_path sv path (percent_encode path)) /\
  (exists rest, form_query query rest /\ Permutation pairs (rest ++ [(B "X-Goog-Signature", sig')])) /\ server_query sv pairs sig' query /\
  header_names (o_headers o) names /\
  exists seen, Forall2 received (rq_headers r) seen /\ forall n, In n names -> exists v, glued (B ",") (received_values seen n) v /\ glued (B ",") (values (o_headers o) n) v.
Proof.
  intros OK C Hm Np Hv Hh Tn Hn (p & q & b & nt & (dp & Up & Ep) & (rest & texts & Pm & Fr & So & Gq) & (seen & ls & Fs & Fl & Gl) & Gn & G)
    (ns & nt' & b' & ep & HN & Gn' & (ls' & Fl' & Gl') & Es & G') E.
  subst canonical'. assert (M : forall v, In v methods -> ~ In x0a v).
  { intros v Hw. revert v Hw. apply Forall_forall. repeat (constructor; [intros X; apply mem_iff in X; vm_compute in X; discriminate X|]). constructor. }
  apply glued_iff in G, G', Gl, Gl', Gn, Gn'. subst b b' nt nt'. rewrite G in G'. apply escaped_iff in Es. subst ep.
  apply split_canonical in G'.
  - destruct G' as (-> & -> & -> & <- & <-). split; [reflexivity|]. split; [|split; [|split; [exists rest, texts; auto|split; [exact HN|]]]].
    + pose proof Ep as Ep'. apply encoded_unescaped in Ep; [|apply (proj1 (proj2 OK)); left; reflexivity]. apply unescaped_iff in Ep, Up. unfold percent_encode in Ep; rewrite pct_decode_encode in Ep by reflexivity.
      split; [intros text; rewrite !unescaped_iff; split; congruence|]. exists dp. split; [apply unescaped_iff; congruence|exact Ep'].
    + exists rest. split; [eapply server_reads; eassumption|exact Pm].
    + exists seen. split; [exact Fs|]. clear - Fl Fl'. revert ls Fl Fl'. induction names as [|m names IH]; intros ls Fl Fl' n []; [subst m|];
        inversion Fl as [|? line ? ls0 (v & _ & Gv & ->) F1]; subst; inversion Fl' as [|? line' ? ls0' (v' & Gv' & E') F2]; subst.
      * exists v. split; [exact Gv|]. apply app_inv_head in E'. injection E' as <-. exact Gv'.
      * eapply IH; eassumption.
  - apply M. exact Hv.
  - apply M. exact Hm.
  - eapply encoded_avoids; [apply OK; left; left; cbn; lia|apply in_or_app; right; left; reflexivity|exact Ep].
  - apply encode_keeps_out; [reflexivity|discriminate|exact Np].
  - eapply server_lines_clean; eassumption.
  - clear - C HN Fl'. assert (J : forall n, In n ns -> In n ns) by auto. revert J Fl'. generalize ns at 1 3. intros ms J F. induction F as [|n l ms ls Hl F IH]; constructor.
    + eapply clean_line; [exact C|exact HN|apply J; left; reflexivity|exact Hl].
    + apply IH. intros m Hm. apply J. right. exact Hm.
  - symmetry. eapply Forall2_len. exact Fl.
  - symmetry. eapply Forall2_len. exact Fl'.
  - eapply Forall_impl; [|exact Tn]. intros n [_ T]. apply token_clean. exact T.
  - apply Forall_forall. intros n I. apply (clean_name _ _ _ C HN I).
  - intros ->. destruct Hn.
  - intros ->. apply (proj2 (proj1 (C20_names _ _ HN) (B "host"))). left. reflexivity.
Qed.

Lemma query_holds l kv rest : In kv l -> form_query (sorted_query l) rest -> In (decode2 kv) rest.
Proof.
  intros I Q. apply form_query_iff in Q. subst rest. destruct (sorted_pieces l) as (l' & P & E). unfold sorted_query. rewrite E.
  assert (E1 : form_read (join (B "&") (map enc_pair l')) = map decode2 l').
  { pose proof (form_read_join (map (fun kv => (percent_encode (fst kv), percent_encode (snd kv))) l')) as J. rewrite !map_map in J. cbn [fst snd] in J.
    unfold enc_pair. etransitivity; [apply J|].
    2:{ apply map_ext. intros x. rewrite !form_raw_escaped. reflexivity. }
    apply Forall_forall. intros x Hx. apply in_map_iff in Hx. destruct Hx as (y & <- & _). cbn [fst snd]. repeat split; apply percent_encode_avoids; reflexivity. }
  rewrite E1. apply in_map. apply (Permutation_in _ P). exact I.
Qed.

Lemma given_in pairs rest more n v w : Permutation pairs (rest ++ more) -> given pairs n v -> In (n, w) rest -> w = v.
Proof.
  intros P G I. assert (J : In (n, w) (filter (fun kv => str_eqb (fst kv) n) pairs)).
  { apply filter_In. split; [|apply str_eqb_refl]. apply (Permutation_in _ (Permutation_sym P)). apply in_or_app. left. exact I. }
  unfold given in G. rewrite G in J. destruct J as [J|[]]. injection J as J. congruence.
Qed.

(** The expiration and the credential in the query of a build. *)
Lemma expires_in d o t email : (0 <= lifetime o t)%Z -> In (B "X-Goog-Expires", dec (Z.to_N (lifetime o t))) (pairs_of d o (t / NS)%Z (lifetime o t) (lowered o) email).
Proof.
  intros L. unfold pairs_of. apply in_or_app. right. rewrite map_app. apply in_or_app. right. unfold five. cbn [map]. do 3 right. left.
  unfold lossy2, expiration_to_string. destruct (Z.ltb_spec (lifetime o t) 0); [lia|]. cbn [fst snd].
  rewrite (utf8_lossy_valid_id (B "X-Goog-Expires")) by reflexivity. rewrite utf8_lossy_valid_id; [reflexivity|]. apply parameter_valid. apply decimal_parameter.
Qed.
Lemma credential_in d o t email : utf8_valid email = true -> utf8_valid (region_of o) = true -> in_years t ->
  In (B "X-Goog-Credential", replace_slash (email ++ B "/" ++ scope_of o (t / NS)%Z)) (pairs_of d o (t / NS)%Z (lifetime o t) (lowered o) email).
Proof.
  intros Em R Y. unfold pairs_of. apply in_or_app. right. rewrite map_app. apply in_or_app. right. unfold five. cbn [map]. right. left.
  unfold lossy2. cbn [fst snd]. rewrite (utf8_lossy_valid_id (B "X-Goog-Credential")) by reflexivity. rewrite utf8_lossy_valid_id; [reflexivity|]. apply replace_slash_valid. rewrite utf8_valid_app by exact Em.
  change (B "/" ++ ?x) with ("/" :: x). rewrite utf8_valid_cons by reflexivity. destruct (scope_spec o t Y) as (day & Dy & G). apply glued_iff in G. rewrite G. cbn [join].
  rewrite utf8_valid_app by (apply parameter_valid; apply date_parameter; eapply date_bytes; exact Dy). change (B "/" ++ ?x) with ("/" :: x). rewrite utf8_valid_cons by reflexivity.
  rewrite utf8_valid_app by exact R. reflexivity.
Qed.

Definition collision (text : str) : Prop := exists text' sum, text' <> text /\ digest_of text sum /\ digest_of text' sum.

Theorem C55_bound d o tr url path query sig : deps_ok d ->
  returns (build_signed_url d o) tr (Ok url) -> url_parts url path query sig ->
  exists t t1 t2 t3 email canonical message s, url_time o t t1 /\ tr = t1 ++ t2 ++ t3 /\ authorized (o_signing_key o) t2 email /\
    signed d (o_signing_key o) (o_use_sign_blob o) message t3 s /\
    canonical_text (o_http_method o) path query (o_headers o) canonical /\ message_text (t / 1000000000)%Z (region_of o) canonical message /\
    forall sv now r account s', server_ok sv -> accepts sv now r account message s' ->
      collision canonical \/
      (t / 1000000000 <= now < t / 1000000000 + (o_expires o - t) / 1000000000)%Z /\
      (utf8_valid email = true -> utf8_valid (region_of o) = true -> plain email -> plain (region_of o) -> account = email) /\
      rq_verb r = o_http_method o /\ (forall text, unescaped (rq_path r) text <-> unescaped path text) /\
      (exists pairs rest sig', form_query (rq_query r) pairs /\ hex_of s' sig' /\ form_query query rest /\ Permutation pairs (rest ++ [(B "X-Goog-Signature", sig')])) /\
      exists seen, Forall2 received (rq_headers r) seen /\
        forall n, values (o_headers o) n <> [] -> exists v, glued (B ",") (received_values seen n) v /\ glued (B ",") (values (o_headers o) n) v.
Proof.
  intros D H P. destruct (url_ok_inv _ _ _ _ H) as (t & pre & t1 & t2 & email & verb & block & s & T & -> & S).
  destruct (success_parts _ _ _ _ _ _ _ _ _ _ _ _ _ S P) as (-> & -> & ->). destruct S as [V Ev A _ Eb Hs _].
  exists t, pre, t1, t2, email. do 2 eexists. exists s. split; [exact T|]. split; [reflexivity|]. split; [apply (authorizer_ok d); exact A|]. split; [apply sign_ok; exact Hs|].
  assert (Ct := canonical_spec d o verb (sorted_query (pairs_of d o (t / NS) (lifetime o t) (lowered o) email)) block D Eb). rewrite Ev in Ct.
  split; [exact Ct|]. split; [apply message_spec; [apply V|eapply sign_ok_rsa; exact Hs]|].
  match goal with |- context [collision ?c] => set (canonical := c) in * end.
  intros sv now r account s' OK (pairs & secs & region & date & scope & expires & life & names & names_text & sig' & canonical' & Hv & Hh & Fq & _ & Gc & Sp & _ & _ & Ge & Dl & _ & W & _ & _ & _ & Hn & Tn & _ & Hx & Sc & M & _).
  assert (M0 : message_text (t / NS)%Z (region_of o) canonical (message_of o (t / NS)%Z canonical)) by (apply message_spec; [apply V|eapply sign_ok_rsa; exact Hs]).
  destruct (message_binds _ _ _ _ _ _ _ M0 M) as ((dt & Dt & Dt') & _ & R & sum & S1 & S2).
  assert (secs = (t / NS)%Z) as -> by (eapply utc_basic_inj; eassumption).
  destruct (str_eqb_spec canonical' canonical) as [E|N]; [right|left; exists canonical', sum; auto].
  destruct (accepted_same sv r pairs sig' names canonical' o (path_of d o) (sorted_query (pairs_of d o (t / NS) (lifetime o t) (lowered o) email)) canonical OK (accepted_clean _ _ _ _ D H))
    as (E1 & [E2 _] & (rest & Q & Pm) & _ & HN & seen & Fs & Hl); try assumption; [apply V| |congruence|].
  { pose proof (path_ok_bytes _ _ (path_of_ok d o)) as F. revert F. apply forallb_not_in. destruct (d_path_caret d); reflexivity. }
  assert (L : (0 <= lifetime o t)%Z). { destruct V as (_ & [Ho _] & _). unfold lifetime. apply Z.div_pos; lia. }
  split.
  { pose proof (query_holds _ _ _ (expires_in d o t email L) Q) as I. unfold decode2 in I. cbn [fst snd] in I.
    rewrite (pct_decode_no_triplet (dec _)) in I by (apply plain_iff; apply plain_no_percent; apply parameter_no_percent; apply decimal_parameter).
    apply (given_in _ _ _ _ _ _ Pm Ge) in I. apply decimal_iff in Dl. subst expires. apply (f_equal undec) in I. rewrite !undec_dec in I. injection I as I.
    rewrite <- I, Z2N.id in W by exact L. exact W. }
  split.
  { intros Em Rg Pe Pr. pose proof (query_holds _ _ _ (credential_in d o t email Em Rg (proj1 V)) Q) as I. unfold decode2 in I. cbn [fst snd] in I.
    rewrite replace_slash_decode in I. rewrite (pct_decode_no_triplet (email ++ _)) in I.
    - apply (given_in _ _ _ _ _ _ Pm Gc) in I. rewrite <- R in Sp. assert (scope = scope_of o (t / NS)%Z) as ->.
      { destruct Sp as (day & Dy & G), (scope_spec o t (proj1 V)) as (day' & Dy' & G'). apply glued_iff in G, G'. rewrite G, G'. rewrite (utc_date_text_unique _ _ _ Dy Dy'). reflexivity. }
      symmetry. apply app_inv_tail in I. exact I.
    - apply plain_iff. apply (plain_join email "/"); [discriminate|reflexivity|]. split; [exact Pe|]. eapply plain_scope; [apply scope_spec; apply V|exact Pr]. }
  split; [exact E1|]. split; [exact E2|]. split; [exists pairs, rest, sig'; auto|]. exists seen. split; [exact Fs|]. intros n Hn'. apply Hl. apply HN. exact Hn'.
Qed.

Lemma date_in d o t email : in_years t -> In (B "X-Goog-Date", ut_to_iso8601 (t / NS)%Z) (pairs_of d o (t / NS)%Z (lifetime o t) (lowered o) email).
Proof.
  intros Y. unfold pairs_of. apply in_or_app. right. rewrite map_app. apply in_or_app. right. unfold five. cbn [map]. do 2 right. left.
  unfold lossy2. cbn [fst snd]. rewrite (utf8_lossy_valid_id (B "X-Goog-Date")) by reflexivity. rewrite utf8_lossy_valid_id; [reflexivity|].
  apply parameter_valid. apply date_parameter. apply iso_bytes. exact Y.
Qed.

(** Whatever is signed, the request made from the URL is accepted only in the time the options give. *)
Theorem C55_expired d o tr url path query sig : deps_ok d ->
  returns (build_signed_url d o) tr (Ok url) -> url_parts url path query sig ->
  exists t t1 rest, url_time o t t1 /\ tr = t1 ++ rest /\
    forall sv now verb headers account message s,
      accepts sv now {| rq_verb := verb; rq_path := path; rq_query := query ++ B "&X-Goog-Signature=" ++ sig; rq_headers := headers |} account message s ->
      (t / 1000000000 <= now < t / 1000000000 + (o_expires o - t) / 1000000000)%Z.
Proof.
  intros D H P. destruct (url_facts_valid _ _ _ _ _ _ _ D H P) as (t & pre & t1 & t2 & email & block & s & T & -> & A & Vd & L & N & Al & Bk & -> & -> & -> & Sg).
  exists t, pre, (t1 ++ t2). split; [exact T|]. split; [reflexivity|]. intros sv now verb headers account message s'
    (pairs & secs & region & date & scope & expires & life & names & names_text & sig' & canonical' & _ & _ & Fq & _ & _ & _ & Gd & Td & Ge & Dl & _ & W & _).
  cbn [rq_query] in Fq. apply form_query_iff in Fq. pose proof (query_read (pairs_of d o (t / NS)%Z (lifetime o t) (lowered o) email) (hex_encode s) (hex_sig s)) as Pm.
  rewrite <- Fq, map_app in Pm.
  assert (G : forall k v v', given pairs k v' -> pct_decode k = k -> ~ In "%" v -> In (k, v) (pairs_of d o (t / NS)%Z (lifetime o t) (lowered o) email) -> v = v').
  { intros k v v' Gk Ek Np I. apply (in_map decode2) in I. unfold decode2 in I at 1. cbn [fst snd] in I.
    rewrite Ek, (pct_decode_no_triplet v) in I by (apply plain_iff; apply plain_no_percent; exact Np). eapply given_in; eassumption. }
  pose proof (G _ _ _ Ge eq_refl (parameter_no_percent _ (decimal_parameter _)) (expires_in d o t email L)) as E1.
  assert (Y : in_years t) by apply Vd.
  pose proof (G _ _ _ Gd eq_refl (parameter_no_percent _ (date_parameter _ (iso_bytes _ Y))) (date_in d o t email Y)) as E2. subst date.
  assert (secs = (t / NS)%Z) as -> by (eapply utc_basic_inj; [exact Td|apply iso8601_spec; apply years_ts; exact Y]).
  apply decimal_iff in Dl. subst expires. apply (f_equal undec) in E1. rewrite !undec_dec in E1. injection E1 as E1. rewrite <- E1, Z2N.id in W by exact L. exact W.
Qed.

(** * Why the options have to be portable *)

Lemma encoded_characters kept s t c : encoded kept s t -> In c t -> kept c = true \/ In c ("%" :: upper_hex).
Proof.
  induction 1 as [|x s t K H IH|x h l s t K Hh Hl H IH]; [intros []| |].
  - intros [<-|I]; auto.
  - apply nth_error_In in Hh, Hl. intros [<-|[<-|[<-|I]]]; [right; left; reflexivity|right; right; exact Hh|right; right; exact Hl|auto].
Qed.

Lemma server_query_characters sv pairs sig text c : server_query sv pairs sig text -> In c text -> sv_query sv c = true \/ In c (B "&=%" ++ upper_hex).
Proof.
  intros (rest & texts & _ & F & _ & G) I. apply glued_iff in G. subst text. change (B "&") with ["&"] in I. apply in_glue in I. destruct I as [->|(x & Hx & I)]; [right; left; reflexivity|].
  apply in_map_iff in Hx. destruct Hx as (kv & <- & Hk). apply (Forall2_in_r (fun kv kv' => encoded_pair (sv_query sv) kv kv') _ _ _ F) in Hk. destruct Hk as (kv0 & [E1 E2]).
  rewrite !in_app_iff in I. destruct I as [I|[I|I]]; [|destruct I as [<-|[]]; right; right; left; reflexivity|].
  - apply (encoded_characters _ _ _ _ E1) in I. destruct I as [I|I]; [left; exact I|right; do 2 right; exact I].
  - apply (encoded_characters _ _ _ _ E2) in I. destruct I as [I|I]; [left; exact I|right; do 2 right; exact I].
Qed.

(** A query with a character that the server escapes is never accepted, whatever the request. *)
Theorem C54_unportable d o tr url path query sig c : deps_ok d ->
  returns (build_signed_url d o) tr (Ok url) -> url_parts url path query sig ->
  In c query -> ~ In c (B "&=%" ++ upper_hex) ->
  exists t t1 t2 t3 email canonical message s, url_time o t t1 /\ tr = t1 ++ t2 ++ t3 /\ authorized (o_signing_key o) t2 email /\
    signed d (o_signing_key o) (o_use_sign_blob o) message t3 s /\
    canonical_text (o_http_method o) path query (o_headers o) canonical /\ message_text (t / 1000000000)%Z (region_of o) canonical message /\
    forall sv now r account s', server_ok sv -> sv_query sv c = false -> accepts sv now r account message s' -> collision canonical.
Proof.
  intros D H P Ic Nc. destruct (url_ok_inv _ _ _ _ H) as (t & pre & t1 & t2 & email & verb & block & s & T & -> & S).
  destruct (success_parts _ _ _ _ _ _ _ _ _ _ _ _ _ S P) as (-> & -> & ->). destruct S as [V Ev A _ Eb Hs _].
  exists t, pre, t1, t2, email. do 2 eexists. exists s. split; [exact T|]. split; [reflexivity|]. split; [apply (authorizer_ok d); exact A|]. split; [apply sign_ok; exact Hs|].
  assert (Ct := canonical_spec d o verb (sorted_query (pairs_of d o (t / NS) (lifetime o t) (lowered o) email)) block D Eb). rewrite Ev in Ct.
  split; [exact Ct|]. split; [apply message_spec; [apply V|eapply sign_ok_rsa; exact Hs]|].
  match goal with |- context [collision ?c] => set (canonical := c) in * end.
  intros sv now r account s' OK Kc (pairs & secs & region & date & scope & expires & life & names & names_text & sig' & canonical' & Hv & Hh & Fq & _ & Gc & Sp & _ & _ & Ge & Dl & _ & W & _ & _ & _ & Hn & Tn & _ & Hx & Sc & M & _).
  assert (M0 : message_text (t / NS)%Z (region_of o) canonical (message_of o (t / NS)%Z canonical)) by (apply message_spec; [apply V|eapply sign_ok_rsa; exact Hs]).
  destruct (message_binds _ _ _ _ _ _ _ M0 M) as (_ & _ & _ & sum & S1 & S2).
  destruct (str_eqb_spec canonical' canonical) as [E|N]; [exfalso|exists canonical', sum; auto].
  destruct (accepted_same sv r pairs sig' names canonical' o (path_of d o) (sorted_query (pairs_of d o (t / NS) (lifetime o t) (lowered o) email)) canonical OK (accepted_clean _ _ _ _ D H))
    as (_ & _ & _ & Q & _); try assumption; [apply V| |congruence|].
  { pose proof (path_ok_bytes _ _ (path_of_ok d o)) as F. revert F. apply forallb_not_in. destruct (d_path_caret d); reflexivity. }
  apply (server_query_characters _ _ _ _ _ Q) in Ic. destruct Ic as [Ic|Ic]; [congruence|contradiction].
Qed.

(** * Cases *)

(** A server that escapes everything RFC 3986 does not call unreserved, and verifies the signatures of the demo key. *)
Definition strict_server : server := {|
  sv_query c := mem c unreserved_characters; sv_path c := mem c ("/" :: unreserved_characters);
  sv_verifies account message s := account = B "sa@example.com" /\ s = B "key" ++ message |}.
Lemma strict_ok : server_ok strict_server.
Proof.
  unfold server_ok, strict_server. cbn [sv_query sv_path]. split; [|split; [|split; [|split]]].
  - intros c Hc. split; apply mem_iff; [exact Hc|right; exact Hc].
  - apply Forall_forall. repeat constructor.
  - reflexivity.
  - reflexivity.
  - intros c H. assert (E : ((N.leb (bN c) 32 || N.leb 127 (bN c)) || mem c (B "<>`{}"))%bool = true).
    { apply orb_true_iff. destruct H as [[H|H]|H]; [left; apply orb_true_iff; left; apply N.leb_le; exact H|left; apply orb_true_iff; right; apply N.leb_le; exact H|right; apply mem_iff; exact H]. }
    apply negb_true_iff. revert E. clear. revert c. apply (sweep_impl (fun c => ((N.leb (bN c) 32 || N.leb 127 (bN c)) || mem c (B "<>`{}"))%bool) (fun c => negb (mem c ("/" :: unreserved_characters)))). vm_compute. reflexivity.
Qed.

Definition demo_portable : url_options := demo_url_with (B "bucket1") (B "a/" ++ [xc3; xa9] ++ B " {b}(1).txt") (Some (B "us-east1"))
  [(B "X-Goog-Meta-A", B "1 x"); (B "Content-Type", B "text/plain"); (B "x-goog-meta-a", B "2")]
  [(B "generation", B "1360887697105000"); (B "userProject", B "my:project@a&b=c+d"); (B "generation", B "")] demo_account false.
Definition demo_sent : list (str * str) := [
  (B "Host", B "storage.googleapis.com"); (B "X-GOOG-META-A", B "1 x"); (B "Accept", B " */*  "); (B "content-type", B "text/plain"); (B "x-goog-meta-a", B "2")].

Lemma demo_portable_ok : portable demo_portable.
Proof.
  constructor.
  - assert (G : forallb (fun c => negb (mem c (B "?#%\^|"))) (requested demo_portable) = true) by (vm_compute; reflexivity).
    apply Forall_forall. intros c Hc I. apply mem_iff in I. rewrite forallb_forall in G. apply G in Hc. rewrite I in Hc. discriminate Hc.
  - apply tidy_b_ok. vm_compute. reflexivity.
  - apply segments_b_ok; [vm_compute; reflexivity|discriminate].
  - repeat (constructor; [split; apply literal_text; reflexivity|]). constructor.
  - intros n Hn I. cbn in Hn, I. destruct Hn as [<-|[<-|[<-|[]]]]; repeat destruct I as [I|I]; try discriminate I; exact I.
  - assert (G : forallb (fun a => forallb (fun b => negb (str_eqb a (firstn (length a) b) && Nat.ltb (length a) (length b))) (map fst (o_query_parameters demo_portable) ++ goog_names)) (map fst (o_query_parameters demo_portable) ++ goog_names) = true) by (vm_compute; reflexivity).
    intros a b Ha Hb (c & r & ->). rewrite forallb_forall in G. specialize (G a Ha). rewrite forallb_forall in G. specialize (G _ Hb).
    rewrite firstn_app, Nat.sub_diag, firstn_all, app_nil_r, str_eqb_refl, app_length in G. cbn [length] in G. destruct (Nat.ltb_spec (length a) (length a + S (length r))); [discriminate G|lia].
  - apply literal_text. reflexivity.
  - assert (T : forall v, (match v with c :: _ => negb (mem c [" "; x09]) | [] => true end && match rev v with c :: _ => negb (mem c [" "; x09]) | [] => true end)%bool = true -> trimmed v).
    { intros v H. apply andb_true_iff in H. destruct H as [H1 H2]. assert (K : forall c, negb (mem c [" "; x09]) = true -> ~ blank c).
      { intros c Hc [->| ->]; discriminate Hc. }
      split; [intros c s ->; apply K; exact H1|intros c s ->; rewrite rev_app_distr in H2; cbn [rev app] in H2; apply K; exact H2]. }
    repeat (constructor; [split; [apply literal_text; reflexivity|split; [apply literal_text; reflexivity|apply T; reflexivity]]|]). constructor.
Qed.

Lemma demo_sent_ok : sends demo_portable demo_sent.
Proof.
  split.
  - assert (V : forall h, forallb (fun c => (N.leb 32 (bN c) && N.ltb (bN c) 127)%bool) (snd h) = true -> valid_value h).
    { intros h H. unfold valid_value. apply Forall_forall. intros c Hc. rewrite forallb_forall in H. apply H in Hc. apply andb_true_iff in Hc. destruct Hc as [H1 H2]. apply N.leb_le in H1. apply N.ltb_lt in H2. left. lia. }
    repeat (constructor; [split; [apply literal_text; reflexivity|apply V; reflexivity]|]). constructor.
  - intros n Hn. assert (I : In n [B "host"; B "content-type"; B "x-goog-meta-a"]).
    { unfold values in Hn. destruct (str_eqb_spec n (B "host")) as [E|_]; [left; symmetry; exact E|]. cbn [app] in Hn. right.
      destruct (str_eqb_spec (B "content-type") n) as [E1|N1]; [left; exact E1|]. destruct (str_eqb_spec (B "x-goog-meta-a") n) as [E2|N2]; [right; left; exact E2|].
      exfalso. apply Hn. cbn [o_headers demo_portable demo_url_with filter fst].
      change (ascii_lower (B "X-Goog-Meta-A")) with (B "x-goog-meta-a"). change (ascii_lower (B "Content-Type")) with (B "content-type"). change (ascii_lower (B "x-goog-meta-a")) with (B "x-goog-meta-a").
      destruct (str_eqb_spec (B "x-goog-meta-a") n); [contradiction|]. destruct (str_eqb_spec (B "content-type") n); [contradiction|]. reflexivity. }
    destruct I as [<-|[<-|[<-|[]]]]; vm_compute; reflexivity.
Qed.

Example C54_case : deps_ok demo_deps /\ portable demo_portable /\ sends demo_portable demo_sent /\ server_ok strict_server /\
  (exists url path query sig, returns (build_signed_url demo_deps demo_portable) [] (Ok url) /\ url_parts url path query sig /\ path = B "/bucket1/a/%C3%A9%20%7Bb%7D(1).txt") /\
  account_text (B "sa@example.com") /\ forall message, sv_verifies strict_server (B "sa@example.com") message (B "key" ++ message).
Proof.
  split; [exact demo_deps_ok|]. split; [exact demo_portable_ok|]. split; [exact demo_sent_ok|]. split; [exact strict_ok|]. split.
  - destruct (demo_success demo_portable eq_refl eq_refl eq_refl) as [s R]; [vm_compute; reflexivity|]. do 4 eexists. split; [exact R|]. split; [apply url_parts_of|]. vm_compute. reflexivity.
  - split; [apply literal_text; reflexivity|]. intros m. split; reflexivity.
Qed.

(** The demo URL is accepted for 600 seconds. *)
Example C55_case : exists url path query sig message s, returns (build_signed_url demo_deps demo_portable) [] (Ok url) /\ url_parts url path query sig /\
  accepts strict_server (demo_time / 1000000000 + 599)%Z (issued demo_portable path query sig demo_sent) (B "sa@example.com") message s /\
  ~ accepts strict_server (demo_time / 1000000000 + 600)%Z (issued demo_portable path query sig demo_sent) (B "sa@example.com") message s.
Proof.
  destruct (demo_success demo_portable eq_refl eq_refl eq_refl) as [sg R]; [vm_compute; reflexivity|].
  match type of R with returns _ _ (Ok ?u) => set (url := u) in * end.
  pose proof (url_parts_of demo_deps demo_portable (pairs_of demo_deps demo_portable (demo_time / NS)%Z (lifetime demo_portable demo_time) (lowered demo_portable) (B "sa@example.com")) sg) as P.
  destruct (C54_accepted _ _ _ _ _ _ _ _ demo_deps_ok R P demo_portable_ok demo_sent_ok) as (t & t1 & t2 & t3 & email & message & s & T & E & A & Sg & Acc).
  symmetry in E. apply app_eq_nil in E. destruct E as [-> E]. apply app_eq_nil in E. destruct E as [-> ->].
  assert (t = demo_time) as ->. { assert (G : forall l, url_time demo_portable t l -> t = demo_time) by (intros l [x Ex|x Ex]; [injection Ex; auto|discriminate Ex]). exact (G _ T). }
  assert (email = B "sa@example.com") as ->. { inversion A; subst; try reflexivity. }
  assert (s = B "key" ++ message) as ->. { inversion Sg as [? ? ? ? Es|]; subst. cbn in Es. injection Es as <-. reflexivity. }
  exists url. do 3 eexists. exists message, (B "key" ++ message). split; [exact R|]. split; [exact P|]. split.
  - apply Acc; [exact strict_ok|apply literal_text; reflexivity|split; reflexivity|]. vm_compute. split; [discriminate|reflexivity].
  - intros Acc'. destruct (C55_expired _ _ _ _ _ _ _ demo_deps_ok R P) as (t & t1 & rest & T' & _ & Ex). apply Ex in Acc'. assert (t = demo_time) as -> by (assert (G : forall l, url_time demo_portable t l -> t = demo_time) by (intros l [x Z|x Z]; [injection Z; auto|discriminate Z]); exact (G _ T')).
    vm_compute in Acc'. destruct Acc' as [_ Acc']. discriminate Acc'.
Qed.

(** A parameter value with a slash, such as a content type, makes the URL useless. *)
Example C54_unportable_case : let o := demo_url_with (B "bucket1") (B "a") None [] [(B "response-content-type", B "text/plain")] demo_account false in
  exists url path query sig, returns (build_signed_url demo_deps o) [] (Ok url) /\ url_parts url path query sig /\ In "/" query /\ ~ In "/" (B "&=%" ++ upper_hex) /\
    forall sv, server_ok sv -> sv_query sv "/" = false.
Proof.
  intros o. destruct (demo_success o eq_refl eq_refl eq_refl) as [sg R]; [vm_compute; reflexivity|]. do 4 eexists. split; [exact R|]. split; [apply url_parts_of|].
  split; [apply mem_iff; vm_compute; reflexivity|]. split; [intros I; apply mem_iff in I; vm_compute in I; discriminate I|]. intros sv OK. apply OK.
Qed.
