(** C86-C88: forms before a service that checks them. *)
From Coq Require Import Permutation.
From Verif Require Import Base BaseFacts Time TimeFacts Base64 Json JsonTree JsonFacts Policy PolicyFacts Effects EffectsFacts Keys KeysFacts Scope HtmlForm SpecCalendar SpecCodec CodecFacts SpecJson SpecPolicy
  SpecTrace SpecSign SignFacts SpecForm SpecUrl SpecServer FormFacts UrlSpecFacts SignedUrlFacts Demo Prop_Form Prop_Server SpecUpload.
Local Open Scope Z_scope.

Definition form_region (o : signing_options) : str := match so_region o with Some r => r | None => B "auto" end.

(** Everything about a successful signed build that a service looks at. *)
Lemma form_facts d calls o tr fields : last_options calls o -> returns (build d (builder_of calls)) tr (Ok fields) ->
  exists t pre t1 t2 email policy s text j cs date scope sig,
    build_time o t pre /\ tr = pre ++ t1 ++ t2 /\ t < so_expiration o /\
    authorized (so_signing_key o) t1 email /\ signed d (so_signing_key o) (so_use_sign_blob o) policy t2 s /\
    In (B "policy", policy) fields /\ base64_of text policy /\ json_text j text /\ policy_tree cs (so_expiration o / 1000000000) j /\
    In (B "x-goog-algorithm", B "GOOG4-RSA-SHA256") fields /\
    In (B "x-goog-credential", email ++ B "/" ++ scope) fields /\ scope_text (t / 1000000000) (form_region o) scope /\
    In (B "x-goog-date", date) fields /\ utc_basic_text (t / 1000000000) date /\
    In (B "x-goog-signature", sig) fields /\ hex_of s sig /\
    Forall2 covers (covered fields) cs /\ (forall w, In (B "policy", w) fields -> w = policy) /\ forall w, In (B "x-goog-signature", w) fields -> w = sig.
Proof.
  intros Lo H. destruct (signed_form _ _ _ _ _ Lo H) as (t & pre & t1 & t2 & acc & exp & bucket & key & email & sig & cs & S).
  cbn zeta in S. destruct S as (T & E & Hw & Hacc & Hexp & Hb & Hk & Au & Sg & Hfs & M & C).
  match type of Hfs with _ = form_list _ _ (Some ?pf) _ => set (p := pf) in * end.
  pose proof (ut_ts_ok _ _ Hexp) as Hx. destruct (policy_text_tree cs exp (proj1 Hx)) as [PT JT]. pose proof (ut_ts_ok _ _ Hacc) as [Ha _].
  pose proof (proj2 (proj1 (ut_from_system_time_spec _ _) Hacc)) as Ea. pose proof (proj2 (proj1 (ut_from_system_time_spec _ _) Hexp)) as Ee. unfold NS in Ea, Ee.
  assert (I : forall n v, In (n, v) (computed p) -> In (n, v) fields).
  { intros n v In0. destruct (form_listed calls (Some p) key (meta_pairs calls) Hk) as (l & El & L). rewrite Hfs. rewrite El. apply in_or_app. left.
    eapply listed_has; [exact L| | |].
    - unfold computed in In0. cbn [In] in In0. unfold documented_names. cbn [map In]. intuition (match goal with X : _ = (n, v) |- _ => injection X as <- _ end; tauto).
    - right. exists p. auto.
    - apply form_value_unique. }
  exists t, pre, t1, t2, email, (pf_policy p), sig, (policy_to_string {| conditions := cs; pd_expiration := exp |}), (policy_to_json {| conditions := cs; pd_expiration := exp |}), (map cond_of cs),
    (pf_date p), (date_to_string (date_from_unix_timestamp acc) ++ B "/" ++ unwrap_or (so_region o) (B "auto") ++ B "/" ++ B "storage" ++ B "/" ++ B "goog4_request"), (pf_signature p).
  split; [exact T|]. split; [exact E|]. split; [exact Hw|]. split; [exact Au|]. split; [exact Sg|].
  split; [apply I; cbn; tauto|]. split; [apply b64_encode_spec|]. split; [exact JT|]. split; [rewrite <- Ee; exact PT|].
  split; [apply I; cbn; tauto|]. split; [apply I; cbn; tauto|].
  split; [exists (date_to_string (date_from_unix_timestamp acc)); rewrite <- Ea; split; [apply date_utc_spec; exact Ha|apply glued_iff; reflexivity]|].
  split; [apply I; cbn; tauto|]. split; [rewrite <- Ea; apply iso8601_spec; exact Ha|]. split; [apply I; cbn; tauto|]. split; [apply hex_encode_spec|].
  split; [apply Forall2_cond_of; exact C|]. split; intros w Iw; rewrite Hfs in Iw; (apply form_field in Iw; [|exact Hk|cbn; tauto]);
  unfold computed in Iw; cbn [In] in Iw; repeat destruct Iw as [Iw|Iw]; try contradiction; try (apply (f_equal fst) in Iw; discriminate Iw);
  injection Iw as <-; reflexivity.
Qed.

Lemma field_names d calls o tr fields n v : last_options calls o -> returns (build d (builder_of calls)) tr (Ok fields) -> In (n, v) fields ->
  In n documented_names \/ exists m, n = B "x-goog-meta-" ++ m.
Proof.
  intros Lo H I. destruct (C02_signed_fields _ _ _ _ _ Lo H) as (l & p & c & dt & sg & -> & L & _). apply in_app_or in I. destruct I as [I|I].
  - left. exact (proj2 (listed_in _ _ _ _ _ L I)).
  - right. eapply meta_pair_name. exact I.
Qed.

Lemma not_ignored n r : In n documented_names \/ (exists m, n = B "x-goog-meta-" ++ m) -> n <> B "x-ignore-" ++ r.
Proof.
  intros [I|[m ->]]; [|discriminate]. unfold documented_names in I. cbn [map In] in I. repeat destruct I as [<-|I]; try discriminate. destruct I.
Qed.

Lemma once (fields : list (str * str)) n v w : NoDup (map fst fields) -> In (n, v) fields -> In (n, w) fields -> w = v.
Proof.
  induction fields as [|[m u] fs IH]; intros ND I J; [destruct I|]. cbn in ND. inversion ND as [|? ? Nin ND']; subst.
  assert (Y : forall x, In (n, x) fs -> In n (map fst fs)) by (intros x Hx; apply in_map_iff; exists (n, x); auto).
  destruct I as [E|I], J as [E'|J].
  - congruence.
  - injection E as -> _. destruct (Nin (Y _ J)).
  - injection E' as -> _. destruct (Nin (Y _ I)).
  - auto.
Qed.

Lemma given_once (fields : list (str * str)) n v : NoDup (map fst fields) -> In (n, v) fields -> given fields n v.
Proof.
  unfold given. induction fields as [|[m u] fs IH]; intros ND I; [destruct I|]. cbn in ND. inversion ND as [|? ? Nin ND']; subst. cbn [filter fst].
  destruct I as [E|I].
  - injection E as -> ->. rewrite str_eqb_refl. f_equal. apply filter_none. exact Nin.
  - destruct (str_eqb_spec m n) as [->|]; [exfalso; apply Nin; apply in_map_iff; exists (n, v); auto|auto].
Qed.

Lemma given_permuted (a b : list (str * str)) n v : Permutation a b -> given b n v -> given a n v.
Proof.
  unfold given. intros P G. assert (Q : Permutation (filter (fun kv => str_eqb (fst kv) n) b) (filter (fun kv => str_eqb (fst kv) n) a)).
  { clear G. apply Permutation_sym in P. induction P as [|x l1 l2 P IH|x y l1|l1 l2 l3 P IH Q IH2]; cbn [filter].
    - constructor.
    - destruct (str_eqb (fst x) n); [constructor; exact IH|exact IH].
    - destruct (str_eqb (fst x) n), (str_eqb (fst y) n); first [apply perm_swap|apply Permutation_refl].
    - exact (Permutation_trans IH IH2). }
  rewrite G in Q. apply Permutation_length_1_inv in Q. exact Q.
Qed.

Lemma paired_r {A C} (R : A -> C -> Prop) l l' y : Forall2 R l l' -> In y l' -> exists x, In x l /\ R x y.
Proof.
  induction 1 as [|a b l l' Hab _ IH]; intros I; [destruct I|]. destruct I as [<-|I]; [exists a; cbn; auto|]. destruct (IH I) as (x & Ix & Hx). exists x. cbn. auto.
Qed.

Lemma paired_l {A C} (R : A -> C -> Prop) l l' x : Forall2 R l l' -> In x l -> exists y, In y l' /\ R x y.
Proof.
  induction 1 as [|a b l l' Hab _ IH]; intros I; [destruct I|]. destruct I as [<-|I]; [exists b; cbn; auto|]. destruct (IH I) as (y & Iy & Hy). exists y. cbn. auto.
Qed.

(** * C86: accepted until it expires *)

(** The fields in any order, with further fields that are to be ignored, and a file of the stated size. *)
Theorem C86_accepted d calls o tr fields : last_options calls o -> returns (build d (builder_of calls)) tr (Ok fields) -> NoDup (map fst (meta_pairs calls)) ->
  exists t pre t1 t2 email policy s, build_time o t pre /\ tr = pre ++ t1 ++ t2 /\ authorized (so_signing_key o) t1 email /\
    signed d (so_signing_key o) (so_use_sign_blob o) policy t2 s /\ In (B "policy", policy) fields /\
    forall (verifies : str -> str -> str -> Prop) now form extra size, verifies email policy s ->
      Permutation form (fields ++ extra) -> Forall (fun f => exists r, fst f = B "x-ignore-" ++ r) extra ->
      (forall v n, In (B "Content-Length", v) fields -> decimal_of n v -> size = n) ->
      t / 1000000000 <= now < so_expiration o / 1000000000 ->
      upload_accepted verifies now form size email policy s.
Proof.
  intros Lo H ND. apply (C52_names_distinct _ _ _ _ _ Lo H) in ND.
  destruct (form_facts _ _ _ _ _ Lo H) as (t & pre & t1 & t2 & email & policy & s & text & j & cs & date & scope & sig & T & E & Hw & Au & Sg & I1 & D & J & P & I2 & I3 & Sc & I4 & Da & I5 & Hx & C & _ & _).
  exists t, pre, t1, t2, email, policy, s. split; [exact T|]. split; [exact E|]. split; [exact Au|]. split; [exact Sg|]. split; [exact I1|].
  intros verifies now form extra size V Pm Ex Sz Now.
  assert (Gv : forall n v, In (n, v) fields -> given form n v).
  { intros n v I. apply (given_permuted _ _ _ _ Pm). unfold given. rewrite filter_app. rewrite (filter_none extra n).
    - rewrite app_nil_r. apply given_once; assumption.
    - intros Ia. apply in_map_iff in Ia. destruct Ia as ([a b] & Ea & Ia). cbn [fst] in Ea. subst a. rewrite Forall_forall in Ex. destruct (Ex _ Ia) as [r Er].
      exact (not_ignored _ r (field_names _ _ _ _ _ _ _ Lo H I) Er). }
  assert (Hf : forall n v, In (n, v) fields -> has_field form n v).
  { intros n v I. split; [eapply Permutation_in; [apply Permutation_sym; exact Pm|apply in_or_app; left; exact I]|].
    intros w Iw. apply (Permutation_in _ Pm) in Iw. apply in_app_or in Iw. destruct Iw as [Iw|Iw]; [exact (once _ _ _ _ ND I Iw)|].
    exfalso. rewrite Forall_forall in Ex. destruct (Ex _ Iw) as [r Er]. exact (not_ignored _ r (field_names _ _ _ _ _ _ _ Lo H I) Er). }
  exists text, j, cs, (so_expiration o / 1000000000), (t / 1000000000), (form_region o), date, scope, sig.
  split; [apply Gv; exact I1|]. split; [exact D|]. split; [exact J|]. split; [exact P|]. split; [apply Gv; exact I2|]. split; [apply Gv; exact I3|]. split; [exact Sc|].
  split; [apply Gv; exact I4|]. split; [exact Da|]. split; [apply Gv; exact I5|]. split; [exact Hx|]. split; [exact Now|]. split; [|split; [|exact V]].
  - unfold accepted. apply Forall_forall. intros c Ic. destruct (paired_r _ _ _ _ C Ic) as (f & If & Cf). apply filter_In in If. destruct If as [If _].
    destruct Cf as [v n Dn|n v Nn]; cbn [satisfied]; [rewrite (Sz v n If Dn); lia|apply Hf; exact If].
  - intros n v I. apply (Permutation_in _ Pm) in I. apply in_app_or in I. destruct I as [I|I].
    + destruct (str_eqb_spec n (B "policy")) as [->|N1]; [left; left; reflexivity|]. destruct (str_eqb_spec n (B "x-goog-signature")) as [->|N2]; [left; right; left; reflexivity|].
      right. assert (Ic : In (n, v) (covered fields)).
      { apply filter_In. split; [exact I|]. cbn [fst]. destruct (str_eqb_spec n (B "policy")); [contradiction|]. destruct (str_eqb_spec n (B "x-goog-signature")); [contradiction|reflexivity]. }
      destruct (paired_l _ _ _ _ C Ic) as (c & Icc & Cf). exists c. split; [exact Icc|]. inversion Cf; subst; reflexivity.
    + left. rewrite Forall_forall in Ex. destruct (Ex _ I) as [r Er]. right. right. right. exists r. exact Er.
Qed.

(** * What browsers submit *)

Lemma breaks_cons c r : line_breaks (c :: r) -> (forall r', r <> x0a :: r') \/ c <> x0d -> line_breaks r.
Proof.
  intros L F a b. split; intros ->.
  - destruct (L (c :: a) b) as [L1 _]. destruct (L1 eq_refl) as [a' E]. destruct a' as [|x a'].
    + injection E as -> ->. destruct F as [F|F]; [destruct (F b eq_refl)|destruct (F eq_refl)].
    + injection E as _ ->. exists a'. reflexivity.
  - destruct (L (c :: a) b) as [_ L2]. exact (L2 eq_refl).
Qed.

Lemma crlf_kept s s' : crlf s s' -> line_breaks s -> s' = s.
Proof.
  induction 1 as [|r r' H IH|r r' N H IH|r r' H IH|c r r' N1 N2 H IH]; intros L; [reflexivity| | | |].
  - do 2 f_equal. apply IH. intros a b. split; intros ->.
    + destruct (L (x0d :: x0a :: a) b) as [L1 _]. destruct (L1 eq_refl) as [a' E]. destruct a' as [|x [|y a']]; try discriminate. injection E as _ _ ->. exists a'. reflexivity.
    + destruct (L (x0d :: x0a :: a) b) as [_ L2]. exact (L2 eq_refl).
  - destruct (L [] r) as [_ L2]. destruct (L2 eq_refl) as [b' ->]. destruct (N b' eq_refl).
  - destruct (L [] r) as [L1 _]. destruct (L1 eq_refl) as [[|] E]; discriminate.
  - f_equal. apply IH. eapply breaks_cons; [exact L|right; exact N1].
Qed.

Lemma breaks_pair r : line_breaks r -> line_breaks (x0d :: x0a :: r).
Proof.
  intros L a b. split; intros E.
  - destruct a as [|x a]; [discriminate|]. injection E as <- E. destruct a as [|y a]; [exists []; reflexivity|]. injection E as <- E.
    destruct (L a b) as [L1 _]. destruct (L1 E) as [a' ->]. exists (x0d :: x0a :: a'). reflexivity.
  - destruct a as [|x a]; [injection E as <-; exists r; reflexivity|]. injection E as <- E. destruct a as [|y a]; [discriminate|]. injection E as <- E.
    destruct (L a b) as [_ L2]. exact (L2 E).
Qed.

Lemma crlf_breaks s s' : crlf s s' -> line_breaks s'.
Proof.
  induction 1 as [|r r' H IH|r r' N H IH|r r' H IH|c r r' N1 N2 H IH].
  - intros [|x a] b; split; discriminate.
  - apply breaks_pair, IH.
  - apply breaks_pair, IH.
  - apply breaks_pair, IH.
  - intros a b. split; intros E.
    + destruct a as [|x a]; [injection E as E _; contradiction|]. injection E as <- E. destruct (IH a b) as [L1 _]. destruct (L1 E) as [a' ->]. exists (c :: a'). reflexivity.
    + destruct a as [|x a]; [injection E as E _; contradiction|]. injection E as <- E. destruct (IH a b) as [_ L2]. exact (L2 E).
Qed.

Lemma crlf_same s : (forall c, In c s -> ~ In c [x0d; x0a; x22]) -> line_breaks s.
Proof.
  intros N a b. split; intros ->; exfalso; (eapply N; [apply in_or_app; right; left; reflexivity|cbn; tauto]).
Qed.

Lemma quoted_kept s s' : quoted s s' -> (forall c, In c s -> ~ In c [x0d; x0a; x22]) -> s' = s.
Proof.
  induction 1 as [|r r' H IH|r r' H IH|r r' H IH|c r r' N1 N2 N3 H IH]; intros N; try reflexivity; try (exfalso; eapply N; [left; reflexivity|cbn; tauto]).
  f_equal. apply IH. intros x I. apply N. right. exact I.
Qed.

Lemma quoted_clean s s' : quoted s s' -> forall c, In c s' -> ~ In c [x0d; x0a; x22].
Proof.
  induction 1 as [|r r' H IH|r r' H IH|r r' H IH|c r r' N1 N2 N3 H IH]; intros x I.
  - destruct I.
  - cbn [app B] in I. repeat destruct I as [<-|I]; try (cbn; intuition discriminate). exact (IH x I).
  - repeat destruct I as [<-|I]; try (cbn; intuition discriminate). exact (IH x I).
  - repeat destruct I as [<-|I]; try (cbn; intuition discriminate). exact (IH x I).
  - destruct I as [<-|I]; [cbn; intuition congruence|exact (IH x I)].
Qed.

(** A name received without percent sign is the name sent. *)
Lemma name_sent s n s' : crlf s n -> quoted n s' -> ~ In "%"%byte s' -> s = s'.
Proof.
  intros C Q N. assert (E : n = s').
  { clear C. induction Q as [|r r' H IH|r r' H IH|r r' H IH|c r r' N1 N2 N3 H IH]; try reflexivity; try (exfalso; apply N; left; reflexivity).
    f_equal. apply IH. intros I. apply N. right. exact I. }
  subst n. pose proof (quoted_clean _ _ Q) as F. clear N Q. induction C as [|r r' H IH|r r' N H IH|r r' H IH|c r r' N1 N2 H IH]; try reflexivity;
    try (exfalso; eapply F; [left; reflexivity|cbn; tauto]). f_equal. apply IH. intros x I. apply F. right. exact I.
Qed.

(** Browsers leave exactly plain fields alone. *)
Theorem C86_browser fields form : submitted fields form -> (form = fields <-> plain_fields fields).
Proof.
  intros S. split.
  - intros ->. unfold plain_fields. apply Forall_forall. intros f If. revert S. unfold submitted. assert (G : forall l l', Forall2 (fun f g => (exists n, crlf (fst f) n /\ quoted n (fst g)) /\ crlf (snd f) (snd g)) l l' ->
      In f l' -> (forall c, In c (fst f) -> ~ In c [x0d; x0a; x22]) /\ line_breaks (snd f)).
    { intros l l' F I. destruct (paired_r _ _ _ _ F I) as (g & _ & (n & _ & Q) & C). split; [exact (quoted_clean _ _ Q)|exact (crlf_breaks _ _ C)]. }
    intros S. exact (G _ _ S If).
  - intros P. induction S as [|[n v] [n' v'] l l' [(m & C1 & Q) C2] S IH]; [reflexivity|]. cbn [fst snd] in *. inversion P as [|? ? [Pn Pv] P']; subst. cbn [fst snd] in *.
    pose proof (crlf_kept _ _ C1 (crlf_same _ Pn)) as ->. rewrite (quoted_kept _ _ Q Pn), (crlf_kept _ _ C2 Pv), (IH P'). reflexivity.
Qed.

Lemma plain_alphabet (l s : str) : forallb (fun c => negb (existsb (beq c) [x0d; x0a; x22])) l = true -> Forall (fun c => In c l) s -> line_breaks s.
Proof.
  intros A F. apply crlf_same. intros c I J. rewrite Forall_forall in F. rewrite forallb_forall in A. specialize (A c (F c I)). apply negb_true_iff in A.
  assert (X : existsb (beq c) [x0d; x0a; x22] = true); [|congruence]. apply existsb_exists. exists c. split; [exact J|]. apply beq_refl.
Qed.

Lemma base64_plain text policy : base64_of text policy -> line_breaks policy.
Proof.
  intros (chars & fill & pad & _ & _ & Sx & -> & _). apply (plain_alphabet ("="%byte :: b64_alphabet)); [reflexivity|]. apply Forall_app. split.
  - induction Sx as [|c chars n bs Hn Hs IH]; constructor; [right; eapply nth_error_In; eassumption|exact IH].
  - clear. induction pad; constructor; [left; reflexivity|assumption].
Qed.

Lemma hex_plain s t : hex_of s t -> line_breaks t.
Proof. intros H. apply (plain_alphabet hex_alphabet); [reflexivity|]. eapply hex_of_alphabet. exact H. Qed.

Lemma decimal_plain n v : decimal_of n v -> line_breaks v.
Proof.
  intros [D _]. apply undec_all_digits in D. destruct D as [_ D]. apply (plain_alphabet (B "0123456789")); [reflexivity|]. eapply Forall_impl; [|exact D].
  clear. intros c H. destruct c; try discriminate H; cbn; tauto.
Qed.

Lemma clean_iff (s : str) : forallb (fun c => negb (existsb (beq c) [x0d; x0a; x22])) s = true -> forall c, In c s -> ~ In c [x0d; x0a; x22].
Proof.
  intros A c I J. rewrite forallb_forall in A. specialize (A c I). apply negb_true_iff in A.
  assert (X : existsb (beq c) [x0d; x0a; x22] = true); [|congruence]. apply existsb_exists. exists c. split; [exact J|]. apply beq_refl.
Qed.

Lemma given_in0 (form : list (str * str)) n v : given form n v -> In (n, v) form.
Proof.
  intros G. assert (I : In (n, v) (filter (fun kv => str_eqb (fst kv) n) form)) by (unfold given in G; rewrite G; left; reflexivity). apply filter_In in I. apply I.
Qed.

(** The policy a service finds in what a browser submits. *)
Lemma submitted_policy fields form policy p : (forall w, In (B "policy", w) fields -> w = policy) -> line_breaks policy -> submitted fields form -> In (B "policy", p) form -> p = policy.
Proof.
  intros U L S I. destruct (paired_r _ _ _ _ S I) as ([n v] & If & (m & C1 & Q) & C2). cbn [fst snd] in *.
  rewrite (name_sent _ _ _ C1 Q) in If by (intros X; apply mem_iff in X; discriminate X). rewrite (U _ If) in C2. exact (crlf_kept _ _ C2 L).
Qed.

(** A service accepts what a browser submits only if every field is plain: otherwise the form is of no use to browsers. *)
Theorem C86_plain d calls o tr fields form : last_options calls o -> returns (build d (builder_of calls)) tr (Ok fields) -> submitted fields form ->
  forall verifies now size account policy s, upload_accepted verifies now form size account policy s -> plain_fields fields.
Proof.
  intros Lo H S verifies now size account policy' s' (text' & j' & cs' & expiry & secs & region & date' & scope' & sig' & G & D' & J' & P' & _ & _ & _ & _ & _ & _ & _ & _ & Ac & _).
  destruct (form_facts _ _ _ _ _ Lo H) as (t & pre & t1 & t2 & email & policy & s & text & j & cs & date & scope & sig & T & E & Hw & Au & Sg & I1 & D & J & P & I2 & I3 & Sc & I4 & Da & I5 & Hx & C & U1 & U2).
  assert (policy' = policy) as ->.
  { eapply submitted_policy; [exact U1|eapply base64_plain; exact D|exact S|]. eapply given_in0; exact G. }
  destruct (C10_tamper_evidence _ _ _ _ _ _ _ _ _ _ Lo H I1 D' J' P') as [_ T10]. destruct (T10 _ _ Ac) as [T1 _].
  apply Forall_forall. intros [n v] If. cbn [fst snd].
  destruct (str_eqb_spec n (B "policy")) as [->|N1].
  { rewrite (U1 _ If). split; [apply clean_iff; reflexivity|eapply base64_plain; exact D]. }
  destruct (str_eqb_spec n (B "x-goog-signature")) as [->|N2].
  { rewrite (U2 _ If). split; [apply clean_iff; reflexivity|eapply hex_plain; exact Hx]. }
  assert (Ic : In (n, v) (covered fields)).
  { apply filter_In. split; [exact If|]. cbn [fst]. destruct (str_eqb_spec n (B "policy")); [contradiction|]. destruct (str_eqb_spec n (B "x-goog-signature")); [contradiction|reflexivity]. }
  destruct (str_eqb_spec n (B "Content-Length")) as [->|N3].
  { destruct (paired_l _ _ _ _ C Ic) as (c & _ & Cf). inversion Cf as [v' n' Dn|n' v' Nn]; subst; [|congruence]. split; [apply clean_iff; reflexivity|eapply decimal_plain; exact Dn]. }
  destruct (T1 _ _ Ic N3) as [Iv _]. destruct (paired_r _ _ _ _ S Iv) as ([n0 v0] & _ & (m & C1 & Q) & C2). cbn [fst snd] in *.
  split; [exact (quoted_clean _ _ Q)|exact (crlf_breaks _ _ C2)].
Qed.

(** * C87: accepted only so *)

Lemma utc_rfc3339_inj a b s : utc_rfc3339_text a s -> utc_rfc3339_text b s -> a = b.
Proof.
  intros (d1 & h1 & m1 & s1 & y1 & mo1 & dd1 & th1 & tm1 & ts1 & U1 & A1 & A2 & A3 & A4 & A5 & A6 & E1)
         (d2 & h2 & m2 & s2 & y2 & mo2 & dd2 & th2 & tm2 & ts2 & U2 & B1 & B2 & B3 & B4 & B5 & B6 & E2). subst s.
  assert (L : forall w x y u v, digits w x u -> digits w y v -> length u = length v) by (intros w x y u v [X _] [Y _]; congruence).
  apply app_inv_len in E2; [|eapply L; eassumption]. destruct E2 as [<- E2]. apply app_inv_head in E2. apply app_inv_len in E2; [|eapply L; eassumption]. destruct E2 as [<- E2]. apply app_inv_head in E2.
  apply app_inv_len in E2; [|eapply L; eassumption]. destruct E2 as [<- E2]. apply app_inv_head in E2.
  apply app_inv_len in E2; [|eapply L; eassumption]. destruct E2 as [<- E2]. apply app_inv_head in E2. apply app_inv_len in E2; [|eapply L; eassumption]. destruct E2 as [<- E2]. apply app_inv_head in E2.
  apply app_inv_len in E2; [|eapply L; eassumption]. destruct E2 as [<- _].
  pose proof (digits_value _ _ _ _ A1 B1) as V1. pose proof (digits_value _ _ _ _ A2 B2) as V2. pose proof (digits_value _ _ _ _ A3 B3) as V3.
  rewrite (digits_value _ _ _ _ A4 B4), (digits_value _ _ _ _ A5 B5), (digits_value _ _ _ _ A6 B6) in U1. destruct d1, d2. cbn in V1, V2, V3. subst.
  eapply utc_inj; eassumption.
Qed.

Lemma policy_tree_expiry cs secs cs' secs' j : policy_tree cs secs j -> policy_tree cs' secs' j -> secs = secs'.
Proof.
  intros (tr & tx & _ & U & ->) (tr' & tx' & _ & U' & E). injection E as _ <-. eapply utc_rfc3339_inj; eassumption.
Qed.

Lemma no_slash_count (s : str) : ~ In "/"%byte s -> count_occ Byte.byte_eq_dec s "/"%byte = 0%nat.
Proof. apply count_occ_not_In. Qed.

Lemma first_slash (a b c d : str) : ~ In "/"%byte a -> ~ In "/"%byte c -> a ++ "/"%byte :: b = c ++ "/"%byte :: d -> a = c.
Proof.
  revert c. induction a as [|x a IH]; intros [|y c] Na Nc E; [reflexivity| | |].
  - injection E as <- _. destruct Nc. left. reflexivity.
  - injection E as -> _. destruct Na. left. reflexivity.
  - injection E as <- E. f_equal. apply IH; [intros I; apply Na; right; exact I|intros I; apply Nc; right; exact I|exact E].
Qed.

(** Whose signature it is, as far as the credential tells. *)
Lemma credential_account secs region region' scope scope' email account : scope_text secs region scope -> scope_text secs region' scope' ->
  ~ In "/"%byte email -> ~ In "/"%byte region -> account ++ B "/" ++ scope' = email ++ B "/" ++ scope -> account = email.
Proof.
  intros (day & Dy & G) (day' & Dy' & G') Ne Nr E. apply glued_iff in G, G'. rewrite (utc_date_text_unique _ _ _ Dy' Dy) in G'. subst scope scope'. cbn [join] in E.
  change (B "/") with ["/"%byte] in E. cbn [app] in E.
  pose proof (f_equal (fun s => count_occ Byte.byte_eq_dec s "/"%byte) E) as K. cbn beta in K.
  rewrite !count_occ_app in K. cbn [count_occ] in K. destruct (Byte.byte_eq_dec "/" "/") as [_|X]; [|destruct (X eq_refl)]. rewrite !count_occ_app in K. cbn [count_occ] in K.
  destruct (Byte.byte_eq_dec "/" "/") as [_|X]; [|destruct (X eq_refl)]. rewrite !count_occ_app in K.
  rewrite (no_slash_count _ Ne), (no_slash_count _ Nr) in K.
  eapply first_slash; [|exact Ne|exact E]. apply (proj2 (count_occ_not_In Byte.byte_eq_dec _ _)). lia.
Qed.

(** Whoever holds the policy: a service accepts a form with it only in the time the options give, only with the issued fields unchanged
    and the issued length, and nothing else but what needs no signature, only as signed by the account of the credential. *)
Theorem C87_only d calls o tr fields policy : last_options calls o -> returns (build d (builder_of calls)) tr (Ok fields) -> In (B "policy", policy) fields ->
  exists t pre t1 t2 email s, build_time o t pre /\ tr = pre ++ t1 ++ t2 /\ authorized (so_signing_key o) t1 email /\
    signed d (so_signing_key o) (so_use_sign_blob o) policy t2 s /\
    forall verifies now form size account s', upload_accepted verifies now form size account policy s' ->
      t / 1000000000 <= now < so_expiration o / 1000000000 /\
      (forall n v, In (n, v) (covered fields) -> n <> B "Content-Length" -> has_field form n v) /\
      (forall v n, In (B "Content-Length", v) fields -> decimal_of n v -> size = n) /\
      (forall n v, In (n, v) form -> exempt n \/ In (n, v) fields \/ n = B "Content-Length" /\ exists w, In (B "Content-Length", w) fields) /\
      (~ In "/"%byte email -> ~ In "/"%byte (form_region o) -> account = email) /\
      given form (B "policy") policy /\ (exists sig', given form (B "x-goog-signature") sig' /\ hex_of s' sig') /\ verifies account policy s'.
Proof.
  intros Lo H Ip.
  destruct (form_facts _ _ _ _ _ Lo H) as (t & pre & t1 & t2 & email & policy0 & s & text & j & cs & date & scope & sig & T & E & Hw & Au & Sg & I1 & D & J & P & I2 & I3 & Sc & I4 & Da & I5 & Hx & C & U1 & U2).
  pose proof (U1 _ Ip) as Eq. subst policy0.
  exists t, pre, t1, t2, email, s. split; [exact T|]. split; [exact E|]. split; [exact Au|]. split; [exact Sg|].
  intros verifies now form size account s' (text' & j' & cs' & expiry & secs & region & date' & scope' & sig' & G & D' & J' & P' & _ & Gc & Sc' & Gd & Da' & Gs & Hx' & W & Ac & Al & V).
  pose proof (emitted_conditions _ _ _ _ _ _ _ _ _ _ Lo H I1 D' J' P') as C'.
  destruct (C10_tamper_evidence _ _ _ _ _ _ _ _ _ _ Lo H I1 D' J' P') as [_ T10]. destruct (T10 _ _ Ac) as [T1 T2].
  assert (Same : forall n v w, In (n, v) fields -> n <> B "policy" -> n <> B "x-goog-signature" -> n <> B "Content-Length" -> In (n, w) form -> w = v).
  { intros n v w If N1 N2 N3 Iw. refine (proj2 (T1 n v _ N3) w Iw). apply filter_In. split; [exact If|]. cbn [fst].
    destruct (str_eqb_spec n (B "policy")); [contradiction|]. destruct (str_eqb_spec n (B "x-goog-signature")); [contradiction|reflexivity]. }
  pose proof (Same _ _ _ I4 ltac:(discriminate) ltac:(discriminate) ltac:(discriminate) (given_in0 _ _ _ Gd)) as ->.
  pose proof (utc_basic_inj _ _ _ Da' Da) as ->.
  pose proof (Same _ _ _ I3 ltac:(discriminate) ltac:(discriminate) ltac:(discriminate) (given_in0 _ _ _ Gc)) as Ec.
  assert (expiry = so_expiration o / 1000000000) as ->.
  { destruct (C03_policy_covers _ _ _ _ _ Lo H) as [_ X]. destruct (X _ Ip) as (text0 & cs0 & secs0 & j0 & D0 & _ & U & _).
    rewrite (base64_of_data_unique _ _ _ D' D0) in J'. rewrite (base64_of_data_unique _ _ _ D D0) in J. rewrite (U _ J') in P'. rewrite (U _ J) in P.
    eapply policy_tree_expiry; eassumption. }
  split; [exact W|]. split; [exact T1|]. split; [exact T2|]. split.
  { intros n v If. destruct (Al n v If) as [Ex|(c & Ic & Mc)]; [left; exact Ex|right]. destruct (paired_r _ _ _ _ C' Ic) as ([m u] & Im & Cf).
    inversion Cf as [v' n' Dn|n' v' Nn]; subst; cbn [mentions] in Mc; subst.
    - right. split; [reflexivity|]. apply filter_In in Im. exists u. apply Im.
    - left. destruct (T1 _ _ Im Nn) as [_ Un]. rewrite (Un _ If). apply filter_In in Im. apply Im. }
  split; [intros Ne Nr; eapply credential_account; [exact Sc|exact Sc'|exact Ne|exact Nr|exact Ec]|].
  split; [exact G|]. split; [exists sig'; auto|exact V].
Qed.

(** * Examples *)

Lemma crlf_total_len n : forall s, (length s <= n)%nat -> exists s', crlf s s'.
Proof.
  induction n as [|n IH]; intros [|c s] L; try (exists []; constructor; fail); [cbn in L; lia|]. cbn in L.
  destruct (byte_eq_dec c x0a) as [->|Na].
  { destruct (IH s ltac:(lia)) as [s' H]. exists (x0d :: x0a :: s'). constructor. exact H. }
  destruct (byte_eq_dec c x0d) as [->|Nd].
  { destruct s as [|b s].
    - exists [x0d; x0a]. apply cr_return; [discriminate|constructor].
    - destruct (byte_eq_dec b x0a) as [->|Nb].
      + cbn in L. destruct (IH s ltac:(lia)) as [s' H]. exists (x0d :: x0a :: s'). constructor. exact H.
      + destruct (IH (b :: s) ltac:(lia)) as [s' H]. exists (x0d :: x0a :: s'). apply cr_return; [congruence|exact H]. }
  destruct (IH s ltac:(lia)) as [s' H]. exists (c :: s'). constructor; assumption.
Qed.

Lemma quoted_total s : exists s', quoted s s'.
Proof.
  induction s as [|c s [s' H]]; [exists []; constructor|].
  destruct (byte_eq_dec c x0a) as [->|Na]; [eexists; constructor; exact H|]. destruct (byte_eq_dec c x0d) as [->|Nd]; [eexists; constructor; exact H|].
  destruct (byte_eq_dec c x22) as [->|Nq]; [eexists; constructor; exact H|]. eexists. apply qu_other; eassumption.
Qed.

(** A browser submits something for any fields. *)
Lemma submitted_total fields : exists form, submitted fields form.
Proof.
  induction fields as [|[n v] fields [form IH]]; [exists []; constructor|]. destruct (crlf_total_len _ n (le_n _)) as [n1 C1]. destruct (quoted_total n1) as [n2 Q]. destruct (crlf_total_len _ v (le_n _)) as [v1 C2].
  exists ((n2, v1) :: form). constructor; [|exact IH]. cbn [fst snd]. split; [exists n1; auto|exact C2].
Qed.

Lemma no_breaks (s : str) : forallb (fun c => negb (beq c x0d || beq c x0a)) s = true -> line_breaks s.
Proof.
  intros F a b. rewrite forallb_forall in F. split; intros ->; exfalso.
  - specialize (F x0a (in_elt _ _ _)). discriminate F.
  - specialize (F x0d (in_elt _ _ _)). discriminate F.
Qed.

Definition upload_calls (t : option systime) (value : str) : list builder_call := [
  CBucket (B "bucket1"); CKey (B "a/b"); CContentLength 3; CXGoogMeta (B "who") value; CXGoogMeta (B "what") (B "photo");
  CSigningOptions (demo_options t (demo_time + 60 * NS) (KServiceAccount (B "sa@example.com") (B "key")) false)].

Lemma upload_last t value : last_options (upload_calls t value) (demo_options t (demo_time + 60 * NS) (KServiceAccount (B "sa@example.com") (B "key")) false).
Proof.
  exists [CBucket (B "bucket1"); CKey (B "a/b"); CContentLength 3; CXGoogMeta (B "who") value; CXGoogMeta (B "what") (B "photo")], []. split; [reflexivity|intros o []].
Qed.

Lemma upload_distinct t value : NoDup (map fst (meta_pairs (upload_calls t value))).
Proof. cbn. repeat (constructor; [cbn; intuition discriminate|]). constructor. Qed.

(** A service that knows how the key of the examples signs. *)
Definition upload_verifies (account message s : str) : Prop := account = B "sa@example.com" /\ s = B "key" ++ message.

(** Accepted in the last second, with the fields in another order and a field to be ignored, and not in the next. *)
Example C86_case : exists fields policy s, returns (build demo_deps (builder_of (upload_calls (Some demo_time) (B "me ""you""")))) [] (Ok fields) /\
  upload_accepted upload_verifies (demo_time / 1000000000 + 59) ((B "x-ignore-me", B "1") :: rev fields) 3 (B "sa@example.com") policy s /\
  ~ upload_accepted upload_verifies (demo_time / 1000000000 + 60) ((B "x-ignore-me", B "1") :: rev fields) 3 (B "sa@example.com") policy s.
Proof.
  assert (X : exists fields, returns (build demo_deps (builder_of (upload_calls (Some demo_time) (B "me ""you""")))) [] (Ok fields) /\ forall v, In (B "Content-Length", v) fields -> v = B "3").
  { eexists. split; [unfold returns; vm_compute; constructor|]. intros v I. cbn [In] in I. repeat destruct I as [I|I]; try contradiction; first [exfalso; apply (f_equal fst) in I; discriminate I|apply (f_equal snd) in I; symmetry; exact I]. }
  destruct X as (fields & R & Len). exists fields.
  destruct (C86_accepted _ _ _ _ _ (upload_last _ _) R (upload_distinct _ _)) as (t & pre & t1 & t2 & email & policy & s & T & E & Au & Sg & Ip & Acc).
  assert (t = demo_time) as -> by (inversion T as [x Ex|x Ex]; [injection Ex; auto|discriminate Ex]).
  exists policy, s. cbn [demo_options so_signing_key so_use_sign_blob] in Au, Sg. inversion Au; subst. inversion Sg as [? ? ? ? Es|]; subst. split; [exact R|]. split.
  - apply (Acc upload_verifies _ _ [(B "x-ignore-me", B "1")] 3%N).
    + cbn in Es. injection Es as <-. split; reflexivity.
    + rewrite <- (Permutation_rev fields). apply Permutation_cons_append.
    + constructor; [exists (B "me"); reflexivity|constructor].
    + intros v n I Dn. rewrite (Len v I) in Dn. destruct Dn as [Dn _]. vm_compute in Dn. congruence.
    + vm_compute. split; [discriminate|reflexivity].
  - intros A. destruct (C87_only _ _ _ _ _ _ (upload_last _ _) R Ip) as (t' & pre' & t1' & t2' & email' & s' & T' & _ & _ & _ & Only). apply Only in A. destruct A as [[_ W] _]. revert W. vm_compute. discriminate.
Qed.

(** A form that browsers submit unchanged, and one that is of no use to them: a metadata value with a line feed. *)
Example C86_browser_case : exists fields, returns (build demo_deps (builder_of (upload_calls (Some demo_time) (B "me ""you""")))) [] (Ok fields) /\
  plain_fields fields /\ submitted fields fields.
Proof.
  eexists. split; [unfold returns; vm_compute; constructor|].
  match goal with |- plain_fields ?l /\ _ => assert (P : plain_fields l) end.
  { unfold plain_fields. repeat (apply Forall_cons; [split; [apply clean_iff; reflexivity|apply no_breaks; reflexivity]|]). apply Forall_nil. }
  split; [exact P|]. match goal with |- submitted ?l _ => destruct (submitted_total l) as [form S] end. pose proof (proj2 (C86_browser _ _ S) P) as E. rewrite E in S. exact S.
Qed.

Example C86_plain_case : exists fields form, returns (build demo_deps (builder_of (upload_calls (Some demo_time) (B "me" ++ x0a :: B "you")))) [] (Ok fields) /\
  submitted fields form /\ forall verifies now size account policy s, ~ upload_accepted verifies now form size account policy s.
Proof.
  assert (X : exists fields, returns (build demo_deps (builder_of (upload_calls (Some demo_time) (B "me" ++ x0a :: B "you")))) [] (Ok fields) /\ In (B "x-goog-meta-who", B "me" ++ x0a :: B "you") fields).
  { eexists. split; [unfold returns; vm_compute; constructor|]. cbn [In]. repeat first [left; reflexivity|right]. }
  destruct X as (fields & R & I). destruct (submitted_total fields) as [form S]. exists fields, form. split; [exact R|]. split; [exact S|].
  intros verifies now size account policy s A. pose proof (C86_plain _ _ _ _ _ _ (upload_last _ _) R S _ _ _ _ _ _ A) as P.
  unfold plain_fields in P. rewrite Forall_forall in P. destruct (P _ I) as [_ L]. destruct (L (B "me") (B "you")) as [L1 _]. destruct (L1 eq_refl) as [a' E].
  apply (f_equal (fun l => last l x00)) in E. rewrite last_last in E. discriminate E.
Qed.

(** An attacker who holds the form and changes the key of the object, or adds a field, is refused at any time. *)
Example C87_case : exists fields policy, returns (build demo_deps (builder_of (upload_calls (Some demo_time) (B "me ""you""")))) [] (Ok fields) /\ In (B "policy", policy) fields /\
  forall verifies now form size account s, In (B "key", B "c") form \/ In (B "acl", B "public-read") form -> ~ upload_accepted verifies now form size account policy s.
Proof.
  assert (X : exists fields policy, returns (build demo_deps (builder_of (upload_calls (Some demo_time) (B "me ""you""")))) [] (Ok fields) /\ In (B "policy", policy) fields /\
    In (B "key", B "a/b") fields /\ forall v, ~ In (B "acl", v) fields).
  { do 2 eexists. split; [unfold returns; vm_compute; constructor|]. split; [cbn [In]; repeat first [left; reflexivity|right]|]. split; [cbn [In]; repeat first [left; reflexivity|right]|].
    intros v I. cbn [In] in I. repeat destruct I as [I|I]; try contradiction; apply (f_equal fst) in I; discriminate I. }
  destruct X as (fields & policy & R & Ip & Ik & Na). exists fields, policy. split; [exact R|]. split; [exact Ip|].
  destruct (C87_only _ _ _ _ _ _ (upload_last _ _) R Ip) as (t & pre & t1 & t2 & email & s0 & _ & _ & _ & _ & Only).
  intros verifies now form size account s C A. apply Only in A. destruct A as (_ & F & _ & Al & _). destruct C as [C|C].
  - destruct (F (B "key") (B "a/b")) as [_ U]; [apply filter_In; split; [exact Ik|reflexivity]|discriminate|]. apply U in C. discriminate C.
  - destruct (Al _ _ C) as [[X|[X|[X|[r X]]]]|[X|[X _]]]; try discriminate X. exact (Na _ X).
Qed.
