(** C102: exactly which forms a service accepts. *)
From Coq Require Import Permutation.
From Verif Require Import Base BaseFacts Time TimeFacts Base64 Json JsonTree JsonFacts Policy PolicyFacts Effects EffectsFacts Keys KeysFacts Scope HtmlForm SpecCalendar SpecCodec CodecFacts SpecJson SpecPolicy
  SpecTrace SpecSign SignFacts SpecForm SpecUrl SpecServer FormFacts UrlSpecFacts SignedUrlFacts Demo Prop_Form Prop_Server SpecUpload Prop_Upload SpecFormExact.
Local Open Scope Z_scope.

Lemma covered_in fields n v : In (n, v) (covered fields) <-> In (n, v) fields /\ n <> B "policy" /\ n <> B "x-goog-signature".
Proof.
  unfold covered. rewrite filter_In. cbn [fst]. destruct (str_eqb_spec n (B "policy")), (str_eqb_spec n (B "x-goog-signature")); cbn; intuition (try discriminate; auto).
Qed.

(** Any form whatsoever. *)
Theorem C102_exactly d calls o tr fields policy : last_options calls o -> returns (build d (builder_of calls)) tr (Ok fields) -> In (B "policy", policy) fields ->
  exists t pre t1 t2 email s, build_time o t pre /\ tr = pre ++ t1 ++ t2 /\ authorized (so_signing_key o) t1 email /\
    signed d (so_signing_key o) (so_use_sign_blob o) policy t2 s /\
    forall verifies now form size s', upload_accepted verifies now form size email policy s' <->
      same_form fields form policy /\ issued_length fields size /\ t / 1000000000 <= now < so_expiration o / 1000000000 /\
      (exists sig, given form (B "x-goog-signature") sig /\ hex_of s' sig) /\ verifies email policy s'.
Proof.
  intros Lo H Ip.
  destruct (form_facts _ _ _ _ _ Lo H) as (t & pre & t1 & t2 & email & policy0 & s & text & j & cs & date & scope & sig & T & E & Hw & Au & Sg & I1 & D & J & P & I2 & I3 & Sc & I4 & Da & I5 & Hx & C & U1 & U2).
  pose proof (U1 _ Ip) as Eq. subst policy0.
  exists t, pre, t1, t2, email, s. split; [exact T|]. split; [exact E|]. split; [exact Au|]. split; [exact Sg|].
  intros verifies now form size s'. split.
  - intros (text' & j' & cs' & expiry & secs & region & date' & scope' & sig' & G & D' & J' & P' & Ga & Gc & Sc' & Gd & Da' & Gs & Hx' & W & Ac & Al & V).
    destruct (C10_tamper_evidence _ _ _ _ _ _ _ _ _ _ Lo H I1 D' J' P') as [_ T10]. destruct (T10 _ _ Ac) as [T1 T2].
    pose proof (emitted_conditions _ _ _ _ _ _ _ _ _ _ Lo H I1 D' J' P') as C'.
    assert (Hf : forall n v, In (n, v) fields -> ~ In n [B "policy"; B "x-goog-signature"; B "Content-Length"] -> has_field form n v).
    { intros n v I N. cbn [In] in N. apply T1; [apply covered_in; split; [exact I|]; split; intros X; apply N; subst; tauto|intros X; apply N; subst; tauto]. }
    assert (date' = date) as -> by (apply (proj2 (Hf _ _ I4 ltac:(cbn; intuition discriminate)) date'), given_in0, Gd).
    pose proof (utc_basic_inj _ _ _ Da' Da) as ->.
    assert (expiry = so_expiration o / 1000000000) as ->.
    { destruct (C03_policy_covers _ _ _ _ _ Lo H) as [_ X]. destruct (X _ Ip) as (text0 & cs0 & secs0 & j0 & D0 & _ & U & _).
      rewrite (base64_of_data_unique _ _ _ D' D0) in J'. rewrite (base64_of_data_unique _ _ _ D D0) in J. rewrite (U _ J') in P'. rewrite (U _ J) in P.
      eapply policy_tree_expiry; eassumption. }
    split; [constructor|].
    + exact G.
    + intros n I. cbn [In] in I. destruct I as [<-|[<-|[<-|[]]]]; eauto.
    + exact Hf.
    + intros n v If. destruct (Al n v If) as [Ex|(c & Ic & Mc)]; [left; exact Ex|right]. destruct (paired_r _ _ _ _ C' Ic) as ([m u] & Im & Cf).
      inversion Cf as [v' n' Dn|n' v' Nn]; subst; cbn [mentions] in Mc; subst.
      * right. split; [reflexivity|]. apply filter_In in Im. exists u. apply Im.
      * left. destruct (T1 _ _ Im Nn) as [_ Un]. rewrite (Un _ If). apply filter_In in Im. apply Im.
    + split; [exact T2|]. split; [exact W|]. split; [eauto|exact V].
  - intros ([G On Hf Al] & Sz & W & (sig' & Gs & Hx') & V).
    assert (Gv : forall n v, In n [B "x-goog-algorithm"; B "x-goog-credential"; B "x-goog-date"] -> In (n, v) fields -> given form n v).
    { intros n v I If. destruct (On n I) as [w Gw]. assert (w = v) as <-; [|exact Gw].
      refine (proj2 (Hf n v If _) w (given_in0 _ _ _ Gw)). cbn [In] in *. intros [X|[X|[X|[]]]]; subst n; repeat destruct I as [I|I]; try discriminate I; exact I. }
    exists text, j, cs, (so_expiration o / 1000000000), (t / 1000000000), (form_region o), date, scope, sig'.
    split; [exact G|]. split; [exact D|]. split; [exact J|]. split; [exact P|]. split; [apply Gv; [cbn; tauto|exact I2]|]. split; [apply Gv; [cbn; tauto|exact I3]|]. split; [exact Sc|].
    split; [apply Gv; [cbn; tauto|exact I4]|]. split; [exact Da|]. split; [exact Gs|]. split; [exact Hx'|]. split; [exact W|]. split; [|split; [|exact V]].
    + unfold accepted. apply Forall_forall. intros c Ic. destruct (paired_r _ _ _ _ C Ic) as ([m u] & If & Cf). apply covered_in in If. destruct If as (If & N1 & N2).
      inversion Cf as [v n Dn|n v Nn]; subst; cbn [satisfied]; [rewrite (Sz u n If Dn); lia|apply Hf; [exact If|cbn [In]; intuition congruence]].
    + assert (Cv : forall n v, In (n, v) fields -> exempt n \/ exists c, In c cs /\ mentions c n).
      { intros n v I. destruct (str_eqb_spec n (B "policy")) as [->|N1]; [left; left; reflexivity|]. destruct (str_eqb_spec n (B "x-goog-signature")) as [->|N2]; [left; right; left; reflexivity|].
        right. destruct (paired_l _ _ _ _ C (proj2 (covered_in fields n v) (conj I (conj N1 N2)))) as (c & Icc & Cf). exists c. split; [exact Icc|]. inversion Cf; subst; reflexivity. }
      intros n v I. destruct (Al n v I) as [X|[X|[-> [w X]]]]; [left; exact X|eapply Cv; exact X|eapply Cv; exact X].
Qed.

(** Names other than those of metadata occur once in an issued form. *)
Lemma documented_once d calls o tr fields n v : last_options calls o -> returns (build d (builder_of calls)) tr (Ok fields) -> In n documented_names -> In (n, v) fields -> given fields n v.
Proof.
  intros Lo H N I. destruct (C02_signed_fields _ _ _ _ _ Lo H) as (l & p & c & dt & sg & -> & L & _).
  assert (M : ~ In n (map fst (meta_pairs calls))).
  { intros J. apply in_map_iff in J. destruct J as ([m u] & E & J). cbn [fst] in E. subst m. destruct (meta_pair_name _ _ _ J) as [m ->].
    unfold documented_names in N. cbn [map In] in N. repeat destruct N as [N|N]; try discriminate N. exact N. }
  unfold given. rewrite filter_app, (filter_none (meta_pairs calls) n M), app_nil_r. apply in_app_or in I.
  destruct I as [I|I]; [|exfalso; apply M; apply in_map_iff; exists (n, v); auto].
  apply given_once; [|exact I]. clear -L.
  assert (ND : NoDup documented_names).
  { unfold documented_names. repeat (constructor; [cbn; intuition discriminate|]). constructor. }
  assert (X : NoDup (map fst l) /\ incl (map fst l) documented_names); [|apply X].
  revert ND L. generalize documented_names. intros names ND L. induction L as [|n v names l Hv L IH|n names l Hv L IH].
  - split; [constructor|intros x []].
  - inversion ND as [|? ? Nin ND']; subst. destruct (IH ND') as [IH1 IH2]. cbn [map fst]. split.
    + constructor; [intros X; apply Nin, IH2, X|exact IH1].
    + intros x [<-|J]; [left; reflexivity|right; apply IH2; exact J].
  - inversion ND as [|? ? Nin ND']; subst. destruct (IH ND') as [IH1 IH2]. split; [exact IH1|]. intros x J. right. apply IH2, J.
Qed.

(** The issued form, its fields in any order, with further fields that are to be ignored. *)
Theorem C102_issued d calls o tr fields policy : last_options calls o -> returns (build d (builder_of calls)) tr (Ok fields) -> In (B "policy", policy) fields ->
  exists t pre t1 t2 email s, build_time o t pre /\ tr = pre ++ t1 ++ t2 /\ authorized (so_signing_key o) t1 email /\
    signed d (so_signing_key o) (so_use_sign_blob o) policy t2 s /\
    forall verifies now form extra size, Permutation form (fields ++ extra) -> Forall (fun f => exists r, fst f = B "x-ignore-" ++ r) extra ->
      (upload_accepted verifies now form size email policy s <->
       consistent_meta calls /\ issued_length fields size /\ t / 1000000000 <= now < so_expiration o / 1000000000 /\ verifies email policy s).
Proof.
  intros Lo H Ip. destruct (form_facts _ _ _ _ _ Lo H) as (t & pre & t1 & t2 & email & policy0 & s & text & j & cs & date & scope & sig & T & E & Hw & Au & Sg & I1 & D & J & P & I2 & I3 & Sc & I4 & Da & I5 & Hx & C & U1 & U2).
  pose proof (U1 _ Ip) as Eq. subst policy0. exists t, pre, t1, t2, email, s. split; [exact T|]. split; [exact E|]. split; [exact Au|]. split; [exact Sg|].
  intros verifies now form extra size Pm Ex.
  destruct (C02_signed_fields _ _ _ _ _ Lo H) as (l & p & cr & dt & sg & Ef & L & _).
  assert (Mt : forall n v, In (n, v) (meta_pairs calls) -> In (n, v) fields /\ exists m, n = B "x-goog-meta-" ++ m).
  { intros n v I. split; [rewrite Ef; apply in_or_app; right; exact I|eapply meta_pair_name; exact I]. }
  assert (Fm : forall n v, In (n, v) form -> (forall r, n <> B "x-ignore-" ++ r) -> In (n, v) fields).
  { intros n v I N. apply (Permutation_in _ Pm) in I. apply in_app_or in I. destruct I as [I|I]; [exact I|]. rewrite Forall_forall in Ex. destruct (Ex _ I) as [r Er]. destruct (N r Er). }
  assert (Mf : forall n v, In (n, v) fields -> In (n, v) form) by (intros n v I; eapply Permutation_in; [apply Permutation_sym; exact Pm|apply in_or_app; left; exact I]).
  split.
  - intros (text' & j' & cs' & expiry & secs & region & date' & scope' & sig' & G & D' & J' & P' & Ga & Gc & Sc' & Gd & Da' & Gs & Hx' & W & Ac & Al & V).
    destruct (C10_tamper_evidence _ _ _ _ _ _ _ _ _ _ Lo H I1 D' J' P') as [_ T10]. destruct (T10 _ _ Ac) as [T1 T2].
    assert (Hf : forall n v, In (n, v) fields -> ~ In n [B "policy"; B "x-goog-signature"; B "Content-Length"] -> has_field form n v).
    { intros n v I N. cbn [In] in N. apply T1; [apply covered_in; split; [exact I|]; split; intros X; apply N; subst; tauto|intros X; apply N; subst; tauto]. }
    assert (date' = date) as -> by (apply (proj2 (Hf _ _ I4 ltac:(cbn; intuition discriminate)) date'), given_in0, Gd).
    pose proof (utc_basic_inj _ _ _ Da' Da) as ->.
    assert (expiry = so_expiration o / 1000000000) as ->.
    { destruct (C03_policy_covers _ _ _ _ _ Lo H) as [_ X]. destruct (X _ Ip) as (text0 & cs0 & secs0 & j0 & D0 & _ & U & _).
      rewrite (base64_of_data_unique _ _ _ D' D0) in J'. rewrite (base64_of_data_unique _ _ _ D D0) in J. rewrite (U _ J') in P'. rewrite (U _ J) in P.
      eapply policy_tree_expiry; eassumption. }
    split; [|split; [exact T2|split; [exact W|exact V]]].
    intros n v w Iv Iw. destruct (Mt _ _ Iv) as [Iv' [m ->]]. destruct (Mt _ _ Iw) as [Iw' _].
    refine (proj2 (Hf _ w Iw' _) v (Mf _ _ Iv')). cbn [In]. intuition discriminate.
  - intros (Cm & Sz & W & V).
    assert (Gd : forall n v, In n documented_names -> In (n, v) fields -> given form n v).
    { intros n v N I. apply (given_permuted _ _ _ _ Pm). unfold given. rewrite filter_app, (filter_none extra n).
      - rewrite app_nil_r. eapply documented_once; eassumption.
      - intros Ia. apply in_map_iff in Ia. destruct Ia as ([a b] & Ea & Ia). cbn [fst] in Ea. subst a. rewrite Forall_forall in Ex. destruct (Ex _ Ia) as [r Er].
        exact (not_ignored _ r (or_introl N) Er). }
    assert (One : forall n v w, In (n, v) fields -> In (n, w) fields -> w = v).
    { intros n v w Iv Iw. destruct (field_names _ _ _ _ _ _ _ Lo H Iv) as [N|[m ->]].
      - pose proof (documented_once _ _ _ _ _ _ _ Lo H N Iv) as G1. pose proof (documented_once _ _ _ _ _ _ _ Lo H N Iw) as G2. unfold given in G1, G2. rewrite G1 in G2. injection G2 as ->. reflexivity.
      - assert (X : forall u, In (B "x-goog-meta-" ++ m, u) fields -> In (B "x-goog-meta-" ++ m, u) (meta_pairs calls)).
        { intros u I. rewrite Ef in I. apply in_app_or in I. destruct I as [I|I]; [|exact I]. exfalso. pose proof (proj2 (listed_in _ _ _ _ _ L I)) as N.
          unfold documented_names in N. cbn [map In] in N. repeat destruct N as [N|N]; try discriminate N. exact N. }
        eapply Cm; apply X; eassumption. }
    assert (Hf : forall n v, In (n, v) fields -> has_field form n v).
    { intros n v I. split; [apply Mf, I|]. intros w Iw. apply (One n v w I). apply Fm; [exact Iw|]. intros r. apply not_ignored. eapply field_names; eassumption. }
    exists text, j, cs, (so_expiration o / 1000000000), (t / 1000000000), (form_region o), date, scope, sig.
    split; [apply Gd; [cbn; tauto|exact I1]|]. split; [exact D|]. split; [exact J|]. split; [exact P|]. split; [apply Gd; [cbn; tauto|exact I2]|]. split; [apply Gd; [cbn; tauto|exact I3]|]. split; [exact Sc|].
    split; [apply Gd; [cbn; tauto|exact I4]|]. split; [exact Da|]. split; [apply Gd; [cbn; tauto|exact I5]|]. split; [exact Hx|]. split; [exact W|]. split; [|split; [|exact V]].
    + unfold accepted. apply Forall_forall. intros c Ic. destruct (paired_r _ _ _ _ C Ic) as ([m u] & If & Cf). apply covered_in in If. destruct If as (If & N1 & N2).
      inversion Cf as [v n Dn|n v Nn]; subst; cbn [satisfied]; [rewrite (Sz u n If Dn); lia|apply Hf; exact If].
    + intros n v I. apply (Permutation_in _ Pm) in I. apply in_app_or in I. destruct I as [I|I].
      * destruct (str_eqb_spec n (B "policy")) as [->|N1]; [left; left; reflexivity|]. destruct (str_eqb_spec n (B "x-goog-signature")) as [->|N2]; [left; right; left; reflexivity|].
        right. destruct (paired_l _ _ _ _ C (proj2 (covered_in fields n v) (conj I (conj N1 N2)))) as (c & Icc & Cf). exists c. split; [exact Icc|]. inversion Cf; subst; reflexivity.
      * left. rewrite Forall_forall in Ex. destruct (Ex _ I) as [r Er]. right. right. right. exists r. exact Er.
Qed.

(** What a browser submits of the issued form. *)
Theorem C102_browser d calls o tr fields policy : last_options calls o -> returns (build d (builder_of calls)) tr (Ok fields) -> In (B "policy", policy) fields ->
  exists t pre t1 t2 email s, build_time o t pre /\ tr = pre ++ t1 ++ t2 /\ authorized (so_signing_key o) t1 email /\
    signed d (so_signing_key o) (so_use_sign_blob o) policy t2 s /\
    forall verifies now form size, submitted fields form ->
      (upload_accepted verifies now form size email policy s <->
       plain_fields fields /\ consistent_meta calls /\ issued_length fields size /\ t / 1000000000 <= now < so_expiration o / 1000000000 /\ verifies email policy s).
Proof.
  intros Lo H Ip. destruct (C102_issued _ _ _ _ _ _ Lo H Ip) as (t & pre & t1 & t2 & email & s & T & E & Au & Sg & X).
  exists t, pre, t1, t2, email, s. split; [exact T|]. split; [exact E|]. split; [exact Au|]. split; [exact Sg|]. intros verifies now form size Su.
  specialize (X verifies now fields [] size). rewrite app_nil_r in X. specialize (X (Permutation_refl _) (Forall_nil _)). split.
  - intros A. pose proof (C86_plain _ _ _ _ _ _ Lo H Su _ _ _ _ _ _ A) as P. split; [exact P|]. apply X. rewrite (proj2 (C86_browser _ _ Su) P) in A. exact A.
  - intros [P Y]. rewrite (proj2 (C86_browser _ _ Su) P). apply X, Y.
Qed.

(** * Examples *)

Lemma given_without fields n v : n <> B "Content-Length" -> given fields n v -> given (filter (fun f => negb (str_eqb (fst f) (B "Content-Length"))) fields) n v.
Proof.
  unfold given. intros N <-. induction fields as [|[a b] l IH]; [reflexivity|]. cbn [filter fst]. destruct (str_eqb_spec a (B "Content-Length")) as [->|Na]; cbn [negb filter fst].
  - rewrite IH. destruct (str_eqb_spec (B "Content-Length") n) as [Q|_]; [symmetry in Q; contradiction|reflexivity].
  - rewrite IH. reflexivity.
Qed.

Definition twice_calls (v w : str) : list builder_call := [
  CBucket (B "bucket1"); CKey (B "a/b"); CContentLength 3; CXGoogMeta (B "who") v; CXGoogMeta (B "who") w;
  CSigningOptions (demo_options (Some demo_time) (demo_time + 60 * NS) (KServiceAccount (B "sa@example.com") (B "key")) false)].

Lemma twice_last v w : last_options (twice_calls v w) (demo_options (Some demo_time) (demo_time + 60 * NS) (KServiceAccount (B "sa@example.com") (B "key")) false).
Proof. exists [CBucket (B "bucket1"); CKey (B "a/b"); CContentLength 3; CXGoogMeta (B "who") v; CXGoogMeta (B "who") w], []. split; [reflexivity|intros o []]. Qed.

Lemma twice_issued v w : w = B "me" \/ w = B "you" -> v = B "me" ->
  exists fields policy, returns (build demo_deps (builder_of (twice_calls v w))) [] (Ok fields) /\ In (B "policy", policy) fields /\ (forall x, In (B "Content-Length", x) fields -> x = B "3") /\ plain_fields fields.
Proof.
  intros [->| ->] ->; (do 2 eexists; split; [unfold returns; vm_compute; constructor|]; split; [cbn [In]; tauto|]; split;
    [intros x I; cbn [In] in I; repeat destruct I as [I|I]; try contradiction; first [exfalso; apply (f_equal fst) in I; discriminate I|apply (f_equal snd) in I; symmetry; exact I]
    |unfold plain_fields; repeat (apply Forall_cons; [split; [apply clean_iff; reflexivity|apply no_breaks; reflexivity]|]); apply Forall_nil]).
Qed.

Lemma twice_same : consistent_meta (twice_calls (B "me") (B "me")).
Proof. intros n v w I J. unfold twice_calls in I, J. cbn in I, J. destruct I as [I|[I|[]]], J as [J|[J|[]]]; congruence. Qed.

Lemma twice_differs : ~ consistent_meta (twice_calls (B "me") (B "you")).
Proof. intros C. specialize (C (B "x-goog-meta-who") (B "me") (B "you") ltac:(cbn; tauto) ltac:(cbn; tauto)). discriminate C. Qed.

Lemma twice_length fields : (forall x, In (B "Content-Length", x) fields -> x = B "3") -> issued_length fields 3.
Proof. intros Len v n I Dn. rewrite (Len v I) in Dn. destruct Dn as [Dn _]. vm_compute in Dn. congruence. Qed.

(** The same metadata twice is accepted, also from a browser; two values under a name are not, though the form is issued. *)
Example C102_case : exists fields policy s, returns (build demo_deps (builder_of (twice_calls (B "me") (B "me")))) [] (Ok fields) /\ submitted fields fields /\
  upload_accepted upload_verifies (demo_time / 1000000000 + 59) fields 3 (B "sa@example.com") policy s.
Proof.
  destruct (twice_issued (B "me") (B "me") (or_introl eq_refl) eq_refl) as (fields & policy & R & Ip & Len & Pl). exists fields, policy.
  destruct (C102_issued _ _ _ _ _ _ (twice_last _ _) R Ip) as (t & pre & t1 & t2 & email & s & T & E & Au & Sg & X).
  assert (t = demo_time) as -> by (inversion T as [x Ex|x Ex]; [injection Ex; auto|discriminate Ex]).
  exists s. cbn [demo_options so_signing_key so_use_sign_blob] in Au, Sg. inversion Au; subst. inversion Sg as [? ? ? ? Es|]; subst. split; [exact R|]. split; [destruct (submitted_total fields) as [form S]; pose proof (proj2 (C86_browser _ _ S) Pl) as Q; rewrite Q in S; exact S|].
  specialize (X upload_verifies (demo_time / 1000000000 + 59) fields [] 3%N). rewrite app_nil_r in X. apply (X (Permutation_refl _) (Forall_nil _)).
  split; [exact twice_same|]. split; [apply twice_length, Len|]. split; [vm_compute; split; [discriminate|reflexivity]|]. cbn in Es. injection Es as <-. split; reflexivity.
Qed.

Example C102_two_values : exists fields policy s, returns (build demo_deps (builder_of (twice_calls (B "me") (B "you")))) [] (Ok fields) /\ In (B "policy", policy) fields /\
  signed demo_deps (KServiceAccount (B "sa@example.com") (B "key")) false policy [] s /\
  forall verifies now size, ~ upload_accepted verifies now fields size (B "sa@example.com") policy s.
Proof.
  destruct (twice_issued (B "me") (B "you") (or_intror eq_refl) eq_refl) as (fields & policy & R & Ip & Len & Pl). exists fields, policy.
  destruct (C102_issued _ _ _ _ _ _ (twice_last _ _) R Ip) as (t & pre & t1 & t2 & email & s & T & E & Au & Sg & X).
  symmetry in E. apply app_eq_nil in E. destruct E as [-> E]. apply app_eq_nil in E. destruct E as [-> ->].
  exists s. split; [exact R|]. split; [exact Ip|]. split; [exact Sg|]. cbn [demo_options so_signing_key] in Au. inversion Au; subst.
  intros verifies now size A. specialize (X verifies now fields [] size). rewrite app_nil_r in X. apply (X (Permutation_refl _) (Forall_nil _)) in A. apply twice_differs, A.
Qed.

(** The length field may be left out, and a second date, even the same, may not be added. *)
Example C102_exactly_case : exists fields policy s, returns (build demo_deps (builder_of (twice_calls (B "me") (B "me")))) [] (Ok fields) /\
  upload_accepted upload_verifies (demo_time / 1000000000) (filter (fun f => negb (str_eqb (fst f) (B "Content-Length"))) fields) 3 (B "sa@example.com") policy s /\
  forall date, ~ upload_accepted upload_verifies (demo_time / 1000000000) ((B "x-goog-date", date) :: fields) 3 (B "sa@example.com") policy s.
Proof.
  destruct (twice_issued (B "me") (B "me") (or_introl eq_refl) eq_refl) as (fields & policy & R & Ip & Len & Pl). exists fields, policy.
  destruct (C102_exactly _ _ _ _ _ _ (twice_last _ _) R Ip) as (t & pre & t1 & t2 & email & s & T & E & Au & Sg & X).
  destruct (C102_issued _ _ _ _ _ _ (twice_last _ _) R Ip) as (t' & pre' & t1' & t2' & email' & s0 & T' & E' & Au' & Sg' & Y).
  assert (t = demo_time) as -> by (inversion T as [x Ex|x Ex]; [injection Ex; auto|discriminate Ex]).
  assert (t' = demo_time) as -> by (inversion T' as [x Ex|x Ex]; [injection Ex; auto|discriminate Ex]).
  cbn [demo_options so_signing_key so_use_sign_blob] in Au, Sg, Au', Sg'. inversion Au; subst. inversion Au'; subst. inversion Sg as [? ? ? ? Es|]; subst. inversion Sg' as [? ? ? ? Es'|]; subst.
  rewrite Es in Es'. injection Es' as <-. exists s. split; [exact R|].
  assert (A : upload_accepted upload_verifies (demo_time / 1000000000) fields 3 (B "sa@example.com") policy s).
  { specialize (Y upload_verifies (demo_time / 1000000000) fields [] 3%N). rewrite app_nil_r in Y. apply (Y (Permutation_refl _) (Forall_nil _)).
    split; [exact twice_same|]. split; [apply twice_length, Len|]. split; [vm_compute; split; [discriminate|reflexivity]|]. cbn in Es. injection Es as <-. split; reflexivity. }
  apply X in A. destruct A as ([G On Hf Al] & Sz & W & (sig & Gs & Hx) & V). split.
  - apply X. split; [|split; [exact Sz|split; [exact W|split; [|exact V]]]].
    + assert (Gv : forall n v, n <> B "Content-Length" -> given fields n v -> given (filter (fun f => negb (str_eqb (fst f) (B "Content-Length"))) fields) n v) by apply given_without.
      constructor.
      * apply Gv; [discriminate|exact G].
      * intros n I. destruct (On n I) as [v Hv]. exists v. apply Gv; [|exact Hv]. intros ->. cbn [In] in I. repeat destruct I as [I|I]; try discriminate I. exact I.
      * intros n v I N. destruct (Hf n v I N) as [I1 I2]. cbn [In] in N. split; [apply filter_In; split; [exact I1|]; cbn [fst]; destruct (str_eqb_spec n (B "Content-Length")) as [->|]; [tauto|reflexivity]|].
        intros w Iw. apply filter_In in Iw. apply I2, Iw.
      * intros n v I. apply filter_In in I. apply Al, I.
    + exists sig. split; [apply given_without; [discriminate|exact Gs]|exact Hx].
  - intros date A. apply X in A. destruct A as ([_ On' _ _] & _). destruct (On (B "x-goog-date") ltac:(cbn; tauto)) as [v Hv]. destruct (On' (B "x-goog-date") ltac:(cbn; tauto)) as [v' Hv'].
    unfold given in Hv, Hv'. cbn [filter fst] in Hv'. rewrite str_eqb_refl in Hv'. rewrite Hv in Hv'. discriminate Hv'.
Qed.
