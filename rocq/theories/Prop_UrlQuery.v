(** Properties of [build_signed_url]: the query (C16, C17, C18, C19). *)
From Coq Require Import Sorted Permutation.
From Verif Require Import Base BaseFacts Utf8 FormUrl FormUrlFacts Sha256 SpecCodec CodecFacts Time TimeFacts SpecCalendar SpecPolicy SpecForm FormFacts
  Effects EffectsFacts Keys Scope Url SignedUrl UrlFacts SpecUrl UrlSpecFacts SpecToken SpecTrace SpecSign SignFacts SignedUrlFacts HeaderFacts
  HtmlForm Calls Demo UrlResult UrlQueryFacts Prop_Url.
Local Open Scope byte_scope.

(** * C16, C17: what a server reads *)

Lemma token_low c : token_character c \/ c = """" -> (bN c < 128)%N.
Proof.
  intros [H| ->]; [|vm_compute; reflexivity]. unfold token_character in H. revert c H. apply Forall_forall.
  repeat (constructor; [vm_compute; reflexivity|]). constructor.
Qed.

Lemma names_low d o : deps_ok d -> headers_valid d o -> Forall (Forall (fun c => (bN c < 128)%N)) (name_list d o).
Proof.
  intros D H. apply Forall_forall. intros n Hn. apply (name_list_in d D o) in Hn. unfold values in Hn.
  destruct (str_eqb_spec n (B "host")) as [Nh|Nh]; [rewrite Nh; repeat constructor|]. cbn [app] in Hn.
  destruct (filter _ (o_headers o)) as [|h r] eqn:Ef; [contradiction|].
  assert (I : In h (filter (fun h => str_eqb (ascii_lower (fst h)) n) (o_headers o))) by (rewrite Ef; left; reflexivity).
  apply filter_In in I. destruct I as [I E]. apply str_eqb_eq in E. subst n. unfold headers_valid in H. rewrite Forall_forall in H.
  destruct (H h I) as [(_ & _ & F) _]. apply Forall_forall. intros c Hc. rewrite ascii_lower_eq in Hc. unfold lower_str in Hc. apply in_map_iff in Hc.
  destruct Hc as (x & <- & Hx). rewrite Forall_forall in F. assert (L : (bN x < 128)%N) by (apply token_low; destruct (F x Hx) as [T|[_ T]]; auto).
  apply N.ltb_lt in L. apply N.ltb_lt. clear - L. revert x L. apply (sweep_impl (fun x => N.ltb (bN x) 128) (fun x => N.ltb (bN (lower x)) 128)). vm_compute. reflexivity.
Qed.

Lemma names_valid d o : deps_ok d -> headers_valid d o -> Forall (fun n => utf8_valid n = true) (name_list d o).
Proof. intros D H. eapply Forall_impl; [|apply names_low; assumption]. intros n. apply utf8_valid_ascii. Qed.

(** All the facts about one successful build. *)
Lemma url_facts d o tr url path query sig : deps_ok d ->
  returns (build_signed_url d o) tr (Ok url) -> url_parts url path query sig ->
  exists t pre t1 t2 email block s, url_time o t pre /\ tr = pre ++ t1 ++ t2 /\ authorized (o_signing_key o) t1 email /\
    in_years t /\ (0 <= lifetime o t)%Z /\ Forall (fun n => utf8_valid n = true) (name_list d o) /\
    algorithm_str (key_algorithm (o_signing_key o)) = B "GOOG4-RSA-SHA256" /\
    header_block (o_headers o) (name_list d o) block /\
    path = path_of d o /\ query = sorted_query (pairs_of d o (t / NS)%Z (lifetime o t) (lowered o) email) /\ sig = hex_encode s /\
    signed d (o_signing_key o) (o_use_sign_blob o) (message_of o (t / NS)%Z
      (join [x0a] [o_http_method o; percent_encode path; query; block; []; names_of d (lowered o); B "UNSIGNED-PAYLOAD"])) t2 s.
Proof.
  intros D H P. destruct (url_ok_inv _ _ _ _ H) as (t & pre & t1 & t2 & email & verb & block & s & T & -> & S).
  destruct (success_parts _ _ _ _ _ _ _ _ _ _ _ _ _ S P) as (-> & -> & ->). destruct S as [V Ev A _ Eb Hs _].
  exists t, pre, t1, t2, email, block, s. split; [exact T|]. split; [reflexivity|]. split; [apply (authorizer_ok d); exact A|].
  split; [apply V|]. split. { destruct V as (_ & [Ho _] & _). unfold lifetime. apply Z.div_pos; lia. }
  split; [apply names_valid; [exact D|apply V]|]. split; [eapply sign_ok_rsa; exact Hs|]. split; [apply block_text; assumption|].
  split; [reflexivity|]. split; [reflexivity|]. split; [reflexivity|]. apply sign_ok in Hs. unfold canonical_of in Hs. rewrite Ev in Hs. exact Hs.
Qed.

Definition valid_pair (kv : str * str) : Prop := utf8_valid (fst kv) = true /\ utf8_valid (snd kv) = true.

(** A server that decodes the query reads the unescaping of every name and value, up to order. *)
Theorem C17_read d o tr url path query sig own : deps_ok d ->
  returns (build_signed_url d o) tr (Ok url) -> url_parts url path query sig ->
  own_parameters (requested o) own -> Forall valid_pair (own ++ o_query_parameters o) -> utf8_valid (region_of o) = true ->
  exists t t1 t2 t3 email date scope expires names names_text,
    url_time o t t1 /\ tr = t1 ++ t2 ++ t3 /\ authorized (o_signing_key o) t2 email /\
    utc_basic_text (t / 1000000000)%Z date /\ scope_text (t / 1000000000)%Z (region_of o) scope /\
    decimal_of (Z.to_N ((o_expires o - t) / 1000000000)) expires /\
    header_names (o_headers o) names /\ glued (B ";") names names_text /\
    (utf8_valid email = true -> exists pairs read,
      form_query (query ++ B "&X-Goog-Signature=" ++ sig) pairs /\ Permutation pairs read /\
      Forall2 unescaped_pair (own ++ o_query_parameters o ++ required_parameters email date scope expires names_text ++ [(B "X-Goog-Signature", sig)]) read).
Proof.
  intros D H P O F R. destruct (url_facts _ _ _ _ _ _ _ D H P) as (t & pre & t1 & t2 & email & block & s & T & -> & A & Y & L & N & Al & _ & _ & -> & -> & _).
  exists t, pre, t1, t2, email, (ut_to_iso8601 (t / NS)%Z), (scope_of o (t / NS)%Z), (dec (Z.to_N (lifetime o t))), (name_list d o), (names_of d (lowered o)).
  split; [exact T|]. split; [reflexivity|]. split; [exact A|]. split; [apply iso8601_spec; apply years_ts; exact Y|]. split; [apply scope_spec; exact Y|].
  split; [apply decimal_dec|]. split; [apply names_spec; exact D|]. split; [apply glued_iff; apply names_text|]. intros Em.
  rewrite (pairs_of_valid d o t email own) by assumption.
  eexists. eexists. split; [apply form_query_iff; reflexivity|]. split; [apply query_read; apply hex_sig|].
  unfold required_parameters. rewrite <- !app_assoc. cbn [app].
  assert (G : forall l, Forall2 unescaped_pair l (map decode2 l)).
  { induction l as [|x l IH]; constructor; [split; apply unescaped_iff; reflexivity|exact IH]. }
  rewrite map_app. apply Forall2_app; [apply G|]. rewrite map_app. apply Forall2_app; [apply G|].
  cbn [map]. constructor; [split; apply unescaped_iff; reflexivity|].
  constructor; [split; apply unescaped_iff; [reflexivity|apply replace_slash_decode]|]. apply (G [_; _; _; _]).
Qed.

Lemma plain_glued sep l t : sep <> "%" -> unhexd sep = None -> glued [sep] l t -> Forall plain l -> plain t.
Proof.
  intros N U G F. apply glued_iff in G. subst. induction F as [|x l H F IH]; [apply plain_iff; reflexivity|].
  destruct l as [|y l]; [exact H|]. rewrite join_cons2. apply plain_join; auto.
Qed.

Lemma plain_date s : forallb date_byte s = true -> plain s.
Proof. intros H. apply plain_no_percent. revert H. apply forallb_not_in. reflexivity. Qed.

Lemma basic_bytes secs s : utc_basic_text secs s -> forallb date_byte s = true.
Proof.
  intros (? & ? & ? & ? & ? & ? & ? & ? & ? & ? & _ & D1 & D2 & D3 & D4 & D5 & D6 & ->).
  rewrite !forallb_app. rewrite (digits_bytes _ _ _ D1), (digits_bytes _ _ _ D2), (digits_bytes _ _ _ D3), (digits_bytes _ _ _ D4),
    (digits_bytes _ _ _ D5), (digits_bytes _ _ _ D6). reflexivity.
Qed.
Lemma date_bytes secs s : utc_date_text secs s -> forallb date_byte s = true.
Proof.
  intros (? & ? & ? & ? & ? & ? & ? & _ & D1 & D2 & D3 & ->).
  rewrite !forallb_app. rewrite (digits_bytes _ _ _ D1), (digits_bytes _ _ _ D2), (digits_bytes _ _ _ D3). reflexivity.
Qed.

Lemma plain_scope secs region scope : scope_text secs region scope -> plain region -> plain scope.
Proof.
  intros (day & Dy & G) R. apply (plain_glued "/" _ _ ltac:(discriminate) eq_refl G). constructor; [apply plain_date; eapply date_bytes; exact Dy|].
  constructor; [exact R|]. constructor; [apply plain_iff; reflexivity|]. constructor; [apply plain_iff; reflexivity|constructor].
Qed.

Lemma plain_decimal n s : decimal_of n s -> plain s.
Proof.
  intros H. apply decimal_iff in H. subst. apply plain_no_percent. intros I. pose proof (dec_digits n) as F. rewrite Forall_forall in F. apply F in I. discriminate I.
Qed.

Lemma plain_hex s : Forall (fun c => In c hex_alphabet) s -> plain s.
Proof.
  intros H. apply plain_no_percent. intros I. rewrite Forall_forall in H. apply H in I. cbn in I. repeat destruct I as [I|I]; try discriminate I; exact I.
Qed.

Lemma plain_names supplied names t : header_names supplied names -> glued (B ";") names t -> Forall (fun h => ~ In "%" (fst h)) supplied -> plain t.
Proof.
  intros [_ H] G F. apply (plain_glued ";" _ _ ltac:(discriminate) eq_refl G). apply Forall_forall. intros n Hn. apply plain_no_percent. apply H in Hn. unfold values in Hn.
  destruct (str_eqb_spec n (B "host")) as [Nh|Nh]; [rewrite Nh; apply (forallb_not_in (fun c => negb (beq c "%"))); reflexivity|]. cbn [app] in Hn.
  destruct (filter _ supplied) as [|h r] eqn:Ef; [contradiction|].
  assert (I : In h (filter (fun h => str_eqb (ascii_lower (fst h)) n) supplied)) by (rewrite Ef; left; reflexivity).
  apply filter_In in I. destruct I as [I E]. apply str_eqb_eq in E. subst n. rewrite Forall_forall in F. specialize (F h I).
  intros Hc. rewrite ascii_lower_eq in Hc. unfold lower_str in Hc. apply in_map_iff in Hc. destruct Hc as (x & E & Hx). apply F.
  pose proof (byte_sweep (fun x => implb (beq (lower x) "%") (beq x "%")) ltac:(vm_compute; reflexivity) x) as S. cbv beta in S. rewrite E in S. cbn in S. apply beq_eq in S. rewrite <- S. exact Hx.
Qed.

(** Without escapes, a server reads exactly what was supplied, up to order. *)
Theorem C16_round_trip d o tr url path query sig own : deps_ok d ->
  returns (build_signed_url d o) tr (Ok url) -> url_parts url path query sig ->
  own_parameters (requested o) own -> Forall valid_pair (own ++ o_query_parameters o) -> utf8_valid (region_of o) = true ->
  Forall plain_pair (own ++ o_query_parameters o) -> plain (region_of o) -> Forall (fun h => ~ In "%" (fst h)) (o_headers o) ->
  exists t t1 t2 t3 email date scope expires names names_text,
    url_time o t t1 /\ tr = t1 ++ t2 ++ t3 /\ authorized (o_signing_key o) t2 email /\
    utc_basic_text (t / 1000000000)%Z date /\ scope_text (t / 1000000000)%Z (region_of o) scope /\
    decimal_of (Z.to_N ((o_expires o - t) / 1000000000)) expires /\
    header_names (o_headers o) names /\ glued (B ";") names names_text /\
    (utf8_valid email = true -> plain email -> exists pairs,
      form_query (query ++ B "&X-Goog-Signature=" ++ sig) pairs /\
      Permutation pairs (own ++ o_query_parameters o ++ required_parameters email date scope expires names_text ++ [(B "X-Goog-Signature", sig)])).
Proof.
  intros D H P O F R Pl PR Ph. destruct (C17_read _ _ _ _ _ _ _ _ D H P O F R) as (t & t1 & t2 & t3 & email & date & scope & expires & names & nt & T & E & A & Dt & Sc & Ex & Nm & Nt & G).
  exists t, t1, t2, t3, email, date, scope, expires, names, nt. repeat (split; [assumption|]). intros Em Pe. destruct (G Em) as (pairs & read & Q & Pm & U).
  exists pairs. split; [exact Q|]. replace (own ++ o_query_parameters o ++ required_parameters email date scope expires nt ++ [(B "X-Goog-Signature", sig)]) with read; [exact Pm|].
  assert (X : forall l r, Forall plain_pair l -> Forall2 unescaped_pair l r -> r = l).
  { intros l r Fl. clear - Fl. revert r. induction Fl as [|[k v] l [K V] Fl IH]; intros r U; inversion U as [|? [k' v'] ? ? [Uk Uv] U']; subst; [reflexivity|].
    cbn [fst snd] in *. apply (plain_unescaped _ _ K) in Uk. apply (plain_unescaped _ _ V) in Uv. subst. f_equal. auto. }
  apply X; [|exact U]. rewrite app_assoc. apply Forall_app. split; [exact Pl|]. unfold required_parameters. cbn [app].
  assert (K : forall k v, no_triplet k = true -> plain v -> plain_pair (k, v)) by (intros k v Hk Hv; split; [apply plain_iff; exact Hk|exact Hv]).
  destruct P as (_ & _ & _ & _ & _ & _ & Hx).
  repeat constructor; try (apply plain_iff; reflexivity); cbn [snd].
  - apply (plain_join email "/" scope); [discriminate|reflexivity|]. split; [exact Pe|eapply plain_scope; eassumption].
  - apply plain_date. eapply basic_bytes. exact Dt.
  - eapply plain_decimal. exact Ex.
  - eapply plain_names; eassumption.
  - apply plain_hex. exact Hx.
Qed.

(** Conversely the reading is unique. *)
Lemma form_query_unique q a b : form_query q a -> form_query q b -> a = b.
Proof. intros H1 H2. apply form_query_iff in H1, H2. congruence. Qed.

(** Parameters with ampersands, equals signs, plus signs, spaces, duplicates and empty names, an object with its own
    parameters.  [C16_case] meets the hypotheses of C17_read, too. *)
Definition demo_query : url_options := demo_url_with (B "bucket1") (B "a?own=1+2&x#f") (Some (B "us")) [(B "X-A", B "1")]
  [(B "q", B "x y&z=1+1"); (B "q", B "x y&z=1+1"); (B "", [xc3; xa9]); (B "v", B "100%")] demo_account false.
Example C16_case :
  deps_ok demo_deps /\ (exists url path query sig, returns (build_signed_url demo_deps demo_query) [] (Ok url) /\ url_parts url path query sig) /\
  own_parameters (requested demo_query) [(B "own", B "1 2"); (B "x", [])] /\
  Forall valid_pair ([(B "own", B "1 2"); (B "x", [])] ++ o_query_parameters demo_query) /\ utf8_valid (region_of demo_query) = true /\
  Forall plain_pair ([(B "own", B "1 2"); (B "x", [])] ++ o_query_parameters demo_query) /\ plain (region_of demo_query) /\
  Forall (fun h => ~ In "%" (fst h)) (o_headers demo_query).
Proof.
  split; [exact demo_deps_ok|]. split.
  { destruct (demo_success demo_query eq_refl eq_refl eq_refl) as [s R]; [vm_compute; reflexivity|]. do 4 eexists. split; [exact R|apply url_parts_of]. }
  split.
  { apply (op_query (requested demo_query) (B "bucket1/a") (B "own=1+2&x") (B "#f")).
    - repeat split; try (apply (forallb_not_in (fun c => negb (N.ltb (bN c) 32))); reflexivity). intros p c E. change (requested demo_query) with (B "bucket1/a?own=1+2&x#" ++ [("f"%byte : byte)]) in E.
      apply app_inj_tail in E. destruct E as [_ <-]. vm_compute. reflexivity.
    - reflexivity.
    - apply (forallb_not_in (fun c => negb (beq c "?"))); reflexivity.
    - apply (forallb_not_in (fun c => negb (beq c "#"))); reflexivity.
    - apply (forallb_not_in (fun c => negb (beq c "#"))); reflexivity.
    - right. eexists. reflexivity.
    - apply form_query_iff. vm_compute. reflexivity. }
  split; [repeat constructor|]. split; [reflexivity|]. split; [repeat constructor; apply plain_iff; reflexivity|]. split; [apply plain_iff; reflexivity|].
  repeat constructor. apply (forallb_not_in (fun c => negb (beq c "%"))); reflexivity.
Qed.

(** Not every parameter survives: the value [%41] is read as [A]. *)
Theorem C17_refuted : ~ (forall d o tr url path query sig pairs k v, deps_ok d -> returns (build_signed_url d o) tr (Ok url) -> url_parts url path query sig ->
  Forall valid_pair (o_query_parameters o) -> form_query (query ++ B "&X-Goog-Signature=" ++ sig) pairs ->
  In (k, v) (o_query_parameters o) -> In (k, v) pairs).
Proof.
  intros H. set (o := demo_url_with (B "bucket1") (B "a") None [] [(B "q", B "%41")] demo_account false).
  destruct (demo_success o eq_refl eq_refl eq_refl) as [sig R]; [vm_compute; reflexivity|].
  pose proof (fun pairs => H demo_deps o _ _ _ _ _ pairs (B "q") (B "%41") demo_deps_ok R (url_parts_of _ _ _ _)) as G. clear H.
  specialize (G _ ltac:(repeat constructor) (proj2 (form_query_iff _ _) eq_refl) ltac:(left; reflexivity)). rename G into H.
  apply (Permutation_in _ (query_read _ _ (hex_sig sig))) in H. rewrite map_app in H. apply in_app_or in H. destruct H as [H|[H|[]]].
  - vm_compute in H. repeat (destruct H as [H|H]; [discriminate H|]). exact H.
  - discriminate H.
Qed.

(** * C18: order of the parameters *)

Definition with_params (o : url_options) (ps : list (str * str)) : url_options := {|
  o_bucket_name := o_bucket_name o; o_object_name := o_object_name o; o_region := o_region o; o_expires := o_expires o;
  o_http_method := o_http_method o; o_accessible_at := o_accessible_at o; o_signing_key := o_signing_key o;
  o_use_sign_blob := o_use_sign_blob o; o_headers := o_headers o; o_query_parameters := ps |}.

Lemma append_pair_length q kv : length (append_pair q kv) = (length q + (if Nat.eqb (length q) 0 then 0 else 1) + length (form_serialize (fst kv)) + 1 + length (form_serialize (snd kv)))%nat.
Proof. unfold append_pair. rewrite !app_length. destruct q; cbn [length Nat.eqb]; lia. Qed.

Lemma append_pairs_length l l' q q' : Permutation l l' -> length q = length q' -> length (fold_left append_pair l q) = length (fold_left append_pair l' q').
Proof.
  intros P. revert q q'. induction P as [|x l l' P IH|x y l|l l' l'' P1 IH1 P2 IH2]; intros q q' E; cbn [fold_left].
  - exact E.
  - apply IH. rewrite !append_pair_length, E. reflexivity.
  - assert (S : forall l q q', length q = length q' -> length (fold_left append_pair l q) = length (fold_left append_pair l q')).
    { clear. induction l as [|x l IH]; intros q q' E; [exact E|]. cbn [fold_left]. apply IH. rewrite !append_pair_length, E. reflexivity. }
    apply S. rewrite !append_pair_length, E.
    replace (Nat.eqb (length q' + (if Nat.eqb (length q') 0 then 0 else 1) + length (form_serialize (fst y)) + 1 + length (form_serialize (snd y))) 0) with false by (symmetry; apply Nat.eqb_neq; lia).
    replace (Nat.eqb (length q' + (if Nat.eqb (length q') 0 then 0 else 1) + length (form_serialize (fst x)) + 1 + length (form_serialize (snd x))) 0) with false by (symmetry; apply Nat.eqb_neq; lia).
    lia.
  - transitivity (length (fold_left append_pair l' q)); [apply IH1; reflexivity|apply IH2; exact E].
Qed.

Section Permuted.
Context (d : deps) (o : url_options) (ps : list (str * str)) (PM : Permutation (o_query_parameters o) ps).
Let o' := with_params o ps.

Lemma perm_fits : fits d o <-> fits d o'.
Proof.
  unfold fits, target. replace (length (origin ++ url_rest (append_pairs (url_parse d (requested o')) (o_query_parameters o')))) with
    (length (origin ++ url_rest (append_pairs (url_parse d (requested o)) (o_query_parameters o)))); [tauto|].
  unfold url_rest, append_pairs. cbn [u_path u_query u_fragment]. rewrite !app_length. cbn [length].
  change (o_query_parameters o') with ps. change (requested o') with (requested o). rewrite (append_pairs_length _ _ (unwrap_or (u_query (url_parse d (requested o))) []) _ PM eq_refl). reflexivity.
Qed.

Lemma perm_violation t e : url_violation d o t e -> url_violation d o' t e.
Proof.
  pose proof perm_fits as F. destruct 1.
  - apply uv_time; assumption.
  - apply uv_order; assumption.
  - apply (uv_method d o' t); assumption.
  - apply uv_length; try assumption. tauto.
  - eapply uv_header; try eassumption; tauto.
  - eapply uv_value; try eassumption; tauto.
  - apply (uv_lifetime d o' t); try assumption; tauto.
Qed.

Lemma perm_valid t : url_valid d o t -> url_valid d o' t.
Proof. pose proof perm_fits as F. unfold url_valid. intros (H1 & H2 & H3 & H4 & H5 & H6 & H7). repeat (split; [first [assumption|tauto]|]). exact H7. Qed.

Lemma perm_run now secs verb hs : peq (run_valid d o now secs verb hs) (run_valid d o' now secs verb hs).
Proof.
  unfold run_valid. apply peq_bind_ok; [|intros; apply peq_refl]. apply peq_bind_ok; [apply peq_refl|]. intros email. unfold sign_step.
  assert (L : too_long (path_of d o) (query_after d o now secs hs email) [] = too_long (path_of d o') (query_after d o' now secs hs email) []).
  { unfold too_long. do 2 f_equal. rewrite !app_length. cbn [length]. rewrite !app_length.
    assert (E : length (query_after d o now secs hs email) = length (query_after d o' now secs hs email)); [|rewrite E; reflexivity].
    unfold query_after, query_before. apply append_pairs_length; [reflexivity|]. apply append_pairs_length; [exact PM|reflexivity]. }
  rewrite L. clear L. destruct (too_long (path_of d o') (query_after d o' now secs hs email) []); [apply peq_refl|]. destruct (block_of d hs) as [block|]; [|apply peq_refl].
  assert (E : sorted_query (pairs_of d o now secs hs email) = sorted_query (pairs_of d o' now secs hs email)).
  { unfold sorted_query. f_equal. apply sort_permutation. apply Permutation_map. unfold pairs_of. apply Permutation_app_head. apply Permutation_map.
    apply Permutation_app; [exact PM|reflexivity]. }
  rewrite E. apply peq_refl.
Qed.

Lemma perm_at t tr : (forall r, returns (build_signed_url_at d o t) tr r <-> returns (build_signed_url_at d o' t) tr r) /\
  (forall s, panics (build_signed_url_at d o t) tr s <-> panics (build_signed_url_at d o' t) tr s).
Proof.
  destruct (build_cases d o t) as [(e & V & E)|[C|(V & verb & Ev & E)]].
  - assert (E' : build_signed_url_at d o' t = Ret (Err e)); [|rewrite E, E'; tauto].
    apply perm_violation in V.
    set (o2 := {| o_bucket_name := o_bucket_name o; o_object_name := o_object_name o; o_region := o_region o; o_expires := o_expires o;
      o_http_method := o_http_method o; o_accessible_at := Some t; o_signing_key := o_signing_key o; o_use_sign_blob := o_use_sign_blob o; o_headers := o_headers o; o_query_parameters := ps |}).
    assert (V2 : url_violation d o2 t e).
    { destruct V; [apply uv_time|apply uv_order|apply (uv_method d o2 t)|apply uv_length|eapply uv_header|eapply uv_value|apply (uv_lifetime d o2 t)]; eassumption. }
    destruct (C28_first_violation d o2 t [] e [] (build_signed_url d o2)) as [_ G]; [constructor; reflexivity|exact V2|constructor|exact G].
  - destruct C as (C1 & C2 & C3 & C4 & C5 & C6 & E). rewrite E.
    destruct (build_cases d o' t) as [(e & V & _)|[(_ & _ & _ & _ & _ & _ & E')|(V & _)]].
    + exfalso. apply perm_fits in C4. destruct V; try contradiction; try (unfold headers_valid in C5;
        match goal with Y : o_headers o' = _ |- _ => change (o_headers o') with (o_headers o) in Y; rewrite Y in C5 end; apply Forall_app in C5; destruct C5 as [_ C5]; inversion C5; subst; tauto).
      change (d_hm_overflow d (lowered o) = false) in H4. congruence.
    + rewrite E'. tauto.
    + exfalso. destruct V as (_ & _ & _ & _ & _ & V & _). change (d_hm_overflow d (lowered o) = false) in V. congruence.
  - apply perm_valid in V. destruct (build_cases d o' t) as [(e & W & _)|[(_ & _ & _ & _ & _ & W & _)|(_ & verb' & Ev' & E')]].
    + exfalso. destruct V as (V1 & V2 & V3 & V4 & V5 & V6 & V7). destruct W; try contradiction; try (unfold headers_valid in V5;
        match goal with Y : o_headers o' = _ |- _ => rewrite Y in V5 end; apply Forall_app in V5; destruct V5 as [_ V5]; inversion V5; subst; tauto). lia.
    + exfalso. destruct V as (_ & _ & _ & _ & _ & V & _). congruence.
    + assert (verb' = verb) as -> by (change (http_verb_str verb' = o_http_method o) in Ev'; rewrite <- Ev in Ev'; destruct verb, verb'; try reflexivity; discriminate Ev').
      pose proof (perm_run (t / NS)%Z (lifetime o t) verb (lowered o)) as R. change (lifetime o' t) with (lifetime o t) in E'. change (lowered o') with (lowered o) in E'.
      split; intros x.
      * rewrite (peq_returns _ _ tr x E), (peq_returns _ _ tr x E'). apply peq_returns. exact R.
      * rewrite (peq_panics _ _ tr x E), (peq_panics _ _ tr x E'). apply peq_panics. exact R.
Qed.
End Permuted.

(** The order of the supplied parameters changes nothing: neither the URL nor the requests sent, nor an error or a panic. *)
Theorem C18_permutation d o ps tr : Permutation (o_query_parameters o) ps ->
  (forall r, returns (build_signed_url d o) tr r <-> returns (build_signed_url d (with_params o ps)) tr r) /\
  (forall s, panics (build_signed_url d o) tr s <-> panics (build_signed_url d (with_params o ps)) tr s).
Proof.
  intros PM. assert (T : forall t pre, url_time o t pre <-> url_time (with_params o ps) t pre).
  { intros t pre. split; intros [x E|x E]; [apply ut_given|apply ut_clock|apply ut_given|apply ut_clock]; exact E. }
  split; intros x; split; intros H.
  - apply url_start_ret in H. destruct H as (t & pre & rest & Tt & -> & H). apply (url_start_back _ _ t); [apply T; exact Tt|]. apply (perm_at d o ps PM t rest). exact H.
  - apply url_start_ret in H. destruct H as (t & pre & rest & Tt & -> & H). apply (url_start_back _ _ t); [apply T; exact Tt|]. apply (perm_at d o ps PM t rest). exact H.
  - apply url_start_panic in H. destruct H as (t & pre & rest & Tt & -> & H). apply (url_start_back _ _ t); [apply T; exact Tt|]. apply (perm_at d o ps PM t rest). exact H.
  - apply url_start_panic in H. destruct H as (t & pre & rest & Tt & -> & H). apply (url_start_back _ _ t); [apply T; exact Tt|]. apply (perm_at d o ps PM t rest). exact H.
Qed.

Example C18_case : exists r, returns (build_signed_url demo_deps demo_query) [] (Ok r) /\
  Permutation (o_query_parameters demo_query) (rev (o_query_parameters demo_query)) /\ o_query_parameters demo_query <> rev (o_query_parameters demo_query).
Proof.
  destruct (demo_success demo_query eq_refl eq_refl eq_refl) as [s R]; [vm_compute; reflexivity|]. eexists. split; [exact R|]. split; [apply Permutation_rev|]. vm_compute. discriminate.
Qed.

(** The query is the ascending sort of the encoded texts. *)
Theorem C18_sorted d o tr url path query sig own : deps_ok d ->
  returns (build_signed_url d o) tr (Ok url) -> url_parts url path query sig ->
  own_parameters (requested o) own -> Forall valid_pair (own ++ o_query_parameters o) -> utf8_valid (region_of o) = true ->
  exists t t1 t2 t3 email date scope expires names names_text,
    url_time o t t1 /\ tr = t1 ++ t2 ++ t3 /\ authorized (o_signing_key o) t2 email /\
    utc_basic_text (t / 1000000000)%Z date /\ scope_text (t / 1000000000)%Z (region_of o) scope /\
    decimal_of (Z.to_N ((o_expires o - t) / 1000000000)) expires /\
    header_names (o_headers o) names /\ glued (B ";") names names_text /\
    (utf8_valid email = true -> exists texts sorted,
      query_texts own (o_query_parameters o) email date scope expires names_text texts /\
      Permutation texts sorted /\ ascending sorted /\ Forall (fun p => ~ In "&" p) sorted /\ glued (B "&") sorted query).
Proof.
  intros D H P O F R. destruct (url_facts _ _ _ _ _ _ _ D H P) as (t & pre & t1 & t2 & email & block & s & T & -> & A & Y & L & N & Al & _ & _ & -> & _).
  exists t, pre, t1, t2, email, (ut_to_iso8601 (t / NS)%Z), (scope_of o (t / NS)%Z), (dec (Z.to_N (lifetime o t))), (name_list d o), (names_of d (lowered o)).
  split; [exact T|]. split; [reflexivity|]. split; [exact A|]. split; [apply iso8601_spec; apply years_ts; exact Y|]. split; [apply scope_spec; exact Y|].
  split; [apply decimal_dec|]. split; [apply names_spec; exact D|]. split; [apply glued_iff; apply names_text|]. intros Em.
  rewrite (pairs_of_valid d o t email own) by assumption. unfold sorted_query.
  match goal with |- context [map enc_pair ?l] => exists (map enc_pair l), (str_sort (map enc_pair l)) end. split; [|split; [|split; [|split]]].
  - unfold query_texts. assert (G : forall l, Forall2 query_text l (map enc_pair l)).
    { induction l as [|x l IH]; constructor; [|exact IH]. exists (percent_encode (fst x)), (percent_encode (snd x)). split; [apply escaped_iff; reflexivity|].
      split; [apply escaped_iff; reflexivity|reflexivity]. }
    apply G.
  - symmetry. apply sort_perm.
  - apply ascending_iff. apply sort_sorted.
  - apply Forall_forall. intros p Hp. apply (proj1 (sort_in _ _)) in Hp. apply in_map_iff in Hp. destruct Hp as (x & <- & _). unfold enc_pair.
    intros I. apply in_app_or in I. destruct I as [I|I]; [exact (percent_encode_avoids "&" _ eq_refl I)|]. apply in_app_or in I.
    destruct I as [[E|[]]|I]; [discriminate E|exact (percent_encode_avoids "&" _ eq_refl I)].
  - apply glued_iff. reflexivity.
Qed.

(** * C19: order of the names *)

Definition named (piece name : str) : Prop := exists value, piece = name ++ B "=" ++ value /\ ~ In "=" name.

Lemma named_le p q a b : text_le p q -> named p a -> named q b -> ~ proper_prefix a b -> ~ proper_prefix b a -> text_le a b.
Proof.
  intros H (v & -> & Na) (w & -> & Nb). change (B "=" ++ v) with ("=" :: v) in H. change (B "=" ++ w) with ("=" :: w) in H. revert b Nb H. induction a as [|x a IH]; intros [|y b] Nb H P1 P2.
  - right. reflexivity.
  - exfalso. apply P1. exists y, b. reflexivity.
  - exfalso. apply P2. exists x, a. reflexivity.
  - cbn [app] in H. assert (C : (bN x < bN y)%N \/ x = y /\ text_le (a ++ "=" :: v) (b ++ "=" :: w)).
    { destruct H as [H|H]; [inversion H; subst; [left; assumption|right; split; [reflexivity|left; assumption]]|]. injection H as -> H. right. split; [reflexivity|right; exact H]. }
    destruct C as [C|[-> C]]; [left; constructor; exact C|].
    assert (K : text_le a b).
    { apply IH; [intros I; apply Na; right; exact I|intros I; apply Nb; right; exact I|exact C| |].
      - intros (c & r & ->). apply P1. exists c, r. reflexivity.
      - intros (c & r & ->). apply P2. exists c, r. reflexivity. }
    destruct K as [K| ->]; [left; constructor; exact K|right; reflexivity].
Qed.

(** The pieces of the query are sorted; so are their names if none is a proper prefix of another. *)
Theorem C19_names d o tr url path query sig : returns (build_signed_url d o) tr (Ok url) -> url_parts url path query sig ->
  exists pieces names, glued (B "&") pieces query /\ Forall (fun p => ~ In "&" p) pieces /\ Forall2 named pieces names /\ ascending pieces /\
    ((forall a b, In a names -> In b names -> ~ proper_prefix a b) -> ascending names).
Proof.
  intros H P. destruct (url_ok_inv _ _ _ _ H) as (t & pre & t1 & t2 & email & verb & block & s & _ & _ & S).
  destruct (success_parts _ _ _ _ _ _ _ _ _ _ _ _ _ S P) as (_ & -> & _). set (l := pairs_of _ _ _ _ _ _).
  destruct (sorted_pieces l) as (l' & Pm & E). exists (map enc_pair l'), (map (fun kv => percent_encode (fst kv)) l').
  assert (N : Forall2 named (map enc_pair l') (map (fun kv => percent_encode (fst kv)) l')).
  { clear. induction l' as [|x l IH]; constructor; [|exact IH]. exists (percent_encode (snd x)). split; [reflexivity|]. apply percent_encode_avoids. reflexivity. }
  assert (A : ascending (map enc_pair l')) by (apply ascending_iff; rewrite <- E; apply sort_sorted).
  split; [apply glued_iff; unfold sorted_query; rewrite E; reflexivity|]. split.
  { apply Forall_forall. intros p Hp. apply in_map_iff in Hp. destruct Hp as (x & <- & _). unfold enc_pair.
    intros I. apply in_app_or in I. destruct I as [I|I]; [exact (percent_encode_avoids "&" _ eq_refl I)|]. apply in_app_or in I.
    destruct I as [[X|[]]|I]; [discriminate X|exact (percent_encode_avoids "&" _ eq_refl I)]. }
  split; [exact N|]. split; [exact A|].
  generalize dependent (map enc_pair l'). generalize (map (fun kv => percent_encode (fst kv)) l'). clear. intros names pieces _ N. induction N as [|p n ps ns Hp N IH]; intros A X; [constructor|].
  inversion A as [|? ? A1 A2]; subst. constructor; [apply IH; [exact A1|intros a b Ha Hb; apply X; right; assumption]|].
  assert (Y : forall m, In m ns -> ~ proper_prefix n m /\ ~ proper_prefix m n).
  { intros m Hm. split; apply X; first [left; reflexivity|right; exact Hm]. }
  clear IH X A A1. induction N as [|q m qs ms Hq N IH]; [constructor|]. inversion A2 as [|? ? A3 A4]; subst. constructor.
  - destruct (Y m) as [Y1 Y2]; [left; reflexivity|]. eapply named_le; eassumption.
  - apply IH; [exact A4|]. intros k Hk. apply Y. right. exact Hk.
Qed.

(** The pieces and their names are determined by the query. *)
Lemma pieces_unique query l l' : glued (B "&") l query -> glued (B "&") l' query -> Forall (fun p => ~ In "&" p) l -> Forall (fun p => ~ In "&" p) l' ->
  l <> [] -> l' <> [] -> l = l'.
Proof.
  intros G G' F F' N N'. apply glued_iff in G, G'. rewrite <- (split_on_join "&" l), <- (split_on_join "&" l') by assumption. change ["&"] with (B "&"). congruence.
Qed.
Lemma named_unique p a b : named p a -> named p b -> a = b.
Proof. intros (v & -> & Na) (w & E & Nb). change (B "=" ++ ?x) with ("=" :: x) in E. apply split_first in E; [tauto|assumption|assumption]. Qed.

(** With parameters [part] and [part1] the names are not sorted. *)
Definition demo_part : url_options := demo_url_with (B "b") (B "o") None [] [(B "part", B "1"); (B "part1", B "2")] demo_account false.
Theorem C19_refuted : ~ (forall d o tr url path query sig pieces names, deps_ok d -> returns (build_signed_url d o) tr (Ok url) -> url_parts url path query sig ->
  glued (B "&") pieces query -> Forall (fun p => ~ In "&" p) pieces -> Forall2 named pieces names -> ascending names).
Proof.
  intros H. destruct (demo_success demo_part eq_refl eq_refl eq_refl) as [sig R]; [vm_compute; reflexivity|].
  set (l := pairs_of _ _ _ _ _ _) in R.
  assert (El : str_sort (map enc_pair l) = map (fun nv => fst nv ++ B "=" ++ snd nv) [
    (B "X-Goog-Algorithm", B "GOOG4-RSA-SHA256"); (B "X-Goog-Credential", B "sa%40example.com%2F20200101%2Fauto%2Fstorage%2Fgoog4_request");
    (B "X-Goog-Date", B "20200101T000000Z"); (B "X-Goog-Expires", B "600"); (B "X-Goog-SignedHeaders", B "host"); (B "part1", B "2"); (B "part", B "1")])
    by (vm_compute; reflexivity).
  pose proof (H demo_deps demo_part _ _ _ _ _ (str_sort (map enc_pair l)) (map B ["X-Goog-Algorithm"; "X-Goog-Credential"; "X-Goog-Date"; "X-Goog-Expires"; "X-Goog-SignedHeaders"; "part1"; "part"]%string)
    demo_deps_ok R (url_parts_of _ _ _ _)) as G. clear H.
  assert (A : ascending (map B ["X-Goog-Algorithm"; "X-Goog-Credential"; "X-Goog-Date"; "X-Goog-Expires"; "X-Goog-SignedHeaders"; "part1"; "part"]%string)).
  { apply G; [apply glued_iff; reflexivity| |]; rewrite El.
    - repeat (constructor; [apply (forallb_not_in (fun c => negb (beq c "&"))); reflexivity|]). constructor.
    - cbn [map]. repeat (constructor; [eexists; split; [reflexivity|apply (forallb_not_in (fun c => negb (beq c "="))); reflexivity]|]). constructor. }
  clear - A. cbn [map] in A. do 5 (inversion A as [|? ? A1 _]; subst; clear A; rename A1 into A). inversion A as [|? ? _ F]; subst. inversion F as [|? ? X _]; subst.
  apply text_le_iff in X. discriminate X.
Qed.

Example C19_case : exists url path query sig, returns (build_signed_url demo_deps demo_query) [] (Ok url) /\ url_parts url path query sig.
Proof. destruct (demo_success demo_query eq_refl eq_refl eq_refl) as [s R]; [vm_compute; reflexivity|]. do 4 eexists. split; [exact R|apply url_parts_of]. Qed.
