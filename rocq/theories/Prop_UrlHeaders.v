(** Properties of [build_signed_url]: headers, and what the signed message binds (C20, C21, C22). *)
From Coq Require Import Sorted Permutation.
From Verif Require Import Base BaseFacts Utf8 FormUrl FormUrlFacts Sha256 SpecCodec CodecFacts SpecSha ShaFacts Time TimeFacts SpecCalendar SpecPolicy SpecForm FormFacts
  Effects EffectsFacts Keys Scope Url SignedUrl UrlFacts SpecUrl UrlSpecFacts SpecToken SpecTrace SpecSign SignFacts SignedUrlFacts HeaderFacts
  HtmlForm Calls Demo UrlResult UrlQueryFacts Prop_Url Prop_UrlQuery Prop_UrlScope.
Local Open Scope byte_scope.

(** * C20: names and values *)

(** The names are [host] and the supplied ones in lower case. *)
Theorem C20_names supplied names : header_names supplied names ->
  (forall n, In n names <-> n = B "host" \/ exists h, In h supplied /\ ascii_lower (fst h) = n) /\ NoDup names /\
  exists rest, values supplied (B "host") = B "storage.googleapis.com" :: rest.
Proof.
  intros [A H]. split; [|split].
  - intros n. rewrite H. unfold values. destruct (str_eqb_spec n (B "host")) as [E|E]; [split; [auto|discriminate]|]. cbn [app]. split.
    + intros X. right. destruct (filter _ supplied) as [|h r] eqn:Ef; [contradiction|].
      assert (I : In h (filter (fun h => str_eqb (ascii_lower (fst h)) n) supplied)) by (rewrite Ef; left; reflexivity).
      apply filter_In in I. destruct I as [I En]. apply str_eqb_eq in En. exists h. auto.
    + intros [X|(h & I & En)]; [contradiction|]. intros X. apply map_eq_nil in X.
      assert (J : In h (filter (fun h => str_eqb (ascii_lower (fst h)) n) supplied)) by (apply filter_In; split; [exact I|apply str_eqb_eq; exact En]).
      rewrite X in J. exact J.
  - apply strict_sorted_nodup. apply strictly_ascending_iff. exact A.
  - eexists. reflexivity.
Qed.

(** The signed message contains the header block and the names, and the URL's X-Goog-SignedHeaders the same names. *)
Theorem C20_headers d o tr url path query sig : deps_ok d ->
  returns (build_signed_url d o) tr (Ok url) -> url_parts url path query sig ->
  exists t pre t1 t2 names names_text escaped_names block escaped_path canonical message s,
    url_time o t pre /\ tr = pre ++ t1 ++ t2 /\
    header_names (o_headers o) names /\ glued (B ";") names names_text /\ header_block (o_headers o) names block /\
    escaped names_text escaped_names /\ query_piece query (B "X-Goog-SignedHeaders=" ++ escaped_names) /\
    glued [x0a] [o_http_method o; escaped_path; query; block; []; names_text; B "UNSIGNED-PAYLOAD"] canonical /\
    message_text (t / 1000000000)%Z (region_of o) canonical message /\
    signed d (o_signing_key o) (o_use_sign_blob o) message t2 s /\ hex_of s sig.
Proof.
  intros D H P. destruct (url_facts _ _ _ _ _ _ _ D H P) as (t & pre & t1 & t2 & email & block & s & T & -> & A & Y & L & N & Al & Bk & _ & Eq & -> & Sg).
  exists t, pre, t1, t2, (name_list d o), (names_of d (lowered o)), (percent_encode (names_of d (lowered o))), block, (percent_encode path). do 2 eexists. exists s.
  split; [exact T|]. split; [reflexivity|]. split; [apply names_spec; exact D|]. split; [apply glued_iff; apply names_text|]. split; [exact Bk|].
  split; [apply escaped_iff; reflexivity|]. split.
  { rewrite Eq.
    assert (V : utf8_valid (names_of d (lowered o)) = true).
    { rewrite names_text. change (B ";") with [";"]. clear - N. induction N as [|x l H N IH]; [reflexivity|]. destruct l as [|y l]; [exact H|].
      rewrite join_cons2, utf8_valid_app by exact H. cbn [app]. rewrite utf8_valid_cons by reflexivity. exact IH. }
    assert (I : In (B "X-Goog-SignedHeaders", names_of d (lowered o)) (pairs_of d o (t / NS)%Z (lifetime o t) (lowered o) email)).
    { unfold pairs_of. apply in_or_app. right. rewrite map_app. apply in_or_app. right. apply in_map_iff. eexists. split; [|do 4 right; left; reflexivity].
      unfold lossy2. cbn [fst snd]. rewrite (utf8_lossy_valid_id _ V). reflexivity. }
    apply sorted_query_piece in I. exact I. }
  split; [apply glued_iff; reflexivity|]. split; [apply message_spec; assumption|]. split; [exact Sg|apply hex_encode_spec].
Qed.

Example C20_case : exists url path query sig names, returns (build_signed_url demo_deps demo_url) [] (Ok url) /\ url_parts url path query sig /\
  header_names (o_headers demo_url) names /\ names = [B "content-type"; B "host"; B "x-goog-meta-a"] /\
  values (o_headers demo_url) (B "x-goog-meta-a") = [B "1"; B "2"].
Proof.
  destruct (demo_success demo_url eq_refl eq_refl eq_refl) as [s R]; [vm_compute; reflexivity|]. do 5 eexists. split; [exact R|]. split; [apply url_parts_of|].
  split; [apply (names_spec demo_deps demo_deps_ok demo_url)|]. split; vm_compute; reflexivity.
Qed.

(** ** Independence of case and order *)

Lemma rearranged_values a b : rearranged a b -> forall n, values a n = values b n.
Proof.
  induction 1 as [l|a b n1 n2 v E|a b h h' E|l m r H1 IH1 H2 IH2]; intros n; [reflexivity| | |congruence]; unfold values; f_equal; rewrite !filter_app, !map_app; f_equal; cbn [filter fst].
  - rewrite E. destruct (str_eqb _ n); reflexivity.
  - destruct (str_eqb_spec (ascii_lower (fst h)) n) as [E1|E1], (str_eqb_spec (ascii_lower (fst h')) n) as [E2|E2]; try reflexivity. congruence.
Qed.

Lemma values_header (l : list (str * str)) h : In h l -> In (snd h) (map snd (filter (fun x => str_eqb (ascii_lower (fst x)) (ascii_lower (fst h))) l)).
Proof. intros I. apply in_map. apply filter_In. split; [exact I|apply str_eqb_refl]. Qed.

Lemma lower_length s : length (ascii_lower s) = length s.
Proof. apply map_length. Qed.

Lemma lower_valid quote s : Forall (fun c => token_character c \/ quote = true /\ c = """") (ascii_lower s) -> Forall (fun c => token_character c \/ quote = true /\ c = """") s.
Proof.
  rewrite !Forall_forall. intros F c Hc. specialize (F (lower c)). rewrite <- header_name_byte_iff in *.
  assert (I : In (lower c) (ascii_lower s)) by (rewrite ascii_lower_eq; apply in_map; exact Hc). specialize (F I).
  clear - F. revert c F. destruct quote; apply sweep_impl; vm_compute; reflexivity.
Qed.

Section Rearranged.
Context (d : deps) (D : deps_ok d) (o : url_options) (hs : list (str * str)) (RA : forall n, values (o_headers o) n = values hs n).

Definition with_headers (o : url_options) (hs : list (str * str)) : url_options := {|
  o_bucket_name := o_bucket_name o; o_object_name := o_object_name o; o_region := o_region o; o_expires := o_expires o;
  o_http_method := o_http_method o; o_accessible_at := o_accessible_at o; o_signing_key := o_signing_key o;
  o_use_sign_blob := o_use_sign_blob o; o_headers := hs; o_query_parameters := o_query_parameters o |}.
Let o' := with_headers o hs.

Lemma ra_counterpart h : In h hs -> exists h', In h' (o_headers o) /\ ascii_lower (fst h') = ascii_lower (fst h) /\ snd h' = snd h.
Proof.
  intros I. apply values_header in I. pose proof (RA (ascii_lower (fst h))) as E. unfold values in E. apply app_inv_head in E. rewrite <- E in I.
  apply in_map_iff in I. destruct I as (h' & Es & I). apply filter_In in I. destruct I as [I En]. apply str_eqb_eq in En. exists h'. auto.
Qed.

Lemma ra_valid : headers_valid d o -> headers_valid d o'.
Proof.
  unfold headers_valid. rewrite !Forall_forall. intros F h I. destruct (ra_counterpart h I) as (h' & I' & En & Es).
  destruct (F h' I') as [(V1 & V2 & V3) V4]. split; [|unfold valid_value in *; rewrite <- Es; exact V4].
  assert (Le : length (fst h) = length (fst h')) by (rewrite <- (lower_length (fst h)), <- En; apply lower_length).
  split; [intros X; rewrite X in Le; destruct (fst h'); [congruence|discriminate Le]|]. split; [rewrite Le; exact V2|].
  apply lower_valid. rewrite <- En. rewrite Forall_forall in *. intros c Hc. rewrite ascii_lower_eq in Hc. apply in_map_iff in Hc. destruct Hc as (x & <- & Hx).
  specialize (V3 x Hx). rewrite <- header_name_byte_iff in *. clear - V3. revert x V3. destruct (d_quote_in_header_name d); apply sweep_impl; vm_compute; reflexivity.
Qed.

Lemma ra_names : name_list d o = name_list d o'.
Proof.
  apply strict_sorted_unique; [apply bset_of_list_sorted|apply bset_of_list_sorted|]. intros n. rewrite (name_list_in d D o), (name_list_in d D o'). rewrite RA. reflexivity.
Qed.

Lemma ra_block block : block_of d (lowered o) = Some block -> block_of d (lowered o') = Some block.
Proof.
  intros H. destruct (block_spec d D o _ H) as [E F]. destruct (block_total d D o') as [b' Hb'].
  - rewrite Forall_forall in *. intros h I. destruct (ra_counterpart h I) as (h' & I' & _ & Es). rewrite <- Es. apply F. exact I'.
  - rewrite Hb'. destruct (block_spec d D o' _ Hb') as [E' _]. rewrite E, E', <- ra_names. do 2 f_equal. apply map_ext. intros n. rewrite <- RA. reflexivity.
Qed.

Lemma ra_success url t t1 t2 email verb block sig : d_hm_overflow d (lowered o') = false ->
  success d o url t t1 t2 email verb block sig -> success d o' url t t1 t2 email verb block sig.
Proof.
  intros Ov [V Ev A Sh Bk Sg Eu].
  assert (En : names_of d (lowered o') = names_of d (lowered o)) by (rewrite !names_text, ra_names; reflexivity).
  constructor.
  - destruct V as (V1 & V2 & V3 & V4 & V5 & V6 & V7). repeat (split; [first [assumption|apply ra_valid; assumption]|]). exact V7.
  - exact Ev.
  - exact A.
  - unfold query_after, five in *. rewrite En. exact Sh.
  - apply ra_block. exact Bk.
  - unfold pairs_of, five in *. rewrite En. exact Sg.
  - unfold pairs_of, five in *. rewrite En. exact Eu.
Qed.
End Rearranged.

(** Changing the case of names or the order of headers with different names does not change the URL. *)
Theorem C20_rearranged d o hs tr url : deps_ok d -> rearranged (o_headers o) hs -> d_hm_overflow d (lowered (with_headers o hs)) = false ->
  returns (build_signed_url d o) tr (Ok url) -> returns (build_signed_url d (with_headers o hs)) tr (Ok url).
Proof.
  intros D RA Ov H. destruct (url_ok_inv _ _ _ _ H) as (t & pre & t1 & t2 & email & verb & block & s & T & -> & S).
  eapply url_ok_back; [|eapply (ra_success d D o hs); [apply rearranged_values; exact RA|exact Ov|exact S]].
  destruct T as [x E|x E]; [apply ut_given|apply ut_clock]; exact E.
Qed.

Example C20_rearranged_case : exists url, returns (build_signed_url demo_deps demo_url) [] (Ok url) /\
  rearranged (o_headers demo_url) [(B "CONTENT-type", B "text/plain"); (B "X-Goog-Meta-A", B "1"); (B "x-goog-meta-a", B "2")] /\
  d_hm_overflow demo_deps (lowered (with_headers demo_url [(B "CONTENT-type", B "text/plain"); (B "X-Goog-Meta-A", B "1"); (B "x-goog-meta-a", B "2")])) = false.
Proof.
  destruct (demo_success demo_url eq_refl eq_refl eq_refl) as [s R]; [vm_compute; reflexivity|]. eexists. split; [exact R|]. split; [|reflexivity].
  eapply ra_steps; [apply (ra_swap [] _ (B "X-Goog-Meta-A", B "1") (B "Content-Type", B "text/plain")); vm_compute; discriminate|].
  apply (ra_case [] _ (B "Content-Type") (B "CONTENT-type")). vm_compute. reflexivity.
Qed.

(** * C21: rejected headers *)

(** The headers of a successful build.  The double quote is not a token character, but some releases of the http crate
    accept it in names. *)
Theorem C21_accepted d o tr url : deps_ok d -> returns (build_signed_url d o) tr (Ok url) ->
  forall name value, In (name, value) (o_headers o) ->
    name <> [] /\ Forall (fun c => token_character c \/ d_quote_in_header_name d = true /\ c = """") name /\ Forall header_text_character value.
Proof.
  intros D H name value I. destruct (url_ok_inv _ _ _ _ H) as (t & pre & t1 & t2 & email & verb & block & s & T & _ & S). destruct S as [V _ _ _ Bk _ _].
  destruct V as (_ & _ & _ & _ & V & _). unfold headers_valid in V. rewrite Forall_forall in V. destruct (V _ I) as [(V1 & _ & V3) _]. split; [exact V1|]. split; [exact V3|].
  apply (block_spec d D) in Bk. destruct Bk as [_ F]. rewrite Forall_forall in F. specialize (F _ I). cbn [snd] in F. unfold header_value_to_str in F.
  destruct (forallb _ value) eqn:E; [|congruence]. apply Forall_forall. intros c Hc. rewrite forallb_forall in E. specialize (E c Hc). apply orb_true_iff in E.
  destruct E as [E|E]; [left; unfold in_range in E; apply andb_true_iff in E; destruct E as [E1 E2]; apply N.leb_le in E1, E2; lia|right; apply beq_eq; exact E].
Qed.

Theorem C21_rejected d o tr url name value : deps_ok d -> d_quote_in_header_name d = false -> In (name, value) (o_headers o) ->
  (name = [] \/ Exists (fun c => ~ token_character c) name \/ Exists (fun c => ~ header_text_character c) value) ->
  ~ returns (build_signed_url d o) tr (Ok url).
Proof.
  intros D Q I X H. destruct (C21_accepted _ _ _ _ D H _ _ I) as (H1 & H2 & H3). rewrite Q in H2. destruct X as [X|[X|X]]; [contradiction| |].
  - apply Exists_exists in X. destruct X as (c & Hc & N). rewrite Forall_forall in H2. destruct (H2 c Hc) as [T|[T _]]; [contradiction|discriminate T].
  - apply Exists_exists in X. destruct X as (c & Hc & N). rewrite Forall_forall in H3. exact (N (H3 c Hc)).
Qed.

Lemma token_not c x : token_character c \/ c = """" -> forallb (fun b => negb (beq b x)) (B "!#$%&'*+-.^_`|~0123456789abcdefghijklmnopqrstuvwxyzABCDEFGHIJKLMNOPQRSTUVWXYZ""") = true -> c <> x.
Proof.
  intros T F E. subst x. rewrite forallb_forall in F.
  assert (I : In c (B "!#$%&'*+-.^_`|~0123456789abcdefghijklmnopqrstuvwxyzABCDEFGHIJKLMNOPQRSTUVWXYZ""")).
  { change (B "!#$%&'*+-.^_`|~0123456789abcdefghijklmnopqrstuvwxyzABCDEFGHIJKLMNOPQRSTUVWXYZ""") with (B "!#$%&'*+-.^_`|~0123456789abcdefghijklmnopqrstuvwxyzABCDEFGHIJKLMNOPQRSTUVWXYZ" ++ [("""")%byte]).
    apply in_or_app. destruct T as [T| ->]; [left; exact T|right; left; reflexivity]. }
  apply F in I. rewrite beq_refl in I. discriminate I.
Qed.

(** Conditions under which header names and values are clean. *)
Definition clean_headers (supplied : list (str * str)) : Prop := forall h, In h supplied ->
  fst h <> [] /\ Forall (fun c => token_character c \/ c = """") (fst h) /\ Forall header_text_character (snd h).

Lemma accepted_clean d o tr url : deps_ok d -> returns (build_signed_url d o) tr (Ok url) -> clean_headers (o_headers o).
Proof.
  intros D H [n v] I. destruct (C21_accepted _ _ _ _ D H _ _ I) as (H1 & H2 & H3). split; [exact H1|]. split; [|exact H3]. eapply Forall_impl; [|exact H2].
  cbn. intros c [T|[_ T]]; auto.
Qed.

Lemma clean_name supplied names n : clean_headers supplied -> header_names supplied names -> In n names ->
  n <> [] /\ ~ In x0a n /\ ~ In ";" n.
Proof.
  intros C N I. apply (C20_names _ _ N) in I. destruct I as [->|(h & I & <-)].
  - split; [discriminate|]. split; intros X; cbn in X; repeat destruct X as [X|X]; try discriminate X; exact X.
  - destruct (C h I) as (C1 & C2 & _).
    assert (W : forall x, forallb (fun b => negb (beq (lower b) x)) (B "!#$%&'*+-.^_`|~0123456789abcdefghijklmnopqrstuvwxyzABCDEFGHIJKLMNOPQRSTUVWXYZ""") = true -> ~ In x (ascii_lower (fst h))).
    { intros x F J. rewrite ascii_lower_eq in J. apply in_map_iff in J. destruct J as (y & E & Hy). rewrite Forall_forall in C2.
      apply (token_not y y (C2 y Hy)); [|reflexivity]. exfalso. rewrite forallb_forall in F.
      assert (K : In y (B "!#$%&'*+-.^_`|~0123456789abcdefghijklmnopqrstuvwxyzABCDEFGHIJKLMNOPQRSTUVWXYZ""")).
      { change (B "!#$%&'*+-.^_`|~0123456789abcdefghijklmnopqrstuvwxyzABCDEFGHIJKLMNOPQRSTUVWXYZ""") with (B "!#$%&'*+-.^_`|~0123456789abcdefghijklmnopqrstuvwxyzABCDEFGHIJKLMNOPQRSTUVWXYZ" ++ [("""")%byte]).
        apply in_or_app. destruct (C2 y Hy) as [T| ->]; [left; exact T|right; left; reflexivity]. }
      apply F in K. rewrite E, beq_refl in K. discriminate K. }
    split; [intros E; apply C1; destruct (fst h); [reflexivity|discriminate E]|]. split; apply W; vm_compute; reflexivity.
Qed.

Lemma clean_line supplied names n line : clean_headers supplied -> header_names supplied names -> In n names -> header_line supplied n line -> ~ In x0a line.
Proof.
  intros C N I (v & G & ->) X. apply in_app_or in X. destruct X as [X|X]; [exact (proj1 (proj2 (clean_name _ _ _ C N I)) X)|]. apply in_app_or in X.
  destruct X as [[X|[]]|X]; [discriminate X|]. apply glued_iff in G. subst v. change (B ",") with [","] in X. apply in_glue in X. destruct X as [X|(s & Hs & X)]; [discriminate X|].
  unfold values in Hs. apply in_app_or in Hs. destruct Hs as [Hs|Hs].
  - destruct (str_eqb n (B "host")); [|destruct Hs]. destruct Hs as [<-|[]]. cbn in X. repeat destruct X as [X|X]; try discriminate X; exact X.
  - apply in_map_iff in Hs. destruct Hs as (h & <- & Hh). apply filter_In in Hh. destruct Hh as [Hh _]. destruct (C h Hh) as (_ & _ & F). rewrite Forall_forall in F.
    apply F in X. destruct X as [X|X]; [vm_compute in X; destruct X as [X _]; apply X; reflexivity|discriminate X].
Qed.

(** No header contributes a newline: the block has exactly one line per name, and the line of names is one line. *)
Theorem C21_lines d o tr url names names_text block : deps_ok d -> returns (build_signed_url d o) tr (Ok url) ->
  header_names (o_headers o) names -> glued (B ";") names names_text -> header_block (o_headers o) names block ->
  ~ In x0a names_text /\ forall lines, glued [x0a] lines block -> Forall (fun l => ~ In x0a l) lines -> lines <> [] -> length lines = length names.
Proof.
  intros D H N G (ls & F & Gb). pose proof (accepted_clean _ _ _ _ D H) as C. split.
  - intros X. apply glued_iff in G. subst. change (B ";") with [";"] in X. apply in_glue in X. destruct X as [X|(s & Hs & X)]; [discriminate X|].
    exact (proj1 (proj2 (clean_name _ _ _ C N Hs)) X).
  - intros lines Gl Fl Nl. apply glued_iff in Gb, Gl.
    assert (Fs : Forall (fun l => ~ In x0a l) ls).
    { clear - F C N. assert (J : forall n, In n names -> In n names) by auto. revert J F. generalize names at 1 3. intros ns J F. induction F as [|n l ns ls Hl F IH]; constructor.
      - eapply clean_line; [exact C|exact N|apply J; left; reflexivity|exact Hl].
      - apply IH. intros m Hm. apply J. right. exact Hm. }
    assert (Ns : ls <> []).
    { assert (I : In (B "host") names) by (apply (C20_names _ _ N); left; reflexivity). intros ->. inversion F; subst. exact I. }
    assert (E : lines = ls). { rewrite <- (split_on_join x0a lines), <- (split_on_join x0a ls) by assumption. congruence. }
    subst lines. clear - F. induction F; cbn [length]; congruence.
Qed.

Example C21_case : exists url names names_text block, returns (build_signed_url demo_deps demo_url) [] (Ok url) /\ header_names (o_headers demo_url) names /\
  glued (B ";") names names_text /\ header_block (o_headers demo_url) names block /\ length names = 3%nat /\ In (B "X-Goog-Meta-A", B "1") (o_headers demo_url).
Proof.
  destruct (demo_success demo_url eq_refl eq_refl eq_refl) as [s R]; [vm_compute; reflexivity|].
  destruct (block_of demo_deps (lowered demo_url)) as [b|] eqn:Eb; [|vm_compute in Eb; discriminate Eb].
  exists (url_of demo_deps demo_url (sorted_query (pairs_of demo_deps demo_url (demo_time / NS)%Z (lifetime demo_url demo_time) (lowered demo_url) (B "sa@example.com"))) s), (name_list demo_deps demo_url). do 2 eexists. split; [exact R|].
  split; [apply (names_spec _ demo_deps_ok)|]. split; [apply glued_iff; reflexivity|]. split; [apply (block_text _ demo_deps_ok); exact Eb|]. split; [vm_compute; reflexivity|left; reflexivity].
Qed.

(** A value with a line break and a name with a space are rejected. *)
Example C21_rejected_case : d_quote_in_header_name demo_deps = false /\
  Exists (fun c => ~ token_character c) (B "x goog") /\ Exists (fun c => ~ header_text_character c) (B "a" ++ [x0a] ++ B "host:evil").
Proof.
  split; [reflexivity|]. split.
  - apply Exists_exists. exists " "%byte. split; [right; left; reflexivity|]. unfold token_character. intros X. vm_compute in X. repeat destruct X as [X|X]; try discriminate X; exact X.
  - apply Exists_exists. exists x0a. split; [right; left; reflexivity|]. intros [[X _]|X]; [vm_compute in X; apply X; reflexivity|discriminate X].
Qed.

(** * C22: what the signed message binds *)

Lemma join_last c l l' q q' : Forall (fun s => ~ In c s) l -> Forall (fun s => ~ In c s) l' -> length l = length l' -> l <> [] ->
  q ++ c :: join [c] l = q' ++ c :: join [c] l' -> q = q' /\ l = l'.
Proof.
  revert l' q q'. induction l as [|x l IH] using rev_ind; intros l' q q' F F' L N E; [contradiction|].
  destruct l' as [|x' l' _] using rev_ind; [rewrite app_length in L; cbn in L; lia|].
  rewrite !app_length in L. cbn [length] in L. assert (L' : length l = length l') by lia. clear L.
  apply Forall_app in F, F'. destruct F as [F Fx], F' as [F' Fx']. inversion Fx as [|? ? Hx _]; inversion Fx' as [|? ? Hx' _]; subst.
  destruct l as [|y l], l' as [|y' l']; try discriminate L'.
  - cbn [app join] in E. apply split_last in E; [|assumption|assumption]. destruct E as [-> ->]. auto.
  - rewrite !join_snoc in E by discriminate.
    assert (G : forall q l (x : str), q ++ c :: join [c] l ++ [c] ++ x = (q ++ c :: join [c] l) ++ c :: x) by (intros; rewrite <- app_assoc; reflexivity).
    rewrite !G in E. apply split_last in E; [|assumption|assumption]. destruct E as [E ->].
    destruct (IH (y' :: l') q q' F F' L' ltac:(discriminate) E) as [-> ->]. auto.
Qed.

Lemma names_clean_text names t : Forall (fun n => ~ In x0a n) names -> glued (B ";") names t -> ~ In x0a t.
Proof.
  intros F G X. apply glued_iff in G. subst. change (B ";") with [";"] in X. apply in_glue in X. destruct X as [X|(s & Hs & X)]; [discriminate X|].
  rewrite Forall_forall in F. exact (F s Hs X).
Qed.

Lemma canonical_binds verb path query supplied verb' path' query' supplied' c :
  clean_headers supplied -> clean_headers supplied' -> ~ In x0a verb -> ~ In x0a verb' -> ~ In x0a path -> ~ In x0a path' ->
  canonical_text verb path query supplied c -> canonical_text verb' path' query' supplied' c ->
  verb = verb' /\ (forall s, unescaped path s <-> unescaped path' s) /\ query = query' /\
  exists names block, header_names supplied names /\ header_names supplied' names /\ header_block supplied names block /\ header_block supplied' names block.
Proof.
  intros C C' Nv Nv' Np Np' (ns & nt & b & ep & Hn & Gn & (ls & Fl & Gl) & Es & G) (ns' & nt' & b' & ep' & Hn' & Gn' & (ls' & Fl' & Gl') & Es' & G').
  apply glued_iff in G, G'. rewrite G in G'. clear G. cbn [join] in G'. repeat change ([x0a] ++ ?x) with (x0a :: x) in G'.
  apply escaped_iff in Es, Es'. subst ep ep'.
  assert (Ne : forall p, ~ In x0a p -> ~ In x0a (percent_encode p)).
  { intros p Hp. apply encode_keeps_out; [reflexivity|discriminate|exact Hp]. }
  apply split_first in G'; [|exact Nv|exact Nv']. destruct G' as [-> G']. apply split_first in G'; [|apply Ne; exact Np|apply Ne; exact Np']. destruct G' as [Ep G'].
  assert (A : forall q (b n : str), q ++ x0a :: b ++ x0a :: [] ++ x0a :: n ++ x0a :: B "UNSIGNED-PAYLOAD" = (((q ++ x0a :: b) ++ [x0a]) ++ x0a :: n) ++ x0a :: B "UNSIGNED-PAYLOAD").
  { intros. repeat (rewrite <- !app_assoc; cbn [app]). reflexivity. }
  rewrite !A in G'.
  assert (Cn : forall s ns, clean_headers s -> header_names s ns -> Forall (fun n => ~ In x0a n) ns) by (intros s l Cs Hs; apply Forall_forall; intros n I; apply (clean_name _ _ _ Cs Hs I)).
  assert (Cs : forall s ns, clean_headers s -> header_names s ns -> Forall (fun n => ~ In ";" n) ns) by (intros s l Cs Hs; apply Forall_forall; intros n I; apply (clean_name _ _ _ Cs Hs I)).
  apply split_last in G'; [|intros X; cbn in X; repeat destruct X as [X|X]; try discriminate X; exact X..]. destruct G' as [G' _].
  apply split_last in G'; [|eapply names_clean_text; [eapply Cn; [exact C|exact Hn]|exact Gn]|eapply names_clean_text; [eapply Cn; [exact C'|exact Hn']|exact Gn']].
  destruct G' as [G' Et]. subst nt'. apply app_inv_tail in G'.
  assert (Nn : forall s ns, header_names s ns -> ns <> []) by (intros s l Hs ->; apply (proj2 (proj1 (C20_names _ _ Hs) (B "host"))); left; reflexivity).
  assert (ns' = ns) as ->.
  { apply glued_iff in Gn, Gn'. rewrite <- (split_on_join ";" ns), <- (split_on_join ";" ns') by (eauto). change [";"] with (B ";"). congruence. }
  assert (Cl : forall s ls, clean_headers s -> header_names s ns -> Forall2 (header_line s) ns ls -> Forall (fun l => ~ In x0a l) ls).
  { clear. intros s ls C N F. assert (J : forall n, In n ns -> In n ns) by auto. revert J F. generalize ns at 1 3. intros ms J F. induction F as [|n l ms ls Hl F IH]; constructor.
    - eapply clean_line; [exact C|exact N|apply J; left; reflexivity|exact Hl].
    - apply IH. intros m Hm. apply J. right. exact Hm. }
  assert (Ln : forall s ls, Forall2 (header_line s) ns ls -> length ls = length ns) by (clear; intros s ls F; induction F; cbn [length]; congruence).
  apply glued_iff in Gl, Gl'. subst b b'. apply join_last in G'; [|eauto|eauto| |].
  - destruct G' as [-> ->]. split; [reflexivity|]. split; [|split; [reflexivity|]].
    + intros s. rewrite !unescaped_iff. assert (Q : forall p, pct_decode (percent_encode p) = pct_decode p) by (intros; apply pct_decode_encode; reflexivity).
      rewrite <- (Q path), <- (Q path'), Ep. reflexivity.
    + exists ns, (join [x0a] ls'). split; [exact Hn|]. split; [exact Hn'|]. split; [exists ls'; split; [exact Fl|apply glued_iff; reflexivity]|exists ls'; split; [exact Fl'|apply glued_iff; reflexivity]].
  - transitivity (length ns); [exact (Ln _ _ Fl)|symmetry; exact (Ln _ _ Fl')].
  - intros ->. apply (Nn _ _ Hn). specialize (Ln _ _ Fl). destruct ns; [reflexivity|discriminate Ln].
Qed.

Lemma message_binds secs region canonical secs' region' canonical' m :
  message_text secs region canonical m -> message_text secs' region' canonical' m ->
  (exists date, utc_basic_text secs date /\ utc_basic_text secs' date) /\
  (exists scope, scope_text secs region scope /\ scope_text secs' region' scope) /\ region = region' /\
  (exists sum, digest_of canonical sum /\ digest_of canonical' sum).
Proof.
  intros (dt & sc & sum & dg & D & Sc & U & H & G) (dt' & sc' & sum' & dg' & D' & Sc' & U' & H' & G'). apply glued_iff in G, G'. rewrite G in G'. clear G. cbn [join] in G'. repeat change ([x0a] ++ ?x) with (x0a :: x) in G'.
  assert (Nb : forall secs s, utc_basic_text secs s -> ~ In x0a s) by (intros x s Hs; apply (forallb_not_in date_byte); [reflexivity|eapply basic_bytes; exact Hs]).
  apply split_first in G'; [|intros X; cbn in X; repeat destruct X as [X|X]; try discriminate X; exact X..]. destruct G' as [_ G'].
  apply split_first in G'; [|eapply Nb; exact D|eapply Nb; exact D']. destruct G' as [-> G'].
  assert (Nh : forall a s, hex_of a s -> ~ In x0a s).
  { intros a s Ha I. apply hex_of_alphabet in Ha. rewrite Forall_forall in Ha. apply Ha in I. cbn in I. repeat destruct I as [I|I]; try discriminate I; exact I. }
  apply split_last in G'; [|eapply Nh; exact H|eapply Nh; exact H']. destruct G' as [-> ->].
  split; [exists dt'; split; assumption|]. split; [exists sc'; split; assumption|]. split.
  - destruct Sc as (day & Dy & Gs), Sc' as (day' & Dy' & Gs'). apply glued_iff in Gs, Gs'. rewrite Gs in Gs'. cbn [join] in Gs'. repeat change (B "/" ++ ?x) with ("/" :: x) in Gs'.
    assert (Nd : forall secs s, utc_date_text secs s -> ~ In "/" s) by (intros x s Hs; apply (forallb_not_in date_byte); [reflexivity|eapply date_bytes; exact Hs]).
    apply split_first in Gs'; [|eapply Nd; eassumption|eapply Nd; eassumption]. destruct Gs' as [_ Gs']. apply app_inv_tail in Gs'. exact Gs'.
  - exists sum. split; [exact U|]. replace sum with sum'; [exact U'|]. eapply hex_of_data_unique; eassumption.
Qed.

(** Two builds that sign the same message agree on the date, the scope, the region and - unless two different canonical requests with
    the same SHA-256 digest have been found - on the method, the object denoted by the path, the whole query and the headers. *)
Theorem C22_binding d o tr url path query sig d' o' tr' url' path' query' sig' :
  deps_ok d -> returns (build_signed_url d o) tr (Ok url) -> url_parts url path query sig ->
  deps_ok d' -> returns (build_signed_url d' o') tr' (Ok url') -> url_parts url' path' query' sig' ->
  exists t pre t1 t2 canonical message s t' pre' t1' t2' canonical' message' s',
    url_time o t pre /\ tr = pre ++ t1 ++ t2 /\ canonical_text (o_http_method o) path query (o_headers o) canonical /\
    message_text (t / 1000000000)%Z (region_of o) canonical message /\
    signed d (o_signing_key o) (o_use_sign_blob o) message t2 s /\ hex_of s sig /\
    url_time o' t' pre' /\ tr' = pre' ++ t1' ++ t2' /\ canonical_text (o_http_method o') path' query' (o_headers o') canonical' /\
    message_text (t' / 1000000000)%Z (region_of o') canonical' message' /\
    signed d' (o_signing_key o') (o_use_sign_blob o') message' t2' s' /\ hex_of s' sig' /\
    (message = message' ->
      (t / 1000000000)%Z = (t' / 1000000000)%Z /\ region_of o = region_of o' /\
      (canonical <> canonical' /\ (exists sum, digest_of canonical sum /\ digest_of canonical' sum) \/
       o_http_method o = o_http_method o' /\ (forall text, unescaped path text <-> unescaped path' text) /\ query = query' /\
       exists names block, header_names (o_headers o) names /\ header_names (o_headers o') names /\
         header_block (o_headers o) names block /\ header_block (o_headers o') names block)).
Proof.
  intros D H P D' H' P'.
  assert (X : forall d o tr url path query sig, deps_ok d -> returns (build_signed_url d o) tr (Ok url) -> url_parts url path query sig ->
    exists t pre t1 t2 canonical message s, url_time o t pre /\ tr = pre ++ t1 ++ t2 /\ canonical_text (o_http_method o) path query (o_headers o) canonical /\
      message_text (t / 1000000000)%Z (region_of o) canonical message /\ signed d (o_signing_key o) (o_use_sign_blob o) message t2 s /\ hex_of s sig /\
      in_years t /\ ~ In x0a (o_http_method o) /\ ~ In x0a path).
  { clear. intros d o tr url path query sig D H P. destruct (url_ok_inv _ _ _ _ H) as (t & pre & t1 & t2 & email & verb & block & s & T & -> & S).
    destruct (success_parts _ _ _ _ _ _ _ _ _ _ _ _ _ S P) as (-> & -> & ->). destruct S as [V Ev A _ Eb Hs _].
    exists t, pre, t1, t2. do 2 eexists. exists s. split; [exact T|]. split; [reflexivity|].
    split; [rewrite <- Ev; apply canonical_spec; eassumption|]. split; [apply message_spec; [apply V|eapply sign_ok_rsa; exact Hs]|].
    split; [apply sign_ok; exact Hs|]. split; [apply hex_encode_spec|]. split; [apply V|]. split.
    - rewrite <- Ev. destruct verb; intros X; cbn in X; repeat destruct X as [X|X]; try discriminate X; exact X.
    - pose proof (path_ok_bytes _ _ (path_of_ok d o)) as F. revert F. apply forallb_not_in. destruct (d_path_caret d); reflexivity. }
  destruct (X _ _ _ _ _ _ _ D H P) as (t & pre & t1 & t2 & c & m & s & T & E & C & M & S & Hx & Y & Nv & Np).
  destruct (X _ _ _ _ _ _ _ D' H' P') as (t' & pre' & t1' & t2' & c' & m' & s' & T' & E' & C' & M' & S' & Hx' & Y' & Nv' & Np').
  exists t, pre, t1, t2, c, m, s, t', pre', t1', t2', c', m', s'. repeat (split; [assumption|]). intros <-.
  destruct (message_binds _ _ _ _ _ _ _ M M') as ((dt & Dt & Dt') & _ & R & Sh). split; [|split; [exact R|]].
  - apply iso8601_inj; [apply years_ts; exact Y|apply years_ts; exact Y'|].
    transitivity dt; [exact (utc_basic_text_unique _ _ _ (iso8601_spec _ (years_ts _ Y)) Dt)|symmetry; exact (utc_basic_text_unique _ _ _ (iso8601_spec _ (years_ts _ Y')) Dt')].
  - destruct (str_eqb_spec c c') as [<-|N]; [right|left; auto].
    apply (canonical_binds _ _ _ _ _ _ _ _ c); try assumption; [exact (accepted_clean _ _ _ _ D H)|exact (accepted_clean _ _ _ _ D' H')].
Qed.

(** Two different URLs with the same message: the same object and parameter written differently. *)
Definition demo_left : url_options := demo_url_with (B "bucket1") (B "a(b") None [(B "X-A", B "1")] [(B "q", B "1")] demo_account false.
Definition demo_right : url_options := demo_url_with (B "bucket1") (B "a%28b?q=1") None [(B "x-a", B "1")] [] demo_account false.
Example C22_case : exists url path sig url' path' sig' query canonical message,
  returns (build_signed_url demo_deps demo_left) [] (Ok url) /\ url_parts url path query sig /\
  returns (build_signed_url demo_deps demo_right) [] (Ok url') /\ url_parts url' path' query sig' /\ path <> path' /\
  canonical_text (o_http_method demo_left) path query (o_headers demo_left) canonical /\
  canonical_text (o_http_method demo_right) path' query (o_headers demo_right) canonical /\
  message_text (demo_time / 1000000000)%Z (region_of demo_left) canonical message /\
  message_text (demo_time / 1000000000)%Z (region_of demo_right) canonical message.
Proof.
  destruct (demo_success demo_left eq_refl eq_refl eq_refl) as [s R]; [vm_compute; reflexivity|].
  destruct (demo_success demo_right eq_refl eq_refl eq_refl) as [s' R']; [vm_compute; reflexivity|].
  set (q := sorted_query (pairs_of demo_deps demo_left (demo_time / NS)%Z (lifetime demo_left demo_time) (lowered demo_left) (B "sa@example.com"))) in *.
  assert (E : sorted_query (pairs_of demo_deps demo_right (demo_time / NS)%Z (lifetime demo_right demo_time) (lowered demo_right) (B "sa@example.com")) = q) by (vm_compute; reflexivity).
  rewrite E in R'.
  destruct (block_of demo_deps (lowered demo_left)) as [b|] eqn:Eb; [|vm_compute in Eb; discriminate Eb].
  assert (Eb' : block_of demo_deps (lowered demo_right) = Some b) by (rewrite <- Eb; vm_compute; reflexivity).
  do 6 eexists. exists q. do 2 eexists. split; [exact R|]. split; [apply url_parts_of|]. split; [exact R'|]. split; [generalize (url_parts_of demo_deps demo_right (pairs_of demo_deps demo_right (demo_time / NS)%Z (lifetime demo_right demo_time) (lowered demo_right) (B "sa@example.com")) s'); rewrite E; intros U; exact U|].
  split; [vm_compute; discriminate|]. split; [apply (canonical_spec demo_deps demo_left Get q b demo_deps_ok Eb)|].
  split.
  - assert (Ec : canonical_of demo_deps demo_left Get q b (names_of demo_deps (lowered demo_left)) = canonical_of demo_deps demo_right Get q b (names_of demo_deps (lowered demo_right))).
    { unfold canonical_of. replace (percent_encode (path_of demo_deps demo_right)) with (percent_encode (path_of demo_deps demo_left)) by (vm_compute; reflexivity). reflexivity. }
    rewrite Ec. apply (canonical_spec demo_deps demo_right Get q b demo_deps_ok Eb').
  - assert (Y : in_years demo_time) by (apply in_years_time; vm_compute; reflexivity). split; [apply (message_spec demo_left demo_time _ Y eq_refl)|exact (message_spec demo_right demo_time _ Y eq_refl)].
Qed.
