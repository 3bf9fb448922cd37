(** C101: user names and passwords in GCE_METADATA_HOST. *)
From Verif Require Import Base BaseFacts Base64 CodecFacts Utf8 FormUrl FormUrlFacts Effects EffectsFacts Keys Url UrlFacts SpecCodec SpecUrl UrlSpecFacts SignedUrl HtmlForm Calls Target SpecTarget
  Login SpecLogin SpecTrace SpecRequests SpecUtf8 SpecConstructors Prop_UrlPath Prop_Requests Prop_Constructors Prop_Target Demo.
Local Open Scope byte_scope.

Lemma last_at_none s : ~ In "@" s -> split_last_at s = None.
Proof.
  induction s as [|c s IH]; intros N; [reflexivity|]. cbn [split_last_at]. cbn [In] in N. rewrite IH by tauto. destruct (beq_spec c "@"); [subst; tauto|reflexivity].
Qed.

Lemma last_at_app u h : ~ In "@" h -> split_last_at (u ++ "@" :: h) = Some (u, h).
Proof.
  intros N. induction u as [|c u IH]; cbn [app split_last_at]; [rewrite last_at_none by exact N; reflexivity|]. rewrite IH. reflexivity.
Qed.

Lemma colon_none s : ~ In ":" s -> split_colon s = None.
Proof.
  induction s as [|c s IH]; intros N; [reflexivity|]. cbn [split_colon]. cbn [In] in N. rewrite IH by tauto. destruct (beq_spec c ":"); [subst; tauto|reflexivity].
Qed.

Lemma colon_app u p : ~ In ":" u -> split_colon (u ++ ":" :: p) = Some (u, p).
Proof.
  intros N. induction u as [|c u IH]; [reflexivity|]. cbn [app split_colon]. cbn [In] in N. destruct (beq_spec c ":"); [subst; tauto|]. rewrite IH by tauto. reflexivity.
Qed.

Lemma userinfo_set_ok caret : set_ok (set_userinfo caret) = true.
Proof. destruct caret; vm_compute; reflexivity. Qed.

(** Every authority can be read so, in one way. *)
Lemma login_exists s : exists l server, login s l server.
Proof.
  destruct (in_dec byte_eq_dec "@" s) as [I|N]; [|exists None, s; constructor; exact N].
  assert (G : exists u h, s = u ++ "@" :: h /\ ~ In "@" h).
  { clear -I. induction s as [|c s IH]; [destruct I|]. destruct (in_dec byte_eq_dec "@" s) as [J|N].
    - destruct (IH J) as (u & h & -> & H). exists (c :: u), h. auto.
    - destruct I as [->|I]; [|contradiction]. exists [], s. auto. }
  destruct G as (u & h & -> & H). destruct (in_dec byte_eq_dec ":" u) as [J|N]; [|exists (Some (u, None)), h; constructor; assumption].
  apply in_split in J. assert (G : exists a p, u = a ++ ":" :: p /\ ~ In ":" a).
  { clear -J. destruct J as (a & b & ->). induction a as [|c a IH]; [exists [], b; split; [reflexivity|intros []]|].
    destruct (byte_eq_dec c ":") as [->|N]; [exists [], (a ++ ":" :: b); split; [reflexivity|intros []]|].
    destruct IH as (a' & p & E & H). exists (c :: a'), p. split; [cbn; rewrite E; reflexivity|]. intros [X|X]; [congruence|auto]. }
  destruct G as (a & p & -> & Na). rewrite <- app_assoc. cbn [app]. destruct p as [|c p]; [exists (Some (a, None)), h; constructor; assumption|].
  exists (Some (a, Some (c :: p))), h. constructor; [exact H|exact Na|discriminate].
Qed.

(** What the program makes of an authority. *)
Lemma login_parts d a l server : login a l server ->
  match split_last_at a with Some (_, h) => h | None => a end = server /\
  match split_last_at a with
  | Some (u, _) => let '(user, password) := parse_userinfo d u in
      exists u', l = Some u' /\ pct_decode user = pct_decode (fst u') /\ option_map pct_decode password = option_map pct_decode (snd u')
  | None => l = None
  end.
Proof.
  intros [host N|user host N Nu|user host N Nu|user password host N Nu Np].
  - rewrite last_at_none by exact N. auto.
  - rewrite last_at_app by exact N. split; [reflexivity|]. unfold parse_userinfo. rewrite colon_none by exact Nu. eexists. split; [reflexivity|].
    cbn [fst snd option_map]. rewrite pct_decode_encode by apply userinfo_set_ok. auto.
  - change (user ++ ":" :: "@" :: host) with (user ++ [":"] ++ "@" :: host). rewrite app_assoc, last_at_app by exact N. split; [reflexivity|].
    unfold parse_userinfo. rewrite colon_app by exact Nu. eexists. split; [reflexivity|]. cbn [fst snd option_map]. rewrite pct_decode_encode by apply userinfo_set_ok. auto.
  - change (user ++ ":" :: password ++ "@" :: host) with (user ++ (":" :: password) ++ "@" :: host). rewrite app_assoc, last_at_app by exact N. split; [reflexivity|].
    unfold parse_userinfo. rewrite colon_app by exact Nu. destruct password as [|c p]; [contradiction|]. eexists. split; [reflexivity|].
    cbn [fst snd option_map]. rewrite !pct_decode_encode by apply userinfo_set_ok. auto.
Qed.

(** The header is the one of the specification. *)
Lemma login_header user password user' password' v : pct_decode user' = pct_decode user -> option_map pct_decode password' = option_map pct_decode password ->
  (match extract_login user' password' with Some (u, p) => [(B "authorization", basic_auth u p)] | None => [] end = [(B "authorization", v)] <-> credentials user password v) /\
  (match extract_login user' password' with Some (u, p) => [(B "authorization", basic_auth u p)] | None => [] end = [] <-> forall v, ~ credentials user password v).
Proof.
  intros Eu Ep.
  set (pw := match password with Some p => if utf8_valid (pct_decode p) then Some (pct_decode p) else None | None => None end).
  assert (X : extract_login user' password' = if utf8_valid (pct_decode user) then match pct_decode user, pw with [], None => None | _, _ => Some (pct_decode user, pw) end else None).
  { unfold extract_login. rewrite Eu. unfold pw. destruct password as [p|], password' as [p'|]; try discriminate Ep; [injection Ep as ->|]; reflexivity. }
  rewrite X. clear X Eu Ep user' password'.
  assert (Cr : forall v, credentials user password v <-> utf8_valid (pct_decode user) = true /\ v = basic_auth (pct_decode user) pw /\ (pct_decode user <> [] \/ pw <> None)).
  { clear v. intros v. unfold basic_auth, pw. clear pw. split.
    - intros [p name secret text U Un S Us T|p name text U Un Nn Np T]; apply unescaped_iff in U; subst name; apply unicode_spec in Un; (split; [exact Un|]).
      + apply unescaped_iff in S. subst secret. apply unicode_spec in Us. rewrite Us. split; [|right; discriminate].
        f_equal. eapply base64_of_text_unique; [exact T|]. apply b64_encode_spec.
      + assert (match p with Some q => if utf8_valid (pct_decode q) then Some (pct_decode q) else None | None => None end = None) as ->.
        { destruct p as [p|]; [|reflexivity]. destruct (utf8_valid (pct_decode p)) eqn:V; [|reflexivity]. exfalso. apply (Np p (pct_decode p) eq_refl); [apply unescaped_iff; reflexivity|apply unicode_spec; exact V]. }
        split; [|left; exact Nn]. f_equal. eapply base64_of_text_unique; [exact T|]. apply b64_encode_spec.
    - intros (Un & -> & Ne). apply unicode_spec in Un. destruct password as [p|]; [destruct (utf8_valid (pct_decode p)) eqn:V|].
      + eapply cr_both; [apply unescaped_iff; reflexivity|exact Un|apply unescaped_iff; reflexivity|apply unicode_spec; exact V|apply b64_encode_spec].
      + eapply cr_user; [apply unescaped_iff; reflexivity|exact Un|destruct Ne as [Ne|Ne]; [exact Ne|contradiction]| |apply b64_encode_spec].
        intros q secret E S Us. injection E as <-. apply unescaped_iff in S. subst secret. apply unicode_spec in Us. congruence.
      + eapply cr_user; [apply unescaped_iff; reflexivity|exact Un|destruct Ne as [Ne|Ne]; [exact Ne|contradiction]|discriminate|apply b64_encode_spec]. }
  assert (D : (pct_decode user = [] /\ pw = None) \/ (pct_decode user <> [] \/ pw <> None)).
  { destruct (pct_decode user), pw; auto; right; try (left; discriminate); right; discriminate. }
  split; [|split; [intros E w|intros H]].
  - rewrite Cr. destruct (utf8_valid (pct_decode user)) eqn:U; [|split; [discriminate|intros (Y & _); discriminate Y]].
    destruct D as [[E1 E2]|D]; [rewrite E1, E2; split; [discriminate|intros (_ & _ & [Y|Y]); contradiction]|].
    assert (M : match pct_decode user, pw with [], None => None | _, _ => Some (pct_decode user, pw) end = Some (pct_decode user, pw)).
    { destruct (pct_decode user), pw; try reflexivity. destruct D; contradiction. }
    rewrite M. split; [intros E; injection E as <-; auto|intros (_ & -> & _); reflexivity].
  - rewrite Cr. intros (U & _ & Dn). rewrite U in E. destruct (pct_decode user), pw; try discriminate E. destruct Dn; contradiction.
  - destruct (utf8_valid (pct_decode user)) eqn:U; [|reflexivity]. destruct D as [[-> ->]|D]; [reflexivity|]. exfalso. eapply H. apply Cr. split; [reflexivity|]. split; [reflexivity|exact D].
Qed.

(** Where a metadata request leads, for any host without the characters that structure a URL. *)
Lemma metadata_target d host line attribute : unstructured host -> one_line host line -> line <> [] -> In attribute [B "email"; B "token"] ->
  exists u, target_of d (rq_url (metadata_request (B "http://" ++ host) attribute)) = Some {| tg_scheme := B "http"; tg_authority := line; tg_url := u |} /\
    u_path u = metadata_path attribute /\ u_query u = None /\ u_fragment u = None.
Proof.
  intros U O N A. pose proof (unstructured_line _ _ O U) as (N1 & N2 & N3 & N4). apply one_line_iff in O.
  assert (G : forall path, (exists p c, path = p ++ [c] /\ (32 < bN c)%N) -> drop_tabs path = path ->
    target_of d ((B "http://" ++ host) ++ "/" :: path) = Some {| tg_scheme := B "http"; tg_authority := line; tg_url := url_parse d path |}).
  { intros path (p & c & -> & L) E. unfold target_of.
    replace ((B "http://" ++ host) ++ "/" :: p ++ [c]) with ((B "http://" ++ host ++ "/" :: p) ++ [c]) by (rewrite <- !app_assoc; reflexivity).
    rewrite trim_end_last by exact L.
    replace ((B "http://" ++ host ++ "/" :: p) ++ [c]) with (B "http://" ++ host ++ ["/"] ++ (p ++ [c])) by (rewrite <- !app_assoc; reflexivity).
    rewrite drop_tabs_app, (drop_tabs_app host), (drop_tabs_app ["/"]), <- O, E. change (drop_tabs (B "http://")) with (B "http://"). change (drop_tabs ["/"]) with ["/"].
    change (strip_prefix (B "https:") (B "http://" ++ line ++ ["/"] ++ p ++ [c])) with (@None str). cbv iota.
    rewrite (strip_prefix_app (B "http:") (B "//" ++ line ++ ["/"] ++ p ++ [c]) : strip_prefix (B "http:") (B "http://" ++ line ++ ["/"] ++ p ++ [c]) = _).
    unfold target_with. f_equal. change (["/"] ++ p ++ [c]) with ("/" :: p ++ [c]).
    assert (W : drop_while (fun b => beq b "/" || beq b "\") (B "//" ++ line ++ "/" :: p ++ [c]) = line ++ "/" :: p ++ [c]).
    { cbn [B app drop_while]. destruct line as [|h line]; [contradiction|]. cbn [In] in *.
      cbn. destruct (beq_spec h "/"); [subst; tauto|]. destruct (beq_spec h "\"); [subst; tauto|]. reflexivity. }
    rewrite W, split_authority_app by (try reflexivity; assumption). reflexivity. }
  destruct A as [<-|[<-|[]]].
  - eexists. split; [apply (G (B "computeMetadata/v1/instance/service-accounts/default/email")); [exists (B "computeMetadata/v1/instance/service-accounts/default/emai"), "l"; split; reflexivity|reflexivity]|].
    rewrite (parse_caret d (B "computeMetadata/v1/instance/service-accounts/default/email") {| u_path := metadata_path (B "email"); u_query := None; u_fragment := None |})
      by (vm_compute; reflexivity). repeat split.
  - eexists. split; [apply (G (B "computeMetadata/v1/instance/service-accounts/default/token")); [exists (B "computeMetadata/v1/instance/service-accounts/default/toke"), "n"; split; reflexivity|reflexivity]|].
    rewrite (parse_caret d (B "computeMetadata/v1/instance/service-accounts/default/token") {| u_path := metadata_path (B "token"); u_query := None; u_fragment := None |})
      by (vm_compute; reflexivity). repeat split.
Qed.

(** For a variable without the characters that structure a URL: both metadata requests go to what follows the last at sign,
    ask for the documented paths, and carry credentials exactly if user or password are written before it. *)
Theorem C101_metadata d host line attribute l server : unstructured host -> one_line host line -> line <> [] -> In attribute [B "email"; B "token"] ->
  login line l server ->
  exists t, target_of d (rq_url (metadata_request (B "http://" ++ host) attribute)) = Some t /\
    tg_scheme t = B "http" /\ server_of t = server /\ asks_for t (metadata_path attribute) /\
    ((exists user password v, l = Some (user, password) /\ credentials user password v /\
        sent_headers d (metadata_request (B "http://" ++ host) attribute) = [(B "authorization", v); (B "Metadata-Flavor", B "Google")]) \/
     (forall user password v, l = Some (user, password) -> ~ credentials user password v) /\
        sent_headers d (metadata_request (B "http://" ++ host) attribute) = [(B "Metadata-Flavor", B "Google")]).
Proof.
  intros U O N A L. destruct (metadata_target d host line attribute U O N A) as (u & T & P1 & P2 & P3). eexists. split; [exact T|]. split; [reflexivity|].
  destruct (login_parts d _ _ _ L) as [S X]. split; [exact S|]. split; [repeat split; assumption|].
  unfold sent_headers. rewrite T. cbn [tg_authority].
  destruct (split_last_at line) as [[w h]|]; [|right; subst l; split; [discriminate|reflexivity]].
  destruct (parse_userinfo d w) as [user' password']. destruct X as ([user password] & -> & E1 & E2). cbn [fst snd] in E1, E2.
  destruct (extract_login user' password') as [[n p]|] eqn:E.
  - left. exists user, password, (basic_auth n p). split; [reflexivity|]. split; [|reflexivity].
    apply (login_header user password user' password' (basic_auth n p) E1 E2). rewrite E. reflexivity.
  - right. split; [|reflexivity]. intros us pw v F C. injection F as <- <-. revert v C. apply (login_header user password user' password' [] E1 E2). rewrite E. reflexivity.
Qed.

(** In no execution does a signBlob request carry other credentials than the access token, nor a metadata request any if the
    variable has no at sign. *)
Theorem C101_requests d c tr q env id host r :
  steps (run_call d c) tr q -> call_key c = Some (key_bound_token env id) -> asked_host env host -> unstructured host -> ~ one_line host [] -> In r (asked tr) ->
  sent_headers d r = rq_headers r \/
  exists line l server user password v, one_line host line /\ login line l server /\ l = Some (user, password) /\ credentials user password v /\
    sent_headers d r = (B "authorization", v) :: rq_headers r /\ ~ carries_token r.
Proof.
  intros H K A U N I. destruct (C61_requests _ _ _ _ _ _ _ _ H K A I) as [(attribute & Ha & E)|[email E]].
  - assert (O : one_line host (drop_tabs host)) by (apply one_line_iff; reflexivity). destruct (login_exists (drop_tabs host)) as (l & server & L).
    assert (E' : r = metadata_request (B "http://" ++ host) attribute) by (rewrite E; unfold metadata_request; f_equal; rewrite <- app_assoc; reflexivity).
    destruct (C101_metadata d host _ attribute l server U O) as (t & _ & _ & _ & _ & [(user & password & v & X & Cr & S)|[_ S]]); [intros X; rewrite X in O; contradiction|exact Ha|exact L| |].
    + right. exists (drop_tabs host), l, server, user, password, v. rewrite <- E' in S. repeat (split; [assumption|]). split; [rewrite S, E; reflexivity|].
      rewrite E. intros [w [Y|[]]]. discriminate Y.
    + left. rewrite <- E' in S. rewrite S, E. reflexivity.
  - left. unfold sent_headers. rewrite E, blob_target. reflexivity.
Qed.

(** What precedes an at sign does not say where requests go, though it may look like a host. *)
Theorem C101_prefix_refuted : exists host, (exists r, host = B "metadata.google.internal" ++ r) /\ unstructured host /\
  forall d attribute, In attribute [B "email"; B "token"] ->
    exists t, target_of d (rq_url (metadata_request (B "http://" ++ host) attribute)) = Some t /\ server_of t = B "example.com".
Proof.
  exists (B "metadata.google.internal@example.com"). split; [exists (B "@example.com"); reflexivity|].
  assert (U : unstructured (B "metadata.google.internal@example.com")).
  { repeat split; intros I; cbn in I; repeat destruct I as [I|I]; try discriminate I; exact I. }
  split; [exact U|]. intros d attribute A.
  destruct (C101_metadata d (B "metadata.google.internal@example.com") (B "metadata.google.internal@example.com") attribute (Some (B "metadata.google.internal", None)) (B "example.com") U) as (t & T & _ & S & _); eauto.
  - apply one_line_iff. reflexivity.
  - discriminate.
  - apply (lg_user (B "metadata.google.internal") (B "example.com")); intros I; cbn in I; repeat destruct I as [I|I]; try discriminate I; exact I.
Qed.

(** A user with a password, escaped. *)
Example C101_case : let host := B "us%65r:p%40ss@10.0.0.1:8080" in unstructured host /\ one_line host host /\
  login host (Some (B "us%65r", Some (B "p%40ss"))) (B "10.0.0.1:8080") /\ credentials (B "us%65r") (Some (B "p%40ss")) (B "Basic dXNlcjpwQHNz") /\
  sent_headers demo_deps (metadata_request (B "http://" ++ host) (B "token")) = [(B "authorization", B "Basic dXNlcjpwQHNz"); (B "Metadata-Flavor", B "Google")].
Proof.
  cbn zeta. split; [repeat split; intros I; cbn in I; repeat destruct I as [I|I]; try discriminate I; exact I|]. split; [apply one_line_iff; reflexivity|].
  split; [apply (lg_both (B "us%65r") (B "p%40ss") (B "10.0.0.1:8080")); [| |discriminate]; intros I; cbn in I; repeat destruct I as [I|I]; try discriminate I; exact I|].
  split; [|vm_compute; reflexivity].
  apply (cr_both (B "us%65r") (B "p%40ss") (B "user") (B "p@ss") (B "dXNlcjpwQHNz")); try (apply unescaped_iff; reflexivity); try (apply unicode_spec; reflexivity).
  change (B "dXNlcjpwQHNz") with (b64_encode (B "user" ++ B ":" ++ B "p@ss")). apply b64_encode_spec.
Qed.

(** Nothing before the at sign, or a lone colon: no header. *)
Example C101_empty : sent_headers demo_deps (metadata_request (B "http://@a") (B "token")) = [(B "Metadata-Flavor", B "Google")] /\
  sent_headers demo_deps (metadata_request (B "http://:@a") (B "token")) = [(B "Metadata-Flavor", B "Google")] /\ login (B ":@a") (Some ([], None)) (B "a") /\
  (forall v, ~ credentials [] None v).
Proof.
  split; [vm_compute; reflexivity|]. split; [vm_compute; reflexivity|]. split; [apply (lg_colon [] (B "a")); intros I; cbn in I; repeat destruct I as [I|I]; try discriminate I; exact I|].
  intros v C. remember (@None str) as p. destruct C as [|p name text U Un Nn _ _]; [discriminate|]. apply unescaped_iff in U. cbn in U. contradiction.
Qed.
