(** C72, C73: where the requests of a bound-token key go. *)
From Verif Require Import Base BaseFacts FormUrl FormUrlFacts Effects EffectsFacts Keys Url UrlFacts SpecUrl UrlSpecFacts SignedUrl HtmlForm Calls Target SpecTarget
  SpecTrace SpecRequests SpecUtf8 SpecConstructors Prop_UrlPath Prop_Requests Prop_Constructors Demo.
Local Open Scope byte_scope.

Lemma drop_tabs_app a b : drop_tabs (a ++ b) = drop_tabs a ++ drop_tabs b.
Proof. apply filter_app. Qed.

Lemma one_line_iff s t : one_line s t <-> t = drop_tabs s.
Proof.
  split.
  - induction 1 as [|c s t I H IH|c s t I H IH]; [reflexivity| |]; unfold drop_tabs in *; cbn [filter].
    + cbn [In] in I. destruct I as [<-|[<-|[<-|[]]]]; exact IH.
    + destruct (beq_spec c x09) as [->|]; [destruct I; left; reflexivity|]. destruct (beq_spec c x0a) as [->|]; [destruct I; right; left; reflexivity|].
      destruct (beq_spec c x0d) as [->|]; [destruct I; right; right; left; reflexivity|]. cbn. rewrite IH. reflexivity.
  - intros ->. induction s as [|c s IH]; [constructor|]. unfold drop_tabs in *. cbn [filter].
    destruct (beq_spec c x09) as [->|]; [apply ol_break; [left; reflexivity|exact IH]|].
    destruct (beq_spec c x0a) as [->|]; [apply ol_break; [right; left; reflexivity|exact IH]|].
    destruct (beq_spec c x0d) as [->|]; [apply ol_break; [right; right; left; reflexivity|exact IH]|].
    cbn. apply ol_keep; [|exact IH]. intros [E|[E|[E|[]]]]; congruence.
Qed.

Lemma one_line_incl s t c : one_line s t -> In c t -> In c s.
Proof. rewrite one_line_iff. intros -> I. apply filter_In in I. apply I. Qed.

(** * The signing service *)

Lemma blob_target d email : target_of d (B "https://iamcredentials.googleapis.com/v1/projects/-/serviceAccounts/" ++ email ++ B ":signBlob") =
  Some {| tg_scheme := B "https"; tg_authority := B "iamcredentials.googleapis.com";
          tg_url := url_parse d (B "v1/projects/-/serviceAccounts/" ++ drop_tabs email ++ B ":signBlob") |}.
Proof.
  unfold target_of. replace (B ":signBlob") with (B ":signBlo" ++ ["b"]) by reflexivity.
  rewrite !app_assoc, trim_end_last, <- !app_assoc by reflexivity.
  rewrite !drop_tabs_app. reflexivity.
Qed.

Lemma long_not_dot e : (6 < length e)%nat -> is_dot e = false /\ is_dotdot e = false.
Proof.
  intros L. unfold is_dot, is_dotdot, lower_str. split.
  - destruct (str_eqb _ _) eqn:E; [apply str_eqb_eq in E; apply (f_equal (@length byte)) in E; rewrite map_length in E; cbn in E; lia|].
    destruct (str_eqb _ (B "%2e")) eqn:E'; [apply str_eqb_eq in E'; apply (f_equal (@length byte)) in E'; rewrite map_length in E'; cbn in E'; lia|reflexivity].
  - repeat match goal with |- (_ || _)%bool = false => apply orb_false_iff; split end;
      match goal with |- ?x = false => destruct x eqn:E; [|reflexivity] end;
      apply str_eqb_eq in E; apply (f_equal (@length byte)) in E; rewrite map_length in E; cbn in E; lia.
Qed.

(** For every text that does not structure the URL the whole of it is one segment of the path. *)
Lemma blob_parse d x : unstructured x -> ~ In x09 x /\ ~ In x0a x /\ ~ In x0d x ->
  url_parse d (B "v1/projects/-/serviceAccounts/" ++ x ++ B ":signBlob") =
  {| u_path := pct_encode (set_path (d_path_caret d)) (sign_blob_path x); u_query := None; u_fragment := None |}.
Proof.
  intros (N1 & N2 & N3 & N4) T. set (s := B "v1/projects/-/serviceAccounts/" ++ x ++ B ":signBlob").
  assert (In_s : forall c, In c s -> In c (B "v1/projects/-/serviceAccounts/:signBlob") \/ In c x).
  { intros c I. unfold s in I. rewrite !in_app_iff in I. destruct I as [I|[I|I]]; [|auto|].
    - left. change (B "v1/projects/-/serviceAccounts/:signBlob") with (B "v1/projects/-/serviceAccounts/" ++ B ":signBlob"). apply in_or_app. auto.
    - left. change (B "v1/projects/-/serviceAccounts/:signBlob") with (B "v1/projects/-/serviceAccounts/" ++ B ":signBlob"). apply in_or_app. auto. }
  assert (No : forall c, existsb (beq c) (B "v1/projects/-/serviceAccounts/:signBlob") = false -> ~ In c x -> ~ In c s).
  { intros c E N I. apply In_s in I. destruct I as [I|I]; [|auto]. assert (X : existsb (beq c) (B "v1/projects/-/serviceAccounts/:signBlob") = true).
    { apply existsb_exists. exists c. split; [exact I|]. destruct (beq_spec c c); congruence. } congruence. }
  assert (Ts : tidy s).
  { destruct T as (T1 & T2 & T3). split; [apply No; [reflexivity|exact T1]|]. split; [apply No; [reflexivity|exact T2]|].
    split; [apply No; [reflexivity|exact T3]|]. intros p c E. unfold s in E. replace (B ":signBlob") with (B ":signBlo" ++ ["b"]) in E by reflexivity.
    rewrite !app_assoc in E. apply app_inj_tail in E. destruct E as [_ <-]. reflexivity. }
  unfold url_parse. rewrite trim_end_tidy, drop_tabs_tidy by (apply tidy_slash; exact Ts).
  rewrite split_path_none by (intros [E|I]; [discriminate E|revert I; apply No; [reflexivity|assumption]]). cbn [tl].
  rewrite split_segments_eq by (apply No; [reflexivity|assumption]).
  replace s with (B "v1" ++ "/" :: B "projects" ++ "/" :: B "-" ++ "/" :: B "serviceAccounts" ++ "/" :: x ++ B ":signBlob") by reflexivity.
  rewrite !split_on_app. rewrite (split_on_none "/" (x ++ B ":signBlob")).
  2: { rewrite in_app_iff. intros [I|I]; [contradiction|]. cbn [In] in I. repeat destruct I as [I|I]; try discriminate I. exact I. }
  f_equal. set (caret := d_path_caret d). change (split_on "/" (B "v1")) with [B "v1"]. change (split_on "/" (B "projects")) with [B "projects"].
  change (split_on "/" (B "-")) with [B "-"]. change (split_on "/" (B "serviceAccounts")) with [B "serviceAccounts"].
  change ([B "v1"] ++ [B "projects"] ++ [B "-"] ++ [B "serviceAccounts"] ++ [x ++ B ":signBlob"]) with
    ([B "v1"; B "projects"; B "-"; B "serviceAccounts"] ++ [x ++ B ":signBlob"]).
  assert (L : is_dot (pct_encode (set_path caret) (x ++ B ":signBlob")) = false /\ is_dotdot (pct_encode (set_path caret) (x ++ B ":signBlob")) = false).
  { apply long_not_dot. rewrite pct_encode_app, app_length.
    replace (pct_encode (set_path caret) (B ":signBlob")) with (B ":signBlob") by (destruct caret; reflexivity). change (length (B ":signBlob")) with 9%nat. lia. }
  rewrite walk_plain.
  - unfold sign_blob_path. rewrite (pct_encode_app _ (B "/v1/projects/-/serviceAccounts/")). rewrite render_join. rewrite app_nil_r, rev_involutive.
    replace (pct_encode (set_path caret) (B "/v1/projects/-/serviceAccounts/")) with (B "/v1/projects/-/serviceAccounts/") by (destruct caret; reflexivity).
    replace (map (pct_encode (set_path caret)) [B "v1"; B "projects"; B "-"; B "serviceAccounts"]) with [B "v1"; B "projects"; B "-"; B "serviceAccounts"]
      by (destruct caret; reflexivity). reflexivity.
  - repeat (constructor; [split; destruct caret; reflexivity|]). constructor; [exact L|constructor].
Qed.

Lemma one_line_clean s t : one_line s t -> ~ In x09 t /\ ~ In x0a t /\ ~ In x0d t.
Proof. rewrite one_line_iff. intros ->. unfold drop_tabs. repeat split; intros I; apply filter_In in I; destruct I as [_ I]; discriminate I. Qed.

Lemma unstructured_line s t : one_line s t -> unstructured s -> unstructured t.
Proof. intros O (H1 & H2 & H3 & H4). repeat split; intros I; apply (one_line_incl _ _ _ O) in I; contradiction. Qed.

(** Requests with an authorization header are signBlob requests. *)
Lemma token_request_blob d c tr q r : steps (run_call d c) tr q -> In r (asked tr) -> carries_token r ->
  exists email, rq_url r = B "https://iamcredentials.googleapis.com/v1/projects/-/serviceAccounts/" ++ email ++ B ":signBlob".
Proof.
  intros H I [v V]. apply C57_requests in H. destruct H as [H|(bt & l1 & l2 & s & K' & A1 & A2 & S & [rest E])]; [rewrite H in I; destruct I|].
  assert (M : forall l, lookup_asks (bt_base_url bt) l -> ~ In r l).
  { intros l [->| ->] J; [destruct J|]. destruct J as [<-|[<-|[]]]; cbn in V; destruct V as [V|[]]; discriminate V. }
  assert (I' : In r (l1 ++ l2 ++ s)) by (rewrite E; apply in_or_app; left; exact I).
  rewrite !in_app_iff in I'. destruct I' as [J|[J|J]]; [destruct (M _ A1 J)|destruct (M _ A2 J)|].
  destruct S as (em & tk & m & r' & -> & (_ & U & _)). destruct J as [<-|[]]. exists em. exact U.
Qed.

(** In every execution of every operation, a request with the access token goes to the signing service over HTTPS,
    whatever the metadata server said the account was. *)
Theorem C72_server d c tr q r : steps (run_call d c) tr q -> In r (asked tr) -> carries_token r ->
  exists t, target_of d (rq_url r) = Some t /\ goes_to t (B "https") (B "iamcredentials.googleapis.com").
Proof.
  intros H I V. destruct (token_request_blob _ _ _ _ _ H I V) as [email U]. rewrite U, blob_target.
  eexists. split; [reflexivity|]. split; reflexivity.
Qed.

(** It asks to sign for that account, if the account is written without the characters that structure URLs: the server
    reads its name without tabs and line breaks, percent-escapes replaced. *)
Theorem C72_account d account token message line : unstructured account -> one_line account line ->
  exists t path, target_of d (rq_url (sign_blob_request account token message)) = Some t /\ asks_for t path /\
    forall text, unescaped path text <-> unescaped (sign_blob_path line) text.
Proof.
  intros N O. unfold sign_blob_request. cbn [rq_url]. rewrite blob_target.
  replace (drop_tabs account) with line by (apply one_line_iff; exact O).
  rewrite blob_parse; [|exact (unstructured_line _ _ O N)|exact (one_line_clean _ _ O)].
  do 2 eexists. split; [reflexivity|]. split; [repeat split; reflexivity|]. intros text. cbn [tg_url u_path]. rewrite !unescaped_iff, pct_decode_encode by apply path_set_ok. reflexivity.
Qed.

(** An account name is written out as it is. *)
Theorem C72_name d account token message : account_name account ->
  exists t, target_of d (rq_url (sign_blob_request account token message)) = Some t /\ asks_for t (sign_blob_path account).
Proof.
  intros F. unfold account_name in F. rewrite Forall_forall in F. set (letters := B "ABCDEFGHIJKLMNOPQRSTUVWXYZabcdefghijklmnopqrstuvwxyz0123456789@.-_+") in F.
  assert (No : forall c, existsb (beq c) letters = false -> ~ In c account).
  { intros c E I. apply F in I. assert (X : existsb (beq c) letters = true).
    { apply existsb_exists. exists c. split; [exact I|]. destruct (beq_spec c c); congruence. } congruence. }
  assert (O : one_line account account).
  { apply one_line_iff. symmetry. pose proof (No x09 eq_refl) as H1. pose proof (No x0a eq_refl) as H2. pose proof (No x0d eq_refl) as H3. clear -H1 H2 H3.
    induction account as [|c s IH]; [reflexivity|]. unfold drop_tabs in *. cbn [filter]. cbn [In] in *.
    destruct (beq_spec c x09) as [->|]; [tauto|]. destruct (beq_spec c x0a) as [->|]; [tauto|]. destruct (beq_spec c x0d) as [->|]; [tauto|]. cbn. rewrite IH by tauto. reflexivity. }
  assert (N : unstructured account) by (repeat split; apply No; reflexivity).
  unfold sign_blob_request. cbn [rq_url]. rewrite blob_target. replace (drop_tabs account) with account by (apply one_line_iff; exact O).
  rewrite blob_parse; [|exact N|exact (one_line_clean _ _ O)]. eexists. split; [reflexivity|]. split; [|split; reflexivity]. cbn [tg_url u_path].
  apply pct_encode_id. apply forallb_forall. intros c I. unfold sign_blob_path in I. rewrite !in_app_iff in I.
  assert (G : forall l, forallb (fun b => negb (set_path (d_path_caret d) b)) l = true -> In c l -> negb (set_path (d_path_caret d) c) = true).
  { intros l X. rewrite forallb_forall in X. apply X. }
  destruct I as [I|[I|I]]; [|apply F in I|]; eapply G; try exact I; destruct (d_path_caret d); reflexivity.
Qed.

(** Parsing depends on the dependencies through one flag only, so it can be computed for both. *)
Definition caret_deps (caret : bool) : deps := {| d_path_caret := caret; d_quote_in_header_name := false; d_num_ok := fun _ => true;
  d_rsa_sign := fun _ _ => Err PemParsing; d_hm_iter := fun l => l; d_hm_overflow := fun _ => false; d_url_ok := fun _ => true |}.
Lemma parse_caret d s u : forallb (fun caret =>
    let v := url_parse (caret_deps caret) s in
    str_eqb (u_path v) (u_path u) &&
    match u_query v, u_query u with Some x, Some y => str_eqb x y | None, None => true | _, _ => false end &&
    match u_fragment v, u_fragment u with Some x, Some y => str_eqb x y | None, None => true | _, _ => false end) [true; false] = true ->
  url_parse d s = u.
Proof.
  intros H. rewrite forallb_forall in H. specialize (H (d_path_caret d)). cbv beta zeta in H.
  replace (url_parse (caret_deps (d_path_caret d)) s) with (url_parse d s) in H by reflexivity.
  assert (I : In (d_path_caret d) [true; false]) by (destruct (d_path_caret d); cbn; auto). apply H in I. clear H.
  apply andb_true_iff in I. destruct I as [I I3]. apply andb_true_iff in I. destruct I as [I1 I2]. apply str_eqb_eq in I1.
  destruct (url_parse d s) as [p q f], u as [p' q' f']. cbn [u_path u_query u_fragment] in *.
  f_equal; [exact I1| |]; [destruct q, q'; try discriminate I2; [apply str_eqb_eq in I2; congruence|reflexivity]|
    destruct f, f'; try discriminate I3; [apply str_eqb_eq in I3; congruence|reflexivity]].
Qed.

(** "The request always asks for the account it is built for" is false: a name with slashes and dots, or a question
    mark, asks for another account. *)
Theorem C72_account_refuted : exists account account' other token message, forall d,
  account <> other /\ account' <> other /\ account_name other /\
  (exists t, target_of d (rq_url (sign_blob_request account token message)) = Some t /\ asks_for t (sign_blob_path other)) /\
  (exists t, target_of d (rq_url (sign_blob_request account' token message)) = Some t /\ u_path (tg_url t) = sign_blob_path other).
Proof.
  exists (B "a@example.com/../b@example.com"), (B "b@example.com:signBlob?"), (B "b@example.com"), (B "token"), (B "message"). intros d.
  split; [discriminate|]. split; [discriminate|]. split.
  - apply Forall_forall. intros c I.
    assert (X : forallb (fun c => existsb (beq c) (B "ABCDEFGHIJKLMNOPQRSTUVWXYZabcdefghijklmnopqrstuvwxyz0123456789@.-_+")) (B "b@example.com") = true) by reflexivity.
    rewrite forallb_forall in X. apply X in I. apply existsb_exists in I. destruct I as (x & J & E). destruct (beq_spec c x); [subst; exact J|discriminate E].
  - unfold sign_blob_request. cbn [rq_url]. rewrite !blob_target. split; eexists; (split; [reflexivity|]); cbn [tg_url].
    + unfold asks_for. cbn [tg_url]. pose proof (parse_caret d (B "v1/projects/-/serviceAccounts/" ++ drop_tabs (B "a@example.com/../b@example.com") ++ B ":signBlob")
        {| u_path := sign_blob_path (B "b@example.com"); u_query := None; u_fragment := None |}) as X.
      rewrite X by (vm_compute; reflexivity). repeat split.
    + pose proof (parse_caret d (B "v1/projects/-/serviceAccounts/" ++ drop_tabs (B "b@example.com:signBlob?") ++ B ":signBlob")
        {| u_path := sign_blob_path (B "b@example.com"); u_query := Some (B ":signBlob"); u_fragment := None |}) as X.
      rewrite X by (vm_compute; reflexivity). reflexivity.
Qed.

(** * The metadata server *)

Lemma split_authority_app a c r : ~ In "/" a -> ~ In "\" a -> ~ In "?" a -> ~ In "#" a -> c = "/" -> split_authority (a ++ c :: r) = (a, c :: r).
Proof.
  intros H1 H2 H3 H4 ->. induction a as [|x a IH]; [reflexivity|]. cbn [app split_authority]. cbn [In] in *.
  destruct (beq_spec x "/"); [subst; tauto|]. destruct (beq_spec x "\"); [subst; tauto|]. destruct (beq_spec x "?"); [subst; tauto|].
  destruct (beq_spec x "#"); [subst; tauto|]. cbn. rewrite IH by tauto. reflexivity.
Qed.

(** With a host in the variable, both metadata requests go to that host and ask for the documented paths. *)
Theorem C73_metadata d host attribute : host_text host -> In attribute [B "email"; B "token"] ->
  exists t, target_of d (rq_url (metadata_request (B "http://" ++ host) attribute)) = Some t /\
    goes_to t (B "http") host /\ asks_for t (metadata_path attribute).
Proof.
  intros [N F] A. rewrite Forall_forall in F. set (letters := B "ABCDEFGHIJKLMNOPQRSTUVWXYZabcdefghijklmnopqrstuvwxyz0123456789.-_:[]") in F.
  assert (No : forall c, existsb (beq c) letters = false -> ~ In c host).
  { intros c E I. apply F in I. assert (X : existsb (beq c) letters = true).
    { apply existsb_exists. exists c. split; [exact I|]. destruct (beq_spec c c); congruence. } congruence. }
  assert (T : drop_tabs host = host).
  { pose proof (No x09 eq_refl) as H1. pose proof (No x0a eq_refl) as H2. pose proof (No x0d eq_refl) as H3. clear -H1 H2 H3.
    induction host as [|c s IH]; [reflexivity|]. unfold drop_tabs in *. cbn [filter]. cbn [In] in *.
    destruct (beq_spec c x09) as [->|]; [tauto|]. destruct (beq_spec c x0a) as [->|]; [tauto|]. destruct (beq_spec c x0d) as [->|]; [tauto|]. cbn. rewrite IH by tauto. reflexivity. }
  assert (G : forall path, (exists p c, path = p ++ [c] /\ (32 < bN c)%N) -> drop_tabs path = path ->
    target_of d ((B "http://" ++ host) ++ "/" :: path) = Some {| tg_scheme := B "http"; tg_authority := host; tg_url := url_parse d path |}).
  { intros path (p & c & -> & L) E. unfold target_of.
    replace ((B "http://" ++ host) ++ "/" :: p ++ [c]) with ((B "http://" ++ host ++ "/" :: p) ++ [c]) by (rewrite <- !app_assoc; reflexivity).
    rewrite trim_end_last by exact L.
    replace ((B "http://" ++ host ++ "/" :: p) ++ [c]) with (B "http://" ++ host ++ ["/"] ++ (p ++ [c])) by (rewrite <- !app_assoc; reflexivity).
    rewrite drop_tabs_app, (drop_tabs_app host), (drop_tabs_app ["/"]), T, E. change (drop_tabs (B "http://")) with (B "http://"). change (drop_tabs ["/"]) with ["/"].
    change (strip_prefix (B "https:") (B "http://" ++ host ++ ["/"] ++ p ++ [c])) with (@None str). cbv iota.
    rewrite (strip_prefix_app (B "http:") (B "//" ++ host ++ ["/"] ++ p ++ [c]) : strip_prefix (B "http:") (B "http://" ++ host ++ ["/"] ++ p ++ [c]) = _).
    unfold target_with. f_equal. change (["/"] ++ p ++ [c]) with ("/" :: p ++ [c]).
    assert (W : drop_while (fun b => beq b "/" || beq b "\") (B "//" ++ host ++ "/" :: p ++ [c]) = host ++ "/" :: p ++ [c]).
    { cbn [B app drop_while]. destruct host as [|h host]; [contradiction|]. pose proof (No "/" eq_refl) as H1. pose proof (No "\" eq_refl) as H2. cbn [In] in *.
      cbn. destruct (beq_spec h "/"); [subst; tauto|]. destruct (beq_spec h "\"); [subst; tauto|]. reflexivity. }
    rewrite W, split_authority_app by (try reflexivity; apply No; reflexivity). reflexivity. }
  destruct A as [<-|[<-|[]]].
  - eexists. split; [apply (G (B "computeMetadata/v1/instance/service-accounts/default/email")); [exists (B "computeMetadata/v1/instance/service-accounts/default/emai"), "l"; split; reflexivity|reflexivity]|].
    split; [split; reflexivity|]. unfold asks_for. cbn [tg_url].
    rewrite (parse_caret d (B "computeMetadata/v1/instance/service-accounts/default/email") {| u_path := metadata_path (B "email"); u_query := None; u_fragment := None |})
      by (vm_compute; reflexivity). repeat split.
  - eexists. split; [apply (G (B "computeMetadata/v1/instance/service-accounts/default/token")); [exists (B "computeMetadata/v1/instance/service-accounts/default/toke"), "n"; split; reflexivity|reflexivity]|].
    split; [split; reflexivity|]. unfold asks_for. cbn [tg_url].
    rewrite (parse_caret d (B "computeMetadata/v1/instance/service-accounts/default/token") {| u_path := metadata_path (B "token"); u_query := None; u_fragment := None |})
      by (vm_compute; reflexivity). repeat split.
Qed.

(** So all requests of all executions go to one of two servers, and the metadata server never gets a token. *)
Theorem C73_requests d c tr q env id host r :
  steps (run_call d c) tr q -> call_key c = Some (key_bound_token env id) -> asked_host env host -> host_text host -> In r (asked tr) ->
  exists t, target_of d (rq_url r) = Some t /\
    (goes_to t (B "http") host /\ ~ carries_token r /\ (exists attribute, In attribute [B "email"; B "token"] /\ asks_for t (metadata_path attribute)) \/
     goes_to t (B "https") (B "iamcredentials.googleapis.com")).
Proof.
  intros H K A T I. destruct (C61_requests _ _ _ _ _ _ _ _ H K A I) as [(attribute & Ha & ->)|[email U]].
  - destruct (C73_metadata d host attribute T Ha) as (t & E & G & P). exists t. split; [exact E|]. left. split; [exact G|]. split; [|eauto].
    intros [v V]. cbn in V. destruct V as [V|[]]. discriminate V.
  - rewrite U, blob_target. eexists. split; [reflexivity|]. right. split; reflexivity.
Qed.

(** "Whatever the variable holds, the request is for the documented path" is false.  Empty, it sends the request to a
    host called computeMetadata; with a number sign, it asks for the root of the host. *)
Theorem C73_metadata_refuted : exists base empty marked, forall d,
  asked_host (Some empty) empty /\ asked_host (Some marked) marked /\ base = B "http://" /\ empty = [] /\
  (exists t, target_of d (rq_url (metadata_request (base ++ empty) (B "token"))) = Some t /\
     goes_to t (B "http") (B "computeMetadata") /\ asks_for t (B "/v1/instance/service-accounts/default/token")) /\
  (exists t, target_of d (rq_url (metadata_request (base ++ marked) (B "token"))) = Some t /\
     goes_to t (B "http") (B "host") /\ u_path (tg_url t) = B "/" /\ u_query (tg_url t) = None).
Proof.
  exists (B "http://"), [], (B "host#"). intros d. split; [apply ah_set; apply unicode_spec; reflexivity|].
  split; [apply ah_set; apply unicode_spec; reflexivity|]. split; [reflexivity|]. split; [reflexivity|].
  assert (G : forall host path u, split_authority (drop_while (fun b => beq b "/" || beq b "\") (B "//" ++ host ++ metadata_path (B "token"))) = path ->
    url_parse d (after_slash (snd path)) = u -> drop_tabs (trim_end (B "http://" ++ host ++ metadata_path (B "token"))) = B "http://" ++ host ++ metadata_path (B "token") ->
    target_of d (rq_url (metadata_request (B "http://" ++ host) (B "token"))) = Some {| tg_scheme := B "http"; tg_authority := fst path; tg_url := u |}).
  { intros host path u <- <- E. unfold target_of. change (rq_url (metadata_request (B "http://" ++ host) (B "token"))) with ((B "http://" ++ host) ++ metadata_path (B "token")).
    rewrite <- app_assoc, E. change (strip_prefix (B "https:") (B "http://" ++ host ++ metadata_path (B "token"))) with (@None str). cbv iota.
    rewrite (strip_prefix_app (B "http:") (B "//" ++ host ++ metadata_path (B "token")) : strip_prefix (B "http:") (B "http://" ++ host ++ metadata_path (B "token")) = _).
    unfold target_with. destruct (split_authority _). reflexivity. }
  split.
  - eexists. split.
    + apply (G [] (B "computeMetadata", B "/v1/instance/service-accounts/default/token")
        {| u_path := B "/v1/instance/service-accounts/default/token"; u_query := None; u_fragment := None |});
        [vm_compute; reflexivity|apply parse_caret; vm_compute; reflexivity|vm_compute; reflexivity].
    + repeat split.
  - eexists. split.
    + apply (G (B "host#") (B "host", B "#/computeMetadata/v1/instance/service-accounts/default/token")
        {| u_path := B "/"; u_query := None; u_fragment := Some (B "/computeMetadata/v1/instance/service-accounts/default/token") |});
        [vm_compute; reflexivity|apply parse_caret; vm_compute; reflexivity|vm_compute; reflexivity].
    + repeat split.
Qed.

(** * Concrete cases *)

(** A whole form built with a bound-token key for the default host: three requests, one of them with a token. *)
Example C72_case : exists tr q r, steps (run_call demo_deps demo_bound_form) tr q /\ In r (asked tr) /\ carries_token r.
Proof.
  exists (fst (play (run_call demo_deps demo_bound_form) demo_run)), (snd (play (run_call demo_deps demo_bound_form) demo_run)).
  assert (E : existsb (fun r => existsb (fun kv => str_eqb (fst kv) (B "authorization")) (rq_headers r)) (asked (fst (play (run_call demo_deps demo_bound_form) demo_run))) = true)
    by (vm_compute; reflexivity).
  apply existsb_exists in E. destruct E as (r & I & E). apply existsb_exists in E. destruct E as ([k v] & J & E). apply str_eqb_eq in E. cbn [fst] in E. subst k.
  exists r. split; [apply play_steps|]. split; [exact I|]. exists v. exact J.
Qed.

(** An account with a line break and an umlaut. *)
Example C72_account_case : unstructured (B "s%40a@example.com" ++ [xc3; xa4; x0a]%byte) /\
  one_line (B "s%40a@example.com" ++ [xc3; xa4; x0a]%byte) (B "s%40a@example.com" ++ [xc3; xa4]%byte) /\ account_name (B "sa@example.com").
Proof.
  split; [|split].
  - repeat split; cbn [In app B]; intros I; vm_compute in I; repeat destruct I as [I|I]; try discriminate I; exact I.
  - apply one_line_iff. vm_compute. reflexivity.
  - apply Forall_forall. intros c I.
    assert (X : forallb (fun c => existsb (beq c) (B "ABCDEFGHIJKLMNOPQRSTUVWXYZabcdefghijklmnopqrstuvwxyz0123456789@.-_+")) (B "sa@example.com") = true) by reflexivity.
    rewrite forallb_forall in X. apply X in I. apply existsb_exists in I. destruct I as (x & J & E). destruct (beq_spec c x); [subst; exact J|discriminate E].
Qed.

Example C73_case : exists tr q r, steps (run_call demo_deps demo_bound_form) tr q /\ call_key demo_bound_form = Some (key_bound_token None 7) /\
  asked_host None (B "metadata.google.internal") /\ host_text (B "metadata.google.internal") /\ host_text (B "[fd20:ce::254]:80") /\ In r (asked tr).
Proof.
  assert (H : forall s, s <> [] -> forallb (fun c => existsb (beq c) (B "ABCDEFGHIJKLMNOPQRSTUVWXYZabcdefghijklmnopqrstuvwxyz0123456789.-_:[]")) s = true -> host_text s).
  { intros s N X. split; [exact N|]. apply Forall_forall. intros c I. rewrite forallb_forall in X. apply X in I. apply existsb_exists in I.
    destruct I as (x & J & E). destruct (beq_spec c x); [subst; exact J|discriminate E]. }
  destruct C72_case as (tr & q & r & S & I & _). exists tr, q, r. split; [exact S|]. split; [reflexivity|]. split; [constructor|].
  split; [apply H; [discriminate|reflexivity]|]. split; [apply H; [discriminate|reflexivity]|exact I].
Qed.
