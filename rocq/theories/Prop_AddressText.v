(** C73: how the address of a request is read, for every text. *)
From Verif Require Import Base BaseFacts FormUrl FormUrlFacts Effects EffectsFacts Keys Url UrlFacts SpecUrl UrlSpecFacts SignedUrl HtmlForm Calls Target SpecTarget
  SpecTrace SpecRequests SpecUtf8 SpecConstructors Prop_Requests Prop_Constructors Demo Prop_UrlPath SpecPath Prop_Path
  SpecRequestUrl Prop_RequestUrl Prop_Target SpecAddressText.
Local Open Scope byte_scope.

Lemma slash_iff c : slash c <-> (beq c "/" || beq c "\")%bool = true.
Proof. unfold slash. rewrite orb_true_iff, !beq_eq. reflexivity. Qed.

Lemma delimiter_iff c : delimiter c <-> (beq c "/" || beq c "\" || beq c "?" || beq c "#")%bool = true.
Proof. unfold delimiter, slash. rewrite !orb_true_iff, !beq_eq. tauto. Qed.

Lemma begins_cons P c r : begins P (c :: r) <-> P c.
Proof. split; [intros (x & y & E & H); injection E as -> ->; exact H|intros H; exists c, r; auto]. Qed.
Lemma begins_nil P : ~ begins P [].
Proof. intros (x & y & E & _). discriminate E. Qed.

Lemma slashes_iff s r : drop_while (fun b => beq b "/" || beq b "\")%bool s = r <-> exists sl, s = sl ++ r /\ Forall slash sl /\ ~ begins slash r.
Proof.
  split.
  - revert r. induction s as [|c s IH]; intros r; cbn [drop_while].
    + intros <-. exists []. split; [reflexivity|]. split; [constructor|apply begins_nil].
    + destruct (beq c "/" || beq c "\")%bool eqn:E.
      * intros H. destruct (IH _ H) as (sl & -> & F & N). exists (c :: sl). split; [reflexivity|]. split; [constructor; [apply slash_iff, E|exact F]|exact N].
      * intros <-. exists []. split; [reflexivity|]. split; [constructor|]. rewrite begins_cons, slash_iff. congruence.
  - intros (sl & -> & F & N). induction F as [|c sl C F IH]; cbn [app drop_while].
    + destruct r as [|c r]; [reflexivity|]. cbn [drop_while]. rewrite begins_cons, slash_iff in N. destruct (beq c "/" || beq c "\")%bool; [congruence|reflexivity].
    + apply slash_iff in C. rewrite C. exact IH.
Qed.

Lemma split_authority_iff s a r : split_authority s = (a, r) <-> s = a ++ r /\ Forall (fun c => ~ delimiter c) a /\ (r = [] \/ begins delimiter r).
Proof.
  split.
  - revert a r. induction s as [|c s IH]; intros a r; cbn [split_authority].
    + intros H. injection H as <- <-. auto.
    + destruct (beq c "/" || beq c "\" || beq c "?" || beq c "#")%bool eqn:E.
      * intros H. injection H as <- <-. split; [reflexivity|]. split; [constructor|]. right. apply begins_cons, delimiter_iff, E.
      * destruct (split_authority s) as [a' r'] eqn:S. intros H. injection H as <- <-. destruct (IH _ _ eq_refl) as (-> & F & N).
        split; [reflexivity|]. split; [constructor; [rewrite delimiter_iff; congruence|exact F]|exact N].
  - intros (-> & F & N). induction F as [|c a C F IH]; cbn [app].
    + destruct N as [->|(c & t & -> & D)]; [reflexivity|]. cbn [split_authority]. apply delimiter_iff in D. rewrite D. reflexivity.
    + cbn [split_authority]. rewrite delimiter_iff in C. destruct (beq c "/" || beq c "\" || beq c "?" || beq c "#")%bool; [congruence|]. rewrite IH. reflexivity.
Qed.

Lemma after_slash_iff rest tail : after_slash rest = tail <-> begins slash rest /\ rest = firstn 1 rest ++ tail \/ ~ begins slash rest /\ tail = rest.
Proof.
  destruct rest as [|c r]; cbn [after_slash firstn].
  - pose proof (begins_nil slash). split; [intros <-; auto|]. intros [[B _]|[_ ->]]; [contradiction|reflexivity].
  - rewrite begins_cons, slash_iff. cbn [app]. destruct (beq c "/" || beq c "\")%bool.
    + split; [intros <-; auto|]. intros [[_ E]|[N _]]; [injection E as ->; reflexivity|congruence].
    + split; [intros <-; right; split; [discriminate|reflexivity]|]. intros [[N _]|[_ ->]]; [discriminate N|reflexivity].
Qed.

(** What is left of a text without trailing blanks and line breaks has none. *)
Definition neat (s : str) : Prop := drop_tabs (trim_end s) = s.

Lemma neat_suffix a b : tidy (a ++ b) -> neat b.
Proof.
  intros (T1 & T2 & T3 & T4). assert (T : tidy b).
  { repeat split; try (intros I; match goal with H : ~ In ?c (a ++ b) |- _ => apply H; apply in_or_app; right; exact I end). intros p c ->. apply (T4 (a ++ p) c). rewrite app_assoc. reflexivity. }
  unfold neat. rewrite trim_end_tidy by exact T. apply drop_tabs_tidy. exact T.
Qed.

Lemma line_tidy s : tidy (drop_tabs (trim_end s)).
Proof.
  assert (N : forall c, (beq c x09 || beq c x0a || beq c x0d)%bool = true -> ~ In c (drop_tabs (trim_end s))).
  { intros c E I. unfold drop_tabs in I. apply filter_In in I. destruct I as [_ I]. rewrite E in I. discriminate I. }
  split; [apply N; reflexivity|]. split; [apply N; reflexivity|]. split; [apply N; reflexivity|]. clear N.
  destruct (trim_end_spec s) as (w & _ & _ & L). intros p c E. destruct (trim_end s) as [|x u _] using rev_ind; [destruct p; discriminate E|].
  specialize (L _ _ eq_refl). rewrite drop_tabs_app in E. assert (K : drop_tabs [x] = [x]).
  { unfold drop_tabs. cbn [filter]. destruct (beq_spec x x09) as [->|]; [exfalso; revert L; vm_compute; discriminate|].
    destruct (beq_spec x x0a) as [->|]; [exfalso; revert L; vm_compute; discriminate|]. destruct (beq_spec x x0d) as [->|]; [exfalso; revert L; vm_compute; discriminate|]. reflexivity. }
  rewrite K in E. apply app_inj_tail in E. destruct E as [_ <-]. exact L.
Qed.

Lemma part_iff (special : byte -> Prop) set : (forall c, special c <-> set c = true) -> forall s t, part special s t <-> t = option_map (pct_encode set) s.
Proof.
  intros S s t. destruct s as [s|], t as [t|]; cbn [part option_map].
  - rewrite (written_iff _ _ S). split; [intros ->; reflexivity|intros E; injection E as ->; reflexivity].
  - split; [contradiction|discriminate].
  - split; [contradiction|discriminate].
  - tauto.
Qed.

Lemma tail_parse d tail : neat tail -> forall path query fragment,
  (exists p q f, cut tail p q f /\ request_path (d_path_caret d) p path /\ part in_query q query /\ part in_fragment f fragment) <->
  url_parse d tail = {| u_path := path; u_query := query; u_fragment := fragment |}.
Proof.
  intros N path query fragment. pose proof (parse_marks d tail) as M. rewrite N in M. destruct (marks tail) as [[p q] f] eqn:E. rewrite M. split.
  - intros (p' & q' & f' & C & P & Q & F). apply cut_iff in C. rewrite E in C. injection C as <- <- <-. apply request_path_iff in P.
    apply (part_iff _ _ in_query_iff) in Q. apply (part_iff _ _ in_fragment_iff) in F. congruence.
  - intros H. injection H as <- <- <-. exists p, q, f. split; [apply cut_iff, E|]. split; [apply request_path_iff; reflexivity|].
    split; [apply (part_iff _ _ in_query_iff); reflexivity|apply (part_iff _ _ in_fragment_iff); reflexivity].
Qed.

Lemma target_scheme d s t : target_of d s = Some t <-> exists scheme r, In scheme [B "http"; B "https"] /\ drop_tabs (trim_end s) = scheme ++ ":" :: r /\ t = target_with d scheme r.
Proof.
  unfold target_of. set (l := drop_tabs (trim_end s)). split.
  - destruct (strip_prefix (B "https:") l) as [r|] eqn:E1.
    + intros H. injection H as <-. exists (B "https"), r. split; [right; left; reflexivity|]. split; [apply strip_prefix_some in E1; exact E1|reflexivity].
    + destruct (strip_prefix (B "http:") l) as [r|] eqn:E2; [|discriminate]. intros H. injection H as <-. exists (B "http"), r. split; [left; reflexivity|].
      split; [apply strip_prefix_some in E2; exact E2|reflexivity].
  - intros (sc & r & I & E & ->). rewrite E. cbn [In] in I. destruct I as [<-|[<-|[]]]; reflexivity.
Qed.

Theorem C73_address d text t : target_of d text = Some t <->
  address (d_path_caret d) text (tg_scheme t) (tg_authority t) (u_path (tg_url t)) (u_query (tg_url t)) (u_fragment (tg_url t)).
Proof.
  rewrite target_scheme. pose proof (line_tidy text) as T. split.
  - intros (sc & r & I & E & ->). unfold target_with. set (dr := drop_while _ r). pose proof (proj1 (slashes_iff r dr) eq_refl) as (sl & R & Fs & Ns).
    destruct (split_authority dr) as [a rest] eqn:A. apply split_authority_iff in A. destruct A as (D & Fa & Nr). cbn [tg_scheme tg_authority tg_url].
    assert (Ne : neat (after_slash rest)).
    { assert (X : exists y, rest = y ++ after_slash rest) by (destruct rest as [|c rest']; [exists []; reflexivity|]; cbn [after_slash]; destruct (_ || _)%bool; [exists [c]|exists []]; reflexivity).
      destruct X as [y Y]. apply (neat_suffix (sc ++ ":" :: sl ++ a ++ y)). rewrite E, R, D, Y in T. rewrite <- !app_assoc. cbn [app]. rewrite <- !app_assoc. exact T. }
    pose proof (tail_parse d _ Ne (u_path (url_parse d (after_slash rest))) (u_query (url_parse d (after_slash rest))) (u_fragment (url_parse d (after_slash rest)))) as P.
    destruct (proj2 P) as (p & q & f & C & Pp & Q & F); [destruct (url_parse d (after_slash rest)); reflexivity|].
    exists (trim_end text), (drop_tabs (trim_end text)), sl, rest, (after_slash rest), p, q, f. split; [apply trim_end_spec|]. split; [apply drop_tabs_spec|].
    split; [exact I|]. split; [rewrite E, R, D; reflexivity|]. split; [exact Fs|]. split; [rewrite <- D; exact Ns|]. split; [exact Fa|]. split; [exact Nr|].
    split; [apply after_slash_iff; reflexivity|]. auto.
  - intros (u & line & sl & rest & tail & p & q & f & W1 & W2 & I & E & Fs & Ns & Fa & Nr & Ta & C & P & Q & F).
    pose proof (without_end_unique _ _ _ W1 (trim_end_spec text)) as ->. pose proof (without_breaks_unique _ _ W2 _ (drop_tabs_spec _)) as ->.
    exists (tg_scheme t), (sl ++ tg_authority t ++ rest). split; [exact I|]. split; [exact E|]. unfold target_with.
    rewrite (proj2 (slashes_iff (sl ++ tg_authority t ++ rest) (tg_authority t ++ rest))) by eauto.
    rewrite (proj2 (split_authority_iff (tg_authority t ++ rest) (tg_authority t) rest)) by auto.
    assert (Ne : neat tail).
    { assert (X : exists y, rest = y ++ tail) by (destruct Ta as [[_ ->]|[_ ->]]; [eexists; reflexivity|exists []; reflexivity]).
      destruct X as [y Y]. apply (neat_suffix (tg_scheme t ++ ":" :: sl ++ tg_authority t ++ y)). rewrite E, Y in T. rewrite <- !app_assoc. cbn [app]. rewrite <- !app_assoc. exact T. }
    apply after_slash_iff in Ta. rewrite Ta. assert (U : url_parse d tail = tg_url t).
    { rewrite (proj1 (tail_parse d tail Ne _ _ _) (ex_intro _ p (ex_intro _ q (ex_intro _ f (conj C (conj P (conj Q F))))))). destruct (tg_url t). reflexivity. }
    rewrite U. destruct t. reflexivity.
Qed.

(** A variable that holds more than a host: the authority ends early, the query swallows the path. *)
Example C73_address_case : exists t, target_of demo_deps (B "http://meta:80?x/computeMetadata/v1") = Some t /\
  address (d_path_caret demo_deps) (B "http://meta:80?x/computeMetadata/v1") (B "http") (B "meta:80") (B "/") (Some (B "x/computeMetadata/v1")) None.
Proof.
  destruct (target_of demo_deps (B "http://meta:80?x/computeMetadata/v1")) as [t|] eqn:E; [|discriminate E].
  exists t. split; [reflexivity|]. pose proof (proj1 (C73_address _ _ _) E) as A. revert A. vm_compute in E. injection E as <-. exact (fun A => A).
Qed.

Lemma every_host d host line attribute : one_line host line -> In attribute [B "email"; B "token"] ->
  exists t, target_of d (rq_url (metadata_request (B "http://" ++ host) attribute)) = Some t /\ tg_scheme t = B "http" /\
    (Forall slash line -> tg_authority t = B "computeMetadata") /\
    (forall slashes name rest, line = slashes ++ name ++ rest -> Forall slash slashes -> name ++ rest <> [] -> ~ begins slash (name ++ rest) ->
       Forall (fun c => ~ delimiter c) name -> rest = [] \/ begins delimiter rest -> tg_authority t = name).
Proof.
  intros O I. apply one_line_iff in O. set (tail := B "/computeMetadata/v1/instance/service-accounts/default/" ++ attribute).
  assert (L : drop_tabs (trim_end (rq_url (metadata_request (B "http://" ++ host) attribute))) = B "http:" ++ B "//" ++ line ++ tail).
  { subst line. unfold tail, metadata_request, rq_url. cbn [In] in I. destruct I as [<-|[<-|[]]].
    - replace (B "email") with (B "emai" ++ ["l"]) by reflexivity. rewrite !app_assoc, trim_end_last, <- !app_assoc by reflexivity. rewrite !drop_tabs_app. reflexivity.
    - replace (B "token") with (B "toke" ++ ["n"]) by reflexivity. rewrite !app_assoc, trim_end_last, <- !app_assoc by reflexivity. rewrite !drop_tabs_app. reflexivity. }
  exists (target_with d (B "http") (B "//" ++ line ++ tail)). split.
  { apply target_scheme. exists (B "http"), (B "//" ++ line ++ tail). split; [left; reflexivity|]. split; [exact L|reflexivity]. }
  assert (F2 : Forall slash (B "//")) by (repeat constructor).
  assert (G : forall sl name rest, B "//" ++ line ++ tail = sl ++ name ++ rest -> Forall slash sl -> ~ begins slash (name ++ rest) ->
    Forall (fun c => ~ delimiter c) name -> rest = [] \/ begins delimiter rest -> tg_authority (target_with d (B "http") (B "//" ++ line ++ tail)) = name).
  { intros sl name rest E Fs Ns Fn R. unfold target_with. rewrite (proj2 (slashes_iff _ (name ++ rest))) by (exists sl; auto).
    rewrite (proj2 (split_authority_iff (name ++ rest) name rest)) by auto. reflexivity. }
  split; [unfold target_with; destruct (split_authority _); reflexivity|]. split.
  - intros Fl. apply (G (B "//" ++ line ++ B "/") _ (B "/v1/instance/service-accounts/default/" ++ attribute)).
    + unfold tail. rewrite <- !app_assoc. reflexivity.
    + apply Forall_app. split; [exact F2|]. apply Forall_app. split; [exact Fl|repeat constructor].
    + intros (c & r & E & [C|C]); injection E as <- _; discriminate C.
    + apply Forall_forall. intros c Ic X. apply delimiter_iff in X. revert X. apply not_true_iff_false.
      assert (A : forallb (fun c => negb (beq c "/" || beq c "\" || beq c "?" || beq c "#")) (B "computeMetadata") = true) by reflexivity.
      rewrite forallb_forall in A. apply A in Ic. apply negb_true_iff in Ic. exact Ic.
    + right. exists "/", (B "v1/instance/service-accounts/default/" ++ attribute). split; [reflexivity|left; left; reflexivity].
  - intros sl name rest E Fs Ne Ns Fn R. apply (G (B "//" ++ sl) name (rest ++ tail)).
    + rewrite E, <- !app_assoc. reflexivity.
    + apply Forall_app. auto.
    + rewrite app_assoc. destruct (name ++ rest) as [|c r]; [congruence|]. cbn [app]. rewrite begins_cons in *. exact Ns.
    + exact Fn.
    + right. destruct R as [->|(c & r & -> & C)]; [|exists c, (r ++ tail); auto]. exists "/", (tl tail). split; [reflexivity|left; left; reflexivity].
Qed.

(** The variable always names a host in this sense, and only one. *)
Lemma named_host_exists line : exists a, named_host line a.
Proof.
  destruct (proj1 (slashes_iff line _) eq_refl) as (sl & E & F & N). set (x := drop_while _ line) in *. clearbody x.
  destruct x as [|c x]; [rewrite app_nil_r in E; subst; eexists; apply nh_slashes; exact F|].
  destruct (split_authority (c :: x)) as [a r] eqn:S. apply split_authority_iff in S. destruct S as (S & Fa & R). rewrite S in *. subst line.
  exists a. apply nh_name; try assumption. rewrite <- S. discriminate.
Qed.

(** Whatever the variable holds, the request goes over HTTP to the host that it names. *)
Theorem C73_every_host d host line a attribute : one_line host line -> In attribute [B "email"; B "token"] ->
  exists t, target_of d (rq_url (metadata_request (B "http://" ++ host) attribute)) = Some t /\ tg_scheme t = B "http" /\
    (named_host line a <-> tg_authority t = a).
Proof.
  intros O I. destruct (every_host d host line attribute O I) as (t & E & S & A1 & A2). exists t. split; [exact E|]. split; [exact S|].
  assert (G : forall b, named_host line b -> tg_authority t = b) by (intros b H; inversion H; subst; eauto).
  split; [apply G|]. intros <-. destruct (named_host_exists line) as [b H]. rewrite (G b H). exact H.
Qed.

(** So in every execution each request goes there over HTTP without a token, or to the signing service. *)
Theorem C73_every_request d c tr q env id host line r :
  steps (run_call d c) tr q -> call_key c = Some (key_bound_token env id) -> asked_host env host -> one_line host line -> In r (asked tr) ->
  exists t, target_of d (rq_url r) = Some t /\
    (tg_scheme t = B "http" /\ named_host line (tg_authority t) /\ ~ carries_token r \/ goes_to t (B "https") (B "iamcredentials.googleapis.com")).
Proof.
  intros H K A O I. destruct (C61_requests _ _ _ _ _ _ _ _ H K A I) as [(attribute & Ha & ->)|[email U]].
  - destruct (every_host d host line attribute O Ha) as (t & E & _). destruct (C73_every_host d host line (tg_authority t) attribute O Ha) as (t' & E' & S & N).
    rewrite E in E'. injection E' as <-. exists t. split; [exact E|]. left. split; [exact S|]. split; [apply N; reflexivity|].
    intros [v V]. cbn in V. destruct V as [V|[]]. discriminate V.
  - rewrite U, blob_target. eexists. split; [reflexivity|]. right. split; reflexivity.
Qed.

(** Slashes, a user name, a port and a path, with a line break; nothing but slashes; and an execution with requests. *)
Example C73_every_host_case : one_line (B "//me@meta:80/x" ++ [x0a]%byte) (B "//me@meta:80/x") /\ named_host (B "//me@meta:80/x") (B "me@meta:80") /\
  one_line (B "/\") (B "/\") /\ named_host (B "/\") (B "computeMetadata").
Proof.
  split; [apply one_line_iff; reflexivity|]. split; [|split; [apply one_line_iff; reflexivity|]].
  - apply (nh_name (B "//") (B "me@meta:80") (B "/x")).
    + repeat constructor.
    + discriminate.
    + intros (c & r & E & [C|C]); injection E as <- _; discriminate C.
    + apply Forall_forall. intros c Ic X. apply delimiter_iff in X. revert X. apply not_true_iff_false.
      assert (A : forallb (fun c => negb (beq c "/" || beq c "\" || beq c "?" || beq c "#")) (B "me@meta:80") = true) by reflexivity.
      rewrite forallb_forall in A. apply A in Ic. apply negb_true_iff in Ic. exact Ic.
    + right. exists "/", (B "x"). split; [reflexivity|left; left; reflexivity].
  - apply nh_slashes. constructor; [left; reflexivity|]. constructor; [right; reflexivity|constructor].
Qed.
Example C73_every_request_case : exists tr q r line, steps (run_call demo_deps demo_bound_form) tr q /\ call_key demo_bound_form = Some (key_bound_token None 7) /\
  asked_host None (B "metadata.google.internal") /\ one_line (B "metadata.google.internal") line /\ In r (asked tr).
Proof.
  destruct C73_case as (tr & q & r & H & K & A & _ & _ & I). exists tr, q, r, (B "metadata.google.internal"). split; [exact H|]. split; [exact K|]. split; [exact A|].
  split; [apply one_line_iff; reflexivity|exact I].
Qed.
