(** C101: user names and passwords for every content of GCE_METADATA_HOST. *)
From Verif Require Import Base BaseFacts Base64 FormUrl FormUrlFacts Effects EffectsFacts Keys Url SpecUrl SignedUrl HtmlForm Calls Target SpecTarget
  Login SpecLogin SpecTrace SpecRequests SpecUtf8 SpecConstructors Prop_Requests Prop_Constructors Prop_Target Prop_Login SpecAddressText Prop_AddressText Demo.
Local Open Scope byte_scope.

(** Also for a variable with slashes, question marks and number signs: the requests go to what follows the last at sign in the name of the
    host, and carry credentials exactly if user or password are written before it. *)
Theorem C101_every_host d host line name attribute l server : one_line host line -> named_host line name -> In attribute [B "email"; B "token"] ->
  login name l server ->
  exists t, target_of d (rq_url (metadata_request (B "http://" ++ host) attribute)) = Some t /\ tg_scheme t = B "http" /\ server_of t = server /\
    ((exists user password v, l = Some (user, password) /\ credentials user password v /\
        sent_headers d (metadata_request (B "http://" ++ host) attribute) = [(B "authorization", v); (B "Metadata-Flavor", B "Google")]) \/
     (forall user password v, l = Some (user, password) -> ~ credentials user password v) /\
        sent_headers d (metadata_request (B "http://" ++ host) attribute) = [(B "Metadata-Flavor", B "Google")]).
Proof.
  intros O Na A L. destruct (C73_every_host d host line name attribute O A) as (t & T & Sc & N). apply N in Na. exists t. split; [exact T|]. split; [exact Sc|].
  destruct (login_parts d _ _ _ L) as [S X]. rewrite <- Na in S, X. split; [exact S|].
  unfold sent_headers. rewrite T.
  destruct (split_last_at (tg_authority t)) as [[w h]|]; [|right; subst l; split; [discriminate|reflexivity]].
  destruct (parse_userinfo d w) as [user' password']. destruct X as ([user password] & -> & E1 & E2). cbn [fst snd] in E1, E2.
  destruct (extract_login user' password') as [[n p]|] eqn:E.
  - left. exists user, password, (basic_auth n p). split; [reflexivity|]. split; [|reflexivity].
    apply (login_header user password user' password' (basic_auth n p) E1 E2). rewrite E. reflexivity.
  - right. split; [|reflexivity]. intros us pw v F C. injection F as <- <-. revert v C. apply (login_header user password user' password' [] E1 E2). rewrite E. reflexivity.
Qed.

(** So in every execution, whatever the variable holds: a request to the signing service is sent with its own headers only, the others carry no
    token and get exactly the credentials that the variable has. *)
Theorem C101_every_request d c tr q env id host line name l server r :
  steps (run_call d c) tr q -> call_key c = Some (key_bound_token env id) -> asked_host env host -> one_line host line -> named_host line name -> login name l server ->
  In r (asked tr) ->
  sent_headers d r = rq_headers r /\ ((exists t, target_of d (rq_url r) = Some t /\ goes_to t (B "https") (B "iamcredentials.googleapis.com")) \/ forall user password v, l = Some (user, password) -> ~ credentials user password v) \/
  exists user password v, l = Some (user, password) /\ credentials user password v /\ sent_headers d r = (B "authorization", v) :: rq_headers r /\ ~ carries_token r.
Proof.
  intros H K A O Na L I. destruct (C61_requests _ _ _ _ _ _ _ _ H K A I) as [(attribute & Ha & E)|[email E]].
  - assert (E' : r = metadata_request (B "http://" ++ host) attribute) by (rewrite E; unfold metadata_request; f_equal; rewrite <- app_assoc; reflexivity).
    destruct (C101_every_host d host line name attribute l server O Na Ha L) as (t & _ & _ & _ & [(user & password & v & X & Cr & S)|[Nc S]]); rewrite <- E' in S.
    + right. exists user, password, v. split; [exact X|]. split; [exact Cr|]. split; [rewrite S, E; reflexivity|]. rewrite E. intros [w [Y|[]]]. discriminate Y.
    + left. split; [rewrite S, E; reflexivity|right; exact Nc].
  - left. split; [unfold sent_headers; rewrite E, blob_target; reflexivity|]. left. rewrite E, blob_target. eexists. split; [reflexivity|]. split; reflexivity.
Qed.

(** A variable with a path: the user is sent to the host before the path. *)
Example C101_every_host_case : let host := B "/me:x@meta:80/p@q" in one_line host host /\ named_host host (B "me:x@meta:80") /\
  login (B "me:x@meta:80") (Some (B "me", Some (B "x"))) (B "meta:80") /\ credentials (B "me") (Some (B "x")) (B "Basic bWU6eA==") /\
  sent_headers demo_deps (metadata_request (B "http://" ++ host) (B "token")) = [(B "authorization", B "Basic bWU6eA=="); (B "Metadata-Flavor", B "Google")].
Proof.
  cbn zeta. assert (O : one_line (B "/me:x@meta:80/p@q") (B "/me:x@meta:80/p@q")) by (apply one_line_iff; reflexivity).
  assert (L : login (B "me:x@meta:80") (Some (B "me", Some (B "x"))) (B "meta:80")).
  { apply (lg_both (B "me") (B "x") (B "meta:80")); try discriminate; intros I; cbn in I; repeat destruct I as [I|I]; try discriminate I; exact I. }
  assert (S : sent_headers demo_deps (metadata_request (B "http://" ++ B "/me:x@meta:80/p@q") (B "token")) = [(B "authorization", B "Basic bWU6eA=="); (B "Metadata-Flavor", B "Google")])
    by (vm_compute; reflexivity).
  assert (N : named_host (B "/me:x@meta:80/p@q") (B "me:x@meta:80")).
  { destruct (C73_every_host demo_deps _ _ (B "me:x@meta:80") (B "token") O (or_intror (or_introl eq_refl))) as (t & E & _ & N). apply N. vm_compute in E. injection E as <-. reflexivity. }
  split; [exact O|]. split; [exact N|]. split; [exact L|]. split; [|exact S].
  destruct (C101_every_host demo_deps _ _ _ (B "token") _ _ O N (or_intror (or_introl eq_refl)) L) as (t & _ & _ & _ & [(u & p & v & E & C & H)|[_ H]]); rewrite S in H; [|discriminate H].
  injection E as <- <-. injection H as <-. exact C.
Qed.
Example C101_every_request_case : exists tr q r, let host := B "metadata.google.internal" in
  steps (run_call demo_deps demo_bound_form) tr q /\ call_key demo_bound_form = Some (key_bound_token None 7) /\
  asked_host None host /\ one_line host host /\ named_host host host /\ login host None host /\ In r (asked tr).
Proof.
  destruct C73_case as (tr & q & r & H & K & A & _ & _ & I). exists tr, q, r. cbn zeta.
  assert (O : one_line (B "metadata.google.internal") (B "metadata.google.internal")) by (apply one_line_iff; reflexivity).
  split; [exact H|]. split; [exact K|]. split; [exact A|]. split; [exact O|]. split; [|split; [|exact I]].
  - destruct (C73_every_host demo_deps _ _ (B "metadata.google.internal") (B "token") O (or_intror (or_introl eq_refl))) as (t & E & _ & N). apply N. vm_compute in E. injection E as <-. reflexivity.
  - apply lg_none. intros J. cbn in J. repeat destruct J as [J|J]; try discriminate J. exact J.
Qed.
