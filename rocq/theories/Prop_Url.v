(** Properties of [build_signed_url]: shape, signed message, lifetime, method, precedence, panics
    (C11, C12, C13, C23, C27, C28). *)
From Coq Require Import Sorted Permutation.
From Verif Require Import Base BaseFacts Utf8 FormUrl FormUrlFacts Sha256 SpecCodec CodecFacts Time TimeFacts SpecCalendar SpecPolicy SpecForm FormFacts
  Effects EffectsFacts Keys Scope Url SignedUrl UrlFacts SpecUrl UrlSpecFacts SpecToken SpecTrace SpecSign SignFacts SignedUrlFacts HeaderFacts
  HtmlForm Calls Demo UrlResult.
Local Open Scope byte_scope.
Local Open Scope Z_scope.

(** * C12: the shape of the URL *)

(** Every successful result consists of the fixed origin, a path, a query and the signature, in exactly one way. *)
Theorem C12_shape d o tr url : returns (build_signed_url d o) tr (Ok url) ->
  exists path query sig, url_parts url path query sig /\
    (forall path' query' sig', url_parts url path' query' sig' -> path' = path /\ query' = query /\ sig' = sig).
Proof.
  intros H. destruct (url_ok_inv _ _ _ _ H) as (t & pre & t1 & t2 & email & verb & block & sig & _ & _ & S).
  exists (path_of d o), (sorted_query (pairs_of d o (t / NS) (lifetime o t) (lowered o) email)), (hex_encode sig). split.
  - rewrite (sc_url _ _ _ _ _ _ _ _ _ _ S). apply url_parts_of.
  - intros p q s P. exact (success_parts _ _ _ _ _ _ _ _ _ _ _ _ _ S P).
Qed.

(** The prefix alone: scheme and host do not depend on anything. *)
Theorem C12_origin d o tr url : returns (build_signed_url d o) tr (Ok url) ->
  exists rest, url = B "https://storage.googleapis.com/" ++ rest.
Proof.
  intros H. destruct (C12_shape _ _ _ _ H) as (p & q & s & (E & (r & ->) & _) & _). eexists. rewrite E.
  change (B "https://storage.googleapis.com/") with (B "https://storage.googleapis.com" ++ B "/"). rewrite <- app_assoc. reflexivity.
Qed.

Example C12_case : exists url path query sig, returns (build_signed_url demo_deps demo_url) [] (Ok url) /\ url_parts url path query sig /\
  path = B "/bucket1/a/%C3%A9%20c+d".
Proof.
  destruct demo_url_ok as [sig H]. do 4 eexists. split; [exact H|]. split; [apply url_parts_of|]. vm_compute. reflexivity.
Qed.

(** * C13: what is signed is what is sent *)

Theorem C13_signed_message d o tr url path query sig : deps_ok d ->
  returns (build_signed_url d o) tr (Ok url) -> url_parts url path query sig ->
  exists t pre t1 t2 email canonical message s,
    url_time o t pre /\ tr = pre ++ t1 ++ t2 /\ authorized (o_signing_key o) t1 email /\
    canonical_text (o_http_method o) path query (o_headers o) canonical /\
    message_text (t / 1000000000) (region_of o) canonical message /\
    signed d (o_signing_key o) (o_use_sign_blob o) message t2 s /\ hex_of s sig.
Proof.
  intros D H P. destruct (url_ok_inv _ _ _ _ H) as (t & pre & t1 & t2 & email & verb & block & s & T & -> & S).
  destruct (success_parts _ _ _ _ _ _ _ _ _ _ _ _ _ S P) as (-> & -> & ->). destruct S as [V Ev A _ Eb Hs _].
  exists t, pre, t1, t2, email. do 2 eexists. exists s. split; [exact T|]. split; [reflexivity|]. split; [apply (authorizer_ok d); exact A|].
  split; [rewrite <- Ev; apply canonical_spec; eassumption|]. split; [apply message_spec; [apply V|eapply sign_ok_rsa; exact Hs]|].
  split; [apply sign_ok; exact Hs|apply hex_encode_spec].
Qed.

Example C13_case : exists url path query sig, deps_ok demo_deps /\ returns (build_signed_url demo_deps demo_url) [] (Ok url) /\ url_parts url path query sig.
Proof. destruct demo_url_ok as [sig H]. do 4 eexists. split; [exact demo_deps_ok|]. split; [exact H|apply url_parts_of]. Qed.

(** * C11: the lifetime *)

Theorem C11_expires d o tr url path query sig :
  returns (build_signed_url d o) tr (Ok url) -> url_parts url path query sig ->
  exists t pre rest secs digits, url_time o t pre /\ tr = pre ++ rest /\ 0 <= o_expires o - t /\
    secs = (o_expires o - t) / 1000000000 /\ secs <= 604800 /\
    decimal_of (Z.to_N secs) digits /\ query_piece query (B "X-Goog-Expires=" ++ digits) /\
    (t / 1000000000 + secs) * 1000000000 <= o_expires o.
Proof.
  intros H P. destruct (url_ok_inv _ _ _ _ H) as (t & pre & t1 & t2 & email & verb & block & s & T & -> & S).
  destruct (success_parts _ _ _ _ _ _ _ _ _ _ _ _ _ S P) as (-> & -> & ->). destruct S as [(_ & Ho & _ & _ & _ & _ & Hl) _ _ _ _ _ _].
  exists t, pre, (t1 ++ t2), (lifetime o t), (dec (Z.to_N (lifetime o t))). unfold ordered in Ho. unfold lifetime in *.
  assert (0 <= (o_expires o - t) / 1000000000) by (apply Z.div_pos; lia).
  split; [exact T|]. split; [reflexivity|]. split; [lia|]. split; [reflexivity|]. split; [exact Hl|]. split; [apply decimal_dec|]. split.
  - apply (clear_piece _ _ _ _ _ _ (B "X-Goog-Expires")); [|reflexivity|apply clear_dec]. right. right. right. left.
    unfold expiration_to_string. destruct (Z.ltb_spec ((o_expires o - t) / 1000000000) 0); [lia|reflexivity].
  - pose proof (Z.mul_div_le t 1000000000). pose proof (Z.mul_div_le (o_expires o - t) 1000000000). lia.
Qed.

(** Otherwise nothing happens after reading the clock, and the answer is an error (or the header map overflows). *)
Theorem C11_rejected d o t pre rest q : url_time o t pre -> ~ (0 <= o_expires o - t /\ (o_expires o - t) / 1000000000 <= 604800) ->
  steps (build_signed_url d o) (pre ++ rest) q ->
  rest = [] /\ ((exists e, q = Ret (Err e)) \/ d_hm_overflow d (lowered o) = true /\ q = Panic PHeaderMap).
Proof.
  intros T N H. apply (url_at d o t pre rest q T) in H. apply rejected_steps in H.
  - destruct H as [-> [(e & _ & ->)|H]]; eauto.
  - intros (_ & [Ho _] & _ & _ & _ & _ & L). apply N. split; assumption.
Qed.

Example C11_case : exists url path query sig, returns (build_signed_url demo_deps demo_url) [] (Ok url) /\ url_parts url path query sig /\
  query_piece query (B "X-Goog-Expires=600").
Proof.
  destruct demo_url_ok as [sig H]. do 4 eexists. split; [exact H|]. split; [apply url_parts_of|].
  apply (clear_piece _ _ _ _ _ _ (B "X-Goog-Expires") (B "600")); [|reflexivity|reflexivity]. right. right. right. left. reflexivity.
Qed.

Definition with_expires (o : url_options) (e : systime) : url_options := {|
  o_bucket_name := o_bucket_name o; o_object_name := o_object_name o; o_region := o_region o; o_expires := e;
  o_http_method := o_http_method o; o_accessible_at := o_accessible_at o; o_signing_key := o_signing_key o;
  o_use_sign_blob := o_use_sign_blob o; o_headers := o_headers o; o_query_parameters := o_query_parameters o |}.

(** One nanosecond less than 604801 seconds is accepted, 604801 seconds are not. *)
Example C11_boundary :
  (exists url, returns (build_signed_url demo_deps (with_expires demo_url (demo_time + 604801 * NS - 1))) [] (Ok url)) /\
  returns (build_signed_url demo_deps (with_expires demo_url (demo_time + 604801 * NS))) [] (Err (UrlExpiration 604801)).
Proof.
  split.
  - destruct (demo_success (with_expires demo_url (demo_time + 604801 * NS - 1))) as [sig H]; try (vm_compute; reflexivity). eexists. exact H.
  - change (steps (build_signed_url demo_deps (with_expires demo_url (demo_time + 604801 * NS))) [] (Ret (Err (UrlExpiration 604801)))).
    apply (url_at _ _ demo_time [] []); [constructor; reflexivity|].
    replace (build_signed_url_at _ _ _) with (@Ret (res str url_error) (Err (UrlExpiration 604801))) by (vm_compute; reflexivity). constructor.
Qed.

(** * C23: the method *)

Theorem C23_method d o tr url : returns (build_signed_url d o) tr (Ok url) ->
  In (o_http_method o) [B "DELETE"; B "GET"; B "HEAD"; B "POST"; B "PUT"].
Proof.
  intros H. destruct (url_ok_inv _ _ _ _ H) as (t & pre & t1 & t2 & email & verb & block & s & _ & _ & S). apply (sc_valid _ _ _ _ _ _ _ _ _ _ S).
Qed.

(** The canonical request starts with the method and a newline. *)
Theorem C23_signed d o tr url path query sig : deps_ok d ->
  returns (build_signed_url d o) tr (Ok url) -> url_parts url path query sig ->
  exists t1 t2 secs rest message s, tr = t1 ++ t2 /\
    message_text secs (region_of o) (o_http_method o ++ x0a :: rest) message /\
    signed d (o_signing_key o) (o_use_sign_blob o) message t2 s /\ hex_of s sig.
Proof.
  intros D H P. destruct (C13_signed_message _ _ _ _ _ _ _ D H P) as (t & pre & t1 & t2 & email & c & m & s & _ & -> & _ & C & M & G & X).
  destruct C as (ns & nt & b & ep & _ & _ & _ & _ & C). apply glued_iff in C. rewrite join_cons2 in C. subst c.
  exists (pre ++ t1), t2, (t / 1000000000). do 3 eexists. split; [rewrite app_assoc; reflexivity|]. split; [exact M|]. split; [exact G|exact X].
Qed.

Example C23_case : exists url path query sig, returns (build_signed_url demo_deps demo_url) [] (Ok url) /\ url_parts url path query sig /\ o_http_method demo_url = B "GET".
Proof. destruct demo_url_ok as [sig H]. do 4 eexists. split; [exact H|]. split; [apply url_parts_of|reflexivity]. Qed.

Definition with_method (o : url_options) (m : str) : url_options := {|
  o_bucket_name := o_bucket_name o; o_object_name := o_object_name o; o_region := o_region o; o_expires := o_expires o;
  o_http_method := m; o_accessible_at := o_accessible_at o; o_signing_key := o_signing_key o;
  o_use_sign_blob := o_use_sign_blob o; o_headers := o_headers o; o_query_parameters := o_query_parameters o |}.

(** Lower case is rejected. *)
Example C23_lower_case : returns (build_signed_url demo_deps (with_method demo_url (B "get"))) [] (Err (UrlHttpMethod (B "get"))).
Proof.
  apply (url_at _ _ demo_time [] []); [constructor; reflexivity|].
  replace (build_signed_url_at _ _ _) with (@Ret (res str url_error) (Err (UrlHttpMethod (B "get")))) by (vm_compute; reflexivity). constructor.
Qed.

(** * C28: precedence of the validations *)

(** A violated requirement ends the build at once, with the error of the first violated one: whatever the environment
    does, no event follows the reading of the clock. *)
Theorem C28_first_violation d o t pre e rest q : url_time o t pre -> url_violation d o t e ->
  steps (build_signed_url d o) (pre ++ rest) q -> rest = [] /\ q = Ret (Err e).
Proof.
  intros T V H. apply (url_at d o t pre rest q T) in H.
  destruct (build_cases d o t) as [(e' & V' & E)|C].
  - rewrite E in H. apply steps_ret in H. destruct H as [-> ->]. split; [reflexivity|]. do 2 f_equal.
    destruct V, V'; try contradiction; try reflexivity; exfalso;
    repeat match goal with
    | X : headers_valid _ ?o, Y : o_headers ?o = _ ++ _ :: _ |- _ => unfold headers_valid in X; rewrite Y in X; apply Forall_app in X; destruct X as [_ X]; inversion X; subst; tauto
    | X : o_headers ?o = ?b1 ++ ?h1 :: ?a1, Y : o_headers ?o = ?b2 ++ ?h2 :: ?a2 |- _ => rewrite X in Y;
        apply app_eq_app in Y; destruct Y as (l & [[-> Y]|[-> Y]])
    | X : ?h1 :: ?a1 = ?l ++ ?h2 :: ?a2 |- _ => destruct l as [|x l]; cbn [app] in X; [injection X as -> ->; tauto|injection X as -> ->]
    | X : ?l ++ ?h1 :: ?a1 = ?h2 :: ?a2 |- _ => symmetry in X
    | X : Forall _ (_ ++ _ :: _) |- _ => apply Forall_app in X; destruct X as [_ X]; inversion X; subst; tauto
    end.
  - exfalso. assert (HV : in_years t /\ ordered o t /\ method_known o /\ fits d o /\ headers_valid d o).
    { destruct C as [C|[C _]]; unfold url_valid in C; tauto. }
    destruct HV as (V1 & V2 & V3 & V4 & V5).
    destruct V; try contradiction;
      try (unfold headers_valid in V5; match goal with Y : o_headers o = _ |- _ => rewrite Y in V5 end; apply Forall_app in V5; destruct V5 as [_ V5]; inversion V5; subst; tauto).
    destruct C as [C|[C _]]; [destruct C as (_ & _ & _ & _ & _ & C & _); congruence|destruct C as (_ & _ & _ & _ & _ & _ & C); lia].
Qed.

(** Conversely, a violation error is reported only for its violation, and every build for time [t] either violates a
    requirement, overflows the header map, or is valid. *)
Theorem C28_complete d o t : (exists e, url_violation d o t e) \/
  (in_years t /\ ordered o t /\ method_known o /\ fits d o /\ headers_valid d o /\ d_hm_overflow d (lowered o) = true) \/ url_valid d o t.
Proof. destruct (build_cases d o t) as [(e & V & _)|[C|(V & _)]]; [eauto|right; left; tauto|auto]. Qed.

Theorem C28_reported d o tr e : returns (build_signed_url d o) tr (Err e) -> (forall e', e <> UrlSignedUrl e') ->
  exists t, url_time o t tr /\ url_violation d o t e.
Proof.
  intros H N. apply url_start_ret in H. destruct H as (t & pre & rest & T & -> & H). exists t.
  destruct (build_cases d o t) as [(e' & V & E)|[(_ & _ & _ & _ & _ & _ & E)|(V & verb & Ev & E)]].
  - rewrite E in H. apply returns_ret_inv in H. destruct H as [-> H]. injection H as ->. rewrite app_nil_r. auto.
  - rewrite E in H. destruct (returns_panic_inv _ _ _ H).
  - exfalso. apply (peq_returns _ _ _ _ E) in H. unfold run_valid in H. apply returns_bind_ok_inv in H.
    destruct H as [(u & x1 & x2 & _ & H' & _)|(e' & _ & X)]; [|injection X as ->; apply (N e'); reflexivity].
    apply returns_ret_inv in H'. destruct H' as [_ X]. discriminate X.
Qed.

(** Five violations at once: the first one counts. *)
Example C28_case : let o := with_method (with_expires (demo_url_with (B "b") (B "o") None [(B "bad name", B "v")] [] demo_account false) 0) (B "get") in
  url_time o demo_time [] /\ url_violation demo_deps o demo_time UrlExpirationOutOfRange.
Proof.
  split; [constructor; reflexivity|]. apply uv_order; [split; vm_compute; congruence|]. unfold ordered. intros [H _]. vm_compute in H. apply H. reflexivity.
Qed.

(** Reading the clock. *)
Example C28_clock_case : let o := {| o_bucket_name := B "b"; o_object_name := B "o"; o_region := None; o_expires := 0; o_http_method := B "GET";
    o_accessible_at := None; o_signing_key := demo_account; o_use_sign_blob := false; o_headers := []; o_query_parameters := [] |} in
  returns (build_signed_url demo_deps o) [VNow (-1)] (Err UrlNow) /\ url_violation demo_deps o (-1) UrlNow.
Proof.
  split; [|apply uv_time; intros [H _]; lia].
  apply (url_at _ _ (-1) [VNow (-1)] []); [constructor; reflexivity|].
  replace (build_signed_url_at _ _ _) with (@Ret (res str url_error) (Err UrlNow)) by (vm_compute; reflexivity). constructor.
Qed.

(** * C27: panics *)

(** The request URL without its fragment, extended by further parameters. *)
Definition extended (d : deps) (o : url_options) (ps : list (str * str)) : str :=
  B "https://storage.googleapis.com" ++ u_path (url_parse d (requested o)) ++ B "?" ++
  unwrap_or (u_query (append_pairs (url_parse d (requested o)) (o_query_parameters o ++ ps))) [].

Lemma extended_of d o now secs hs email : extended d o (five d o now secs hs email) =
  origin ++ path_of d o ++ "?" :: query_after d o now secs hs email ++ [].
Proof.
  unfold extended, append_pairs, query_after, query_before, own_query, raw_query. cbn [u_query unwrap_or]. rewrite fold_left_app, app_nil_r. reflexivity.
Qed.

Definition added_names : list str := map B ["X-Goog-Algorithm"; "X-Goog-Credential"; "X-Goog-Date"; "X-Goog-Expires"; "X-Goog-SignedHeaders"]%string.

Lemma valid_panics d o t verb rest s : url_valid d o t -> http_verb_str verb = o_http_method o ->
  panics (run_valid d o (t / NS) (lifetime o t) verb (lowered o)) rest s ->
  panics (authorizer d (o_signing_key o)) rest s \/
  exists t1 t2 email, rest = t1 ++ t2 /\ returns (authorizer d (o_signing_key o)) t1 (Ok email) /\
    panics (sign_step d o (t / NS) (lifetime o t) verb (lowered o) email) t2 s.
Proof.
  intros V Ev H. unfold run_valid in H. apply panics_bind_ok_inv in H.
  destruct H as [H|(a & t1 & t2 & _ & H & _)]; [|destruct (panics_ret_inv _ _ _ H)].
  apply panics_bind_ok_inv in H. destruct H as [H|(a & t1 & t2 & H1 & H2 & ->)]; [auto|]. right. eauto 7.
Qed.

(** A service account signing locally: only the two capacity limits. *)
Theorem C27_local d o email key tr s : o_signing_key o = KServiceAccount email key -> o_use_sign_blob o = false ->
  panics (build_signed_url d o) tr s ->
  exists t, url_time o t tr /\
   (s = PHeaderMap /\ d_hm_overflow d (lowered o) = true \/
    s = PUri /\ url_valid d o t /\ exists ps, map fst ps = added_names /\
      (N.of_nat (length (target d o)) <= 65534 < N.of_nat (length (extended d o ps)))%N).
Proof.
  intros K U H. apply url_start_panic in H. destruct H as (t & pre & rest & T & -> & H). exists t.
  destruct (build_cases d o t) as [(e' & V & E)|[(_ & _ & _ & _ & _ & O & E)|(V & verb & Ev & E)]].
  - rewrite E in H. destruct (panics_ret_inv _ _ _ H).
  - rewrite E in H. apply panics_panic_inv in H. destruct H as [-> ->]. rewrite app_nil_r. auto.
  - apply (peq_panics _ _ _ _ E) in H. apply valid_panics in H; [|exact V|exact Ev]. rewrite K in H.
    destruct H as [H|(t1 & t2 & em & -> & H1 & H2)]; [destruct (panics_ret_inv _ _ _ H)|].
    apply returns_ret_inv in H1. destruct H1 as [-> X]. injection X as <-. cbn [app]. unfold sign_step in H2.
    destruct (too_long _ _ _) eqn:L.
    + apply panics_panic_inv in H2. destruct H2 as [-> ->]. rewrite app_nil_r. split; [exact T|]. right. split; [reflexivity|]. split; [exact V|].
      exists (five d o (t / NS) (lifetime o t) (lowered o) em). split; [reflexivity|]. split; [apply V|]. rewrite extended_of.
      unfold too_long in L. apply N.ltb_lt in L. exact L.
    + exfalso. destruct (block_of d (lowered o)); [|destruct (panics_ret_inv _ _ _ H2)]. apply panics_bind_ok_inv in H2.
      destruct H2 as [H2|(a & x1 & x2 & _ & H2 & _)]; [|destruct (panics_ret_inv _ _ _ H2)].
      rewrite K, U in H2. cbn [sign] in H2. destruct (d_rsa_sign _ _ _); destruct (panics_ret_inv _ _ _ H2).
Qed.

Inductive unimplemented_panic (d : deps) (o : url_options) : panic -> Prop :=
| up_uri ps : map fst ps = added_names -> (65534 < N.of_nat (length (extended d o ps)))%N -> unimplemented_panic d o PUri
| up_hmac a x : o_signing_key o = KHmac a x -> unimplemented_panic d o PHmacSign
| up_blob e k : o_signing_key o = KServiceAccount e k -> unimplemented_panic d o PServiceAccountSignBlob.

(** The remaining keys of local authority never sign: with an HMAC key, or a service account with [use_sign_blob],
    every valid build whose header values are ASCII panics, at once. *)
Theorem C27_unimplemented d o t pre rest q : deps_ok d -> url_time o t pre -> url_valid d o t ->
  Forall (fun h => Forall header_text_character (snd h)) (o_headers o) ->
  (exists a x, o_signing_key o = KHmac a x) \/ (exists e k, o_signing_key o = KServiceAccount e k) /\ o_use_sign_blob o = true ->
  steps (build_signed_url d o) (pre ++ rest) q ->
  rest = [] /\ exists s, panics (build_signed_url d o) pre s /\ unimplemented_panic d o s.
Proof.
  intros D T V F K H. apply (url_at _ _ _ _ _ _ T) in H.
  assert (P : exists s, peq (build_signed_url_at d o t) (Panic s) /\ unimplemented_panic d o s).
  { destruct (build_cases d o t) as [(e & W & E)|[C|(_ & verb & Ev & E)]].
    - exfalso. assert (S : steps (build_signed_url d o) (pre ++ []) (Ret (Err e))) by (apply (url_at d o t pre [] _ T); rewrite E; constructor).
      destruct V as (V1 & V2 & V3 & V4 & V5 & V6 & V7). destruct W; try contradiction;
       try (unfold headers_valid in V5; match goal with Y : o_headers o = _ |- _ => rewrite Y in V5 end; apply Forall_app in V5; destruct V5 as [_ V5]; inversion V5; subst; tauto). lia.
    - exfalso. destruct V as (_ & _ & _ & _ & _ & V & _). destruct C as (_ & _ & _ & _ & _ & C & _). congruence.
    - assert (Bk : exists block, block_of d (lowered o) = Some block).
      { apply block_total; [exact D|]. eapply Forall_impl; [|exact F]. intros h G. unfold header_value_to_str.
        replace (forallb (fun b => in_range 32 126 b || beq b x09) (snd h)) with true; [discriminate|]. symmetry. apply forallb_forall. intros b Hb.
        rewrite Forall_forall in G. destruct (G b Hb) as [[G1 G2]| ->]; [|apply orb_true_r]. unfold in_range. apply N.leb_le in G1, G2. rewrite G1, G2. reflexivity. }
      destruct Bk as [block Bk].
      assert (A : exists em, authorizer d (o_signing_key o) = Ret (Ok em)).
      { destruct K as [(a & x & ->)|((e & k & ->) & _)]; cbn; eauto. }
      destruct A as [em A].
      assert (R : exists s, run_valid d o (t / NS) (lifetime o t) verb (lowered o) = Panic s /\ unimplemented_panic d o s).
      { unfold run_valid. rewrite A. unfold bind_ok at 2. cbn [bind]. unfold sign_step. rewrite Bk. destruct (too_long _ _ _) eqn:L.
        - exists PUri. split; [reflexivity|]. apply (up_uri _ _ (five d o (t / NS) (lifetime o t) (lowered o) em)); [reflexivity|].
          rewrite extended_of. unfold too_long in L. apply N.ltb_lt in L. exact L.
        - destruct K as [(a & x & K)|((e & k & K) & U)]; rewrite K.
          + exists PHmacSign. split; [reflexivity|]. econstructor. exact K.
          + rewrite U. exists PServiceAccountSignBlob. split; [reflexivity|]. econstructor. exact K. }
      destruct R as (s & R & I). exists s. rewrite <- R. auto. }
  destruct P as (s & P & I). destruct (peq_steps _ _ _ _ P H) as (q' & S & _). apply steps_panic in S. destruct S as [-> _]. split; [reflexivity|].
  exists s. split; [|exact I]. rewrite <- (app_nil_r pre). apply (url_at d o t pre [] _ T). apply (peq_panics _ _ _ _ P). constructor.
Qed.

Example C27_hmac_case : let o := demo_url_with (B "bucket1") (B "a") None [] [] (KHmac (B "id") (B "secret")) false in
  deps_ok demo_deps /\ url_time o demo_time [] /\ url_valid demo_deps o demo_time /\
  Forall (fun h => Forall header_text_character (snd h)) (o_headers o).
Proof.
  split; [exact demo_deps_ok|]. split; [constructor; reflexivity|]. split; [apply valid_check_ok; vm_compute; reflexivity|constructor].
Qed.

Example C27_sign_blob_case : let o := demo_url_with (B "bucket1") (B "a") None [(B "A", B "b")] [] demo_account true in
  deps_ok demo_deps /\ url_time o demo_time [] /\ url_valid demo_deps o demo_time /\
  Forall (fun h => Forall header_text_character (snd h)) (o_headers o).
Proof.
  split; [exact demo_deps_ok|]. split; [constructor; reflexivity|]. split; [apply valid_check_ok; vm_compute; reflexivity|].
  repeat constructor; vm_compute; congruence.
Qed.

(** Object names of 65307 to 65500 letters make the URL panic. *)
Lemma letters_clean n : clean false (repeat "a" (S n)).
Proof.
  split; [|split; reflexivity]. apply forallb_forall. intros x H. apply repeat_spec in H. subst. reflexivity.
Qed.

Lemma url_parse_clean d p : path_ok (d_path_caret d) p -> url_parse d (tl p) = {| u_path := p; u_query := None; u_fragment := None |}.
Proof.
  intros H. destruct (path_ok_head _ _ H) as [r E]. pose proof (path_ok_bytes _ _ H) as HB.
  assert (V : forallb visible p = true) by (revert HB; apply forallb_impl; apply path_byte_visible).
  destruct (path_no_mark _ _ H) as [N1 N2]. unfold url_parse. replace ("/" :: tl p) with p by (rewrite E; reflexivity).
  rewrite trim_end_visible, drop_tabs_visible, split_path_none by assumption. rewrite rewalk by exact H. reflexivity.
Qed.

Definition long_url (n : nat) : url_options := demo_url_with (B "b") (repeat "a" n) None [] [] demo_account false.

Lemma long_path n : (0 < n)%nat -> url_parse demo_deps (requested (long_url n)) = {| u_path := "/" :: requested (long_url n); u_query := None; u_fragment := None |}.
Proof.
  intros H. destruct n as [|n]; [lia|]. apply (url_parse_clean demo_deps ("/" :: requested (long_url (S n)))).
  exists [B "b"], (repeat "a" (S n)). split; [reflexivity|]. split; [repeat constructor|apply letters_clean].
Qed.

Theorem C27_uri_panics n : (65307 <= N.of_nat n <= 65500)%N -> panics (build_signed_url demo_deps (long_url n)) [] PUri.
Proof.
  intros Hn. assert (E : url_parse demo_deps (requested (long_url n)) = {| u_path := "/" :: requested (long_url n); u_query := None; u_fragment := None |})
    by (apply long_path; lia).
  assert (L : N.of_nat (length ("/" :: requested (long_url n))) = (N.of_nat n + 3)%N).
  { unfold requested, long_url, demo_url_with. cbn [o_bucket_name o_object_name]. change (B "b" ++ B "/" ++ ?x) with ("b" :: "/" :: x). cbn [length]. rewrite repeat_length. lia. }
  assert (V : url_valid demo_deps (long_url n) demo_time).
  { repeat split; try (vm_compute; congruence).
    - vm_compute. tauto.
    - unfold fits, target. rewrite E. unfold append_pairs, url_rest. cbn [u_path u_query u_fragment o_query_parameters long_url demo_url_with fold_left unwrap_or].
      rewrite app_nil_r, !app_length, !Nat2N.inj_add, L. change (N.of_nat (length origin)) with 30%N. change (N.of_nat (length ["?"])) with 1%N. lia.
    - constructor. }
  apply (url_at _ _ demo_time [] []); [constructor; reflexivity|].
  destruct (build_cases demo_deps (long_url n) demo_time) as [(e & W & _)|[(_ & _ & _ & _ & _ & W & _)|(_ & verb & _ & W)]].
  - exfalso. destruct V as (V1 & V2 & V3 & V4 & V5 & V6 & V7). destruct W; try contradiction; try (destruct before; discriminate). lia.
  - discriminate W.
  - apply (peq_panics _ _ _ _ W). unfold run_valid. change (authorizer demo_deps (o_signing_key (long_url n))) with (@Ret (res str key_error) (Ok (B "sa@example.com"))).
    unfold bind_ok at 2. cbn [bind]. unfold sign_step.
    replace (too_long _ _ _) with true; [constructor|]. symmetry. unfold too_long. apply N.ltb_lt. unfold path_of. rewrite E. cbn [u_path].
    unfold query_after, query_before, own_query. rewrite E. cbn [o_query_parameters long_url demo_url_with fold_left raw_query u_query unwrap_or].
    rewrite app_nil_r, !app_length. cbn [length]. rewrite !Nat2N.inj_add. cbn [length] in L. rewrite !Nat2N.inj_succ in *.
    match goal with |- context [length (fold_left append_pair ?l ?x)] => replace (length (fold_left append_pair l x)) with 194%nat end.
    + change (N.of_nat (length origin)) with 30%N. lia.
    + vm_compute. reflexivity.
Qed.
