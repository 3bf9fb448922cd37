(** C38, C40: who signs for a bound-token key. *)
From Verif Require Import Base BaseFacts Time Json Scope Url Effects EffectsFacts Keys HtmlForm SignedUrl Calls FormUrl Utf8
  SpecCodec SpecCalendar SpecToken SpecTrace SpecSign SpecForm SpecUrl KeysFacts CallFacts SignFacts Discipline RefreshFacts FormFacts
  UrlFacts SignedUrlFacts HeaderFacts UrlResult Demo Prop_Form Prop_Url Prop_UrlScope.
Local Open Scope byte_scope.

(** * C38 *)

(** The cache content of a key last seen by a lookup: the last one it read or wrote. *)
Definition seen (id : N) (x : option cache) (v : event) : option cache :=
  match v with
  | VGet i c | VSet i c => if N.eqb i id then Some c else x
  | _ => x
  end.
Definition last_seen (id : N) (l : list event) : option cache := fold_left (seen id) l None.

(** The second lookup read what the first had read or written last, and sent nothing. *)
Definition undisturbed (id : N) (l1 l2 : list event) : Prop :=
  exists c, last_seen id l1 = Some c /\ In (VGet id c) l2 /\ forall r o, ~ In (VHttp r o) l2.

Lemma lookup_last id base email token l : lookup id base email token l ->
  exists expires, last_seen id l = Some (Some (email, token, expires)).
Proof.
  intros L. destruct L as [expires now H|c0 pre expires l' Ns (o1 & o2 & body & n & now & _ & _ & _ & _ & ->)]; exists expires; unfold last_seen.
  - cbn [fold_left seen]. rewrite N.eqb_refl. reflexivity.
  - cbn [fold_left]. rewrite fold_left_app. cbn [app fold_left]. cbn [seen]. rewrite N.eqb_refl. reflexivity.
Qed.

Lemma undisturbed_same id base e1 t1 l1 e2 t2 l2 : lookup id base e1 t1 l1 -> lookup id base e2 t2 l2 -> undisturbed id l1 l2 ->
  e1 = e2 /\ t1 = t2.
Proof.
  intros L1 L2 (c & S & G & N). destruct (lookup_last _ _ _ _ _ L1) as (x & S'). rewrite S in S'. injection S' as ->.
  destruct L2 as [expires now H|c0 pre expires l' Ns (o1 & o2 & body & n & now & _ & _ & _ & _ & ->)].
  - destruct G as [G|[G|[G|[G|[]]]]]; try discriminate G. injection G as -> -> ->. auto.
  - exfalso. apply (N (metadata_request base (B "email")) o1). right; right. apply in_or_app. right. left. reflexivity.
Qed.

(** The email in a form's credential is the one of the first lookup; the request to sign goes to the account
    of the second lookup; they agree if nothing came between the lookups. *)
Theorem C38_form d calls o bt tr fields credential :
  last_options calls o -> so_signing_key o = KBoundToken bt ->
  returns (build d (builder_of calls)) tr (Ok fields) -> In (B "x-goog-credential", credential) fields ->
  exists pre l1 l2 r out email1 token1 email2 token2 message rest,
    tr = pre ++ l1 ++ l2 ++ [VHttp r out] /\
    lookup (bt_id bt) (bt_base_url bt) email1 token1 l1 /\ credential = email1 ++ B "/" ++ rest /\
    lookup (bt_id bt) (bt_base_url bt) email2 token2 l2 /\ sign_blob_call email2 token2 message r /\
    (undisturbed (bt_id bt) l1 l2 -> email1 = email2 /\ token1 = token2).
Proof.
  intros Lo K H I. destruct (signed_form _ _ _ _ _ Lo H) as (t & pre & t1 & t2 & acc & exp & bucket & key & email & sig & cs & S).
  cbn zeta in S. destruct S as (T & E & Hw & Hacc & Hexp & Hb & Hk & Au & Sg & Hfs & M & C).
  match type of Hfs with _ = form_list _ _ (Some ?pf) _ => set (p := pf) in * end.
  rewrite Hfs in I. apply form_field in I; [|exact Hk|cbn; tauto].
  assert (credential = pf_credential p) as ->.
  { unfold computed in I. cbn [In] in I. repeat destruct I as [I|I]; try contradiction; try (apply (f_equal fst) in I; discriminate I).
    injection I as <-. reflexivity. }
  rewrite K in Au, Sg. inversion Au as [| |bt' em tk tr' L1]; subst. 
  inversion Sg as [|bt' em2 tk2 l r out body m sg L2 Sc A Bb]; subst.
  exists pre, t1, l, r, out, email, tk, em2, tk2. eexists. eexists. split; [reflexivity|]. split; [exact L1|].
  split; [reflexivity|]. split; [exact L2|]. split; [exact Sc|]. intros U. eapply undisturbed_same; eassumption.
Qed.

(** The same for signed URLs. *)
Theorem C38_url d o bt tr url path query sig : deps_ok d -> o_signing_key o = KBoundToken bt ->
  returns (build_signed_url d o) tr (Ok url) -> url_parts url path query sig ->
  exists pre l1 l2 r out email1 token1 email2 token2 message scope,
    tr = pre ++ l1 ++ l2 ++ [VHttp r out] /\
    lookup (bt_id bt) (bt_base_url bt) email1 token1 l1 /\
    lookup (bt_id bt) (bt_base_url bt) email2 token2 l2 /\ sign_blob_call email2 token2 message r /\
    (forall pairs, form_query (query ++ B "&X-Goog-Signature=" ++ sig) pairs ->
       utf8_valid email1 = true -> utf8_valid (region_of o) = true -> plain email1 -> plain (region_of o) ->
       In (B "X-Goog-Credential", email1 ++ B "/" ++ scope) pairs) /\
    (undisturbed (bt_id bt) l1 l2 -> email1 = email2 /\ token1 = token2).
Proof.
  intros D K H P. destruct (C24_credential _ _ _ _ _ _ _ D H P) as (t & t1 & t2 & t3 & email & date & day & scope & digest & message & s & T & E & Au & _ & _ & _ & _ & _ & Sg & _ & Q).
  rewrite K in Au, Sg. inversion Au as [| |bt' em tk tr' L1]; subst.
  inversion Sg as [|bt' em2 tk2 l r out body m sg L2 Sc A Bb]; subst.
  exists t1, t2, l, r, out, email, tk, em2, tk2. eexists. exists scope. split; [reflexivity|]. split; [exact L1|]. split; [exact L2|].
  split; [exact Sc|]. split; [|intros U; eapply undisturbed_same; eassumption].
  intros pairs F U1 U2 P1 P2. apply (Q pairs F); assumption.
Qed.

(** A successful form whose credential names one account while another was asked to sign: the entry found by the
    first lookup was about to expire, and the metadata server then reported another account. *)
Theorem C38_refuted :
  exists d calls o bt tr fields rest r out,
    last_options calls o /\ so_signing_key o = KBoundToken bt /\
    returns (build d (builder_of calls)) (tr ++ [VHttp r out]) (Ok fields) /\
    In (B "x-goog-credential", B "old@example.com" ++ B "/" ++ rest) fields /\
    rq_url r = B "https://iamcredentials.googleapis.com/v1/projects/-/serviceAccounts/new@example.com:signBlob".
Proof.
  exists demo_deps, (demo_form_at (Some demo_time) (KBoundToken demo_token) true).
  pose proof (play_steps (build demo_deps (demo_form (KBoundToken demo_token) true)) demo_switch_run) as H.
  destruct (play (build demo_deps (demo_form (KBoundToken demo_token) true)) demo_switch_run) as [tr q] eqn:E. vm_compute in E. injection E as <- <-.
  do 2 eexists. eexists [_; _; _; _; _; _; _; _; _; _; _; _], _. eexists (B "20200101/auto/storage/goog4_request"). do 2 eexists.
  split; [exists [CBucket (B "bucket1"); CKey (B "a/b"); CContentLength 3; CXGoogMeta (B "who") (B "me ""you""")], []; split; [reflexivity|intros o []]|].
  split; [reflexivity|]. split; [exact H|]. split; [|vm_compute; reflexivity]. vm_compute. tauto.
Qed.

(** An execution whose lookups are undisturbed: the second finds what the first wrote. *)
Example C38_case :
  exists fields l1 l2 r out, returns (build demo_deps (demo_form (KBoundToken demo_token) true)) (l1 ++ l2 ++ [VHttp r out]) (Ok fields) /\
    undisturbed 7 l1 l2 /\ exists x, In (VHttp (metadata_request (bt_base_url demo_token) (B "email")) x) l1.
Proof.
  pose proof (play_steps (build demo_deps (demo_form (KBoundToken demo_token) true)) demo_run) as H.
  destruct (play (build demo_deps (demo_form (KBoundToken demo_token) true)) demo_run) as [tr q] eqn:E. vm_compute in E. injection E as <- <-.
  eexists. eexists [_; _; _; _; _; _; _], [_; _; _; _], _, _. split; [exact H|]. split.
  - eexists. split; [vm_compute; reflexivity|]. split; [right; left; reflexivity|].
    intros r o I. cbn [In] in I. repeat destruct I as [I|I]; try discriminate I. destruct I.
  - eexists. right; right; left. vm_compute. reflexivity.
Qed.

(** * C40 *)

(** Without signBlob a bound-token key never signs: no operation succeeds, and none sends a signBlob request. *)
Theorem C40_never d c bt tr q : call_key c = Some (KBoundToken bt) -> call_use_sign_blob c = false ->
  steps (run_call d c) tr q ->
  (forall r o, In (VHttp r o) tr -> is_metadata r /\ ~ is_sign_blob r) /\ (forall a, q = Ret a -> answer_ok a = false).
Proof.
  intros K U H. split.
  - intros r o I. assert (M : is_metadata r).
    { apply call_parts in H. destruct H as (pre & t1 & t2 & -> & P & Bp). apply in_app_or in I. destruct I as [I|I].
      { destruct P as [->|[_ [t ->]]]; [destruct I|destruct I as [I|[]]; discriminate I]. }
      destruct Bp as [[-> ->]|(bt' & K' & [(-> & p & G)|(U' & _)])]; [destruct I| |congruence].
      rewrite app_nil_r in I. destruct (get_run_http _ _ _ _ _ _ G I) as [->| ->]; [apply email_request_is|apply token_request_is]. }
    split; [exact M|]. intros S. exact (kinds_differ _ S M).
  - intros a ->. destruct (answer_ok a) eqn:O; [|reflexivity]. exfalso.
    destruct (call_ok d c tr a _ H O K) as (pre & tr' & _ & _ & email & sig & m & t1 & t2 & _ & S & _).
    rewrite U in S. cbn [sign] in S. apply returns_ret_inv in S. destruct S as [_ S]. discriminate S.
Qed.

Lemma returns_rest {A} (p : prog A) tr a rest q : returns p tr a -> steps p (tr ++ rest) q -> rest = [] /\ q = Ret a.
Proof.
  revert tr. induction p as [x|s|e k IH]; intros tr H S.
  - apply returns_ret_inv in H. destruct H as [-> ->]. apply steps_ret in S. exact S.
  - destruct (returns_panic_inv _ _ _ H).
  - apply returns_act_inv in H. destruct H as (r & tr' & -> & H). apply steps_act_inv in S. destruct S as [[S _]|(r' & tr'' & S & S')]; [discriminate S|].
    cbn [app] in S. injection S as E <-. assert (r = r') as <-.
    { destruct e; cbn in r, r', E; try congruence; destruct r, r'; reflexivity. }
    eapply IH; eassumption.
Qed.

Lemma panics_rest {A} (p : prog A) tr s rest q : panics p tr s -> steps p (tr ++ rest) q -> rest = [] /\ q = Panic s.
Proof.
  revert tr. induction p as [x|s'|e k IH]; intros tr H S.
  - destruct (panics_ret_inv _ _ _ H).
  - apply panics_panic_inv in H. destruct H as [-> ->]. apply steps_panic in S. exact S.
  - apply panics_act_inv in H. destruct H as (r & tr' & -> & H). apply steps_act_inv in S. destruct S as [[S _]|(r' & tr'' & S & S')]; [discriminate S|].
    cbn [app] in S. injection S as E <-. assert (r = r') as <-.
    { destruct e; cbn in r, r', E; try congruence; destruct r, r'; reflexivity. }
    eapply IH; eassumption.
Qed.

Lemma auth_of_get d bt l et : returns (get_email_and_token d bt) l (Ok et) -> returns (authorizer d (KBoundToken bt)) l (Ok (fst et)).
Proof. intros H. cbn [authorizer]. rewrite <- (app_nil_r l). eapply returns_bind_ok; [exact H|constructor]. Qed.

(** The error of a form build that violates nothing and whose lookup succeeded. *)
Inductive form_refusal (calls : list builder_call) : form_error -> Prop :=
| fr_meta : empty_meta calls -> form_refusal calls XGoogMetaNameEmpty
| fr_sign : ~ empty_meta calls -> form_refusal calls (FormSigning BoundTokenMustUseSignBlob).

Theorem C40_form d calls o bt t pre l et :
  last_options calls o -> so_signing_key o = KBoundToken bt -> so_use_sign_blob o = false ->
  build_time o t pre -> (forall e, ~ violation calls o t e) -> returns (get_email_and_token d bt) l (Ok et) ->
  exists e, form_refusal calls e /\ returns (build d (builder_of calls)) (pre ++ l) (Err e) /\
    forall rest q, steps (build d (builder_of calls)) (pre ++ l ++ rest) q -> rest = [] /\ q = Ret (Err e).
Proof.
  intros Lo K U T V G. apply options_iff in Lo.
  assert (X : exists e, form_refusal calls e /\ returns (build d (builder_of calls)) (pre ++ l) (Err e)).
  { destruct (violation_or_sound calls o t) as [[e W]|S]; [destruct (V e W)|].
    destruct (sound_result d calls o t S) as (f & E & F). destruct (F (fst et)) as [[M F']|[M (m & g & F')]].
    - exists XGoogMetaNameEmpty. split; [constructor; exact M|].
      eapply steps_app; [apply build_start; eassumption|]. unfold rest_build. rewrite E, K. apply (returns_bind_err (fun e => e)).
      rewrite <- (app_nil_r l). eapply returns_bind_ok; [apply auth_of_get; exact G|]. rewrite F'. constructor.
    - exists (FormSigning BoundTokenMustUseSignBlob). split; [constructor; exact M|].
      eapply steps_app; [apply build_start; eassumption|]. unfold rest_build. rewrite E, K. apply (returns_bind_err (fun e => e)).
      rewrite <- (app_nil_r l). eapply returns_bind_ok; [apply auth_of_get; exact G|]. rewrite F', K, U. cbn [sign].
      apply (returns_bind_err FormSigning). constructor. }
  destruct X as (e & Re & H). exists e. split; [exact Re|]. split; [exact H|]. intros rest q Q. rewrite app_assoc in Q. eapply returns_rest; eassumption.
Qed.

(** The same for signed URLs with valid options and textual header values: the error, or the panic for a URL
    that the added parameters make too long. *)
Theorem C40_url d o bt t pre l et : deps_ok d -> url_time o t pre -> url_valid d o t ->
  Forall (fun h => Forall header_text_character (snd h)) (o_headers o) ->
  o_signing_key o = KBoundToken bt -> o_use_sign_blob o = false -> returns (get_email_and_token d bt) l (Ok et) ->
  exists q, steps (build_signed_url d o) (pre ++ l) q /\
    (forall rest q', steps (build_signed_url d o) (pre ++ l ++ rest) q' -> rest = [] /\ q' = q) /\
    (q = Ret (Err (UrlSignedUrl (UrlSigning BoundTokenMustUseSignBlob))) \/
     q = Panic PUri /\ exists ps, map fst ps = added_names /\ (65534 < N.of_nat (length (extended d o ps)))%N).
Proof.
  intros D T V F K U G.
  destruct (build_cases d o t) as [(e & W & E)|[C|(_ & verb & Ev & E)]].
  - exfalso. destruct V as (V1 & V2 & V3 & V4 & V5 & V6 & V7). destruct W; try contradiction;
     try (unfold headers_valid in V5; match goal with Y : o_headers o = _ |- _ => rewrite Y in V5 end; apply Forall_app in V5; destruct V5 as [_ V5]; inversion V5; subst; tauto). lia.
  - exfalso. destruct V as (_ & _ & _ & _ & _ & V & _). destruct C as (_ & _ & _ & _ & _ & C & _). congruence.
  - assert (Bk : exists block, block_of d (lowered o) = Some block).
    { apply block_total; [exact D|]. eapply Forall_impl; [|exact F]. intros h X. unfold header_value_to_str.
      replace (forallb (fun b => in_range 32 126 b || beq b x09) (snd h)) with true; [discriminate|]. symmetry. apply forallb_forall. intros b Hb.
      rewrite Forall_forall in X. destruct (X b Hb) as [[G1 G2]| ->]; [|apply orb_true_r]. unfold in_range. apply N.leb_le in G1, G2. rewrite G1, G2. reflexivity. }
    destruct Bk as [block Bk]. apply auth_of_get in G. rewrite <- K in G.
    destruct (too_long (path_of d o) (query_after d o (t / NS) (lifetime o t) (lowered o) (fst et)) []) eqn:L.
    + assert (R : panics (build_signed_url_at d o t) l PUri).
      { apply (peq_panics _ _ _ _ E). unfold run_valid. unfold bind_ok at 1. apply panics_bind_l. unfold bind_ok.
        rewrite <- (app_nil_r l). eapply steps_bind_ret; [exact G|]. cbn beta iota. unfold sign_step. rewrite L. constructor. }
      exists (Panic PUri). apply (url_at d o t pre l _ T) in R. split; [exact R|]. split.
      { intros rest q' Q. rewrite app_assoc in Q. eapply panics_rest; eassumption. }
      right. split; [reflexivity|]. exists (five d o (t / NS) (lifetime o t) (lowered o) (fst et)). split; [reflexivity|].
      rewrite extended_of. unfold too_long in L. apply N.ltb_lt in L. exact L.
    + assert (R : returns (build_signed_url_at d o t) l (Err (UrlSignedUrl (UrlSigning BoundTokenMustUseSignBlob)))).
      { apply (peq_returns _ _ _ _ E). unfold run_valid. apply (returns_bind_err UrlSignedUrl).
        rewrite <- (app_nil_r l). eapply returns_bind_ok; [exact G|]. unfold sign_step. rewrite L, Bk, K, U. cbn [sign].
        apply (returns_bind_err UrlSigning). constructor. }
      exists (Ret (Err (UrlSignedUrl (UrlSigning BoundTokenMustUseSignBlob)))). apply (url_at d o t pre l _ T) in R. split; [exact R|]. split; [|left; reflexivity].
      intros rest q' Q. rewrite app_assoc in Q. eapply returns_rest; eassumption.
Qed.

Example C40_form_case : let calls := demo_form_at (Some demo_time) (KBoundToken demo_token) false in
  exists o l et, last_options calls o /\ so_signing_key o = KBoundToken demo_token /\ so_use_sign_blob o = false /\
    build_time o demo_time [] /\ sound calls o demo_time /\ ~ empty_meta calls /\
    returns (get_email_and_token demo_deps demo_token) l (Ok et) /\ length l = 7%nat.
Proof.
  cbn zeta. eexists. eexists. eexists. split.
  { exists [CBucket (B "bucket1"); CKey (B "a/b"); CContentLength 3; CXGoogMeta (B "who") (B "me ""you""")], []. split; [reflexivity|intros o []]. }
  split; [reflexivity|]. split; [reflexivity|]. split; [constructor; reflexivity|]. split.
  { split; [vm_compute; reflexivity|]. split; [split; vm_compute; congruence|]. split; [split; vm_compute; congruence|].
    split; [|split; [|intros a s; discriminate]]; intros X; inversion X as [|? ? X1 X2]; subst.
    - exact (X1 (B "bucket1") (conj eq_refl eq_refl)).
    - inversion X2 as [|? ? X3 _]; subst. exact (X3 (B "a/b") (conj eq_refl eq_refl)). }
  split. { intros [v I]. cbn in I. repeat destruct I as [I|I]; try discriminate I. destruct I. }
  split; [exact (play_returns (get_email_and_token demo_deps demo_token) (firstn 7 demo_run) (Ok (B "sa@example.com", B "tok1")) eq_refl)|reflexivity].
Qed.

Example C40_url_case : let o := demo_url_with (B "bucket1") (B "a") None [] [] (KBoundToken demo_token) false in
  url_time o demo_time [] /\ url_valid demo_deps o demo_time /\ Forall (fun h => Forall header_text_character (snd h)) (o_headers o) /\
  exists l et, returns (get_email_and_token demo_deps demo_token) l (Ok et).
Proof.
  cbn zeta. split; [constructor; reflexivity|]. split; [apply valid_check_ok; vm_compute; reflexivity|]. split; [constructor|].
  do 2 eexists. exact (play_returns (get_email_and_token demo_deps demo_token) (firstn 7 demo_run) (Ok (B "sa@example.com", B "tok1")) eq_refl).
Qed.
