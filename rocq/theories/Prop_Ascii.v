(** C79: header values beyond ASCII are refused, after the account was looked up and before anything is signed. *)
From Verif Require Import Base BaseFacts Time Effects EffectsFacts Keys KeysFacts Url Scope SignedUrl Calls CallFacts SpecTrace SpecForm SpecUrl SpecMessages SpecTexts
  UrlFacts SignedUrlFacts HeaderFacts UrlResult Demo Prop_Url.
Local Open Scope Z_scope.

Lemma peq_inv {A} (p q : prog A) : peq p q ->
  match p with Act e k => exists k', q = Act e k' /\ forall r, peq (k r) (k' r) | p => q = p end.
Proof. intros [a|s|e k k' H]; eauto. Qed.

Lemma peq_trans {A} (p q r : prog A) : peq p q -> peq q r -> peq p r.
Proof.
  intros H. revert r. induction H as [a|s|e k k' H IH]; intros z G; [exact G|exact G|].
  apply peq_inv in G. destruct G as (k2 & -> & G). constructor. intros r. apply IH. apply G.
Qed.

Lemma value_ascii v : Forall (fun c => (32 <= bN c)%N /\ bN c <> 127%N \/ c = x09) v ->
  (header_value_to_str v = None <-> exists c, In c v /\ (128 <= bN c)%N).
Proof.
  intros F. unfold header_value_to_str. destruct (forallb _ v) eqn:E.
  - split; [discriminate|]. intros (c & I & L). rewrite forallb_forall in E. apply E in I. unfold in_range in I.
    apply orb_true_iff in I. destruct I as [I|I].
    + apply andb_true_iff in I. destruct I as [_ I]. apply N.leb_le in I. lia.
    + destruct (beq_spec c x09); [subst c; cbn in L; lia|discriminate I].
  - split; [intros _|auto]. induction v as [|c v IH]; [discriminate E|]. inversion F as [|? ? Fc Fv]; subst. cbn [forallb] in E.
    apply andb_false_iff in E. destruct E as [E|E].
    + exists c. split; [left; reflexivity|]. apply orb_false_iff in E. destruct E as [E1 E2]. destruct Fc as [[F1 F2]| ->]; [|discriminate E2].
      unfold in_range in E1. apply andb_false_iff in E1. destruct E1 as [E1|E1]; apply N.leb_gt in E1; lia.
    + destruct (IH Fv E) as (x & I & L). exists x. split; [right; exact I|exact L].
Qed.

Lemma block_ascii d o : deps_ok d -> headers_valid d o ->
  (block_of d (lowered o) = None <-> exists h, In h (o_headers o) /\ beyond_ascii h).
Proof.
  intros D V. unfold headers_valid in V. rewrite Forall_forall in V. split.
  - intros E. destruct (existsb (fun h => match header_value_to_str (snd h) with None => true | Some _ => false end) (o_headers o)) eqn:X.
    + apply existsb_exists in X. destruct X as (h & I & X). exists h. split; [exact I|]. apply value_ascii; [apply (V h I)|]. destruct (header_value_to_str (snd h)); [discriminate X|reflexivity].
    + destruct (block_total d D o) as [block Bk]; [|congruence]. apply Forall_forall. intros h I N.
      assert (Y : existsb (fun h => match header_value_to_str (snd h) with None => true | Some _ => false end) (o_headers o) = true) by (apply existsb_exists; exists h; rewrite N; auto).
      congruence.
  - intros (h & I & A). destruct (block_of d (lowered o)) as [block|] eqn:E; [|reflexivity]. apply (block_spec d D) in E. destruct E as [_ F].
    rewrite Forall_forall in F. destruct (F h I). apply value_ascii; [apply (V h I)|exact A].
Qed.

(** Such a URL is never signed: only the account is looked up, in every execution, finished or not; and the result, if there is one,
    is the refusal or the failure of that lookup. *)
Theorem C79_refused d o t pre rest q h : deps_ok d -> url_valid d o t -> url_time o t pre -> In h (o_headers o) -> beyond_ascii h ->
  steps (build_signed_url d o) (pre ++ rest) q ->
  (forall r x, In (VHttp r x) rest -> is_metadata r /\ ~ is_sign_blob r) /\
  (forall a, q = Ret a ->
     a = Err (UrlSignedUrl CanonicalRequestError) /\ (exists account, returns (authorizer d (o_signing_key o)) rest (Ok account)) \/
     exists e, a = Err (UrlSignedUrl (UrlSigning e)) /\ returns (authorizer d (o_signing_key o)) rest (Err e)) /\
  (forall s, q = Panic s -> panics (authorizer d (o_signing_key o)) rest s \/ s = PUri).
Proof.
  intros D V T I A H. assert (Bk : block_of d (lowered o) = None) by (apply block_ascii; [exact D|apply V|eauto]).
  apply (url_at d o t pre rest q T) in H.
  destruct (build_cases d o t) as [(e & W & _)|[(_ & _ & _ & _ & _ & O & _)|(_ & verb & _ & E)]].
  { exfalso. destruct V as (V1 & V2 & V3 & V4 & V5 & V6 & V7). unfold headers_valid in V5. rewrite Forall_forall in V5.
    destruct W as [W|? W|? ? W|? ? ? W|b x a ? ? ? ? Eq ? W|b x a ? ? ? ? Eq ? ? W|? ? ? ? ? ? W]; try contradiction; try lia;
      (assert (X : In x (o_headers o)) by (rewrite Eq; apply in_or_app; right; left; reflexivity)); destruct (V5 x X); contradiction. }
  { destruct V as (_ & _ & _ & _ & _ & V6 & _). congruence. }
  set (f := fun email : str => if too_long (path_of d o) (query_after d o (t / NS) (lifetime o t) (lowered o) email) [] then Panic PUri else @Ret (res str signed_url_error) (Err CanonicalRequestError)).
  assert (E' : peq (build_signed_url_at d o t) (bind_ok UrlSignedUrl (bind_ok UrlSigning (authorizer d (o_signing_key o)) f) (fun s => Ret (Ok s)))).
  { eapply peq_trans; [exact E|]. unfold run_valid. apply peq_bind_ok; [|intros; apply peq_refl]. apply peq_bind_ok; [apply peq_refl|]. intros email.
    unfold sign_step, f. rewrite Bk. destruct (too_long _ _ _); apply peq_refl. }
  clear E. assert (Au : exists p, steps (authorizer d (o_signing_key o)) rest p).
  { destruct (peq_steps _ _ _ _ E' H) as (q' & H' & _). unfold bind_ok in H'. apply steps_bind_inv in H'.
    assert (G : forall tr p, steps (bind (authorizer d (o_signing_key o)) (fun r => match r with Ok a => f a | Err e => Ret (Err (UrlSigning e)) end)) tr p -> exists p, steps (authorizer d (o_signing_key o)) tr p).
    { intros tr p G. apply steps_bind_inv in G. destruct G as [(x & G & _)|(a & t1 & t2 & G1 & G & ->)]; [eauto|].
      assert (t2 = []) as -> by (destruct a as [a|a]; [unfold f in G; destruct (too_long _ _ _); [apply steps_panic in G|apply steps_ret in G]|apply steps_ret in G]; tauto).
      rewrite app_nil_r. eauto. }
    destruct H' as [(p & H' & _)|(a & t1 & t2 & H1 & H' & ->)]; [eauto|].
    assert (t2 = []) as -> by (destruct a; apply steps_ret in H'; tauto). rewrite app_nil_r. eauto. }
  split; [|split].
  - intros r x J. assert (M : is_metadata r).
    { destruct Au as [p Au]. destruct (o_signing_key o) as [bt| |].
      - apply auth_steps in Au. destruct Au as [p' Au]. apply get_steps in Au.
        destruct (get_run_http _ _ _ _ _ _ Au J) as [->| ->]; [apply email_request_is|apply token_request_is].
      - apply auth_local in Au; [subst; destruct J|discriminate].
      - apply auth_local in Au; [subst; destruct J|discriminate]. }
    split; [exact M|]. intros S. exact (kinds_differ _ S M).
  - intros a ->. apply (peq_returns _ _ _ _ E') in H. apply returns_bind_ok_inv in H. destruct H as [(u & t1 & t2 & H & _ & _)|(e & H & ->)].
    + apply returns_bind_ok_inv in H. destruct H as [(email & t3 & t4 & _ & H & _)|(e & _ & X)]; [|discriminate X]. unfold f in H.
      destruct (too_long _ _ _); [destruct (returns_panic_inv _ _ _ H)|]. apply returns_ret_inv in H. destruct H as [_ H]. discriminate H.
    + apply returns_bind_ok_inv in H. destruct H as [(email & t3 & t4 & H1 & H & ->)|(e' & H & X)].
      * unfold f in H. destruct (too_long _ _ _); [destruct (returns_panic_inv _ _ _ H)|]. apply returns_ret_inv in H. destruct H as [-> H]. injection H as ->.
        left. rewrite app_nil_r. eauto.
      * injection X as ->. right. eauto.
  - intros s ->. apply (peq_panics _ _ _ _ E') in H. apply panics_bind_ok_inv in H. destruct H as [H|(u & t1 & t2 & _ & H & _)]; [|destruct (panics_ret_inv _ _ _ H)].
    apply panics_bind_ok_inv in H. destruct H as [H|(email & t1 & t2 & _ & H & _)]; [left; exact H|]. right. unfold f in H.
    destruct (too_long _ _ _); [apply steps_panic in H; destruct H as [_ H]; injection H as ->; reflexivity|destruct (panics_ret_inv _ _ _ H)].
Qed.

(** Only such URLs are refused for this reason. *)
Theorem C79_only d o tr : deps_ok d -> returns (build_signed_url d o) tr (Err (UrlSignedUrl CanonicalRequestError)) ->
  exists h, In h (o_headers o) /\ beyond_ascii h.
Proof.
  intros D H. apply url_start_ret in H. destruct H as (t & pre & rest & T & -> & H).
  destruct (build_cases d o t) as [(e & W & E)|[(_ & _ & _ & _ & _ & _ & E)|(V & verb & _ & E)]].
  - rewrite E in H. apply returns_ret_inv in H. destruct H as [_ H]. injection H as <-. inversion W.
  - rewrite E in H. destruct (returns_panic_inv _ _ _ H).
  - apply (peq_returns _ _ _ _ E) in H. unfold run_valid in H. apply returns_bind_ok_inv in H. destruct H as [(u & t1 & t2 & _ & H & _)|(e & H & X)].
    + apply returns_ret_inv in H. destruct H as [_ H]. discriminate H.
    + injection X as <-. apply returns_bind_ok_inv in H. destruct H as [(email & t1 & t2 & _ & H & _)|(e & _ & X)]; [|discriminate X].
      unfold sign_step in H. destruct (too_long _ _ _); [destruct (returns_panic_inv _ _ _ H)|].
      destruct (block_of d (lowered o)) as [block|] eqn:Bk; [|apply (block_ascii d o D) in Bk; [exact Bk|apply V]].
      apply returns_bind_ok_inv in H. destruct H as [(s & t3 & t4 & _ & H & _)|(e & _ & X)]; [|discriminate X].
      apply returns_ret_inv in H. destruct H as [_ H]. discriminate H.
Qed.

(** A header value in UTF-8. *)
Definition demo_umlaut : url_options := demo_url_with (B "b") (B "o") None [(B "x-goog-meta-name", [xc3; xa4]%byte)] [] demo_account false.

Example C79_case : deps_ok demo_deps /\ url_valid demo_deps demo_umlaut demo_time /\ url_time demo_umlaut demo_time [] /\
  In (B "x-goog-meta-name", [xc3; xa4]%byte) (o_headers demo_umlaut) /\ beyond_ascii (B "x-goog-meta-name", [xc3; xa4]%byte) /\
  returns (build_signed_url demo_deps demo_umlaut) [] (Err (UrlSignedUrl CanonicalRequestError)).
Proof.
  split; [exact demo_deps_ok|]. split; [apply valid_check_ok; vm_compute; reflexivity|]. split; [constructor; reflexivity|].
  split; [left; reflexivity|]. split; [exists xc3%byte; split; [left; reflexivity|vm_compute; congruence]|].
  unfold returns. vm_compute. constructor.
Qed.
