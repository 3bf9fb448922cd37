(** C108: what a call gives when the service account changes while it runs. *)
From Coq Require Import Permutation.
From Verif Require Import Base BaseFacts Time Json Effects EffectsFacts Keys KeysFacts Url Scope HtmlForm SignedUrl Calls CallFacts SpecCodec SpecJson SpecPolicy SpecToken TokenFacts SpecTrace
  SpecSign SpecForm SpecUrl FormFacts UrlFacts Conc SpecConc ConcFacts HistoryFacts Sim Demo Prop_Form Prop_Url Prop_Keys Prop_Conc SpecRate Prop_Rate
  SpecUpload Prop_Upload Utf8 Prop_UrlQuery SpecServer Prop_Server SpecPath Prop_Parameter SpecName SpecParameter SpecExact Prop_Exact SpecPlatform Prop_Platform SpecFormExact Prop_FormExact SpecChange.
Local Open Scope Z_scope.

Lemma fetched_named base tr email token : fetched base tr email token -> named base tr email.
Proof. intros (k & o1 & _ & _ & _ & I & _ & A & _). exists k, o1. auto. Qed.

(** * What the cache holds when a lookup is over *)

Lemma not_ended_before d base tr cfg a i e b : runs d base tr cfg -> tr = a ++ GDo i e :: b -> ~ has_ended a i.
Proof.
  intros H E. destruct (runs_split _ _ _ _ _ _ _ H E) as (c1 & c2 & H1 & S & _). apply step_task in S. destruct S as (c & s & x & k & r & A & L & _).
  apply (live_not_ended _ _ _ _ _ _ _ H1 A). exact L.
Qed.

(** The entry that a lookup found or wrote is still there when it gives back the lock. *)
Lemma access_kept d base tr cfg i id v entry x mid y : runs d base tr cfg -> did i tr = x ++ v :: mid ++ VUnlock id :: y ->
  v = VGet id entry \/ v = VSet id entry -> (forall w, In w mid -> outside w) ->
  exists a b c1, tr = a ++ GDo i (VUnlock id) :: b /\ did i b = y /\ runs d base a c1 /\ caches c1 id = entry.
Proof.
  intros H E V M. destruct (did_split _ _ _ _ _ E) as (a1 & b1 & E1 & D1 & D2). destruct (did_split _ _ _ _ _ D2) as (b2 & b3 & E2 & D3 & D4).
  assert (Et : tr = (a1 ++ GDo i v :: b2) ++ GDo i (VUnlock id) :: b3) by (rewrite E1, E2, <- app_assoc; reflexivity).
  destruct (runs_split _ _ _ _ _ _ _ H Et) as (k1 & k2 & Hk & _ & _). exists (a1 ++ GDo i v :: b2), b3, k1. split; [exact Et|]. split; [exact D4|]. split; [exact Hk|].
  destruct (runs_split _ _ _ _ _ _ _ H E1) as (c1 & c2 & H1 & S1 & H2).
  assert (O1 : owner c1 id = Some i) by (eapply (lock_event _ _ _ _ _ _ _ id H1 S1); destruct V as [-> | ->]; reflexivity).
  assert (O2 : owner c2 id = Some i) by (eapply owner_kept; [exact H1|exact S1|exact O1|destruct V as [-> | ->]; discriminate|discriminate]).
  assert (Ec : caches c2 id = entry).
  { destruct V as [-> | ->]; [|exact (step_set _ _ _ _ _ _ _ S1)]. rewrite (step_cache _ _ _ _ _ _ S1) by discriminate. symmetry. exact (step_get _ _ _ _ _ _ _ S1). }
  assert (Ap : a1 ++ GDo i v :: b2 = (a1 ++ [GDo i v]) ++ b2) by (rewrite <- app_assoc; reflexivity).
  destruct (cache_kept _ _ _ _ _ _ H2 O2 b2 k1) as [(c3 & H3 & Ec3) _].
  - rewrite <- Ap. exact Hk.
  - intros X. apply did_in in X. rewrite D3 in X. apply M in X. discriminate X.
  - intros [e X]. apply (not_ended_before _ _ _ _ _ _ _ _ H Et). exists e. apply in_or_app. right. right. exact X.
  - intros z X. apply did_in in X. rewrite D3 in X. apply M in X. discriminate X.
  - rewrite Ec3, (cache_fun _ _ _ _ _ H3 H2). exact Ec.
Qed.

Lemma lookup_kept d base tr cfg i id email token x l y : runs d base tr cfg -> did i tr = x ++ l ++ y -> lookup id (base id) email token l ->
  exists a b c1 expires, tr = a ++ GDo i (VUnlock id) :: b /\ did i b = y /\ runs d base a c1 /\ caches c1 id = Some (email, token, expires).
Proof.
  intros H E L. destruct L as [expires now F|c pre expires l N R].
  - destruct (access_kept _ _ _ _ i id (VGet id (Some (email, token, expires))) (Some (email, token, expires)) (x ++ [VLock id]) [VNow now] y H) as (a & b & c1 & X).
    + rewrite E, <- app_assoc. reflexivity.
    + left. reflexivity.
    + intros w [<-|[]]. reflexivity.
    + exists a, b, c1, expires. exact X.
  - destruct R as (o1 & o2 & body & n & now & _ & _ & _ & _ & ->).
    destruct (access_kept _ _ _ _ i id (VSet id (Some (email, token, expires))) (Some (email, token, expires))
      (x ++ VLock id :: VGet id c :: pre ++ [VHttp (metadata_request (base id) (B "email")) o1; VHttp (metadata_request (base id) (B "token")) o2; VNow now]) [] y H) as (a & b & c1 & X).
    + rewrite E. repeat (rewrite <- app_assoc; cbn [app]). reflexivity.
    + right. reflexivity.
    + intros w [].
    + exists a, b, c1, expires. exact X.
Qed.

Lemma quiet_cache d base a c1 b cfg id : runs d base a c1 -> runs d base (a ++ b) cfg -> never_written b id -> caches cfg id = caches c1 id.
Proof.
  intros H1. revert cfg. induction b as [|v b IH] using rev_ind; intros cfg H N.
  - rewrite app_nil_r in H. exact (cache_fun _ _ _ _ _ H H1 id).
  - assert (E : a ++ b ++ [v] = (a ++ b) ++ v :: []) by (rewrite <- app_assoc; reflexivity).
    destruct (runs_split _ _ _ _ _ _ _ H E) as (k1 & k2 & Hk & S & H2). rewrite <- app_assoc in H2.
    rewrite (cache_fun _ _ _ _ _ H H2 id), (step_cache _ _ _ _ _ _ S), (IH k1 Hk); [reflexivity| |].
    + intros j x I. apply (N j x). apply in_or_app. left. exact I.
    + intros j x ->. apply (N j x). apply in_or_app. right. left. reflexivity.
Qed.

(** * The second lookup gives what the first gave, or the cache was renewed in between *)

Lemma lookups_agree d base tr cfg i id email1 token1 email2 token2 message r o x l1 l2 : runs d base tr cfg -> did i tr = x ++ l1 ++ l2 ++ [VHttp r o] ->
  lookup id (base id) email1 token1 l1 -> lookup id (base id) email2 token2 l2 -> sign_blob_call email2 token2 message r ->
  email2 = email1 \/ renewed tr id i email2.
Proof.
  intros H E L1 L2 Sc. destruct (lookup_kept _ _ _ _ _ _ _ _ _ _ _ H E L1) as (a & b & c1 & ex1 & Et & Db & H1 & C1).
  revert Db. destruct L2 as [expires now F|c pre expires l N R]; intros Db.
  - destruct (did_split _ _ [VLock id] _ _ Db) as (b1 & b2 & Eb & _ & D2).
    assert (Et' : tr = (a ++ GDo i (VUnlock id) :: b1) ++ GDo i (VGet id (Some (email2, token2, expires))) :: b2) by (rewrite Et, Eb, <- app_assoc; reflexivity).
    destruct (runs_split _ _ _ _ _ _ _ H Et') as (k1 & k2 & Hk & S & _). pose proof (step_get _ _ _ _ _ _ _ S) as G.
    destruct (writes id b1) as [|n] eqn:W.
    + left. apply writes_zero in W. rewrite (quiet_cache _ _ a c1 (GDo i (VUnlock id) :: b1) k1 id H1 Hk), C1 in G; [injection G as -> _ _; reflexivity|].
      intros j z [X|X]; [discriminate X|exact (W _ _ X)].
    + right. destruct (writes_last _ _ _ W) as (w1 & j & z & w2 & Ew & Nw & _).
      assert (Wr : written (a ++ GDo i (VUnlock id) :: b1) id z) by (exists (a ++ GDo i (VUnlock id) :: w1), j, w2; split; [rewrite Ew, <- app_assoc; reflexivity|exact Nw]).
      assert (z = Some (email2, token2, expires)) as ->.
      { rewrite G. destruct (runs_cache _ _ _ _ Hk id) as [[Nv _]|Wc]; [destruct (written_never _ _ _ Wr Nv)|exact (written_fun _ _ _ _ Wr Wc)]. }
      exists (a ++ GDo i (VUnlock id) :: w1), j, token2, expires, (w2 ++ GDo i (VGet id (Some (email2, token2, expires))) :: b2), message, r, o.
      split; [rewrite Et', Ew; repeat (rewrite <- app_assoc; cbn [app]); reflexivity|]. split; [apply in_or_app; right; left; reflexivity|]. split; [exact Sc|].
      apply in_or_app. right. right. apply did_in. rewrite D2. right. right. left. reflexivity.
  - right. destruct R as (o1 & o2 & body & n & now & _ & _ & _ & _ & ->).
    destruct (did_split i b (VLock id :: VGet id c :: pre ++ [VHttp (metadata_request (base id) (B "email")) o1; VHttp (metadata_request (base id) (B "token")) o2; VNow now])
      (VSet id (Some (email2, token2, expires))) [VUnlock id; VHttp r o]) as (b1 & b2 & Eb & _ & D2).
    { rewrite Db. cbn [app]. repeat (rewrite <- app_assoc; cbn [app]). reflexivity. }
    exists (a ++ GDo i (VUnlock id) :: b1), i, token2, expires, b2, message, r, o.
    split; [rewrite Et, Eb, <- app_assoc; reflexivity|]. split; [apply in_or_app; right; left; reflexivity|]. split; [exact Sc|].
    apply did_in. rewrite D2. right. left. reflexivity.
Qed.

Lemma change_parts d base tr cfg i bt signs pre t1 t2 account usb message s : runs d base tr cfg -> honest signs i tr ->
  bt_base_url bt = base (bt_id bt) -> did i tr = pre ++ t1 ++ t2 -> authorized (KBoundToken bt) t1 account -> signed d (KBoundToken bt) usb message t2 s ->
  exists other, named (base (bt_id bt)) tr account /\ named (base (bt_id bt)) tr other /\ signs other message s /\ (other = account \/ renewed tr (bt_id bt) i other).
Proof.
  intros H T Eb E Au Sg. inversion Au as [| |bt' em tk tr' L1]; subst. rewrite Eb in L1.
  inversion Sg as [|bt' other tk2 l r out body m sg L2 Sc A Bb]; subst. rewrite Eb in L2.
  assert (E2 : did i tr = (pre ++ t1) ++ l ++ [VHttp r out]) by (rewrite E, <- app_assoc; reflexivity).
  exists other. split; [exact (fetched_named _ _ _ _ (lookup_fetched _ _ _ _ _ _ _ _ _ _ _ H E L1))|].
  split; [exact (fetched_named _ _ _ _ (lookup_fetched _ _ _ _ _ _ _ _ _ _ _ H E2 L2))|].
  split; [|exact (lookups_agree _ _ _ _ _ _ _ _ _ _ _ _ _ _ _ _ H E L1 L2 Sc)].
  eapply (T other tk2 message r out body); [|exact Sc|exact A|exact Bb]. apply did_in. rewrite E2. apply in_or_app. right. apply in_or_app. right. left. reflexivity.
Qed.

(** * C108 *)

Theorem C108_form d base tr cfg i calls o bt signs fields policy :
  runs d base tr cfg -> honest signs i tr ->
  runs_call tr i (CallForm (builder_of calls)) -> last_options calls o -> so_signing_key o = KBoundToken bt -> In (GEnd i (Returned (AForm (Ok fields)))) tr ->
  In (B "policy", policy) fields ->
  exists t pre rest account other s, build_time o t pre /\ did i tr = pre ++ rest /\ named (base (bt_id bt)) tr account /\ named (base (bt_id bt)) tr other /\
    signs other policy s /\ (other = account \/ renewed tr (bt_id bt) i other) /\
    forall verifies now form extra size, Permutation form (fields ++ extra) -> Forall (fun f => exists r, fst f = B "x-ignore-" ++ r) extra ->
      (upload_accepted verifies now form size account policy s <->
       consistent_meta calls /\ issued_length fields size /\ t / 1000000000 <= now < so_expiration o / 1000000000 /\ verifies account policy s).
Proof.
  intros H T R Lo K I Ip. destruct (returned _ _ _ _ _ _ _ H R I) as [F Q]. apply returned_form in Q.
  assert (Ck : call_key (CallForm (builder_of calls)) = Some (KBoundToken bt)).
  { cbn [call_key]. rewrite (proj1 (options_iff _ _) Lo). cbn [option_map]. rewrite K. reflexivity. }
  pose proof (F bt Ck) as Eb.
  destruct (C102_issued _ _ _ _ _ _ Lo Q Ip) as (t & pre & t1 & t2 & account & s & Tm & E & Au & Sg & X).
  rewrite K in Au, Sg. destruct (change_parts _ _ _ _ _ _ _ _ _ _ _ _ _ _ H T Eb E Au Sg) as (other & N1 & N2 & Sn & C).
  exists t, pre, (t1 ++ t2), account, other, s. auto 10.
Qed.

Theorem C108_url d base tr cfg i o bt signs url path query sig headers own segs out : deps_ok d ->
  runs d base tr cfg -> honest signs i tr ->
  runs_call tr i (CallUrl o) -> o_signing_key o = KBoundToken bt -> In (GEnd i (Returned (AUrl (Ok url)))) tr -> url_parts url path query sig ->
  own_parameters (requested o) own -> Forall valid_pair (own ++ o_query_parameters o) -> utf8_valid (region_of o) = true ->
  sends o headers -> named_segments (requested o) segs -> path_segments segs out ->
  exists t pre rest account other canonical message s, url_time o t pre /\ did i tr = pre ++ rest /\
    named (base (bt_id bt)) tr account /\ named (base (bt_id bt)) tr other /\
    canonical_text (o_http_method o) path query (o_headers o) canonical /\ message_text (t / 1000000000) (region_of o) canonical message /\
    signs other message s /\ (other = account \/ renewed tr (bt_id bt) i other) /\
    (utf8_valid account = true -> forall sv now, server_ok sv ->
      let fits := acceptable sv (d_path_caret d) o own out account /\ t / 1000000000 <= now < t / 1000000000 + (o_expires o - t) / 1000000000 /\ sv_verifies sv account message s in
      (fits -> accepts sv now (issued o path query sig headers) account message s) /\
      (accepts sv now (issued o path query sig headers) account message s -> fits \/ collision canonical)).
Proof.
  intros D H T R K I P Own Vp Vr Se Ns Ps. destruct (returned _ _ _ _ _ _ _ H R I) as [F Q]. apply returned_url in Q. pose proof (F bt (f_equal Some K)) as Eb.
  destruct (C96_exactly _ _ _ _ _ _ _ _ _ _ _ D Q P Own Vp Vr Se Ns Ps) as (t & t1 & t2 & t3 & account & canonical & message & s & Tm & E & Au & Sg & Ct & Mt & X).
  rewrite K in Au, Sg. destruct (change_parts _ _ _ _ _ _ _ _ _ _ _ _ _ _ H T Eb E Au Sg) as (other & N1 & N2 & Sn & C).
  exists t, t1, (t2 ++ t3), account, other, canonical, message, s. auto 12.
Qed.

(** * Cases *)

(** A form fetches a token of the old account that lasts for 31 seconds; two seconds later another form fetches one of the new account;
    then the first form finds that one and has its policy signed by the new account. *)
Definition demo_change : list move := [
  MSpawn demo_bound_form; MSpawn demo_bound_form;
  MStep 0 RUnit; MStep 0 RUnit; MStep 0 RUnit; MStep 0 (ok_response (B "old@example.com")); MStep 0 RUnit;
  MStep 0 (ok_response (B "{""access_token"":""tok0"",""expires_in"":31,""token_type"":""Bearer""}")); MStep 0 (RNow demo_time); MStep 0 RUnit; MStep 0 RUnit;
  MStep 1 RUnit; MStep 1 RUnit; MStep 1 (RNow (demo_time + 2 * NS)); MStep 1 RUnit; MStep 1 (ok_response (B "new@example.com")); MStep 1 RUnit;
  MStep 1 token_ok; MStep 1 (RNow (demo_time + 2 * NS)); MStep 1 RUnit; MStep 1 RUnit;
  MStep 0 RUnit; MStep 0 RUnit; MStep 0 (RNow (demo_time + 3 * NS)); MStep 0 RUnit; MStep 0 RUnit; MStep 0 (ok_response demo_blob_body); MStep 0 RUnit].

Definition new_signs (account message s : str) : Prop := account = B "new@example.com" /\ s = demo_signature.

Definition new_address : str := B "https://iamcredentials.googleapis.com/v1/projects/-/serviceAccounts/new@example.com:signBlob".

(** What task 0 is told: other addresses than those of the metadata server are the new account's, and get the signature. *)
Definition change_answers (v : gevent) : bool :=
  match v with
  | GDo 0 (VHttp r (HttpResponse _ (Some b))) =>
      str_eqb (Effects.rq_method r) (B "GET") || (str_eqb (Effects.rq_url r) new_address && str_eqb b demo_blob_body)
  | _ => true
  end.

Lemma change_honest tr : forallb change_answers tr = true -> honest new_signs 0 tr.
Proof.
  intros F account token message r o body s I Sc (st & _ & ->) Bb. rewrite forallb_forall in F. apply F in I. cbn [change_answers] in I.
  destruct Sc as (M & U & _). rewrite M, U in I. change (str_eqb (B "POST") (B "GET")) with false in I. cbn [orb] in I.
  apply andb_true_iff in I. destruct I as [I1 I2]. apply str_eqb_eq in I1, I2. split.
  - apply (app_inv_head (B "https://iamcredentials.googleapis.com/v1/projects/-/serviceAccounts/") (account ++ B ":signBlob") (B "new@example.com:signBlob")) in I1.
    exact (app_inv_tail (B ":signBlob") account (B "new@example.com") I1).
  - subst body. apply blob_body_spec in Bb. destruct Bb as (blob & E1 & E2). vm_compute in E1. injection E1 as <-. vm_compute in E2. injection E2 as <-. reflexivity.
Qed.

(** All that the theorem supposes of the first form holds, and its credential names the old account. *)
Example C108_case : exists tr cfg fields policy rest, runs demo_deps demo_base tr cfg /\ honest new_signs 0 tr /\
  runs_call tr 0 (CallForm (builder_of demo_form_calls)) /\ In (GEnd 0 (Returned (AForm (Ok fields)))) tr /\ In (B "policy", policy) fields /\
  (exists o, last_options demo_form_calls o /\ so_signing_key o = KBoundToken demo_token) /\
  In (B "x-goog-credential", B "old@example.com" ++ B "/" ++ rest) fields /\
  named (demo_base 7) tr (B "old@example.com") /\ named (demo_base 7) tr (B "new@example.com").
Proof.
  destruct (sim_history demo_deps demo_base demo_change) as [cfg H]; [vm_compute; exact Logic.I|].
  remember (sim demo_deps demo_base demo_change) as tr eqn:Et.
  assert (X : existsb (fun v => match v with GEnd 0 (Returned (AForm (Ok fields))) =>
      existsb (fun f => str_eqb (fst f) (B "policy")) fields &&
      existsb (fun f => str_eqb (fst f) (B "x-goog-credential") && str_eqb (snd f) (B "old@example.com/20200101/auto/storage/goog4_request")) fields | _ => false end) tr = true)
    by (subst tr; vm_compute; reflexivity).
  apply existsb_exists in X. destruct X as (v & I & X). destruct v as [| | |[|n] [[[fields|]|]| |]]; try discriminate X.
  apply andb_true_iff in X. destruct X as [X1 X2]. apply existsb_exists in X1, X2. destruct X1 as ([n1 policy] & I1 & X1), X2 as ([n2 v2] & I2 & X2).
  cbn [fst snd] in X1, X2. apply str_eqb_eq in X1. apply andb_true_iff in X2. destruct X2 as [X2 X3]. apply str_eqb_eq in X2, X3. subst n1 n2 v2.
  assert (N : forall k j who, nth_error tr k = Some (GDo j (VHttp (metadata_request (demo_base 7) (B "email")) (HttpResponse 200 (Some who)))) -> named (demo_base 7) tr who).
  { intros k j who E. apply nth_error_In in E. exists j. eexists. split; [exact E|]. exists 200%N. split; [|reflexivity]. split; vm_compute; congruence. }
  exists tr, cfg, fields, policy, (B "20200101/auto/storage/goog4_request"). split; [exact H|]. split; [apply change_honest; subst tr; vm_compute; reflexivity|].
  split; [apply (nth_error_In tr 0); subst tr; vm_compute; reflexivity|].
  split; [exact I|]. split; [exact I1|]. split.
  { eexists. split; [exists [CBucket (B "bucket1"); CKey (B "a/b"); CContentLength 3; CXGoogMeta (B "who") (B "me ""you""")], []; split; [reflexivity|intros o []]|]. reflexivity. }
  split; [exact I2|]. split; [apply (N 5%nat 0%nat)|apply (N 15%nat 1%nat)]; subst tr; vm_compute; reflexivity.
Qed.

(** A form fetches a token, and a URL is made from the cache. *)
Example C108_url_case : exists tr cfg url path query sig, runs demo_deps demo_base tr cfg /\ honest (fun _ _ s => s = demo_signature) 1 tr /\
  runs_call tr 1 (CallUrl demo_bound_url) /\ o_signing_key demo_bound_url = KBoundToken demo_token /\ In (GEnd 1 (Returned (AUrl (Ok url)))) tr /\ url_parts url path query sig /\
  own_parameters (requested demo_bound_url) [] /\ Forall valid_pair ([] ++ o_query_parameters demo_bound_url) /\ utf8_valid (region_of demo_bound_url) = true /\
  sends demo_bound_url (demo_headed_request (B "X-Goog-Meta-A") (B "1 2")) /\
  named_segments (requested demo_bound_url) [B "bucket1"; B "a"] /\ path_segments [B "bucket1"; B "a"] [B "bucket1"; B "a"].
Proof.
  destruct demo_form_returns as [fields Rf]. destruct demo_url_returns as (m & url & Ru & path & query & sig & P).
  assert (F1 : fits demo_base demo_bound_form) by (apply fits_bool_ok; vm_compute; reflexivity).
  assert (F2 : fits demo_base (CallUrl demo_bound_url)) by (apply fits_bool_ok; vm_compute; reflexivity).
  assert (S1 : solo 7 false None demo_form_did) by (vm_compute; repeat split).
  destruct (solo_next _ demo_base 7 _ _ _ _ _ (runs_nil _ _) eq_refl F1 Rf S1) as (cfg1 & H1 & O1 & C1 & L1). cbn [initial tasks length caches app] in H1, C1, L1.
  assert (Ec : left_over None demo_form_did = demo_entry) by (vm_compute; reflexivity). rewrite Ec in C1.
  assert (S2 : solo 7 false (caches cfg1 7%N) (demo_url_did m)) by (rewrite C1; cbn; repeat split).
  destruct (solo_next _ demo_base 7 _ _ _ _ _ H1 O1 F2 Ru S2) as (cfg & H2 & _). rewrite L1 in H2.
  match type of H2 with runs _ _ ?l _ => remember l as tr eqn:Et end.
  destruct C96_case as (_ & _ & Own & Vp & _ & Se & Ns & Ps & _).
  exists tr, cfg, url, path, query, sig. split; [exact H2|]. split.
  { intros account token message r o body s I Sc A Bb. rewrite Et in I. apply in_app_or in I. destruct I as [I|I]; apply alone_in in I; destruct I as [X I]; [discriminate X|].
    assert (G : demo_answer r o = true).
    { change (answers_ok (VHttp r o) = true). unfold demo_url_did, demo_hit in I. cbn [app In] in I. repeat (destruct I as [<-|I]; [vm_compute; reflexivity|]). contradiction. }
    assert (body = demo_blob_body) as -> by (apply (answered_fun _ _ _ A); eapply (demo_answer_ok _ _ G); exact Sc).
    apply blob_body_spec in Bb. destruct Bb as (blob & E1 & E2). vm_compute in E1. injection E1 as <-. vm_compute in E2. injection E2 as <-. reflexivity. }
  split; [rewrite Et; unfold runs_call; apply in_or_app; right; left; reflexivity|]. split; [reflexivity|].
  split; [rewrite Et; apply in_or_app; right; right; apply in_or_app; right; left; reflexivity|].
  split; [exact P|]. split; [exact Own|]. split; [exact Vp|]. split; [reflexivity|]. split; [exact Se|]. split; [exact Ns|exact Ps].
Qed.
