(** C99, C100: what calls with a bound token give when the servers do their work. *)
From Coq Require Import Permutation.
From Verif Require Import Base BaseFacts Time Json Effects EffectsFacts Keys KeysFacts Url Scope HtmlForm SignedUrl Calls CallFacts RefreshFacts SpecCodec SpecJson SpecPolicy SpecToken TokenFacts SpecTrace SpecSecret
  SpecSign SpecForm SpecUrl SpecMessages SpecTexts FormFacts UrlFacts SignedUrlFacts HeaderFacts UrlResult Conc SpecConc ConcFacts Sim Demo Prop_Form Prop_Url Prop_Keys Prop_Conc
  Prop_Messages Prop_Ascii Prop_Texts Prop_Secret SpecUpload Prop_Upload Utf8 Prop_UrlQuery SpecServer Prop_Server SpecPath Prop_Parameter SpecName SpecParameter SpecExact Prop_Exact SpecPlatform.
Local Open Scope Z_scope.

(** * What a lookup gives was given by the metadata server *)

Definition fetched (base : str) (tr : list gevent) (email token : str) : Prop :=
  exists k o1 o2 body n, In (GDo k (VHttp (metadata_request base (B "email")) o1)) tr /\ In (GDo k (VHttp (metadata_request base (B "token")) o2)) tr /\
    answered o1 email /\ answered o2 body /\ token_body body token n (B "Bearer").

Lemma refreshed_fetched base tr i id email token expires l : refreshed id base email token expires l -> (forall v, In v l -> In (GDo i v) tr) -> fetched base tr email token.
Proof.
  intros (o1 & o2 & body & n & now & A1 & A2 & T & _ & ->) I. exists i, o1, o2, body, n.
  split; [apply I; left; reflexivity|]. split; [apply I; right; left; reflexivity|]. auto.
Qed.

Lemma entry_fetched d base tr cfg j id email token expires : runs d base tr cfg -> In (GDo j (VGet id (Some (email, token, expires)))) tr ->
  fetched (base id) tr email token.
Proof.
  intros H I. apply in_split in I. destruct I as (a & b & E).
  destruct (C32_read _ _ _ _ _ _ _ _ _ H E) as [[Y _]|(a' & k & b' & Ea & _)]; [discriminate Y|].
  assert (Ek : tr = a' ++ GDo k (VSet id (Some (email, token, expires))) :: b' ++ GDo j (VGet id (Some (email, token, expires))) :: b) by (rewrite E, Ea, <- app_assoc; reflexivity).
  destruct (write_refreshed _ _ _ _ _ _ _ _ _ H Ek) as (em & tk & ex & x & l & Ev & _ & D & Rf). injection Ev as <- <- <-.
  eapply (refreshed_fetched _ _ k); [exact Rf|]. intros v Iv.
  assert (Y : In v (did k (a' ++ [GDo k (VSet id (Some (email, token, expires)))]))) by (rewrite D; apply in_or_app; right; exact Iv).
  apply did_in in Y. rewrite Ek. apply in_snoc in Y. apply in_or_app. destruct Y as [Y|Y]; [left; exact Y|right; left; symmetry; exact Y].
Qed.

Lemma lookup_fetched d base tr cfg i id email token x l y : runs d base tr cfg -> did i tr = x ++ l ++ y -> lookup id (base id) email token l ->
  fetched (base id) tr email token.
Proof.
  intros H E L. assert (I : forall v, In v l -> In (GDo i v) tr).
  { intros v Iv. apply did_in. rewrite E. apply in_or_app. right. apply in_or_app. left. exact Iv. }
  destruct L as [expires now F|c pre expires l' N R].
  - eapply entry_fetched; [exact H|]. apply I. right. left. reflexivity.
  - eapply refreshed_fetched; [exact R|]. intros v Iv. apply I. right. right. apply in_or_app. right. apply in_or_app. left. exact Iv.
Qed.

Lemma fetched_truthful base account signs tr email token : truthful base account signs tr -> fetched base tr email token -> email = account.
Proof. intros T (k & o1 & _ & _ & _ & I & _ & A & _). exact (tf_email _ _ _ _ T _ _ _ I A). Qed.

Lemma answered_fun o x y : answered o x -> answered o y -> x = y.
Proof. intros (s & _ & ->) (s' & _ & E). injection E as _ ->. reflexivity. Qed.

Lemma fetched_served base account i tr email token : well_served base account i tr -> fetched base tr email token -> email = account /\ SpecSecret.sendable token.
Proof.
  intros W (k & o1 & o2 & body & n & I1 & I2 & A1 & A2 & T). split.
  - exact (ws_named _ _ _ _ W _ _ _ I1 A1).
  - exact (ws_given _ _ _ _ W _ _ _ _ _ I2 A2 T).
Qed.

(** What a returned call did. *)
Lemma returned d base tr cfg i c a : runs d base tr cfg -> runs_call tr i c -> In (GEnd i (Returned a)) tr -> fits base c /\ returns (run_call d c) (did i tr) a.
Proof.
  intros H R I. apply (li_ended _ _ _ _ (runs_local _ _ _ _ H)) in I. destruct I as [c' A].
  apply (li_spawn _ _ _ _ (runs_local _ _ _ _ H)) in R. destruct R as [s A']. destruct (at_fun _ _ _ _ _ _ A A') as [-> ->].
  split; [exact (li_fits _ _ _ _ (runs_local _ _ _ _ H) _ _ _ A)|].
  destruct (li_steps _ _ _ _ (runs_local _ _ _ _ H) _ _ _ A) as (p & S & [X|X]); [|discriminate X]. injection X as <-. exact S.
Qed.

Lemma returned_form d b l r : returns (run_call d (CallForm b)) l (AForm r) -> returns (build d b) l r.
Proof.
  cbn [run_call]. intros H. apply steps_bind_inv in H. destruct H as [(p & H & E)|(a & t1 & t2 & H1 & H & ->)].
  - destruct p; try discriminate E. cbn [bind] in E. discriminate E || (injection E as ->; exact H).
  - apply steps_ret in H. destruct H as [-> E]. injection E as ->. rewrite app_nil_r. exact H1.
Qed.
Lemma returned_url d o l r : returns (run_call d (CallUrl o)) l (AUrl r) -> returns (build_signed_url d o) l r.
Proof.
  cbn [run_call]. intros H. apply steps_bind_inv in H. destruct H as [(p & H & E)|(a & t1 & t2 & H1 & H & ->)].
  - destruct p; try discriminate E. cbn [bind] in E. discriminate E || (injection E as ->; exact H).
  - apply steps_ret in H. destruct H as [-> E]. injection E as ->. rewrite app_nil_r. exact H1.
Qed.

(** * C99 *)

Lemma truthful_parts d base tr cfg i bt account signs pre t1 t2 email usb message s : runs d base tr cfg -> truthful (base (bt_id bt)) account signs tr ->
  bt_base_url bt = base (bt_id bt) -> did i tr = pre ++ t1 ++ t2 -> authorized (KBoundToken bt) t1 email -> signed d (KBoundToken bt) usb message t2 s ->
  email = account /\ signs message s.
Proof.
  intros H T Eb E Au Sg. inversion Au as [| |bt' em tk tr' L1]; subst. rewrite Eb in L1.
  pose proof (fetched_truthful _ _ _ _ _ _ T (lookup_fetched _ _ _ _ _ _ _ _ _ _ _ H E L1)) as ->. split; [reflexivity|].
  inversion Sg as [|bt' em2 tk2 l r out body m sg L2 Sc A Bb]; subst. rewrite Eb in L2.
  assert (E2 : did i tr = (pre ++ t1) ++ l ++ [VHttp r out]) by (rewrite E, <- app_assoc; reflexivity).
  pose proof (fetched_truthful _ _ _ _ _ _ T (lookup_fetched _ _ _ _ _ _ _ _ _ _ _ H E2 L2)) as ->.
  eapply (tf_sign _ _ _ _ T i); [|exact Sc|exact A|exact Bb]. apply did_in. rewrite E2. apply in_or_app. right. apply in_or_app. right. left. reflexivity.
Qed.

Theorem C99_url d base tr cfg i o bt account signs url path query sig headers own segs out : deps_ok d ->
  runs d base tr cfg -> truthful (base (bt_id bt)) account signs tr ->
  runs_call tr i (CallUrl o) -> o_signing_key o = KBoundToken bt -> In (GEnd i (Returned (AUrl (Ok url)))) tr -> url_parts url path query sig ->
  own_parameters (requested o) own -> Forall valid_pair (own ++ o_query_parameters o) -> utf8_valid (region_of o) = true -> utf8_valid account = true ->
  sends o headers -> named_segments (requested o) segs -> path_segments segs out ->
  exists t pre rest message s, url_time o t pre /\ did i tr = pre ++ rest /\ signs message s /\
    forall sv now, server_ok sv -> (forall m x, signs m x -> sv_verifies sv account m x) -> acceptable sv (d_path_caret d) o own out account ->
      t / 1000000000 <= now < t / 1000000000 + (o_expires o - t) / 1000000000 ->
      accepts sv now (issued o path query sig headers) account message s.
Proof.
  intros D H T R K I P Own Vp Vr Va Se Ns Ps. destruct (returned _ _ _ _ _ _ _ H R I) as [F Q]. apply returned_url in Q. pose proof (F bt (f_equal Some K)) as Eb.
  destruct (C96_exactly _ _ _ _ _ _ _ _ _ _ _ D Q P Own Vp Vr Se Ns Ps) as (t & t1 & t2 & t3 & email & canonical & message & s & Tm & E & Au & Sg & _ & _ & X).
  rewrite K in Au, Sg. destruct (truthful_parts _ _ _ _ _ _ _ _ _ _ _ _ _ _ _ H T Eb E Au Sg) as [-> Sn].
  exists t, t1, (t2 ++ t3), message, s. split; [exact Tm|]. split; [exact E|]. split; [exact Sn|].
  intros sv now Ok V Ac W. apply (X Va sv now Ok). split; [exact Ac|]. split; [exact W|]. apply V. exact Sn.
Qed.

Theorem C99_form d base tr cfg i calls o bt account signs fields :
  runs d base tr cfg -> truthful (base (bt_id bt)) account signs tr ->
  runs_call tr i (CallForm (builder_of calls)) -> last_options calls o -> so_signing_key o = KBoundToken bt -> In (GEnd i (Returned (AForm (Ok fields)))) tr ->
  NoDup (map fst (meta_pairs calls)) ->
  exists t pre rest policy s, build_time o t pre /\ did i tr = pre ++ rest /\ signs policy s /\ In (B "policy", policy) fields /\
    forall (verifies : str -> str -> str -> Prop) now form extra size, (forall m x, signs m x -> verifies account m x) ->
      Permutation form (fields ++ extra) -> Forall (fun f => exists r, fst f = B "x-ignore-" ++ r) extra ->
      (forall v n, In (B "Content-Length", v) fields -> decimal_of n v -> size = n) ->
      t / 1000000000 <= now < so_expiration o / 1000000000 -> upload_accepted verifies now form size account policy s.
Proof.
  intros H T R Lo K I ND. destruct (returned _ _ _ _ _ _ _ H R I) as [F Q]. apply returned_form in Q.
  assert (Ck : call_key (CallForm (builder_of calls)) = Some (KBoundToken bt)).
  { cbn [call_key]. rewrite (proj1 (options_iff _ _) Lo). cbn [option_map]. rewrite K. reflexivity. }
  pose proof (F bt Ck) as Eb.
  destruct (C86_accepted _ _ _ _ _ Lo Q ND) as (t & pre & t1 & t2 & email & policy & s & Tm & E & Au & Sg & Ip & X).
  rewrite K in Au, Sg. destruct (truthful_parts _ _ _ _ _ _ _ _ _ _ _ _ _ _ _ H T Eb E Au Sg) as [-> Sn].
  exists t, pre, (t1 ++ t2), policy, s. split; [exact Tm|]. split; [exact E|]. split; [exact Sn|]. split; [exact Ip|].
  intros verifies now form extra size V Pm Ex Sz Now. eapply X; try eassumption. apply V. exact Sn.
Qed.

(** * C100 *)

Lemma email_buildable d bt account : reachable d (bt_base_url bt) account -> buildable d (email_request bt).
Proof. intros (U & _ & _). rewrite email_request_spec. split; [exact U|reflexivity]. Qed.
Lemma token_buildable d bt account : reachable d (bt_base_url bt) account -> buildable d (token_request bt).
Proof. intros (_ & U & _). rewrite token_request_spec. split; [exact U|reflexivity]. Qed.
Lemma blob_buildable d base account token message : reachable d base account -> SpecSecret.sendable token -> buildable d (sign_blob_request account token message).
Proof.
  intros (_ & _ & U) S. split; [exact U|]. change (header_value_ok (B "Bearer " ++ token) && (header_value_ok (B "application/json") && true) = true)%bool.
  apply andb_true_iff. split; [|reflexivity]. unfold header_value_ok. rewrite forallb_app. apply andb_true_iff. split; [reflexivity|]. exact (sendable_ok token S).
Qed.

(** A request that failed was not answered. *)
Lemma request_failed d e1 e2 e3 e4 e5 r l e : request_failure d e1 e2 e3 e4 e5 r l e -> buildable d r -> exists o, l = [VHttp r o] /\ forall body, ~ answered o body.
Proof.
  intros F Bd. destruct F as [N| |s N|s b N|s _].
  - destruct (N Bd).
  - eexists. split; [reflexivity|]. intros body (s & _ & X). discriminate X.
  - eexists. split; [reflexivity|]. intros body (s' & _ & X). discriminate X.
  - eexists. split; [reflexivity|]. intros body (s' & S & X). injection X as <- _. exact (N S).
  - eexists. split; [reflexivity|]. intros body (s' & _ & X). discriminate X.
Qed.

Lemma lookup_works d base tr i bt account x l y e : well_served (base (bt_id bt)) account i tr -> reachable d (base (bt_id bt)) account ->
  bt_base_url bt = base (bt_id bt) -> did i tr = x ++ l ++ y -> lookup_failure d bt l e -> False.
Proof.
  intros W U Eb E F0. revert E. destruct F0 as [c pre l' e' N F]. intros E. rewrite <- Eb in W, U.
  assert (I : forall v, In v l' -> In (GDo i v) tr).
  { intros v Iv. apply did_in. rewrite E. apply in_or_app. right. apply in_or_app. left. right. right. apply in_or_app. right. apply in_or_app. left. exact Iv. }
  destruct F as [l1 e1 F|o1 em l1 e1 A F|o1 em o2 body A1 A2 Nb|o1 em o2 body t n ty A1 A2 T Ny].
  - apply request_failed in F; [|eapply email_buildable; exact U]. destruct F as (o & -> & F). destruct (ws_email _ _ _ _ W o) as [b A]; [|exact (F _ A)].
    rewrite <- email_request_spec. apply I. left. reflexivity.
  - apply request_failed in F; [|eapply token_buildable; exact U]. destruct F as (o & -> & F).
    destruct (ws_token _ _ _ _ W o) as (body & token & n & A2 & _); [|exact (F _ A2)]. rewrite <- token_request_spec. apply I. right. left. reflexivity.
  - destruct (ws_token _ _ _ _ W o2) as (body' & token & n & A' & T); [rewrite <- token_request_spec; apply I; right; left; reflexivity|].
    rewrite (answered_fun _ _ _ A' A2) in T. exact (Nb _ _ _ T).
  - destruct (ws_token _ _ _ _ W o2) as (body' & token & n' & A' & T'); [rewrite <- token_request_spec; apply I; right; left; reflexivity|].
    rewrite (answered_fun _ _ _ A' A2) in T'. apply token_body_spec in T, T'. rewrite T in T'. injection T' as _ _ X. exact (Ny X).
Qed.

Lemma signing_works d base tr cfg i bt account message x l e : runs d base tr cfg -> well_served (base (bt_id bt)) account i tr -> reachable d (base (bt_id bt)) account ->
  bt_base_url bt = base (bt_id bt) -> did i tr = x ++ l -> returns (bound_token_sign d bt message) l (Err e) -> False.
Proof.
  intros H W U Eb E S. apply bound_token_sign_steps in S. inversion S as [? ? ? ? ? ? Nr|l' e' F| |l1 l2 em tk e' L F|l1 em tk o body e' L A Nb _|]; subst.
  - exact (Nr _ eq_refl).
  - eapply lookup_works; [exact W|exact U|exact Eb|rewrite <- (app_nil_r l) in E; exact E|exact F].
  - pose proof L as L0. rewrite Eb in L. destruct (fetched_served _ _ _ _ _ _ W (lookup_fetched _ _ _ _ _ _ _ _ _ _ _ H E L)) as [-> St].
    apply request_failed in F; [|eapply blob_buildable; [exact U|exact St]]. destruct F as (o & -> & F).
    destruct (ws_sign _ _ _ _ W tk message (sign_blob_request account tk message) o) as (body & s & A & _); [|apply sign_blob_request_spec|exact (F _ A)].
    apply did_in. rewrite E. apply in_or_app. right. apply in_or_app. right. left. reflexivity.
  - rewrite Eb in L. destruct (fetched_served _ _ _ _ _ _ W (lookup_fetched _ _ _ _ _ _ _ _ _ _ _ H E L)) as [-> St].
    destruct (ws_sign _ _ _ _ W tk message (sign_blob_request account tk message) o) as (body' & s & A' & Bb); [|apply sign_blob_request_spec|].
    { apply did_in. rewrite E. apply in_or_app. right. apply in_or_app. right. left. reflexivity. }
    rewrite (answered_fun _ _ _ A' A) in Bb. exact (Nb _ Bb).
Qed.

Lemma auth_works d base tr i bt account x l y e : well_served (base (bt_id bt)) account i tr -> reachable d (base (bt_id bt)) account ->
  bt_base_url bt = base (bt_id bt) -> did i tr = x ++ l ++ y -> returns (authorizer d (KBoundToken bt)) l (Err e) -> False.
Proof.
  intros W U Eb E S. apply auth_err in S. destruct S as (e' & -> & S). apply get_err in S. eapply lookup_works; eassumption.
Qed.
Lemma sign_works d base tr cfg i bt account message x l e : runs d base tr cfg -> well_served (base (bt_id bt)) account i tr -> reachable d (base (bt_id bt)) account ->
  bt_base_url bt = base (bt_id bt) -> did i tr = x ++ l -> returns (sign d (KBoundToken bt) true message) l (Err e) -> False.
Proof.
  intros H W U Eb E S. cbn [sign] in S. apply returns_bind_ok_inv in S. destruct S as [(s & t3 & t4 & _ & S & _)|(e' & S & X)].
  - apply returns_ret_inv in S. destruct S as [_ S]. discriminate S.
  - eapply signing_works; eassumption.
Qed.

Theorem C100_form d base tr cfg i calls o bt account e :
  runs d base tr cfg -> well_served (base (bt_id bt)) account i tr -> reachable d (base (bt_id bt)) account -> clocks_in_range (base (bt_id bt)) i tr ->
  runs_call tr i (CallForm (builder_of calls)) -> last_options calls o -> so_signing_key o = KBoundToken bt -> so_use_sign_blob o = true ->
  (forall t pre rest v, build_time o t pre -> did i tr = pre ++ rest -> ~ violation calls o t v) -> ~ empty_meta calls ->
  In (GEnd i e) tr -> e = Cancelled \/ exists fields, e = Returned (AForm (Ok fields)).
Proof.
  intros H W U [Clock Range] R Lo K Us NV NM I.
  assert (Ck : call_key (CallForm (builder_of calls)) = Some (KBoundToken bt)).
  { cbn [call_key]. rewrite (proj1 (options_iff _ _) Lo). cbn [option_map]. rewrite K. reflexivity. }
  destruct e as [a|s|]; [right| |left; reflexivity].
  2:{ exfalso. eapply (C39_no_panic_form d base tr cfg i s (bt_id bt) calls); try eassumption. exists (CallForm (builder_of calls)), bt. auto. }
  destruct (returned _ _ _ _ _ _ _ H R I) as [F Q]. pose proof (F bt Ck) as Eb.
  destruct a as [[fields|x]|x]; [eauto| |].
  2:{ exfalso. cbn [run_call] in Q. apply steps_bind_inv in Q. destruct Q as [(p & _ & E)|(a & t1 & t2 & _ & Q & _)]; [destruct p; discriminate E|].
      apply steps_ret in Q. destruct Q as [_ Q]. discriminate Q. }
  exfalso. apply returned_form in Q. pose proof Lo as Lo'. apply options_iff in Lo'. apply (build_split d _ o) in Q; [|exact Lo'].
  destruct Q as [(_ & E & A)|(t & pre & l & T & E & Q)]; [unfold build, build_policy in E; rewrite Lo', A in E; discriminate E|].
  destruct (violation_or_sound calls o t) as [[v V]|S]; [exact (NV _ _ _ _ T E V)|].
  apply sound_rest in Q; [|exact S]. destruct Q as (f & Q & G).
  apply returns_bind_ok_inv in Q. destruct Q as [(p & t1 & t2 & Q1 & Q & ->)|(e' & Q & X)].
  - destruct S as (_ & _ & _ & _ & Uk & _). rewrite (slot_unset _ _ _ (key_slot calls)) in Uk.
    destruct (b_key (builder_of calls)) as [key|]; [|congruence].
    pose proof (meta_fields_spec (b_x_goog_meta (builder_of calls))) as M.
    destruct (meta_fields (b_x_goog_meta (builder_of calls))) as [fs|em]; apply returns_ret_inv in Q; destruct Q as [_ Q]; [discriminate Q|].
    destruct M as [_ M]. apply NM, empty_meta_iff, M.
  - injection X as ->. apply returns_bind_ok_inv in Q. destruct Q as [(email & t3 & t4 & Ha & Q1 & ->)|(y & Q & X)].
    + destruct (G email) as [[M _]|[_ (m & g & G')]]; [exact (NM M)|]. rewrite G' in Q1.
      apply returns_bind_ok_inv in Q1. destruct Q1 as [(y & t5 & t6 & _ & Q1 & _)|(y & Q1 & X)].
      * apply returns_ret_inv in Q1. destruct Q1 as [_ Q1]. discriminate Q1.
      * rewrite K, Us in Q1. eapply sign_works; [exact H|exact W|exact U|exact Eb|rewrite E, app_assoc; reflexivity|exact Q1].
    + rewrite K in Q. eapply auth_works; [exact W|exact U|exact Eb|rewrite <- (app_nil_r l) in E; exact E|exact Q].
Qed.

Theorem C100_url d base tr cfg i o bt account e : deps_ok d ->
  runs d base tr cfg -> well_served (base (bt_id bt)) account i tr -> reachable d (base (bt_id bt)) account -> clocks_in_range (base (bt_id bt)) i tr ->
  runs_call tr i (CallUrl o) -> o_signing_key o = KBoundToken bt -> o_use_sign_blob o = true ->
  (forall t pre rest, url_time o t pre -> did i tr = pre ++ rest -> url_valid d o t) -> Forall (fun h => ~ beyond_ascii h) (o_headers o) ->
  In (GEnd i e) tr ->
  e = Cancelled \/ (exists url, e = Returned (AUrl (Ok url))) \/
  e = Panicked PUri /\ exists ps, map fst ps = added_names /\ (65534 < N.of_nat (length (extended d o ps)))%N.
Proof.
  intros D H W U [Clock Range] R K Us Vd NA I.
  assert (Ck : call_key (CallUrl o) = Some (KBoundToken bt)) by (cbn [call_key]; rewrite K; reflexivity).
  destruct e as [a|s|]; [right; left| |left; reflexivity].
  - destruct (returned _ _ _ _ _ _ _ H R I) as [F Q]. pose proof (F bt Ck) as Eb.
    destruct a as [x|[url|x]]; [|eauto|].
    { exfalso. cbn [run_call] in Q. apply steps_bind_inv in Q. destruct Q as [(p & _ & E)|(a & t1 & t2 & _ & Q & _)]; [destruct p; discriminate E|].
      apply steps_ret in Q. destruct Q as [_ Q]. discriminate Q. }
    exfalso. apply returned_url in Q. apply url_start_ret in Q. destruct Q as (t & pre & rest & T & E & Q).
    pose proof (Vd _ _ _ T E) as V.
    destruct (build_cases d o t) as [(e' & V' & _)|[(_ & _ & _ & _ & _ & O & _)|(_ & verb & Ev & E')]].
    + destruct V as (V1 & V2 & V3 & V4 & V5 & V6 & V7). destruct V'; try contradiction;
       try (unfold headers_valid in V5; match goal with Y : o_headers o = _ |- _ => rewrite Y in V5 end; apply Forall_app in V5; destruct V5 as [_ V5]; inversion V5; subst; tauto). lia.
    + destruct V as (_ & _ & _ & _ & _ & V & _). congruence.
    + apply (peq_returns _ _ _ _ E') in Q. unfold run_valid in Q. apply returns_bind_ok_inv in Q. destruct Q as [(u & t1 & t2 & _ & Q & _)|(e' & Q & X)].
      * apply returns_ret_inv in Q. destruct Q as [_ Q]. discriminate Q.
      * injection X as ->. apply returns_bind_ok_inv in Q. destruct Q as [(email & t1 & t2 & Q1 & Q & ->)|(y & Q & X)].
        -- unfold sign_step in Q. destruct (too_long _ _ _); [destruct (returns_panic_inv _ _ _ Q)|].
           destruct (block_of d (lowered o)) as [block|] eqn:Bk.
           ++ apply returns_bind_ok_inv in Q. destruct Q as [(s & t3 & t4 & _ & Q & _)|(y & Q & X)]; [apply returns_ret_inv in Q; destruct Q as [_ Q]; discriminate Q|].
              rewrite K, Us in Q. eapply sign_works; [exact H|exact W|exact U|exact Eb|rewrite E, app_assoc; reflexivity|exact Q].
           ++ apply block_ascii in Bk; [|exact D|apply V]. destruct Bk as (h & Ih & A). rewrite Forall_forall in NA. exact (NA _ Ih A).
        -- rewrite K in Q. eapply auth_works; [exact W|exact U|exact Eb|rewrite <- (app_nil_r rest) in E; exact E|exact Q].
  - right. right. assert (Uk : uses_key tr i (bt_id bt)) by (exists (CallUrl o), bt; auto).
    pose proof (C39_no_panic _ _ _ _ _ _ _ H Clock Range Uk I) as P.
    destruct (panicked _ _ _ _ _ _ H I) as (c & R' & _ & Q).
    assert (c = CallUrl o) as ->.
    { apply (li_spawn _ _ _ _ (runs_local _ _ _ _ H)) in R, R'. destruct R as [s1 A1], R' as [s2 A2]. apply (at_fun _ _ _ _ _ _ A1 A2). }
    cbn [run_call] in Q. apply panics_bind_inv in Q. destruct Q as [Q|(r & t1 & t2 & _ & Q & _)]; [|destruct (panics_ret_inv _ _ _ Q)].
    apply url_start_panic in Q. destruct Q as (t & pre & rest & T & E & Q). pose proof (Vd _ _ _ T E) as V.
    assert (LP : forall l, ~ lookup_panic d bt l s).
    { intros l L. destruct L; cbn in P; intuition discriminate. }
    destruct (build_cases d o t) as [(e' & V' & _)|[(_ & _ & _ & _ & _ & O & _)|(_ & verb & Ev & E')]].
    + exfalso. destruct V as (V1 & V2 & V3 & V4 & V5 & V6 & V7). destruct V'; try contradiction;
       try (unfold headers_valid in V5; match goal with Y : o_headers o = _ |- _ => rewrite Y in V5 end; apply Forall_app in V5; destruct V5 as [_ V5]; inversion V5; subst; tauto). lia.
    + exfalso. destruct V as (_ & _ & _ & _ & _ & V & _). congruence.
    + apply (peq_panics _ _ _ _ E') in Q. apply valid_panics in Q; [|exact V|exact Ev]. rewrite K in Q.
      destruct Q as [Q|(t1 & t2 & em & -> & _ & Q)]; [destruct (LP _ (auth_panics _ _ _ _ Q))|].
      unfold sign_step in Q. destruct (too_long _ _ _) eqn:L.
      * apply panics_panic_inv in Q. destruct Q as [_ ->]. split; [reflexivity|].
        exists (five d o (t / NS) (lifetime o t) (lowered o) em). split; [reflexivity|]. rewrite extended_of. unfold too_long in L. apply N.ltb_lt in L. exact L.
      * exfalso. destruct (block_of d (lowered o)); [|destruct (panics_ret_inv _ _ _ Q)]. apply panics_bind_ok_inv in Q.
        destruct Q as [Q|(a & x1 & x2 & _ & Q & _)]; [|destruct (panics_ret_inv _ _ _ Q)]. rewrite K in Q. apply sign_panics in Q. destruct Q as [_ Q]. exact (LP _ Q).
Qed.

(** * Cases: a form that fetches a token, then a URL that is served from the cache *)

(** Histories of one task after the other. *)
Fixpoint solo (id : N) (held : bool) (c : cache) (l : list event) : Prop :=
  match l with
  | [] => held = false
  | VNow _ :: l | VHttp _ _ :: l => solo id held c l
  | VLock i :: l => i = id /\ held = false /\ solo id true c l
  | VUnlock i :: l => i = id /\ solo id false c l
  | VGet i x :: l => i = id /\ x = c /\ solo id held c l
  | VSet i x :: l => i = id /\ solo id held x l
  end.
Fixpoint left_over (c : cache) (l : list event) : cache :=
  match l with [] => c | VSet _ x :: l => left_over x l | _ :: l => left_over c l end.
Definition spread (i : nat) (l : list event) : list gevent :=
  flat_map (fun v => match v with VHttp r _ => [GSend i r; GDo i v] | _ => [GDo i v] end) l.

Lemma put_at cfg i c s s' : at_ cfg i c s -> at_ (put cfg i c s') i c s'.
Proof. intros A. apply (at_put cfg i c s' i c s' c s A). auto. Qed.
Lemma put_length cfg i c s : length (tasks (put cfg i c s)) = length (tasks cfg).
Proof. apply replace_length. Qed.

Lemma solo_runs d base id i cl l : forall p a held c tr cfg, runs d base tr cfg -> at_ cfg i cl (Running p) -> (held = false -> owner cfg id = None) -> caches cfg id = c ->
  returns p l a -> solo id held c l -> exists cfg', runs d base (tr ++ spread i l ++ [GEnd i (Returned a)]) cfg' /\ owner cfg' id = None /\ caches cfg' id = left_over c l /\ length (tasks cfg') = length (tasks cfg).
Proof.
  induction l as [|v l IH]; intros p a held c tr cfg H A O C R S.
  - assert (p = Ret a) as -> by (inversion R; reflexivity). exists (put cfg i cl (Ended (Returned a))). split; [econstructor; [exact H|apply cs_return; exact A]|].
    split; [apply O; exact S|]. split; [exact C|apply put_length].
  - destruct p as [b|s|e k]; [inversion R|inversion R|]. apply returns_act_inv in R. destruct R as (r & l' & E & R).
    destruct e as [|q|n|n|n|n x]; cbn [event_of] in E; injection E as -> ->; cbn [solo spread flat_map left_over app] in *; fold (spread i l').
    + pose proof (runs_snoc _ _ _ _ _ _ H (cs_now _ _ _ _ _ _ r A)) as H1. pose proof (IH _ a held c _ _ H1 (put_at _ _ _ _ _ A) O C R S) as X. rewrite <- app_assoc, put_length in X. exact X.
    + pose proof (runs_snoc _ _ _ _ _ _ H (cs_send _ _ _ _ _ _ _ A)) as H1. pose proof (put_at _ _ _ _ (InFlight q k) A) as A1.
      pose proof (runs_snoc _ _ _ _ _ _ H1 (cs_receive _ _ _ _ _ _ _ r A1)) as H2.
      pose proof (IH _ a held c _ _ H2 (put_at _ _ _ _ _ A1) O C R S) as X. rewrite <- !app_assoc, !put_length in X. exact X.
    + destruct S as (-> & Hh & S). pose proof (runs_snoc _ _ _ _ _ _ H (cs_lock _ _ _ _ _ _ _ A (O Hh))) as H1.
      destruct r. pose proof (fun O' => IH _ a true c _ _ H1 (proj2 (at_set_owner _ _ _ _ _ _) (put_at _ _ _ _ _ A)) O' C R S) as X. rewrite <- app_assoc in X. cbn [set_owner tasks] in X. rewrite put_length in X. apply X. discriminate.
    + destruct S as (-> & S). pose proof (runs_snoc _ _ _ _ _ _ H (cs_unlock _ _ _ _ _ _ _ A)) as H1.
      destruct r. pose proof (fun O' => IH _ a false c _ _ H1 (proj2 (at_set_owner _ _ _ _ _ _) (put_at _ _ _ _ _ A)) O' C R S) as X. rewrite <- app_assoc in X. cbn [set_owner tasks owner] in X. rewrite put_length in X. apply X.
      intros _. rewrite N.eqb_refl. reflexivity.
    + destruct S as (-> & -> & S). pose proof (runs_snoc _ _ _ _ _ _ H (cs_get _ _ _ _ _ _ _ A)) as H1. rewrite C in H1.
      pose proof (IH _ a held c _ _ H1 (put_at _ _ _ _ _ A) O C R S) as X. rewrite <- app_assoc, put_length in X. exact X.
    + destruct S as (-> & S). pose proof (runs_snoc _ _ _ _ _ _ H (cs_set _ _ _ _ _ _ _ _ A)) as H1.
      destruct r. pose proof (fun C' => IH _ a held x _ _ H1 (proj2 (at_set_cache _ _ _ _ _ _) (put_at _ _ _ _ _ A)) O C' R S) as X. rewrite <- app_assoc in X. cbn [set_cache tasks caches] in X. rewrite put_length in X. apply X.
      rewrite N.eqb_refl. reflexivity.
Qed.

Lemma solo_next d base id c l a tr cfg : runs d base tr cfg -> owner cfg id = None -> fits base c -> returns (run_call d c) l a -> solo id false (caches cfg id) l ->
  exists cfg', runs d base (tr ++ GSpawn (length (tasks cfg)) c :: spread (length (tasks cfg)) l ++ [GEnd (length (tasks cfg)) (Returned a)]) cfg' /\
    owner cfg' id = None /\ caches cfg' id = left_over (caches cfg id) l /\ length (tasks cfg') = S (length (tasks cfg)).
Proof.
  intros H O F R S. pose proof (runs_snoc _ _ _ _ _ _ H (cs_spawn _ _ _ _ F)) as H1.
  destruct (solo_runs _ _ id (length (tasks cfg)) c l (run_call d c) a false (caches cfg id) _ _ H1) as (cfg' & H2 & X & Y & Z); try assumption; try reflexivity.
  - unfold at_. cbn [tasks]. rewrite nth_error_app2, Nat.sub_diag by apply le_n. reflexivity.
  - intros _. exact O.
  - exists cfg'. rewrite <- app_assoc in H2. split; [exact H2|]. split; [exact X|]. split; [exact Y|]. rewrite Z. cbn [tasks]. rewrite app_length. cbn. lia.
Qed.

Lemma spread_in i l j v : In (GDo j v) (spread i l) <-> j = i /\ In v l.
Proof.
  unfold spread. rewrite in_flat_map. split.
  - intros (w & I & J). destruct w; cbn in J; repeat (destruct J as [J|J]; [try discriminate J; injection J as <- <-; auto|]); contradiction.
  - intros [-> I]. exists v. split; [exact I|]. destruct v; cbn; auto.
Qed.

Lemma alone_in k c l e i v : In (GDo i v) (GSpawn k c :: spread k l ++ [GEnd k e]) -> i = k /\ In v l.
Proof. intros [I|I]; [discriminate I|]. apply in_app_or in I. destruct I as [I|[I|[]]]; [|discriminate I]. apply spread_in, I. Qed.

Definition demo_account_name : str := B "sa@example.com".
Definition demo_signature : str := [x01; x02]%byte.
Definition demo_form_calls : list builder_call := demo_form_at (Some demo_time) (KBoundToken demo_token) true.
Definition demo_bound_url : url_options := demo_url_with (B "bucket1") (B "a") None [(B "X-Goog-Meta-A", B "1 2")] demo_content (KBoundToken demo_token) true.
(** What the form did, by itself. *)
Definition demo_form_did : list event := fst (play (run_call demo_deps demo_bound_form) demo_run).
Lemma demo_form_returns : exists fields, returns (run_call demo_deps demo_bound_form) demo_form_did (AForm (Ok fields)).
Proof.
  unfold demo_form_did. pose proof (play_steps (run_call demo_deps demo_bound_form) demo_run) as H.
  destruct (play (run_call demo_deps demo_bound_form) demo_run) as [tr q] eqn:E. vm_compute in E. injection E as <- <-. eexists. exact H.
Qed.

Definition demo_hit (t : Z) : list event := [VLock 7; VGet 7 demo_entry; VNow t; VUnlock 7].
Definition demo_url_did (message : str) : list event :=
  demo_hit (demo_time + 5 * NS) ++ demo_hit (demo_time + 6 * NS) ++ [VHttp (sign_blob_request demo_account_name (B "tok1") message) (HttpResponse 200 (Some demo_blob_body))].
Lemma demo_sign_returns m : returns (sign demo_deps (KBoundToken demo_token) true m)
  (demo_hit (demo_time + 6 * NS) ++ [VHttp (sign_blob_request demo_account_name (B "tok1") m) (HttpResponse 200 (Some demo_blob_body))]) (Ok demo_signature).
Proof. exact (play_returns (sign demo_deps (KBoundToken demo_token) true m) [RUnit; RCache demo_entry; RNow (demo_time + 6 * NS); RUnit; ok_response demo_blob_body] _ eq_refl). Qed.

Lemma demo_url_returns : exists message url, returns (run_call demo_deps (CallUrl demo_bound_url)) (demo_url_did message) (AUrl (Ok url)) /\
  exists path query sig, url_parts url path query sig.
Proof.
  set (o := demo_bound_url).
  assert (V : url_valid demo_deps o demo_time) by (apply valid_check_ok; vm_compute; reflexivity).
  destruct (block_of demo_deps (lowered o)) as [block|] eqn:Eb; [|vm_compute in Eb; discriminate Eb].
  pose proof (verb_known (o_http_method o)) as W. destruct (http_verb_from_str (o_http_method o)) as [verb|]; [|exfalso; apply W; apply V].
  set (m := message_of o (demo_time / NS) (canonical_of demo_deps o verb (sorted_query (pairs_of demo_deps o (demo_time / NS) (lifetime o demo_time) (lowered o) demo_account_name)) block (names_of demo_deps (lowered o)))).
  exists m, (url_of demo_deps o (sorted_query (pairs_of demo_deps o (demo_time / NS) (lifetime o demo_time) (lowered o) demo_account_name)) demo_signature).
  split; [|do 3 eexists; apply url_parts_of].
  assert (S : success demo_deps o (url_of demo_deps o (sorted_query (pairs_of demo_deps o (demo_time / NS) (lifetime o demo_time) (lowered o) demo_account_name)) demo_signature) demo_time
     (demo_hit (demo_time + 5 * NS)) (demo_hit (demo_time + 6 * NS) ++ [VHttp (sign_blob_request demo_account_name (B "tok1") m) (HttpResponse 200 (Some demo_blob_body))])
     demo_account_name verb block demo_signature).
  { constructor; try assumption; try reflexivity.
    - apply W.
    - exact (play_returns (authorizer demo_deps (KBoundToken demo_token)) [RUnit; RCache demo_entry; RNow (demo_time + 5 * NS); RUnit] _ eq_refl).
    - apply (demo_sign_returns m). }
  cbn [run_call]. rewrite <- (app_nil_r (demo_url_did m)). eapply steps_bind_ret; [|constructor].
  exact (url_ok_back _ _ _ [] _ _ _ _ _ _ _ (ut_given _ _ (eq_refl : o_accessible_at o = Some demo_time)) S).
Qed.

(** What came back for which address. *)
Definition demo_answer (r : Effects.request) (o : http_result) : bool :=
  match o with
  | HttpResponse s (Some b) => N.eqb s 200 && str_eqb b
      (if str_eqb (Effects.rq_url r) (B "http://metadata.google.internal/computeMetadata/v1/instance/service-accounts/default/email") then demo_account_name
       else if str_eqb (Effects.rq_url r) (B "http://metadata.google.internal/computeMetadata/v1/instance/service-accounts/default/token") then demo_token_body
       else demo_blob_body)
  | _ => false
  end.
Lemma demo_answer_ok r o : demo_answer r o = true ->
  (r = metadata_request (demo_base 7) (B "email") -> answered o demo_account_name) /\ (r = metadata_request (demo_base 7) (B "token") -> answered o demo_token_body) /\
  (forall account token message, sign_blob_call account token message r -> answered o demo_blob_body).
Proof.
  intros H. destruct o as [|s [b|]]; try discriminate H. unfold demo_answer in H. apply andb_true_iff in H. destruct H as [Es Eb]. apply N.eqb_eq in Es. subst s.
  apply str_eqb_eq in Eb. subst b. assert (G : forall x, answered (HttpResponse 200 (Some x)) x) by (intros x; exists 200%N; split; [unfold success_status; lia|reflexivity]).
  split; [intros ->; apply G|]. split; [intros ->; apply G|]. intros account token message (_ & U & _). rewrite U.
  destruct (str_eqb_spec (B "https://iamcredentials.googleapis.com/v1/projects/-/serviceAccounts/" ++ account ++ B ":signBlob") (B "http://metadata.google.internal/computeMetadata/v1/instance/service-accounts/default/email")) as [E|_]; [discriminate E|].
  destruct (str_eqb_spec (B "https://iamcredentials.googleapis.com/v1/projects/-/serviceAccounts/" ++ account ++ B ":signBlob") (B "http://metadata.google.internal/computeMetadata/v1/instance/service-accounts/default/token")) as [E|_]; [discriminate E|].
  apply G.
Qed.

Definition answers_ok (v : event) : bool := match v with VHttp r o => demo_answer r o | VNow t => (demo_time <=? t) && (t <=? demo_time + 6 * NS) | _ => true end.

(** A response that is no success. *)
Definition refused (v : event) : bool := match v with VHttp _ (HttpResponse s _) => N.eqb s 500 | _ => false end.

Lemma refused_not r o body : refused (VHttp r o) = true -> ~ answered o body.
Proof. intros H (s & S & ->). cbn in H. apply N.eqb_eq in H. subst s. unfold success_status in S. lia. Qed.

Lemma demo_platform tr : (forall i v, In (GDo i v) tr -> answers_ok v = true \/ i = 0%nat /\ refused v = true) ->
  truthful (demo_base 7) demo_account_name (fun _ s => s = demo_signature) tr /\
  forall k, well_served (demo_base 7) demo_account_name (S k) tr /\ clocks_in_range (demo_base 7) (S k) tr.
Proof.
  intros G0. assert (Gr : forall i r o, In (GDo i (VHttp r o)) tr -> demo_answer r o = true \/ forall body, ~ answered o body).
  { intros i r o I. destruct (G0 _ _ I) as [X|[_ X]]; [left; exact X|right; intros body; exact (refused_not _ _ _ X)]. }
  assert (Gk : forall k r o, In (GDo (S k) (VHttp r o)) tr -> demo_answer r o = true) by (intros k r o I; destruct (G0 _ _ I) as [X|[X _]]; [exact X|discriminate X]).
  assert (Gn : forall i t, In (GDo i (VNow t)) tr -> answers_ok (VNow t) = true) by (intros i t I; destruct (G0 _ _ I) as [X|[_ X]]; [exact X|discriminate X]).
  assert (Bl : forall body s, body = demo_blob_body -> (blob_body body s <-> s = demo_signature)).
  { intros body s ->. rewrite blob_body_spec. split.
    - intros (blob & E1 & E2). vm_compute in E1. injection E1 as <-. vm_compute in E2. injection E2 as <-. reflexivity.
    - intros ->. eexists. split; vm_compute; reflexivity. }
  assert (Tk : forall token n type, token_body demo_token_body token n type <-> token = B "tok1" /\ n = 3599%N /\ type = B "Bearer").
  { intros token n type. rewrite token_body_spec. split.
    - intros E. vm_compute in E. injection E as <- <- <-. auto.
    - intros (-> & -> & ->). vm_compute. reflexivity. }
  split; [|intros k; split].
  - constructor.
    + intros i o body I A. destruct (Gr _ _ _ I) as [D|D]; [|destruct (D _ A)]. apply (answered_fun _ _ _ A). apply (demo_answer_ok _ _ D). reflexivity.
    + intros i token message r o body s I Sc A Bb. destruct (Gr _ _ _ I) as [D|D]; [|destruct (D _ A)].
      apply (Bl body s); [|exact Bb]. apply (answered_fun _ _ _ A). eapply (demo_answer_ok _ _ D). exact Sc.
  - constructor.
    + intros j o body I A. destruct (Gr _ _ _ I) as [D|D]; [|destruct (D _ A)]. apply (answered_fun _ _ _ A). apply (demo_answer_ok _ _ D). reflexivity.
    + intros j o body token n I A T. destruct (Gr _ _ _ I) as [D|D]; [|destruct (D _ A)].
      rewrite (answered_fun _ _ _ A (proj1 (proj2 (demo_answer_ok _ _ D)) eq_refl)) in T. apply Tk in T. destruct T as [-> _].
      repeat (apply Forall_cons; [right; split; intros X; discriminate X|]). apply Forall_nil.
    + intros o I. exists demo_account_name. apply (demo_answer_ok _ _ (Gk _ _ _ I)). reflexivity.
    + intros o I. exists demo_token_body, (B "tok1"), 3599%N. split; [apply (demo_answer_ok _ _ (Gk _ _ _ I)); reflexivity|]. apply Tk; auto.
    + intros token message r o I Sc. exists demo_blob_body, demo_signature. split; [eapply (demo_answer_ok _ _ (Gk _ _ _ I)); exact Sc|]. apply Bl; reflexivity.
  - split.
    + intros j t I. apply Gn in I. cbn [answers_ok] in I. apply andb_true_iff in I. destruct I as [I _]. apply Z.leb_le in I. unfold demo_time, NS in I. lia.
    + intros o body token n t I A T J. apply Gn in J. cbn [answers_ok] in J. apply andb_true_iff in J. destruct J as [_ J]. apply Z.leb_le in J.
      rewrite (answered_fun _ _ _ A (proj1 (proj2 (demo_answer_ok _ _ (Gk _ _ _ I))) eq_refl)) in T. apply Tk in T. destruct T as (_ & -> & _). unfold demo_time, NS, two63 in *; lia.
Qed.

Definition platform_server : server := {| sv_query := sv_query strict_server; sv_path := sv_path strict_server;
  sv_verifies account message s := account = demo_account_name /\ s = demo_signature |}.

(** A form that gets no token and fails. *)
Definition demo_refused_did : list event := fst (play (run_call demo_deps demo_bound_form) demo_failed_run).
Lemma demo_refused_returns : exists e, returns (run_call demo_deps demo_bound_form) demo_refused_did (AForm (Err e)).
Proof.
  unfold demo_refused_did. pose proof (play_steps (run_call demo_deps demo_bound_form) demo_failed_run) as H.
  destruct (play (run_call demo_deps demo_bound_form) demo_failed_run) as [tr q] eqn:E. vm_compute in E. injection E as <- <-. eexists. exact H.
Qed.

(** A form of task 0 gets no token and fails; the same form as task 1 fetches a token; a URL of task 2 is made from the cache.
    All that the theorems suppose of tasks 1 and 2 holds. *)
Example C99_case : exists tr cfg err fields url path query sig, runs demo_deps demo_base tr cfg /\
  truthful (demo_base 7) demo_account_name (fun _ s => s = demo_signature) tr /\ reachable demo_deps (demo_base 7) demo_account_name /\
  well_served (demo_base 7) demo_account_name 1 tr /\ clocks_in_range (demo_base 7) 1 tr /\ well_served (demo_base 7) demo_account_name 2 tr /\ clocks_in_range (demo_base 7) 2 tr /\
  runs_call tr 0 (CallForm (builder_of demo_form_calls)) /\ In (GEnd 0 (Returned (AForm (Err err)))) tr /\
  runs_call tr 1 (CallForm (builder_of demo_form_calls)) /\ In (GEnd 1 (Returned (AForm (Ok fields)))) tr /\ NoDup (map fst (meta_pairs demo_form_calls)) /\ ~ empty_meta demo_form_calls /\
  runs_call tr 2 (CallUrl demo_bound_url) /\ In (GEnd 2 (Returned (AUrl (Ok url)))) tr /\ url_parts url path query sig /\
  url_valid demo_deps demo_bound_url demo_time /\ Forall (fun h => ~ beyond_ascii h) (o_headers demo_bound_url) /\
  own_parameters (requested demo_bound_url) [] /\ Forall valid_pair ([] ++ o_query_parameters demo_bound_url) /\ sends demo_bound_url (demo_headed_request (B "X-Goog-Meta-A") (B "1 2")) /\
  named_segments (requested demo_bound_url) [B "bucket1"; B "a"] /\ path_segments [B "bucket1"; B "a"] [B "bucket1"; B "a"] /\
  server_ok platform_server /\ (forall m x, x = demo_signature -> sv_verifies platform_server demo_account_name m x) /\
  acceptable platform_server (d_path_caret demo_deps) demo_bound_url [] [B "bucket1"; B "a"] demo_account_name.
Proof.
  destruct demo_form_returns as [fields Rf]. destruct demo_url_returns as (m & url & Ru & path & query & sig & P).
  destruct demo_refused_returns as [err Rr].
  assert (F1 : fits demo_base demo_bound_form) by (apply fits_bool_ok; vm_compute; reflexivity).
  assert (F2 : fits demo_base (CallUrl demo_bound_url)) by (apply fits_bool_ok; vm_compute; reflexivity).
  assert (S0 : solo 7 false None demo_refused_did) by (vm_compute; repeat split).
  destruct (solo_next _ demo_base 7 _ _ _ _ _ (runs_nil _ _) eq_refl F1 Rr S0) as (cfg0 & H0 & O0 & C0 & L0).
  cbn [initial tasks length caches app] in H0, C0, L0. assert (Er : left_over None demo_refused_did = None) by (vm_compute; reflexivity). rewrite Er in C0.
  assert (S1 : solo 7 false (caches cfg0 7%N) demo_form_did) by (rewrite C0; vm_compute; repeat split).
  destruct (solo_next _ demo_base 7 _ _ _ _ _ H0 O0 F1 Rf S1) as (cfg1 & H1 & O1 & C1 & L1). rewrite L0 in H1, L1. rewrite C0 in C1.
  assert (Ec : left_over None demo_form_did = demo_entry) by (vm_compute; reflexivity). rewrite Ec in C1.
  assert (S2 : solo 7 false (caches cfg1 7%N) (demo_url_did m)) by (rewrite C1; cbn; repeat split).
  destruct (solo_next _ demo_base 7 _ _ _ _ _ H1 O1 F2 Ru S2) as (cfg & H2 & _). rewrite L1 in H2.
  match type of H2 with runs _ _ ?l _ => remember l as tr eqn:Et end.
  assert (G : forall i v, In (GDo i v) tr -> answers_ok v = true \/ i = 0%nat /\ refused v = true).
  { intros i v I. rewrite Et in I. apply in_app_or in I. destruct I as [I|I]; [apply in_app_or in I; destruct I as [I|I]|]; apply alone_in in I; destruct I as [-> I].
    - assert (A : forallb (fun v => answers_ok v || refused v) demo_refused_did = true) by (vm_compute; reflexivity). rewrite forallb_forall in A.
      apply A in I. apply orb_true_iff in I. destruct I as [I|I]; [left; exact I|right; split; [reflexivity|exact I]].
    - left. assert (A : forallb answers_ok demo_form_did = true) by (vm_compute; reflexivity). rewrite forallb_forall in A. exact (A _ I).
    - left. unfold demo_url_did, demo_hit in I. cbn [app In] in I. repeat (destruct I as [<-|I]; [vm_compute; reflexivity|]). contradiction. }
  destruct (demo_platform _ G) as (T & W).
  destruct C96_case as (_ & _ & Own & Vp & _ & Se & Ns & Ps & _ & [A1 A2 A3 A4 A5]).
  exists tr, cfg, err, fields, url, path, query, sig. split; [exact H2|]. split; [exact T|]. split; [repeat split|].
  split; [apply (W 0%nat)|]. split; [apply (W 0%nat)|]. split; [apply (W 1%nat)|]. split; [apply (W 1%nat)|].
  split; [rewrite Et; left; reflexivity|]. split; [rewrite Et; apply in_or_app; left; apply in_or_app; left; right; apply in_or_app; right; left; reflexivity|].
  split; [rewrite Et; unfold runs_call; apply in_or_app; left; apply in_or_app; right; left; reflexivity|].
  split; [rewrite Et; apply in_or_app; left; apply in_or_app; right; right; apply in_or_app; right; left; reflexivity|].
  split; [cbn; constructor; [intros []|constructor]|]. split. { intros [v I]. cbn in I. repeat destruct I as [I|I]; try discriminate I. destruct I. }
  split; [rewrite Et; unfold runs_call; apply in_or_app; right; left; reflexivity|]. split; [rewrite Et; apply in_or_app; right; right; apply in_or_app; right; left; reflexivity|].
  split; [exact P|]. split; [apply valid_check_ok; vm_compute; reflexivity|]. split.
  { constructor; [|constructor]. intros (c & I & L). cbn [snd] in I. cbn in I. repeat destruct I as [<-|I]; try contradiction I; vm_compute in L; apply L; reflexivity. }
  split; [exact Own|]. split; [exact Vp|]. split; [exact Se|]. split; [exact Ns|]. split; [exact Ps|]. split; [exact strict_ok|]. split; [intros m' x ->; split; reflexivity|].
  constructor; [exact A1|exact A2|exact A3|exact A4|exact A5].
Qed.

(** The form and the URL of that history are valid calls in the sense of C100. *)
Example C100_case : (exists o, last_options demo_form_calls o /\ so_signing_key o = KBoundToken demo_token /\ so_use_sign_blob o = true /\
    forall t pre v, build_time o t pre -> ~ violation demo_form_calls o t v) /\
  o_signing_key demo_bound_url = KBoundToken demo_token /\ o_use_sign_blob demo_bound_url = true /\
  (forall t pre, url_time demo_bound_url t pre -> url_valid demo_deps demo_bound_url t).
Proof.
  split; [|split; [reflexivity|split; [reflexivity|]]].
  - eexists. split; [exists [CBucket (B "bucket1"); CKey (B "a/b"); CContentLength 3; CXGoogMeta (B "who") (B "me ""you""")], []; split; [reflexivity|intros o []]|].
    split; [reflexivity|]. split; [reflexivity|]. intros t pre v T V. destruct T as [t T|t T]; [|discriminate T]. injection T as <-.
    destruct V as [V|? V|? ? V|? ? ? V|? ? ? ? V|? ? ? ? ? ? ? V]; [vm_compute in V; congruence|apply V; split; vm_compute; congruence|apply V; split; vm_compute; congruence| | |discriminate V];
      inversion V as [|? ? X1 X2]; subst.
    + exact (X1 (B "bucket1") (conj eq_refl eq_refl)).
    + inversion X2 as [|? ? X3 _]; subst. exact (X3 (B "a/b") (conj eq_refl eq_refl)).
  - intros t pre T. destruct T as [t T|t T]; [|discriminate T]. injection T as <-. apply valid_check_ok; vm_compute; reflexivity.
Qed.
