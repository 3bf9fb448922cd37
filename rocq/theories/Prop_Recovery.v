(** C107: whatever has happened, a valid call can succeed once the servers answer well. *)
From Verif Require Import Base BaseFacts Time Json Effects EffectsFacts Keys KeysFacts HtmlForm SignedUrl Calls SpecCodec SpecJson SpecPolicy SpecToken TokenFacts SpecTrace SpecSecret
  SpecSign SpecForm SpecUrl SpecTexts UrlResult Conc SpecConc ConcFacts Sim Demo FormFacts Prop_Conc Prop_Ascii SpecRequestUrl Prop_RequestUrl SpecPlatform Prop_Platform SpecRecovery.
From Coq Require Import Wf_nat.
Local Open Scope Z_scope.

(** * Running on with given answers *)

Definition moves_by (d : deps) (base : N -> str) (answer : request -> http_result) (now : Z) (cfg : config) : Prop :=
  exists v cfg', cstep d base cfg v cfg' /\ ~ external v /\ answered_by answer now v.

Lemma moves_answered d base answer now cfg i c s : at_ cfg i c s -> live s ->
  moves_by d base answer now cfg \/ exists id k, s = Running (Act (ELock id) k) /\ owner cfg id <> None.
Proof.
  intros A L. destruct s as [p|r k|e]; [|left|destruct (L _ eq_refl)].
  2:{ do 2 eexists. split; [apply (cs_receive _ _ _ _ _ _ _ (answer r) A)|]. split; [intros []|reflexivity]. }
  destruct p as [a|x|e k].
  - left. do 2 eexists. split; [apply (cs_return _ _ _ _ _ _ A)|]. split; [intros []|exact I].
  - left. do 2 eexists. split; [apply (cs_panic _ _ _ _ _ _ A)|]. split; [intros []|exact I].
  - destruct e as [|r|id|id|id|id x].
    + left. do 2 eexists. split; [apply (cs_now _ _ _ _ _ _ now A)|]. split; [intros []|reflexivity].
    + left. do 2 eexists. split; [apply (cs_send _ _ _ _ _ _ _ A)|]. split; [intros []|exact I].
    + destruct (owner cfg id) as [j|] eqn:O; [right; exists id, k; split; [reflexivity|congruence]|left].
      do 2 eexists. split; [apply (cs_lock _ _ _ _ _ _ _ A O)|]. split; [intros []|exact I].
    + left. do 2 eexists. split; [apply (cs_unlock _ _ _ _ _ _ _ A)|]. split; [intros []|exact I].
    + left. do 2 eexists. split; [apply (cs_get _ _ _ _ _ _ _ A)|]. split; [intros []|exact I].
    + left. do 2 eexists. split; [apply (cs_set _ _ _ _ _ _ _ _ A)|]. split; [intros []|exact I].
Qed.

Lemma some_move d base answer now tr cfg i c s : runs d base tr cfg -> at_ cfg i c s -> live s -> moves_by d base answer now cfg.
Proof.
  intros H A L. destruct (moves_answered d base answer now _ _ _ _ A L) as [M|(id & k & -> & O)]; [exact M|].
  destruct (owner cfg id) as [j|] eqn:Oj; [|congruence].
  apply (runs_lock _ _ _ _ H) in Oj. destruct Oj as (c' & s' & A' & L' & K' & Hd).
  destruct (moves_answered d base answer now _ _ _ _ A' L') as [M|(id' & k' & -> & O')]; [exact M|exfalso].
  destruct (task_next d base tr cfg j c' _ _ (ELock id') k' tt H A' eq_refl eq_refl) as [Hf' _]. congruence.
Qed.

(** From any state, all calls started so far can be run to their ends with any given answers and clock. *)
Theorem C107_completes d base answer now tr cfg : runs d base tr cfg ->
  exists more cfg', runs d base (tr ++ more) cfg' /\ Forall (fun v => ~ external v) more /\ Forall (answered_by answer now) more /\
    forall i c, runs_call tr i c -> has_ended (tr ++ more) i.
Proof.
  intros H. remember (25 * length (tasks cfg) - length tr)%nat as m eqn:Em. revert tr cfg H Em.
  induction m as [m IH] using lt_wf_ind. intros tr cfg H Em.
  destruct (live_or_all (tasks cfg)) as [(i & c & s & A & L)|All].
  - destruct (some_move d base answer now _ _ _ _ _ H A L) as (v & cfg1 & S & Nx & An).
    assert (H1 : runs d base (tr ++ [v]) cfg1) by (econstructor; eassumption).
    assert (Len : length (tasks cfg1) = length (tasks cfg)).
    { destruct S; cbn; rewrite ?replace_length; try reflexivity. destruct Nx. exact Logic.I. }
    pose proof (C36_total _ _ _ _ H1) as T. rewrite <- (spawned _ _ _ _ H1), app_length in T. cbn in T.
    destruct (IH (25 * length (tasks cfg1) - length (tr ++ [v]))%nat) with (tr := tr ++ [v]) (cfg := cfg1) as (more & cfg' & R & F & G & E);
      [rewrite app_length; cbn; lia|exact H1|reflexivity|].
    exists (v :: more), cfg'. rewrite <- app_assoc in *. cbn [app] in *. split; [exact R|]. split; [constructor; assumption|]. split; [constructor; assumption|].
    intros i' c' X. apply (E i' c'). unfold runs_call in *. apply in_or_app. auto.
  - exists [], cfg. rewrite app_nil_r. split; [exact H|]. split; [constructor|]. split; [constructor|]. intros i c R.
    apply (li_spawn _ _ _ _ (runs_local _ _ _ _ H)) in R. destruct R as [s A]. destruct (All _ _ _ A) as [e ->].
    apply (has_ended_at _ _ _ _ _ H). eauto.
Qed.

(** * A new call *)

(** What running on gives for a new call. *)
Lemma new_call d base answer now tr cfg c : runs d base tr cfg -> fits base c ->
  exists i more cfg' e, runs d base (tr ++ GSpawn i c :: more) cfg' /\ Forall (fun v => ~ external v) more /\ Forall (answered_by answer now) more /\
    (forall v, In v tr -> of_task i v = false) /\ In (GEnd i e) more /\
    forall j c', runs_call tr j c' -> has_ended (tr ++ GSpawn i c :: more) j.
Proof.
  intros H F. pose proof (runs_snoc _ _ _ _ _ _ H (cs_spawn _ _ _ _ F)) as H1.
  destruct (C107_completes d base answer now _ _ H1) as (more & cfg' & R & Nx & An & E). rewrite <- app_assoc in R, E. cbn [app] in R, E.
  set (i := length (tasks cfg)) in *. pose proof (li_new _ _ _ _ (runs_local _ _ _ _ H) i (le_n _)) as Nw.
  destruct (E i c) as [e I]. { apply in_or_app. right. left. reflexivity. }
  exists i, more, cfg', e. split; [exact R|]. split; [exact Nx|]. split; [exact An|]. split; [exact Nw|]. split.
  - apply in_app_or in I. destruct I as [I|[I|I]]; [|discriminate I|exact I]. apply Nw in I. cbn in I. rewrite Nat.eqb_refl in I. discriminate I.
  - intros j c' X. apply (E j c'). unfold runs_call in *. apply in_or_app. auto.
Qed.

Section Continued.
Context (base0 account : str) (answer : request -> http_result) (now : Z) (tr more : list gevent) (i : nat) (c : call).
Context (U : unspoilt base0 account tr) (G : good_answers base0 account answer now) (An : Forall (answered_by answer now) more)
  (Nw : forall v, In v tr -> of_task i v = false).

Lemma cont_http j r o : In (GDo j (VHttp r o)) (tr ++ GSpawn i c :: more) -> In (GDo j (VHttp r o)) tr \/ o = answer r.
Proof.
  intros I. apply in_app_or in I. destruct I as [I|[I|I]]; [left; exact I|discriminate I|right].
  rewrite Forall_forall in An. exact (An _ I).
Qed.
Lemma cont_now j t : In (GDo j (VNow t)) (tr ++ GSpawn i c :: more) -> In (GDo j (VNow t)) tr \/ t = now.
Proof.
  intros I. apply in_app_or in I. destruct I as [I|[I|I]]; [left; exact I|discriminate I|right].
  rewrite Forall_forall in An. exact (An _ I).
Qed.
Lemma cont_new v : ~ In (GDo i v) tr.
Proof. intros I. apply Nw in I. cbn in I. rewrite Nat.eqb_refl in I. discriminate I. Qed.

Lemma cont_served : well_served base0 account i (tr ++ GSpawn i c :: more).
Proof.
  destruct (ga_token _ _ _ _ G) as (body & token & n & A & T & S & _). constructor.
  - intros j o b I A'. destruct (cont_http _ _ _ I) as [I'| ->]; [exact (us_named _ _ _ U _ _ _ I' A')|]. exact (answered_fun _ _ _ A' (ga_email _ _ _ _ G)).
  - intros j o b tk m I A' T'. destruct (cont_http _ _ _ I) as [I'| ->]; [exact (us_given _ _ _ U _ _ _ _ _ I' A' T')|].
    rewrite (answered_fun _ _ _ A' A) in T'. apply token_body_spec in T, T'. rewrite T in T'. injection T' as <- _. exact S.
  - intros o I. destruct (cont_http _ _ _ I) as [I'| ->]; [destruct (cont_new _ I')|]. exists account. apply (ga_email _ _ _ _ G).
  - intros o I. destruct (cont_http _ _ _ I) as [I'| ->]; [destruct (cont_new _ I')|]. exists body, token, n. auto.
  - intros tk m r o I Sc. destruct (cont_http _ _ _ I) as [I'| ->]; [destruct (cont_new _ I')|]. exact (ga_sign _ _ _ _ G _ _ _ Sc).
Qed.

Lemma cont_clocks : clocks_in_range base0 i (tr ++ GSpawn i c :: more).
Proof.
  destruct (ga_token _ _ _ _ G) as (body & token & n & A & T & _ & L). split.
  - intros j t I. destruct (cont_now _ _ I) as [I'| ->]; [exact (us_clock _ _ _ U _ _ I')|apply (ga_clock _ _ _ _ G)].
  - intros o b tk m t I A' T' J. destruct (cont_http _ _ _ I) as [I'| ->]; [destruct (cont_new _ I')|]. destruct (cont_now _ _ J) as [J'| ->]; [destruct (cont_new _ J')|].
    rewrite (answered_fun _ _ _ A' A) in T'. apply token_body_spec in T, T'. rewrite T in T'. injection T' as _ <-. exact L.
Qed.

Lemma cont_first t rest : did i (tr ++ GSpawn i c :: more) = [VNow t] ++ rest -> t = now.
Proof.
  intros E. assert (I : In (GDo i (VNow t)) (tr ++ GSpawn i c :: more)) by (apply did_in; rewrite E; left; reflexivity).
  destruct (cont_now _ _ I) as [I'|X]; [destruct (cont_new _ I')|exact X].
Qed.
End Continued.

Theorem C107_form d base tr cfg answer now calls o bt account :
  runs d base tr cfg -> unspoilt (base (bt_id bt)) account tr -> good_answers (base (bt_id bt)) account answer now -> reachable d (base (bt_id bt)) account ->
  bt_base_url bt = base (bt_id bt) -> last_options calls o -> so_signing_key o = KBoundToken bt -> so_use_sign_blob o = true ->
  (forall v, ~ violation calls o (match so_accessible_at o with Some t => t | None => now end) v) -> ~ empty_meta calls ->
  exists i more cfg' fields, runs d base (tr ++ GSpawn i (CallForm (builder_of calls)) :: more) cfg' /\
    Forall (fun v => ~ external v) more /\ Forall (answered_by answer now) more /\
    In (GEnd i (Returned (AForm (Ok fields)))) more /\
    forall j c, runs_call tr j c -> has_ended (tr ++ GSpawn i (CallForm (builder_of calls)) :: more) j.
Proof.
  intros H Us G Rc Eb Lo K Sb V Ne.
  assert (Ck : call_key (CallForm (builder_of calls)) = Some (KBoundToken bt)).
  { cbn [call_key]. rewrite (proj1 (options_iff _ _) Lo). cbn [option_map]. rewrite K. reflexivity. }
  assert (F : Conc.fits base (CallForm (builder_of calls))) by (intros bt' X; rewrite Ck in X; injection X as <-; exact Eb).
  destruct (new_call d base answer now _ _ _ H F) as (i & more & cfg' & e & R & Nx & An & Nw & I & E).
  exists i, more, cfg'.
  destruct (C100_form d base _ cfg' i calls o bt account e R) as [->|(fields & ->)]; try assumption.
  - eapply cont_served; eassumption.
  - eapply cont_clocks; eassumption.
  - apply in_or_app. right. left. reflexivity.
  - intros t pre rest v T D. destruct T as [t T|t T]; rewrite T in V; [apply V|].
    rewrite (cont_first _ _ _ _ _ _ An Nw _ _ D). apply V.
  - apply in_or_app. right. right. exact I.
  - exfalso. rewrite Forall_forall in Nx. exact (Nx _ I Logic.I).
  - exists fields. auto.
Qed.

Theorem C107_url d base tr cfg answer now o bt account : deps_ok d ->
  runs d base tr cfg -> unspoilt (base (bt_id bt)) account tr -> good_answers (base (bt_id bt)) account answer now -> reachable d (base (bt_id bt)) account ->
  bt_base_url bt = base (bt_id bt) -> o_signing_key o = KBoundToken bt -> o_use_sign_blob o = true ->
  url_valid d o (match o_accessible_at o with Some t => t | None => now end) -> Forall (fun h => ~ beyond_ascii h) (o_headers o) ->
  (forall ps text, added o (match o_accessible_at o with Some t => t | None => now end) account ps ->
     sent_url (d_path_caret d) (requested o) (o_query_parameters o ++ ps) text -> (N.of_nat (length text) <= 65534)%N) ->
  exists i more cfg' url, runs d base (tr ++ GSpawn i (CallUrl o) :: more) cfg' /\
    Forall (fun v => ~ external v) more /\ Forall (answered_by answer now) more /\
    In (GEnd i (Returned (AUrl (Ok url)))) more /\
    forall j c, runs_call tr j c -> has_ended (tr ++ GSpawn i (CallUrl o) :: more) j.
Proof.
  intros D H Us G Rc Eb K Sb V Na Sh.
  assert (Ck : call_key (CallUrl o) = Some (KBoundToken bt)) by (cbn [call_key]; rewrite K; reflexivity).
  assert (F : Conc.fits base (CallUrl o)) by (intros bt' X; rewrite Ck in X; injection X as <-; exact Eb).
  destruct (new_call d base answer now _ _ _ H F) as (i & more & cfg' & e & R & Nx & An & Nw & I & E).
  exists i, more, cfg'.
  assert (W : well_served (base (bt_id bt)) account i (tr ++ GSpawn i (CallUrl o) :: more)) by (eapply cont_served; eassumption).
  assert (Tm : forall t pre rest, url_time o t pre -> did i (tr ++ GSpawn i (CallUrl o) :: more) = pre ++ rest -> t = match o_accessible_at o with Some t => t | None => now end).
  { intros t pre rest T X. destruct T as [t T|t T]; rewrite T; [reflexivity|]. exact (cont_first _ _ _ _ _ _ An Nw _ _ X). }
  assert (Ie : In (GEnd i e) (tr ++ GSpawn i (CallUrl o) :: more)) by (apply in_or_app; right; right; exact I).
  destruct (C100_url d base _ cfg' i o bt account e D R) as [->|[(url & ->)|(-> & _)]]; try assumption.
  - eapply cont_clocks; eassumption.
  - apply in_or_app. right. left. reflexivity.
  - intros t pre rest T X. rewrite (Tm _ _ _ T X). exact V.
  - exfalso. rewrite Forall_forall in Nx. exact (Nx _ I Logic.I).
  - exists url. auto.
  - exfalso. destruct (panicked _ _ _ _ _ _ R Ie) as (c' & R' & _ & P).
    assert (c' = CallUrl o) as ->.
    { assert (R2 : runs_call (tr ++ GSpawn i (CallUrl o) :: more) i (CallUrl o)) by (apply in_or_app; right; left; reflexivity).
      apply (li_spawn _ _ _ _ (runs_local _ _ _ _ R)) in R2, R'. destruct R2 as [s1 A1], R' as [s2 A2]. symmetry. apply (at_fun _ _ _ _ _ _ A2 A1). }
    cbn [run_call] in P. apply panics_bind_inv in P. destruct P as [P|(r & t1 & t2 & _ & P & _)]; [|exact (panics_ret_inv _ _ _ P)].
    destruct (C103_panics _ _ _ D P) as (t & pre & t1 & email & ps & text & T & Ed & _ & Au & Ad & Se & L).
    assert (email = account) as ->.
    { rewrite K in Au. inversion Au as [| |bt' em tk l Lk]; subst. rewrite Eb in Lk.
      apply (fetched_served _ _ _ _ _ _ W (lookup_fetched _ _ _ _ _ _ _ _ pre t1 [] R ltac:(rewrite app_nil_r; exact Ed) Lk)). }
    rewrite (Tm _ _ _ T Ed) in Ad. pose proof (Sh _ _ Ad Se). lia.
Qed.

(** * Cases *)

(** A form gets no token and fails; a second is given a lifetime out of range and panics; a third is cancelled while it asks for
    the account; a fourth has the lock and asks for the account. *)
Definition demo_troubles : list move := [
  MSpawn demo_bound_form; MStep 0 RUnit; MStep 0 RUnit; MStep 0 RUnit; MStep 0 email_ok; MStep 0 RUnit; MStep 0 (RHttp (HttpResponse 500 (Some (B "oops")))); MStep 0 RUnit; MStep 0 RUnit;
  MSpawn demo_bound_form; MStep 1 RUnit; MStep 1 RUnit; MStep 1 RUnit; MStep 1 email_ok; MStep 1 RUnit;
  MStep 1 (ok_response (B "{""access_token"":""tok1"",""expires_in"":18446744073709551615,""token_type"":""Bearer""}")); MStep 1 (RNow demo_time); MStep 1 RUnit;
  MSpawn demo_bound_form; MStep 2 RUnit; MStep 2 RUnit; MStep 2 RUnit; MCancel 2;
  MSpawn demo_bound_form; MStep 3 RUnit; MStep 3 RUnit; MStep 3 RUnit].

Definition harmless (v : gevent) : bool :=
  match v with
  | GDo _ (VHttp r (HttpResponse s (Some b))) =>
      N.eqb s 500 ||
      (if str_eqb (Effects.rq_url r) (B "http://metadata.google.internal/computeMetadata/v1/instance/service-accounts/default/email") then str_eqb b demo_account_name
       else match access_token_from_str b with Some t => str_eqb (at_token t) (B "tok1") | None => true end)
  | GDo _ (VNow t) => 0 <=? t
  | _ => true
  end.

Lemma harmless_unspoilt tr : forallb harmless tr = true -> unspoilt (demo_base 7) demo_account_name tr.
Proof.
  intros F. rewrite forallb_forall in F. constructor.
  - intros j o body I (s & S & ->). apply F in I. cbn [harmless] in I. apply orb_true_iff in I. destruct I as [I|I].
    + apply N.eqb_eq in I. subst s. unfold success_status in S. lia.
    + change (str_eqb body demo_account_name = true) in I. apply str_eqb_eq. exact I.
  - intros j o body token n I (s & S & ->) T. apply F in I. cbn [harmless] in I. apply orb_true_iff in I. destruct I as [I|I].
    + apply N.eqb_eq in I. subst s. unfold success_status in S. lia.
    + change (match access_token_from_str body with Some t => str_eqb (at_token t) (B "tok1") | None => true end = true) in I.
      apply token_body_spec in T. rewrite T in I. cbn [at_token] in I. apply str_eqb_eq in I. subst token.
      repeat (apply Forall_cons; [right; split; intros X; discriminate X|]). apply Forall_nil.
  - intros j t I. apply F in I. apply Z.leb_le. exact I.
Qed.

Definition demo_reply (r : Effects.request) : http_result :=
  HttpResponse 200 (Some
    (if str_eqb (Effects.rq_url r) (B "http://metadata.google.internal/computeMetadata/v1/instance/service-accounts/default/email") then demo_account_name
     else if str_eqb (Effects.rq_url r) (B "http://metadata.google.internal/computeMetadata/v1/instance/service-accounts/default/token") then demo_token_body
     else demo_blob_body)).

Lemma demo_reply_good : good_answers (demo_base 7) demo_account_name demo_reply demo_time.
Proof.
  assert (A : forall r, demo_answer r (demo_reply r) = true) by (intros r; cbn; apply str_eqb_eq; reflexivity). constructor.
  - apply (demo_answer_ok _ _ (A _)). reflexivity.
  - exists demo_token_body, (B "tok1"), 3599%N. split; [apply (demo_answer_ok _ _ (A _)); reflexivity|]. split; [apply token_body_spec; vm_compute; reflexivity|].
    split; [|vm_compute; reflexivity]. repeat (apply Forall_cons; [right; split; intros X; discriminate X|]). apply Forall_nil.
  - intros token message r Sc. exists demo_blob_body, demo_signature. split; [eapply (demo_answer_ok _ _ (A r)); exact Sc|].
    apply blob_body_spec. eexists. split; vm_compute; reflexivity.
  - vm_compute. discriminate.
Qed.

(** All that the theorems suppose holds for these troubles, that form and that URL; the rest is in [C100_case]. *)
Example C107_case : exists tr cfg, runs demo_deps demo_base tr cfg /\ unspoilt (demo_base 7) demo_account_name tr /\
  (exists e, In (GEnd 0 (Returned (AForm (Err e)))) tr) /\ In (GEnd 1 (Panicked PExpiresOverflow)) tr /\ In (GEnd 2 Cancelled) tr /\ owner cfg 7%N = Some 3%nat /\
  good_answers (demo_base 7) demo_account_name demo_reply demo_time /\ reachable demo_deps (demo_base 7) demo_account_name /\
  bt_base_url demo_token = demo_base (bt_id demo_token) /\
  (forall ps text, added demo_bound_url (match o_accessible_at demo_bound_url with Some t => t | None => demo_time end) demo_account_name ps ->
     sent_url (d_path_caret demo_deps) (requested demo_bound_url) (o_query_parameters demo_bound_url ++ ps) text -> (N.of_nat (length text) <= 65534)%N).
Proof.
  destruct (sim_state demo_deps demo_base demo_troubles (fun cfg => owner cfg 7%N) (Some 3%nat)) as (cfg & H & O); [vm_compute; reflexivity|].
  remember (sim demo_deps demo_base demo_troubles) as tr eqn:Et. exists tr, cfg. split; [exact H|].
  split; [apply harmless_unspoilt; subst tr; vm_compute; reflexivity|]. split; [|split; [|split; [|split; [exact O|split; [exact demo_reply_good|split; [repeat split|split; [reflexivity|]]]]]]].
  - assert (X : existsb (fun v => match v with GEnd 0 (Returned (AForm (Err _))) => true | _ => false end) tr = true) by (subst tr; vm_compute; reflexivity).
    apply existsb_exists in X. destruct X as (v & I & X). destruct v as [| | |[|n] [[[|e]|]| |]]; try discriminate X. exists e. exact I.
  - assert (X : existsb (fun v => match v with GEnd 1 (Panicked PExpiresOverflow) => true | _ => false end) tr = true) by (subst tr; vm_compute; reflexivity).
    apply existsb_exists in X. destruct X as (v & I & X). destruct v as [| | |[|[|n]] [|[]|]]; try discriminate X. exact I.
  - assert (X : existsb (fun v => match v with GEnd 2 Cancelled => true | _ => false end) tr = true) by (subst tr; vm_compute; reflexivity).
    apply existsb_exists in X. destruct X as (v & I & X). destruct v as [| | |[|[|[|n]]] [| |]]; try discriminate X. exact I.
  - intros ps text Ad Se.
    assert (V : url_valid demo_deps demo_bound_url demo_time) by (apply valid_check_ok; vm_compute; reflexivity).
    pose proof (long_iff demo_deps demo_bound_url demo_time demo_account_name demo_deps_ok ltac:(apply V) ltac:(apply V) _ _ Ad Se) as L.
    destruct (N.ltb_spec 65534 (N.of_nat (length text))) as [G|G]; [apply L in G; vm_compute in G; discriminate G|exact G].
Qed.
