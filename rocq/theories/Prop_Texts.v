(** C80: the text of every failure is that of its cause. *)
From Verif Require Import Base BaseFacts Time Json Effects EffectsFacts Keys KeysFacts Url Scope HtmlForm SignedUrl Calls CallFacts Messages SpecCodec SpecJson SpecToken SpecTrace
  SpecForm SpecUrl SpecMessages SpecConstructors SpecTexts FormFacts UrlFacts SignedUrlFacts HeaderFacts UrlResult Demo Prop_Form Prop_Url Prop_ServiceAccount
  Prop_Constructors Prop_Messages Prop_Host Prop_Ascii.
Local Open Scope byte_scope.

Lemma auth_answered d k tr email : returns (authorizer d k) tr (Ok email) -> Forall (fun ro => exists body, answered (snd ro) body) (exchanges tr).
Proof.
  destruct k as [bt| |]; intros H.
  - apply auth_ok in H. destruct H as [token H]. apply get_ok in H. eapply lookup_exchanges. exact H.
  - apply returns_ret_inv in H. destruct H as [-> _]. constructor.
  - apply returns_ret_inv in H. destruct H as [-> _]. constructor.
Qed.

Lemma auth_text d k x pre tr e : exchanges pre = [] -> returns (authorizer d k) tr (Err e) ->
  account_text d k (oe_text x) (pre ++ tr) (key_message e x).
Proof.
  intros P H. destruct k as [bt| |]; [|apply returns_ret_inv in H; destruct H as [_ H]; discriminate H|apply returns_ret_inv in H; destruct H as [_ H]; discriminate H].
  apply auth_err in H. destruct H as (e' & -> & H). eapply at_remote; [reflexivity|].
  apply lookup_report; [rewrite P; constructor|apply get_err; exact H].
Qed.

Lemma sign_text d k usb x pre t1 email m t2 e : exchanges pre = [] -> returns (authorizer d k) t1 (Ok email) -> returns (sign d k usb m) t2 (Err e) ->
  signing_text d k usb (oe_text x) (pre ++ t1 ++ t2) (key_message e x).
Proof.
  intros P H1 H2. pose proof (auth_answered _ _ _ _ H1) as A. destruct k as [bt|id secret|account key].
  - destruct usb.
    + pose proof H2 as H3. apply sign_err in H3. destruct H3 as [->|(e' & -> & H3)].
      * exfalso. cbn [sign] in H2. apply returns_bind_ok_inv in H2. destruct H2 as [(s & t3 & t4 & _ & H & _)|(e & H & E)]; [|discriminate E].
        apply returns_ret_inv in H. destruct H as [_ H]. discriminate H.
      * eapply gt_remote; [reflexivity|reflexivity|]. rewrite app_assoc. eapply sign_report; [|exact H3]. rewrite exchanges_app, P. exact A.
    + cbn [sign] in H2. apply returns_ret_inv in H2. destruct H2 as [-> H2]. injection H2 as ->. rewrite app_nil_r.
      eapply gt_flag; [reflexivity|reflexivity|rewrite exchanges_app, P; exact A].
  - destruct (returns_panic_inv _ _ _ H2).
  - cbn [sign] in H2. destruct usb; [destruct (returns_panic_inv _ _ _ H2)|]. apply returns_ret_inv in H1. destruct H1 as [-> _].
    destruct (d_rsa_sign d key m) as [s|y] eqn:R; apply returns_ret_inv in H2; destruct H2 as [-> H2]; [discriminate H2|]. injection H2 as ->.
    rewrite !app_nil_r. destruct y; [eapply gt_pem|eapply gt_pkcs8|eapply gt_rsa]; try reflexivity; try exact P; exact R.
Qed.

Lemma time_exchanges o t pre : build_time o t pre -> exchanges pre = [].
Proof. intros [? _|? _]; reflexivity. Qed.

(** Signed forms. *)
Theorem C80_form d calls o tr e x : last_options calls o -> returns (build d (builder_of calls)) tr (Err e) ->
  exists t pre rest, build_time o t pre /\ tr = pre ++ rest /\ form_text d calls o t (oe_text x) tr (form_message e x).
Proof.
  intros Lo H. apply options_iff in Lo. apply (build_split d _ o) in H; [|exact Lo].
  destruct H as [(_ & E & A)|(t & pre & tr' & T & -> & H)].
  { exfalso. unfold build, build_policy in E. rewrite Lo, A in E. discriminate E. }
  exists t, pre, tr'. split; [exact T|]. split; [reflexivity|]. pose proof (time_exchanges _ _ _ T) as P.
  destruct (violation_or_sound calls o t) as [[e' V]|S].
  { unfold rest_build in H. rewrite (violation_result d _ _ _ _ V) in H. apply steps_ret in H. destruct H as [-> H]. injection H as ->.
    rewrite app_nil_r. destruct V; cbn [form_message].
    - apply ft_order; auto.
    - apply ft_accessible; auto.
    - apply ft_expiration; auto.
    - apply ft_bucket; auto.
    - apply ft_key; auto.
    - eapply ft_hmac; eauto. }
  assert (R : form_ready calls o t) by exact S.
  apply sound_rest in H; [|exact S]. destruct H as (f & H & F).
  apply returns_bind_ok_inv in H. destruct H as [(p & t1 & t2 & H1 & H & ->)|(e' & H & E)].
  - exfalso. destruct S as (_ & _ & _ & _ & Uk & _). rewrite (slot_unset _ _ _ (key_slot calls)) in Uk.
    destruct (b_key (builder_of calls)) as [key|]; [|congruence].
    pose proof (meta_fields_spec (b_x_goog_meta (builder_of calls))) as M.
    destruct (meta_fields (b_x_goog_meta (builder_of calls))) as [fs|em]; apply returns_ret_inv in H; destruct H as [_ H]; [discriminate H|].
    destruct M as [_ M]. apply returns_bind_ok_inv in H1. destruct H1 as [(email & t3 & t4 & _ & H1 & _)|(e' & _ & E)]; [|discriminate E].
    destruct (F email) as [[_ F']|[NM _]]; [rewrite F' in H1; apply returns_ret_inv in H1; destruct H1 as [_ H1]; discriminate H1|].
    apply NM, empty_meta_iff, M.
  - injection E as ->. apply returns_bind_ok_inv in H. destruct H as [(email & t3 & t4 & Ha & H1 & ->)|(y & H & E)].
    + destruct (F email) as [[M F']|[NM (m & g & F')]]; rewrite F' in H1.
      * apply returns_ret_inv in H1. destruct H1 as [-> E]. injection E as ->. apply ft_meta; [exact R|exact M|].
        rewrite app_nil_r, exchanges_app, P. eapply auth_answered. exact Ha.
      * apply returns_bind_ok_inv in H1. destruct H1 as [(y & t5 & t6 & _ & H1 & _)|(y & H1 & E)].
        -- apply returns_ret_inv in H1. destruct H1 as [_ H1]. discriminate H1.
        -- injection E as ->. apply ft_signing; [exact R|exact NM|]. cbn [form_message]. eapply sign_text; [exact P|exact Ha|exact H1].
    + injection E as ->. apply ft_account; [exact R|]. apply auth_text; [exact P|exact H].
Qed.

(** Forms without signing options. *)
Theorem C80_unsigned d calls tr e x : no_options calls -> returns (build d (builder_of calls)) tr (Err e) ->
  exchanges tr = [] /\ unsigned_text calls (form_message e x).
Proof.
  intros N H. apply (proj1 (C01_unsigned_build d calls N)) in H. destruct H as [-> U]. split; [reflexivity|]. inversion U; subst; [apply nt_key|apply nt_meta]; assumption.
Qed.

(** URLs. *)
Theorem C80_url d o tr e x : deps_ok d -> returns (build_signed_url d o) tr (Err e) ->
  exists t pre rest, url_time o t pre /\ tr = pre ++ rest /\ url_text d o t (oe_text x) tr (url_message e x).
Proof.
  intros D H. apply url_start_ret in H. destruct H as (t & pre & rest & T & -> & H). exists t, pre, rest. split; [exact T|]. split; [reflexivity|].
  assert (P : exchanges pre = []) by (destruct T; reflexivity).
  destruct (build_cases d o t) as [(e' & V & E)|[(_ & _ & _ & _ & _ & _ & E)|(V & verb & Ev & E)]].
  - rewrite E in H. apply returns_ret_inv in H. destruct H as [-> H]. injection H as ->. rewrite app_nil_r. destruct V; cbn [url_message].
    + apply xt_time; auto.
    + apply xt_order; auto.
    + apply xt_method; auto.
    + apply xt_length; auto.
    + eapply xt_name; eauto.
    + eapply xt_value; eauto.
    + unfold dec_z. destruct (Z.ltb_spec (lifetime o t) 0) as [L|L]; [lia|]. destruct (dec_plain (Z.to_N (lifetime o t))) as [U (c & r & Ec & Z0)].
      eapply xt_lifetime; eauto; [rewrite Z2N.id by exact L; reflexivity|]. rewrite Ec. cbn [hd_error]. intros X. injection X as ->. specialize (Z0 eq_refl). lia.
  - rewrite E in H. destruct (returns_panic_inv _ _ _ H).
  - apply (peq_returns _ _ _ _ E) in H. unfold run_valid in H. apply returns_bind_ok_inv in H. destruct H as [(u & t1 & t2 & _ & H & _)|(e' & H & X)].
    + apply returns_ret_inv in H. destruct H as [_ H]. discriminate H.
    + injection X as ->. apply returns_bind_ok_inv in H. destruct H as [(email & t1 & t2 & H1 & H & ->)|(y & H & X)].
      * unfold sign_step in H. destruct (too_long _ _ _); [destruct (returns_panic_inv _ _ _ H)|].
        destruct (block_of d (lowered o)) as [block|] eqn:Bk.
        -- apply returns_bind_ok_inv in H. destruct H as [(s & t3 & t4 & _ & H & _)|(y & H & X)]; [apply returns_ret_inv in H; destruct H as [_ H]; discriminate H|].
           injection X as ->. apply xt_signing; [exact V| |eapply sign_text; [exact P|exact H1|exact H]].
           apply Forall_forall. intros h I A. assert (Y : block_of d (lowered o) = None) by (apply block_ascii; [exact D|apply V|eauto]). congruence.
        -- apply returns_ret_inv in H. destruct H as [-> H]. injection H as ->. apply block_ascii in Bk; [|exact D|apply V]. destruct Bk as (h & I & A).
           eapply xt_ascii; [exact V|exact I|exact A|]. rewrite app_nil_r, exchanges_app, P. eapply auth_answered. exact H1.
      * injection X as ->. apply xt_account; [exact V|]. apply auth_text; [exact P|exact H].
Qed.

(** Key files. *)
Theorem C80_file d f x m : (exists e, service_account_from_path d f = Err e /\ sa_message e x = m) <-> file_text d f (oe_text x) m.
Proof.
  split.
  - intros (e & H & <-). apply C61_file_errors in H. destruct H as [[-> ->]|[[[->|(bytes & -> & U)] ->]|(bytes & -> & U & H)]].
    + apply yt_open. reflexivity.
    + apply yt_read. reflexivity.
    + eapply yt_unicode; eauto.
    + destruct H; [eapply yt_json|eapply yt_root|eapply yt_email|eapply yt_email_type|eapply yt_key|eapply yt_key_type]; eauto.
  - intros H. destruct H; [exists FileOpen|exists FileRead|exists FileRead|exists JsonDeserialize|exists JsonRootIsNotObject|exists ClientEmailIsNotFound|
      exists ClientEmailIsNotString|exists PrivateKeyIsNotFound|exists PrivateKeyIsNotString]; (split; [apply C61_file_errors|reflexivity]).
    1: auto.
    1, 2: right; left; split; eauto.
    all: right; right; exists bytes; split; [assumption|]; split; [assumption|].
    + apply sf_json. assumption.
    + eapply sf_root; eassumption.
    + eapply sf_email_missing; eassumption.
    + eapply sf_email_type; eassumption.
    + eapply sf_key_missing; eassumption.
    + eapply sf_key_type; eassumption.
Qed.

(** A form whose token request is answered with status 500, a form without key, a URL with a header value beyond ASCII, and a key file
    without the account. *)
Example C80_form_case : exists tr o e, let calls := demo_form_at (Some demo_time) (KBoundToken demo_token) true in
  last_options calls o /\ returns (build demo_deps (builder_of calls)) tr (Err e) /\
  form_message e demo_outside = B "bound token authorizer: bound token authorizer error: bound token / token request / status error: 500 oops".
Proof.
  destruct C08_errors_example as [tr H]. do 3 eexists. split; [apply demo_last|]. split; [exact H|reflexivity].
Qed.

Example C80_unsigned_case : no_options [CBucket (B "b")] /\ returns (build demo_deps (builder_of [CBucket (B "b")])) [] (Err KeyNotFound) /\
  form_message KeyNotFound demo_outside = B "key not found".
Proof. split; [intros o [X|[]]; discriminate X|]. split; [constructor|reflexivity]. Qed.

Example C80_url_case : deps_ok demo_deps /\ exists e, returns (build_signed_url demo_deps demo_umlaut) [] (Err e) /\
  url_message e demo_outside = B "header value contains non visible ascii characters".
Proof. destruct C79_case as (D & _ & _ & _ & _ & H). split; [exact D|]. eexists. split; [exact H|reflexivity]. Qed.

Example C80_file_case : file_text demo_deps (Contents (B "{""client_email"":1}")) (B "cause") (B "service account json client_email is not string") /\
  file_text demo_deps OpenFails (B "No such file or directory (os error 2)") (B "service account file open error: No such file or directory (os error 2)").
Proof.
  split; [|constructor; reflexivity]. apply (C80_file demo_deps _ {| oe_text := B "cause"; oe_sources := [] |}). exists ClientEmailIsNotString. split; reflexivity.
Qed.
