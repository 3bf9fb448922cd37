(** C74, C75: what a signature of this library can be used for. *)
From Verif Require Import Base BaseFacts Time TimeFacts Base64 Sha256 ShaFacts SpecCodec CodecFacts SpecCalendar Json SpecJson JsonFacts SpecPolicy Policy PolicyFacts Effects EffectsFacts Keys KeysFacts
  SpecToken SpecTrace SpecSign SignFacts Scope HtmlForm SpecForm FormFacts Prop_Form Url SignedUrl SpecUrl SignedUrlFacts UrlSpecFacts UrlResult Prop_Url SpecServer Prop_Server Calls CallFacts Prop_Keys SpecPurpose Demo.
Local Open Scope byte_scope.

(** * The kinds of messages are disjoint *)

Lemma sextets_in chars bs c : sextets chars bs -> In c chars -> In c b64_alphabet.
Proof.
  induction 1 as [|x i chars bs Hx H IH]; [intros []|]. intros [<-|I]; [eapply nth_error_In; exact Hx|auto].
Qed.

Lemma base64_in text m c : base64_of text m -> In c m -> In c ("=" :: b64_alphabet).
Proof.
  intros (chars & fill & pad & _ & _ & S & -> & _) I. apply in_app_or in I. destruct I as [I|I].
  - right. eapply sextets_in; eassumption.
  - apply repeat_spec in I. left. symmetry. exact I.
Qed.

Lemma not_in_list (c : byte) (l : str) : existsb (beq c) l = false -> ~ In c l.
Proof. intros H I. assert (E : existsb (beq c) l = true) by (apply existsb_exists; exists c; split; [exact I|apply beq_refl]). congruence. Qed.

Lemma policy_characters m c : policy_message m -> existsb (beq c) ("=" :: b64_alphabet) = false -> ~ In c m.
Proof. intros (text & j & cs & secs & D & _) N I. exact (not_in_list _ _ N (base64_in _ _ _ D I)). Qed.

Lemma url_message_start m : url_message m -> exists r, m = B "GOOG4-RSA-SHA256" ++ x0a :: r.
Proof.
  intros (secs & region & canonical & date & scope & sum & digest & _ & _ & _ & _ & G). inversion G as [| |s l t Nl Gl]; subst.
  exists t. reflexivity.
Qed.

Lemma Forall_not_in (P : byte -> Prop) (l : str) c : Forall P l -> In c l -> P c.
Proof. rewrite Forall_forall. auto. Qed.

(** No text is of two kinds: what was signed as a form policy is neither the string to sign of a URL (V4 or V2) nor of a
    JSON web token, and what was signed for a URL is neither a form policy, nor a V2 string to sign, nor a token. *)
Theorem C75_disjoint m :
  (policy_message m -> ~ url_message m /\ ~ token_message m /\ ~ v2_message m) /\
  (url_message m -> ~ policy_message m /\ ~ token_message m /\ ~ v2_message m).
Proof.
  split; intros H.
  - split; [|split].
    + intros U. apply url_message_start in U. destruct U as [r ->]. eapply (policy_characters _ x0a); [exact H|reflexivity|]. apply in_or_app. right. left. reflexivity.
    + intros (h & p & -> & _). eapply (policy_characters _ "."); [exact H|reflexivity|]. apply in_or_app. right. left. reflexivity.
    + intros (v & r & -> & _). eapply (policy_characters _ x0a); [exact H|reflexivity|]. apply in_or_app. right. left. reflexivity.
  - apply url_message_start in H. destruct H as [r ->]. split; [|split].
    + intros P. eapply (policy_characters _ x0a); [exact P|reflexivity|]. apply in_or_app. right. left. reflexivity.
    + intros (h & p & E & Fh & Fp). assert (I : In x0a (h ++ "." :: p)) by (rewrite <- E; apply in_or_app; right; left; reflexivity).
      assert (N : ~ In x0a base64url) by (apply not_in_list; reflexivity).
      apply in_app_or in I. destruct I as [I|[I|I]]; [exact (N (Forall_not_in _ _ _ Fh I))|discriminate I|exact (N (Forall_not_in _ _ _ Fp I))].
    + intros (v & r' & E & F). destruct v as [|c1 v]; [discriminate E|]. do 4 (destruct v as [|? v]; [discriminate E|]).
      injection E as _ _ _ _ E4 _. assert (I : In "4" (B "ABCDEFGHIJKLMNOPQRSTUVWXYZ")).
      { apply (Forall_not_in (fun c => In c (B "ABCDEFGHIJKLMNOPQRSTUVWXYZ")) _ "4" F). rewrite E4. cbn. tauto. }
      revert I. apply not_in_list. reflexivity.
Qed.

(** * What is asked to be signed *)

Definition asks_good (P : str -> Prop) (v : event) : Prop :=
  match v with
  | VHttp r _ => rq_method r = B "POST" -> exists email token m, r = sign_blob_request email token m /\ P m
  | _ => True
  end.
Definition good (P : str -> Prop) {A} (p : prog A) : Prop := forall tr q, steps p tr q -> Forall (asks_good P) tr.

Lemma good_ret P {A} (a : A) : good P (Ret a).
Proof. intros tr q H. apply steps_ret in H. destruct H as [-> _]. constructor. Qed.
Lemma good_panic P {A} s : good P (A := A) (Panic s).
Proof. intros tr q H. apply steps_panic in H. destruct H as [-> _]. constructor. Qed.
Lemma good_bind P {A C} (p : prog A) (f : A -> prog C) : good P p -> (forall a, good P (f a)) -> good P (bind p f).
Proof.
  intros Hp Hf tr q H. apply steps_bind_inv in H. destruct H as [(p' & H & ->)|(a & t1 & t2 & H1 & H & ->)]; [eapply Hp; exact H|].
  apply Forall_app. split; [eapply Hp; exact H1|eapply Hf; exact H].
Qed.
Lemma good_bind_ok P {A C E E'} (g : E -> E') (p : prog (res A E)) (f : A -> prog (res C E')) :
  good P p -> (forall a, good P (f a)) -> good P (bind_ok g p f).
Proof. intros Hp Hf. unfold bind_ok. apply good_bind; [exact Hp|]. intros [a|e]; [apply Hf|apply good_ret]. Qed.
Lemma good_act P {A} e (k : resp e -> prog A) : (forall x, asks_good P (event_of e x)) -> (forall x, good P (k x)) -> good P (Act e k).
Proof.
  intros He Hk tr q H. apply steps_act_inv in H. destruct H as [[-> _]|(x & tr' & -> & H)]; [constructor|]. constructor; [apply He|eapply Hk; exact H].
Qed.

Lemma good_request P d e1 e2 e3 e4 e5 r :
  (rq_method r = B "POST" -> exists email token m, r = sign_blob_request email token m /\ P m) -> good P (request_text d e1 e2 e3 e4 e5 r).
Proof.
  intros H. unfold request_text. destruct (negb _); [apply good_ret|]. apply good_act; [intros x; exact H|].
  intros [|s [b|]]; [apply good_ret| |]; destruct (negb (is_success s)); apply good_ret.
Qed.

Lemma good_get P d bt : good P (get_email_and_token d bt).
Proof.
  assert (R : good P (refresh d bt)).
  { unfold refresh. apply good_bind_ok; [apply good_request; discriminate|]. intros email. apply good_bind_ok; [apply good_request; discriminate|].
    intros body. destruct (access_token_from_str body) as [tok|]; [|apply good_ret]. destruct (negb _); [apply good_ret|].
    apply good_act; [intros x; exact I|]. intros now. destruct (systime_add_secs _ _); [|apply good_panic].
    apply good_act; [intros x; exact I|]. intros _. apply good_ret. }
  unfold get_email_and_token. apply good_act; [intros x; exact I|]. intros _. apply good_bind.
  - unfold get_locked. apply good_act; [intros x; exact I|]. intros [[[email token] expires]|]; [|exact R].
    destruct (duration_since expires 0%Z); [|apply good_panic]. apply good_act; [intros x; exact I|]. intros now.
    destruct (duration_since now 0%Z); [|apply good_panic]. destruct (_ <? _)%Z; [apply good_ret|exact R].
  - intros r. apply good_act; [intros x; exact I|]. intros _. apply good_ret.
Qed.

Lemma good_authorizer P d k : good P (authorizer d k).
Proof. destruct k; cbn [authorizer]; [|apply good_ret|apply good_ret]. apply good_bind_ok; [apply good_get|]. intros et. apply good_ret. Qed.

Lemma good_sign (P : str -> Prop) d k usb m : (key_algorithm k = Goog4RsaSha256 -> P m) -> good P (sign d k usb m).
Proof.
  intros Pm. destruct k as [bt|a s|e key]; cbn [sign].
  - destruct usb; [|apply good_ret]. apply good_bind_ok; [|intros s; apply good_ret]. unfold bound_token_sign.
    apply good_bind_ok; [apply good_get|]. intros et. apply good_bind_ok.
    + apply good_request. intros _. do 3 eexists. split; [reflexivity|exact (Pm eq_refl)].
    + intros body. destruct (signed_blob_from_str body) as [blob|]; [|apply good_ret]. destruct (b64_decode blob); apply good_ret.
  - apply good_panic.
  - destruct usb; [apply good_panic|]. destruct (d_rsa_sign d key m); apply good_ret.
Qed.

Ltac good_case :=
  repeat (match goal with
  | |- good _ (Ret _) => apply good_ret
  | |- good _ (Panic _) => apply good_panic
  | |- good _ (match ?x with _ => _ end) => destruct x eqn:?
  end).

Lemma good_form d b : good policy_message (build d b).
Proof.
  assert (At : forall o t, good policy_message (build_policy_at d b o t)).
  { intros o t. unfold build_policy_at. good_case. apply good_bind_ok; [apply good_authorizer|]. intros email. good_case.
    apply good_bind_ok; [|intros digest; apply good_ret]. apply good_sign. intros _.
    match goal with E : ut_from_system_time (so_expiration o) = Some ?x |- _ => apply ut_ts_ok in E; destruct (policy_text_tree (l ++ l0) x (proj1 E)) as [PT JT] end.
    do 4 eexists. split; [apply b64_encode_spec|]. split; [exact JT|exact PT]. }
  unfold build. apply good_bind_ok.
  - unfold build_policy. destruct (b_signing_options b) as [o|]; [|apply good_ret]. destruct (so_accessible_at o) as [t|]; [apply At|].
    apply good_act; [intros x; exact I|]. intros t. apply At.
  - intros p. destruct (b_key b); [|apply good_ret]. destruct (meta_fields _); apply good_ret.
Qed.

Lemma good_url d o : good url_message (build_signed_url d o).
Proof.
  assert (At : forall t, good url_message (build_signed_url_at d o t)).
  { intros t. unfold build_signed_url_at. good_case. apply good_bind_ok; [|intros ?; apply good_ret].
    unfold signed_url_new. apply good_bind_ok; [apply good_authorizer|]. intros email. good_case.
    apply good_bind_ok; [|intros digest; apply good_ret]. apply good_sign. intros A.
    rename Heqo0 into E. apply ut_from_system_time_spec in E. destruct E as [E ->].
    assert (Y : in_years t) by exact E. clear E.
    repeat match goal with
    | E : location_try_from _ = Some _ |- _ => injection E as <-
    | E : credential_scope_new _ _ _ _ = Some _ |- _ => injection E as <-
    end.
    do 3 eexists. match goal with |- message_text _ _ _ (string_to_sign _ _ _ ?c) => pose proof (message_spec o t c Y) as M end.
    rewrite A in M. specialize (M eq_refl). rewrite A.
    match type of M with message_text ?x ?y ?z ?m => match goal with |- message_text _ _ _ ?m' => replace m' with m; [exact M|] end end.
    unfold message_of, string_to_sign. rewrite A. reflexivity. }
  unfold build_signed_url. destruct (o_accessible_at o) as [t|]; [apply At|]. apply good_act; [intros x; exact I|]. intros t. apply At.
Qed.

Lemma sign_blob_message email token m email' token' m' : sign_blob_call email token m (sign_blob_request email' token' m') -> m = m'.
Proof.
  intros (_ & _ & _ & body & j & E & J & (text & D & ->)). destruct (sign_blob_request_spec email' token' m') as (_ & _ & _ & body' & j' & E' & J' & (text' & D' & ->)).
  assert (body = body') as -> by congruence. pose proof (json_text_unique _ _ _ J J') as X. injection X as ->. eapply base64_of_data_unique; eassumption.
Qed.

(** Whatever a call asks the signing service to sign, finished or not, successful or not, is a form policy if the call
    builds a form and a V4 string to sign if it builds a URL. *)
Theorem C75_requests d c tr q r o email token m :
  steps (run_call d c) tr q -> In (VHttp r o) tr -> sign_blob_call email token m r -> message_kind c m.
Proof.
  intros H I S.
  assert (G : Forall (asks_good (message_kind c)) tr).
  { destruct c as [b|u]; cbn [run_call message_kind] in *; (eapply good_bind; [| |exact H]); [apply good_form|intros a; apply good_ret|apply good_url|intros a; apply good_ret]. }
  rewrite Forall_forall in G. apply G in I. destruct (I (proj1 S)) as (em & tk & m' & -> & K).
  rewrite (sign_blob_message _ _ _ _ _ _ S). exact K.
Qed.

(** The signature in a form is the key's signature of a form policy; no server takes it for the signature of a URL. *)
Theorem C75_form d calls o tr fields : last_options calls o -> returns (build d (builder_of calls)) tr (Ok fields) ->
  exists before during m s sig, tr = before ++ during /\ In (B "policy", m) fields /\ In (B "x-goog-signature", sig) fields /\
    hex_of s sig /\ signed d (so_signing_key o) (so_use_sign_blob o) m during s /\ policy_message m /\
    forall sv now r account s', ~ accepts sv now r account m s'.
Proof.
  intros Lo H. destruct (C03_policy_covers _ _ _ _ _ Lo H) as [(m & Im) C]. destruct (C m Im) as (text & cs & secs & j & D & J & _ & P & _).
  assert (Hs : exists sig, In (B "x-goog-signature", sig) fields).
  { destruct (C02_signed_fields _ _ _ _ _ Lo H) as (l & p & c & dt & sg & -> & L & _). exists sg. apply in_or_app. left.
    assert (X : forall V names l, listed V names l -> forall n v, In n names -> V n v -> exists v', In (n, v') l /\ V n v').
    { clear. induction 1 as [|n v names l Hv L IH|n names l Hv L IH]; intros n' v' I Hn; [destruct I| |].
      - destruct I as [->|I]; [exists v; split; [left; reflexivity|exact Hv]|]. destruct (IH _ _ I Hn) as (w & Iw & Hw). exists w. split; [right; exact Iw|exact Hw].
      - destruct I as [->|I]; [destruct (Hv _ Hn)|eauto]. }
    destruct (X _ _ _ L (B "x-goog-signature") sg) as (v' & Iv & [V|V]).
    { cbn. tauto. }
    { right. cbn. tauto. }
    { exfalso. destruct V as (b & c' & a & _ & S & _). destruct c'; cbn [sets] in S; try contradiction; destruct S as [S _]; discriminate S. }
    cbn [In] in V. repeat destruct V as [V|V]; try contradiction; try (apply (f_equal fst) in V; discriminate V). injection V as ->. exact Iv. }
  destruct Hs as [sig Is]. destruct (C06_signature _ _ _ _ _ _ _ Lo H Im Is) as (before & during & s & E & S & X).
  assert (K : policy_message m) by (exists text, j, cs, secs; auto).
  exists before, during, m, s, sig. split; [exact E|]. split; [exact Im|]. split; [exact Is|]. split; [exact X|]. split; [exact S|]. split; [exact K|].
  intros sv now r account s' (pairs & sc & region & date & scope & expires & life & names & nt & sg & canonical & A).
  apply (proj1 (proj1 (C75_disjoint m) K)). exists sc, region, canonical. tauto.
Qed.

(** The signature in a URL is the key's signature of a V4 string to sign. *)
Theorem C75_url d o tr url : returns (build_signed_url d o) tr (Ok url) ->
  exists before during m s sig start, tr = before ++ during /\ url = start ++ B "&X-Goog-Signature=" ++ sig /\
    hex_of s sig /\ signed d (o_signing_key o) (o_use_sign_blob o) m during s /\ url_message m.
Proof.
  intros H. destruct (url_ok_inv _ _ _ _ H) as (t & pre & t1 & t2 & email & verb & block & s & T & -> & S).
  destruct S as [V Ev A _ Eb Hs Hu].
  exists (pre ++ t1), t2. do 2 eexists. exists (hex_encode s). eexists. split; [rewrite app_assoc; reflexivity|].
  split; [rewrite Hu; unfold url_of; rewrite !app_assoc; reflexivity|]. split; [apply hex_encode_spec|]. split; [apply sign_ok; exact Hs|].
  do 3 eexists. apply message_spec; [apply V|eapply sign_ok_rsa; exact Hs].
Qed.

(** * C74: the policy determines the form *)

Lemma covers_unique f f' c : covers f c -> covers f' c -> f = f'.
Proof.
  intros H1 H2. inversion H1; subst; inversion H2; subst; [|reflexivity].
  f_equal. match goal with A : decimal_of _ _, A' : decimal_of _ _ |- _ => apply decimal_iff in A; apply decimal_iff in A'; congruence end.
Qed.
Lemma covers_all l l' cs : Forall2 covers l cs -> Forall2 covers l' cs -> l = l'.
Proof.
  intros F. revert l'. induction F as [|f c l cs H F IH]; intros l' F'; inversion F'; subst; [reflexivity|]. f_equal; [eapply covers_unique; eassumption|auto].
Qed.

Definition among (names : list str) (f : str * str) : bool := existsb (str_eqb (fst f)) names.
Lemma among_in names f : among names f = true <-> In (fst f) names.
Proof.
  unfold among. rewrite existsb_exists. split.
  - intros (x & I & E). destruct (str_eqb_spec (fst f) x); [subst; exact I|discriminate E].
  - intros I. exists (fst f). split; [exact I|]. destruct (str_eqb_spec (fst f) (fst f)); congruence.
Qed.
Lemma filter_all {A} (p : A -> bool) l : (forall x, In x l -> p x = true) -> filter p l = l.
Proof. induction l as [|x l IH]; intros H; [reflexivity|]. cbn. rewrite (H x) by (left; reflexivity). f_equal. apply IH. intros y I. apply H. right. exact I. Qed.
Lemma filter_none {A} (p : A -> bool) l : (forall x, In x l -> p x = false) -> filter p l = [].
Proof. induction l as [|x l IH]; intros H; [reflexivity|]. cbn. rewrite (H x) by (left; reflexivity). apply IH. intros y I. apply H. right. exact I. Qed.

Lemma listed_app V n1 n2 l : listed V (n1 ++ n2) l -> exists l1 l2, l = l1 ++ l2 /\ listed V n1 l1 /\ listed V n2 l2.
Proof.
  revert l. induction n1 as [|n n1 IH]; intros l L; [exists [], l; repeat split; [constructor|exact L]|]. cbn [app] in L.
  inversion L as [|? v ? l0 Hv L0|? ? l0 Hv L0]; subst; destruct (IH _ L0) as (l1 & l2 & -> & A & C).
  - exists ((n, v) :: l1), l2. repeat split; [constructor; assumption|exact C].
  - exists l1, l2. repeat split; [apply li_unset; assumption|exact C].
Qed.
Lemma listed_names V names l f : listed V names l -> In f l -> In (fst f) names.
Proof. induction 1 as [|n v names l Hv L IH|n names l Hv L IH]; [intros []|intros [<-|I]|intros I]; cbn; auto. Qed.

Definition before_policy : list str := map B ["acl"; "bucket"; "Cache-Control"; "Content-Disposition"; "Content-Encoding"; "Content-Length"; "Content-Type"; "Expires"; "key"]%string.
Definition after_policy : list str := map B ["success_action_redirect"; "success_action_status"; "x-goog-algorithm"; "x-goog-credential"; "x-goog-custom-time"; "x-goog-date"]%string.

(** The form in terms of the covered fields. *)
Lemma form_layout d calls o tr fields : last_options calls o -> returns (build d (builder_of calls)) tr (Ok fields) ->
  exists policy sig, let c := covered fields in let r := filter (fun f => negb (among before_policy f)) c in
    fields = (filter (among before_policy) c ++ (B "policy", policy) :: filter (among after_policy) r)
             ++ (B "x-goog-signature", sig) :: filter (fun f => negb (among after_policy f)) r.
Proof.
  intros Lo H. destruct (C02_signed_fields _ _ _ _ _ Lo H) as (l & p & c & dt & sg & E & L & _).
  match type of L with listed ?V0 _ _ => set (V := V0) in * end.
  change documented_names with (before_policy ++ [B "policy"] ++ after_policy ++ [B "x-goog-signature"]) in L.
  apply listed_app in L. destruct L as (l1 & l2 & -> & L1 & L). apply listed_app in L. destruct L as (l3 & l4 & -> & L3 & L).
  apply listed_app in L. destruct L as (l5 & l6 & -> & L5 & L6).
  assert (One : forall n l v, listed V [n] l -> V n v -> exists w, l = [(n, w)]).
  { clear. intros n l v L Hv. inversion L as [|? w ? l0 Hw L0|? ? l0 Hw L0]; subst; [inversion L0; subst; eauto|destruct (Hw _ Hv)]. }
  destruct (One _ _ p L3) as [policy ->]; [right; cbn; tauto|]. destruct (One _ _ sg L6) as [sig ->]; [right; cbn; tauto|].
  assert (Mn : forall f, In f (meta_pairs calls) -> exists m, fst f = B "x-goog-meta-" ++ m).
  { intros [n v] I. apply meta_pair_name in I. exact I. }
  assert (Mb : forall names f, forallb (fun n => match strip_prefix (B "x-goog-meta-") n with None => true | Some _ => false end) names = true -> In f (meta_pairs calls) -> among names f = false).
  { intros names f N I. destruct (among names f) eqn:Ea; [|reflexivity]. apply among_in in Ea. destruct (Mn _ I) as [m Em]. rewrite forallb_forall in N. apply N in Ea.
    rewrite Em in Ea. exfalso. revert Ea. cbn. discriminate. }
  exists policy, sig. cbn zeta.
  assert (Ec : covered fields = l1 ++ l5 ++ meta_pairs calls).
  { rewrite E. unfold covered. rewrite !filter_app. cbn [filter fst]. change (negb (str_eqb (B "policy") (B "policy") || str_eqb (B "policy") (B "x-goog-signature"))) with false.
    change (negb (str_eqb (B "x-goog-signature") (B "policy") || str_eqb (B "x-goog-signature") (B "x-goog-signature"))) with false. cbn [app]. rewrite app_nil_r, <- app_assoc.
    f_equal; [|f_equal]; apply filter_all; intros f I.
    - apply (listed_names _ _ _ _ L1) in I. cbn in I. repeat destruct I as [<-|I]; try reflexivity. contradiction.
    - apply (listed_names _ _ _ _ L5) in I. cbn in I. repeat destruct I as [<-|I]; try reflexivity. contradiction.
    - destruct (Mn _ I) as [m ->]. reflexivity. }
  rewrite Ec.
  assert (D : forall f, In (fst f) after_policy -> among before_policy f = false).
  { intros f I. unfold among. cbn in I. repeat destruct I as [<-|I]; try reflexivity. contradiction. }
  assert (F1 : filter (among before_policy) (l1 ++ l5 ++ meta_pairs calls) = l1).
  { rewrite !filter_app. rewrite (filter_all _ l1), (filter_none _ l5), (filter_none _ (meta_pairs calls)); [apply app_nil_r| | |].
    - intros f I. apply Mb; [reflexivity|exact I].
    - intros f I. apply D. eapply listed_names; eassumption.
    - intros f I. apply among_in. eapply listed_names; eassumption. }
  assert (F2 : filter (fun f => negb (among before_policy f)) (l1 ++ l5 ++ meta_pairs calls) = l5 ++ meta_pairs calls).
  { rewrite !filter_app. rewrite (filter_none _ l1), (filter_all _ l5), (filter_all _ (meta_pairs calls)); [reflexivity| | |].
    - intros f I. rewrite Mb; [reflexivity|reflexivity|exact I].
    - intros f I. rewrite D; [reflexivity|]. eapply listed_names; eassumption.
    - intros f I. apply negb_false_iff, among_in. eapply listed_names; eassumption. }
  rewrite F1, F2. rewrite !filter_app. rewrite (filter_all (among after_policy) l5), (filter_none (among after_policy) (meta_pairs calls)), (filter_none _ l5), (filter_all _ (meta_pairs calls)).
  - rewrite app_nil_r. rewrite E. repeat (rewrite <- !app_assoc; cbn [app]). reflexivity.
  - intros f I. rewrite Mb; [reflexivity|reflexivity|exact I].
  - intros f I. apply negb_false_iff, among_in. eapply listed_names; eassumption.
  - intros f I. apply Mb; [reflexivity|exact I].
  - intros f I. apply among_in. eapply listed_names; eassumption.
Qed.

(** Two forms with the same policy are the same but for the value of the signature, and were requested with the same
    expiration up to the second. *)
Theorem C74_policy_determines_form d calls o tr fields d' calls' o' tr' fields' policy :
  last_options calls o -> returns (build d (builder_of calls)) tr (Ok fields) -> In (B "policy", policy) fields ->
  last_options calls' o' -> returns (build d' (builder_of calls')) tr' (Ok fields') -> In (B "policy", policy) fields' ->
  (so_expiration o / 1000000000 = so_expiration o' / 1000000000)%Z /\
  exists a b sig sig', fields = a ++ (B "x-goog-signature", sig) :: b /\ fields' = a ++ (B "x-goog-signature", sig') :: b.
Proof.
  intros Lo H I Lo' H' I'. destruct (C03_policy_covers _ _ _ _ _ Lo H) as [_ C]. destruct (C _ I) as (text & cs & secs & j & D & J & U & P & F).
  destruct (C03_policy_covers _ _ _ _ _ Lo' H') as [_ C']. destruct (C' _ I') as (text' & cs' & secs' & j' & D' & J' & U' & P' & F').
  rewrite (base64_of_data_unique _ _ _ D' D) in *. rewrite (U _ J') in *. rewrite (policy_tree_conds _ _ _ _ _ P' P) in F'.
  pose proof (covers_all _ _ _ F F') as Ec. split.
  - destruct (C04_expiration _ _ _ _ _ _ _ _ Lo H I D J) as (e & c & et & Ej & Ut & W).
    destruct (C04_expiration _ _ _ _ _ _ _ _ Lo' H' I' D J) as (e' & c' & et' & Ej' & Ut' & W').
    rewrite Ej in Ej'. injection Ej' as _ <-.
    assert (e = e').
    { destruct (C05_window _ _ _ _ _ Lo H) as (t & pre & rest & _ & _ & Y & Y2). destruct (C05_window _ _ _ _ _ Lo' H') as (t' & pre' & rest' & _ & _ & Y' & Y2').
      assert (X : forall e : Z, (0 <= e < 253402300800)%Z -> ts_ok e) by (intros z Z; unfold ts_ok; lia).
      apply rfc3339_inj; [apply X; lia|apply X; lia|].
      rewrite (utc_rfc3339_text_unique _ _ _ (rfc3339_spec e (X e ltac:(lia))) Ut). apply (utc_rfc3339_text_unique e'); [exact Ut'|apply rfc3339_spec, X; lia]. }
    subst e'. assert (Q : forall z, (e * 1000000000 <= z < (e + 1) * 1000000000)%Z -> (z / 1000000000 = e)%Z).
    { intros z Z. symmetry. apply (Z.div_unique _ _ _ (z - e * 1000000000)); lia. }
    rewrite (Q _ W), (Q _ W'). reflexivity.
  - destruct (form_layout _ _ _ _ _ Lo H) as (p & sig & E). destruct (form_layout _ _ _ _ _ Lo' H') as (p' & sig' & E'). cbn zeta in E, E'.
    rewrite Ec in E.
    assert (Pu : forall fs pp sg c, fs = (filter (among before_policy) c ++ (B "policy", pp) :: filter (among after_policy) (filter (fun f => negb (among before_policy f)) c))
               ++ (B "x-goog-signature", sg) :: filter (fun f => negb (among after_policy f)) (filter (fun f => negb (among before_policy f)) c) ->
               c = covered fields' -> In (B "policy", policy) fs -> policy = pp).
    { intros fs pp sg c -> Ecf Ip. assert (N : forall f, In f c -> fst f <> B "policy").
      { intros f If E0. rewrite Ecf in If. apply filter_In in If. destruct If as [_ If]. rewrite E0 in If. discriminate If. }
      apply in_app_or in Ip. destruct Ip as [Ip|[Ip|Ip]]; [apply in_app_or in Ip; destruct Ip as [Ip|[Ip|Ip]]| |].
      - apply filter_In in Ip. destruct (N _ (proj1 Ip) eq_refl).
      - congruence.
      - apply filter_In in Ip. destruct Ip as [Ip _]. apply filter_In in Ip. destruct (N _ (proj1 Ip) eq_refl).
      - apply (f_equal fst) in Ip. discriminate Ip.
      - apply filter_In in Ip. destruct Ip as [Ip _]. apply filter_In in Ip. destruct (N _ (proj1 Ip) eq_refl). }
    rewrite <- (Pu _ _ _ _ E eq_refl I) in E. rewrite <- (Pu _ _ _ _ E' eq_refl I') in E'.
    do 2 eexists. exists sig, sig'. split; [exact E|exact E'].
Qed.

(** * Cases *)

(** The same form signed with two private keys of one account. *)
Example C74_case :
  let calls key := demo_form_at (Some demo_time) (KServiceAccount (B "sa@example.com") key) false in
  exists o o' fields fields' policy,
    last_options (calls (B "k1")) o /\ returns (build demo_deps (builder_of (calls (B "k1")))) [] (Ok fields) /\ In (B "policy", policy) fields /\
    last_options (calls (B "k2")) o' /\ returns (build demo_deps (builder_of (calls (B "k2")))) [] (Ok fields') /\ In (B "policy", policy) fields' /\ fields <> fields'.
Proof.
  cbn zeta. eexists. eexists.
  assert (X : forall key, exists fields, build demo_deps (builder_of (demo_form_at (Some demo_time) (KServiceAccount (B "sa@example.com") key) false)) = Ret (Ok fields)).
  { intros key. eexists. reflexivity. }
  destruct (X (B "k1")) as [f1 E1]. destruct (X (B "k2")) as [f2 E2]. clear X.
  exists f1, f2. eexists. split; [apply demo_last|]. split; [rewrite E1; constructor|]. vm_compute in E1. injection E1 as <-. split; [cbn [In]; repeat first [left; reflexivity | right]|].
  split; [apply demo_last|]. split; [rewrite E2; constructor|]. vm_compute in E2. injection E2 as <-. split; [cbn [In]; repeat first [left; reflexivity | right]|]. discriminate.
Qed.

(** A form signed remotely: the request asks for the signature of a policy. *)
Example C75_case :
  exists tr q r o email token m, steps (run_call demo_deps demo_bound_form) tr q /\ In (VHttp r o) tr /\ sign_blob_call email token m r.
Proof.
  destruct C31_example as (tr & fields & H & tr1 & r & o & E & S). destruct (C31_token_use _ _ _ _ _ _ _ _ H E S) as (bt & pre & l & email & token & m & _ & _ & _ & _ & _ & C).
  exists tr. eexists. exists r, o, email, token, m. split; [exact H|]. split; [rewrite E; apply in_or_app; right; left; reflexivity|exact C].
Qed.

(** Each kind has members. *)
Example C75_kinds :
  (exists m, policy_message m) /\ (exists m, url_message m) /\
  token_message (B "eyJhbGciOiJSUzI1NiJ9.eyJpc3MiOiJhIn0") /\ v2_message (B "GET" ++ x0a :: x0a :: x0a :: B "1577836860" ++ x0a :: B "/bucket1/a").
Proof.
  split; [|split; [|split]].
  - exists (b64_encode (policy_to_string {| conditions := []; pd_expiration := 0%Z |})). destruct (policy_text_tree [] 0%Z ltac:(unfold ts_ok; lia)) as [PT JT].
    do 4 eexists. split; [apply b64_encode_spec|]. split; [exact JT|exact PT].
  - destruct demo_url_ok as [sig H]. destruct (C75_url _ _ _ _ H) as (b & du & m & s & sg & st & _ & _ & _ & _ & U). exists m. exact U.
  - exists (B "eyJhbGciOiJSUzI1NiJ9"), (B "eyJpc3MiOiJhIn0"). split; [reflexivity|].
    assert (X : forall s, forallb (fun c => existsb (beq c) base64url) s = true -> Forall (fun c => In c base64url) s).
    { intros s F. apply Forall_forall. intros c Hc. rewrite forallb_forall in F. apply F in Hc. apply existsb_exists in Hc. destruct Hc as (x & Ix & Ex). apply beq_eq in Ex. subst. exact Ix. }
    split; apply X; reflexivity.
  - exists (B "GET"), (x0a :: x0a :: B "1577836860" ++ x0a :: B "/bucket1/a"). split; [reflexivity|]. repeat constructor; cbn; tauto.
Qed.
