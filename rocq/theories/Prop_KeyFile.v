(** C88: from the key file to the upload and the download. *)
From Coq Require Import Permutation.
From Verif Require Import Base BaseFacts Time TimeFacts Json JsonTree JsonFacts Effects EffectsFacts Keys KeysFacts Scope HtmlForm SignedUrl Calls SpecCalendar SpecCodec SpecJson SpecPolicy
  SpecTrace SpecSign SignFacts SpecForm SpecUrl SpecServer SpecUtf8 SpecConstructors FormFacts Rsa SpecRsa Demo DemoRsa Prop_Form Prop_ServiceAccount Prop_Constructors Prop_Server Prop_Rsa SpecUpload Prop_Upload.
Local Open Scope Z_scope.

(** A service account key file, as the console of the service issues it: JSON with the address of the account and its private key. *)
Definition key_file (d : deps) (f : file_answer) (email : str) (k : rsa_key) : Prop :=
  exists bytes l key, f = Contents bytes /\ unicode bytes /\ readable d bytes (JObj l) /\
    last_member (B "client_email") l (JStr email) /\ last_member (B "private_key") l (JStr key) /\ account_key key k.

Lemma form_made d calls o t pre email key f : last_options calls o -> build_time o t pre -> so_signing_key o = KServiceAccount email key -> so_use_sign_blob o = false ->
  (forall e, ~ violation calls o t e) -> ~ empty_meta calls -> (forall m, d_rsa_sign d key m = Ok (f m)) ->
  exists fields, returns (build d (builder_of calls)) pre (Ok fields) /\
    forall rest r, returns (build d (builder_of calls)) (pre ++ rest) r -> rest = [] /\ r = Ok fields.
Proof.
  intros Lo T K U NV NM Sg. apply options_iff in Lo. destruct (violation_or_sound calls o t) as [[e V]|S]; [destruct (NV e V)|].
  assert (R : exists fields, rest_build d (builder_of calls) o t = Ret (Ok fields)).
  { destruct (sound_result d calls o t S) as (g & E & F). unfold rest_build. rewrite E, K. cbn [authorizer].
    destruct (F email) as [[M _]|[_ (m & h & F')]]; [contradiction|]. unfold bind_ok at 2. cbn [bind]. rewrite F', K, U. cbn [sign]. rewrite Sg.
    unfold bind_ok. cbn [bind]. destruct S as (_ & _ & _ & _ & S5 & _). rewrite (slot_unset _ _ _ (key_slot calls)) in S5. destruct (b_key (builder_of calls)) as [kk|]; [|congruence].
    pose proof (meta_fields_spec (b_x_goog_meta (builder_of calls))) as M. rewrite empty_meta_iff in NM. destruct (meta_fields (b_x_goog_meta (builder_of calls))) as [fs|e]; [eauto|].
    exfalso. apply NM. apply M. }
  destruct R as [fields R]. exists fields. pose proof (build_start d _ o t pre Lo T) as H. rewrite R in H. split; [exact H|].
  intros tr r H'. apply (build_split d _ o) in H'; [|exact Lo]. destruct H' as [(_ & E & A)|(t' & pre' & tr' & T' & E & H')].
  { unfold build, build_policy in E. rewrite Lo, A in E. discriminate E. }
  assert (t' = t /\ tr' = tr) as [-> ->].
  { destruct T as [t A|t A], T' as [t' A'|t' A']; rewrite A in A'; try discriminate A'; cbn in E.
    - injection A' as <-. auto.
    - injection E as <- <-. auto. }
  rewrite R in H'. apply returns_ret_inv in H'. destruct H' as [-> E']. split; [reflexivity|congruence].
Qed.

(** The key in the file makes forms: whenever the fields and times are in order, a form is issued; a service that knows the public key accepts
    it until it expires, and accepts no other signature of its policy. *)
Theorem C88_form d l f email k : (forall text m, d_rsa_sign d text m = rsa_sign_with l text m) -> 496 <= l_min l -> 0 < l_granularity l ->
  key_file d f email k -> rsa_sound k -> sized (l_min l) (l_max l) (l_granularity l) k ->
  exists key, service_account_from_path d f = Ok key /\
  forall calls o t tr, last_options calls o -> so_signing_key o = key -> so_use_sign_blob o = false -> build_time o t tr ->
    (forall e, ~ violation calls o t e) -> ~ empty_meta calls -> NoDup (map fst (meta_pairs calls)) ->
  exists fields policy s, returns (build d (builder_of calls)) tr (Ok fields) /\
    (forall rest r, returns (build d (builder_of calls)) (tr ++ rest) r -> rest = [] /\ r = Ok fields) /\
    In (B "policy", policy) fields /\
    forall verifies : str -> str -> str -> Prop, (forall m x, verifies email m x <-> rsa_valid (r_n k) (r_e k) m x) ->
      (forall now form extra size, Permutation form (fields ++ extra) -> Forall (fun f => exists r, fst f = B "x-ignore-" ++ r) extra ->
         (forall v n, In (B "Content-Length", v) fields -> decimal_of n v -> size = n) ->
         t / 1000000000 <= now < so_expiration o / 1000000000 -> upload_accepted verifies now form size email policy s) /\
      (forall now form size x, upload_accepted verifies now form size email policy x -> x = s).
Proof.
  intros Rs L G (bytes & members & key & -> & Un & Rd & M1 & M2 & Ak) So Si. exists (KServiceAccount email key). split.
  { apply C61_file. exists bytes, members, email, key. auto 10. }
  intros calls o t tr Lo K U T NV NM ND. destruct Ak as (content & Pt & Pk).
  assert (Sg : forall m, d_rsa_sign d key m = Ok (match rsa_sign_with l key m with Ok s => s | Err _ => [] end)).
  { intros m. rewrite Rs. destruct (C83_signs l k content key m L G So Si Pt Pk) as [s ->]. reflexivity. }
  destruct (form_made d calls o t tr email key _ Lo T K U NV NM Sg) as (fields & R & Only).
  destruct (C86_accepted _ _ _ _ _ Lo R ND) as (t' & pre & t1 & t2 & email' & policy & s & T' & E & Au & Sn & Ip & Acc).
  assert (t' = t) as ->.
  { destruct T as [t A|t A], T' as [t' A'|t' A']; rewrite A in A'; try discriminate A'; cbn in E; congruence. }
  rewrite K in Au, Sn. assert (email' = email) as -> by (inversion Au; reflexivity).
  assert (Vs : rsa_valid (r_n k) (r_e k) policy s).
  { rewrite U in Sn. inversion Sn as [? ? ? ? Es|]; subst. rewrite Rs in Es. exact (C82_valid _ _ _ _ _ _ L Pt Pk Es). }
  exists fields, policy, s. split; [exact R|]. split; [exact Only|]. split; [exact Ip|]. intros verifies V. split.
  - intros now form extra size Pm Ex Sz W. eapply Acc; try eassumption. apply V. exact Vs.
  - intros now form size x (text' & j' & cs' & expiry & secs & region & date' & scope' & sig' & _ & _ & _ & _ & _ & _ & _ & _ & _ & _ & _ & _ & _ & _ & X).
    apply V in X. eapply C84_unique; [exact So| |exact X|exact Vs]. destruct Si as (half & bits & _ & _ & _ & _ & _ & _ & _ & Ee & _). lia.
Qed.

(** And URLs. *)
Theorem C88_url d l f email k : deps_ok d -> (forall text m, d_rsa_sign d text m = rsa_sign_with l text m) -> 496 <= l_min l -> 0 < l_granularity l ->
  key_file d f email k -> rsa_sound k -> sized (l_min l) (l_max l) (l_granularity l) k -> account_text email ->
  exists key, service_account_from_path d f = Ok key /\
  forall o tr url path query sig headers, o_signing_key o = key -> returns (build_signed_url d o) tr (Ok url) -> url_parts url path query sig -> portable o -> sends o headers ->
  exists t message s, url_time o t tr /\
    forall sv, server_ok sv -> (forall m x, sv_verifies sv email m x <-> rsa_valid (r_n k) (r_e k) m x) ->
      (forall now, t / 1000000000 <= now < t / 1000000000 + (o_expires o - t) / 1000000000 -> accepts sv now (issued o path query sig headers) email message s) /\
      (forall now r x, accepts sv now r email message x -> x = s).
Proof.
  intros D Rs L G (bytes & members & key & -> & Un & Rd & M1 & M2 & Ak) So Si At. exists (KServiceAccount email key). split.
  { apply C61_file. exists bytes, members, email, key. auto 10. }
  intros o tr url path query sig headers K R P Po Se.
  destruct (C54_accepted _ _ _ _ _ _ _ _ D R P Po Se) as (t & t1 & t2 & t3 & mail & message & s & T & -> & Au & S & Acc).
  rewrite K in S, Au. inversion S as [? ? ? ? E|]; subst. inversion Au; subst. exists t, message, s. rewrite !app_nil_r. split; [exact T|].
  destruct Ak as (content & Pt & Pk). rewrite Rs in E. pose proof (C82_valid _ _ _ _ _ _ L Pt Pk E) as Vs.
  intros sv Ok V. split.
  - intros now W. apply Acc; try assumption. apply V. exact Vs.
  - intros now r x (pairs & secs & region & date & scope & expires & life & names & names_text & sig' & canonical' & A).
    assert (X : sv_verifies sv mail message x) by tauto. apply V in X.
    eapply C84_unique; [exact So| |exact X|exact Vs]. destruct Si as (half & bits & _ & _ & _ & _ & _ & _ & _ & Ee & _). lia.
Qed.

(** * Examples *)

Definition demo_key_file : str :=
  B "{""type"":""service_account"",""client_email"":""sa@example.com"",""private_key"":""" ++ flat_map (fun c => if beq c x0a then B "\n" else [c]) demo_pem ++ B """}".

Lemma demo_key_read d : key_file d (Contents demo_key_file) (B "sa@example.com") demo_rsa.
Proof.
  exists demo_key_file, [(B "type", JStr (B "service_account")); (B "client_email", JStr (B "sa@example.com")); (B "private_key", JStr demo_pem)], demo_pem.
  split; [reflexivity|]. split; [apply unicode_spec; reflexivity|]. split; [apply readable_spec; vm_compute; reflexivity|]. split; [apply jobj_get_spec; reflexivity|].
  split; [apply jobj_get_spec; reflexivity|exact demo_account_key].
Qed.

Lemma rsa_calls_fine e : ~ violation rsa_calls (demo_options (Some demo_time) (demo_time + 60 * NS) (KServiceAccount (B "sa@example.com") demo_pem) false) demo_time e.
Proof.
  assert (Y : in_years demo_time /\ in_years (demo_time + 60 * NS)) by (vm_compute; intuition congruence).
  intros V. inversion V as [X|? X|? ? X|? ? ? X|? ? ? ? X|? ? ? ? ? ? ? X]; cbn [demo_options so_expiration] in *; try tauto.
  - revert X. vm_compute. intuition congruence.
  - apply (slot_unset _ _ _ (bucket_slot rsa_calls)) in X. discriminate X.
  - apply (slot_unset _ _ _ (key_slot rsa_calls)) in X. discriminate X.
  - discriminate X.
Qed.

Lemma rsa_form_length f : exists fields, returns (build (rsa_deps f) (builder_of rsa_calls)) [] (Ok fields) /\ forall v, In (B "Content-Length", v) fields -> v = B "3".
Proof.
  eexists. split; [unfold returns; vm_compute; constructor|]. intros v I. cbn [In] in I.
  repeat destruct I as [I|I]; try contradiction; first [exfalso; apply (f_equal fst) in I; discriminate I|apply (f_equal snd) in I; symmetry; exact I].
Qed.

(** From the file to accepted uploads, and refused ones after that. *)
Example C88_form_case : exists key fields policy s,
  service_account_from_path (rsa_deps demo_signature) (Contents demo_key_file) = Ok key /\
  returns (build (rsa_deps demo_signature) (builder_of (demo_form_at (Some demo_time) key false))) [] (Ok fields) /\
  upload_accepted (sv_verifies rsa_server) (demo_time / 1000000000 + 59) fields 3 (B "sa@example.com") policy s /\
  forall now form size x, upload_accepted (sv_verifies rsa_server) now form size (B "sa@example.com") policy x -> x = s /\ now < demo_time / 1000000000 + 60.
Proof.
  destruct (C88_form _ demo_limits (Contents demo_key_file) (B "sa@example.com") demo_rsa demo_rsa_deps ltac:(cbn; lia) ltac:(cbn; lia) (demo_key_read _) demo_rsa_sound demo_rsa_sized) as (key & Ek & F).
  assert (key = KServiceAccount (B "sa@example.com") demo_pem) as ->.
  { vm_compute in Ek. injection Ek as <-. reflexivity. }
  destruct (F _ _ demo_time [] (demo_last (Some demo_time) (KServiceAccount (B "sa@example.com") demo_pem) false) eq_refl eq_refl
    (bt_given (demo_options (Some demo_time) (demo_time + 60 * NS) (KServiceAccount (B "sa@example.com") demo_pem) false) demo_time eq_refl) rsa_calls_fine) as (fields & policy & s & R & Det & Ip & V).
  - intros E. apply empty_meta_iff in E. cbn in E. intuition discriminate.
  - cbn. repeat (constructor; [cbn; intuition discriminate|]). constructor.
  - exists (KServiceAccount (B "sa@example.com") demo_pem), fields, policy, s. split; [exact Ek|]. split; [exact R|].
    destruct (V (sv_verifies rsa_server)) as [V1 V2]; [intros m x; cbn; tauto|]. split.
    + apply (V1 _ fields []); [rewrite app_nil_r; apply Permutation_refl|constructor| |vm_compute; split; [discriminate|reflexivity]].
      intros v n I Dn. destruct (rsa_form_length demo_signature) as (fields' & R' & Len). destruct (Det [] _ R') as [_ E]. injection E as ->.
      rewrite (Len v I) in Dn. destruct Dn as [Dn _]. vm_compute in Dn. congruence.
    + intros now form size x A. split; [exact (V2 _ _ _ _ A)|].
      destruct (C87_only _ _ _ _ _ _ (demo_last (Some demo_time) _ false) R Ip) as (t' & pre' & t1' & t2' & email' & s' & T' & _ & _ & _ & Only). apply Only in A. destruct A as [[_ W] _]. exact W.
Qed.


Example C88_url_case : exists key url path query sig message s,
  service_account_from_path (rsa_deps demo_signature) (Contents demo_key_file) = Ok key /\ o_signing_key rsa_url = key /\
  returns (build_signed_url (rsa_deps demo_signature) rsa_url) [] (Ok url) /\ url_parts url path query sig /\
  accepts rsa_server (demo_time / 1000000000 + 599) (issued rsa_url path query sig demo_sent) (B "sa@example.com") message s /\
  forall now r x, accepts rsa_server now r (B "sa@example.com") message x -> x = s.
Proof.
  assert (Dk : deps_ok (rsa_deps demo_signature)) by (intros m n; reflexivity).
  destruct (C88_url _ demo_limits (Contents demo_key_file) (B "sa@example.com") demo_rsa Dk demo_rsa_deps ltac:(cbn; lia) ltac:(cbn; lia) (demo_key_read _) demo_rsa_sound demo_rsa_sized ltac:(apply literal_text; reflexivity)) as (key & Ek & F).
  assert (Kr : o_signing_key rsa_url = key) by (vm_compute in Ek; injection Ek as <-; reflexivity).
  destruct rsa_url_success as (url & path & query & sig & R & P). destruct (F _ _ _ _ _ _ _ Kr R P rsa_url_portable rsa_url_sends) as (t & message & s & T & V).
  destruct (V rsa_server rsa_server_ok) as [V1 V2]; [intros m x; cbn; tauto|].
  assert (t = demo_time) as -> by (assert (G : forall l, url_time rsa_url t l -> t = demo_time) by (intros l [x Ex|x Ex]; [injection Ex; auto|discriminate Ex]); exact (G _ T)).
  exists key, url, path, query, sig, message, s. split; [exact Ek|]. split; [exact Kr|]. split; [exact R|]. split; [exact P|]. split; [|exact V2]. apply V1. vm_compute. split; [discriminate|reflexivity].
Qed.
