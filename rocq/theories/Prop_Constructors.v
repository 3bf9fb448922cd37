(** C61: building a bound-token key from the environment, and loading a service account key from a file. *)
From Verif Require Import Base BaseFacts Time Json SpecJson Utf8 Effects EffectsFacts Keys HtmlForm SignedUrl Calls
  SpecTrace SpecRequests SpecUtf8 Utf8Facts SpecConstructors Prop_ServiceAccount Prop_Requests Demo.

Lemma unicode_spec s : utf8_valid s = true <-> unicode s.
Proof. apply utf8_valid_spec. Qed.

(** The base address is that of exactly one host, fixed when the key is built. *)
Theorem C61_host env id host : bt_base_url (bound_token_new env id) = B "http://" ++ host <-> asked_host env host.
Proof.
  unfold bound_token_new. cbn [bt_base_url]. split.
  - intros H. apply app_inv_head in H. destruct env as [v|].
    + destruct (utf8_valid v) eqn:U; subst host.
      * apply ah_set. apply unicode_spec. exact U.
      * apply ah_garbled. intros X. apply unicode_spec in X. congruence.
    + subst host. apply ah_unset.
  - intros [|v U|v U]; [reflexivity| |].
    + apply unicode_spec in U. rewrite U. reflexivity.
    + destruct (utf8_valid v) eqn:X; [|reflexivity]. apply unicode_spec in X. destruct (U X).
Qed.

(** Every request of a call with such a key, in every execution and at every point of it: one of the two metadata
    requests to that host, or a signBlob request to the fixed address.  The variable cannot move the signBlob request,
    the only one that carries the access token. *)
Theorem C61_requests d c tr q env id host r :
  steps (run_call d c) tr q -> call_key c = Some (key_bound_token env id) -> asked_host env host ->
  In r (asked tr) ->
  (exists attribute, In attribute [B "email"; B "token"] /\
     r = {| rq_method := B "GET";
            rq_url := B "http://" ++ host ++ B "/computeMetadata/v1/instance/service-accounts/default/" ++ attribute;
            rq_headers := [(B "Metadata-Flavor", B "Google")]; rq_body := None |}) \/
  is_sign_blob r.
Proof.
  intros H K A I. apply (C61_host env id host) in A. apply C57_requests in H.
  destruct H as [H|(bt & l1 & l2 & s & K' & A1 & A2 & S & [rest E])]; [rewrite H in I; destruct I|].
  rewrite K in K'. injection K' as <-. unfold key_bound_token in *.
  assert (M : forall l, lookup_asks (bt_base_url (bound_token_new env id)) l -> In r l ->
    exists attribute, In attribute [B "email"; B "token"] /\ r = metadata_request (bt_base_url (bound_token_new env id)) attribute).
  { intros l [->| ->] J; [destruct J|]. destruct J as [<-|[<-|[]]]; eexists; (split; [|reflexivity]); [left; reflexivity|right; left; reflexivity]. }
  assert (I' : In r (l1 ++ l2 ++ s)) by (rewrite E; apply in_or_app; left; exact I).
  rewrite !in_app_iff in I'. destruct I' as [J|[J|J]].
  - left. apply M in J; [|exact A1]. destruct J as (a & Ha & ->). exists a. split; [exact Ha|]. unfold metadata_request. rewrite A, <- app_assoc. reflexivity.
  - left. apply M in J; [|exact A2]. destruct J as (a & Ha & ->). exists a. split; [exact Ha|]. unfold metadata_request. rewrite A, <- app_assoc. reflexivity.
  - right. destruct S as (em & tk & m & r' & -> & (_ & U & _)). destruct J as [<-|[]]. exists em. exact U.
Qed.

(** "An empty variable counts as unset" is false: the key then asks an address without a host. *)
Theorem C61_empty_refuted : exists env id,
  env = Some [] /\ asked_host env [] /\ bt_base_url (bound_token_new env id) = B "http://" /\
  bt_base_url (bound_token_new env id) <> bt_base_url (bound_token_new None id).
Proof. exists (Some []), 7%N. repeat split; [|discriminate]. apply ah_set. exists []. constructor. Qed.

(** Loading from a file succeeds exactly when the file system delivers Unicode text that is a usable key. *)
Theorem C61_file d f k : service_account_from_path d f = Ok k <->
  exists bytes l email key, f = Contents bytes /\ unicode bytes /\ readable d bytes (JObj l) /\
    last_member (B "client_email") l (JStr email) /\ last_member (B "private_key") l (JStr key) /\
    k = KServiceAccount email key.
Proof.
  split.
  - destruct f as [| |bytes]; [discriminate|discriminate|]. cbn [service_account_from_path].
    destruct (utf8_valid bytes) eqn:U; [|discriminate]. intros H. apply C48_success in H. apply unicode_spec in U.
    destruct H as (l & email & key & H). exists bytes, l, email, key. tauto.
  - intros (bytes & l & email & key & -> & U & H). cbn [service_account_from_path]. apply unicode_spec in U. rewrite U.
    apply C48_success. exists l, email, key. exact H.
Qed.

(** Errors: the file errors exactly for a file that cannot be opened, respectively cannot be read as Unicode text;
    otherwise those of the text. *)
Theorem C61_file_errors d f e : service_account_from_path d f = Err e <->
  (f = OpenFails /\ e = FileOpen) \/
  ((f = ReadFails \/ exists bytes, f = Contents bytes /\ ~ unicode bytes) /\ e = FileRead) \/
  (exists bytes, f = Contents bytes /\ unicode bytes /\ sa_failure d bytes e).
Proof.
  split.
  - destruct f as [| |bytes]; cbn [service_account_from_path].
    + intros H. injection H as <-. left. auto.
    + intros H. injection H as <-. right. left. auto.
    + destruct (utf8_valid bytes) eqn:U.
      * intros H. apply C48_errors in H. apply unicode_spec in U. right. right. exists bytes. auto.
      * intros H. injection H as <-. right. left. split; [|reflexivity]. right. exists bytes. split; [reflexivity|].
        intros X. apply unicode_spec in X. congruence.
  - intros [[-> ->]|[[[->|(bytes & -> & U)] ->]|(bytes & -> & U & H)]]; cbn [service_account_from_path]; try reflexivity.
    + destruct (utf8_valid bytes) eqn:X; [|reflexivity]. apply unicode_spec in X. destruct (U X).
    + apply unicode_spec in U. rewrite U. apply C48_errors. exact H.
Qed.

(** Concrete cases: the variable of the crate's own test; a non-Unicode one; files. *)
Example C61_case_host :
  asked_host (Some (B "169.254.169.254")) (B "169.254.169.254") /\
  bt_base_url (bound_token_new (Some (B "169.254.169.254")) 7) = B "http://169.254.169.254" /\
  bound_token_new None 7 = demo_token /\ bound_token_new (Some [xff]%byte) 7 = demo_token.
Proof. repeat split. apply ah_set. apply unicode_spec. reflexivity. Qed.
Example C61_case_requests :
  exists tr q, steps (run_call demo_deps demo_bound_form) tr q /\ call_key demo_bound_form = Some (key_bound_token None 7) /\
    length (asked tr) = 3%nat.
Proof.
  exists (fst (play (run_call demo_deps demo_bound_form) demo_run)), (snd (play (run_call demo_deps demo_bound_form) demo_run)).
  split; [apply play_steps|]. split; [reflexivity|]. vm_compute. reflexivity.
Qed.
Example C61_case_file d :
  service_account_from_path d (Contents (B "{""client_email"":""a@b"",""private_key"":""k""}"))
    = Ok (KServiceAccount (B "a@b") (B "k")) /\
  service_account_from_path d (Contents (B "{""client_email"":""a@b"",""private_key"":""k""}" ++ [xc0; x80]%byte)) = Err FileRead /\
  service_account_from_path d (Contents []) = Err JsonDeserialize /\
  service_account_from_path d OpenFails = Err FileOpen.
Proof. repeat split. Qed.
