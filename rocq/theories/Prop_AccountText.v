(** C72: what a request with the access token asks for, for every name of the account. *)
From Verif Require Import Base BaseFacts FormUrl FormUrlFacts Effects EffectsFacts Keys Url UrlFacts SpecUrl SignedUrl HtmlForm Calls Target SpecTarget
  SpecTrace SpecRequests Prop_UrlPath SpecPath Prop_Path SpecRequestUrl Prop_RequestUrl Prop_Requests Prop_Target SpecAddressText Prop_AddressText Demo.
Local Open Scope byte_scope.

(** The documented path with the account as the metadata server gave it, tabs and line breaks removed, is cut and written by the rules for
    any address; so slashes, dots, question marks and number signs in the account change what is asked for in exactly this way. *)
Theorem C72_every_account d account token message line : one_line account line ->
  exists t, target_of d (rq_url (sign_blob_request account token message)) = Some t /\ goes_to t (B "https") (B "iamcredentials.googleapis.com") /\
    forall path query fragment,
      (exists p q f, cut (B "v1/projects/-/serviceAccounts/" ++ line ++ B ":signBlob") p q f /\ request_path (d_path_caret d) p path /\
         part in_query q query /\ part in_fragment f fragment) <->
      u_path (tg_url t) = path /\ u_query (tg_url t) = query /\ u_fragment (tg_url t) = fragment.
Proof.
  intros O. unfold sign_blob_request. cbn [rq_url]. rewrite blob_target. eexists. split; [reflexivity|]. split; [split; reflexivity|]. cbn [tg_url].
  pose proof (one_line_clean _ _ O) as (T1 & T2 & T3). apply one_line_iff in O. rewrite <- O. set (tail := B "v1/projects/-/serviceAccounts/" ++ line ++ B ":signBlob").
  assert (N : neat tail).
  { apply (neat_suffix []). cbn [app]. assert (G : forall c, existsb (beq c) (B "v1/projects/-/serviceAccounts/:signBlob") = false -> ~ In c line -> ~ In c tail).
    { intros c E X I. unfold tail in I. rewrite !in_app_iff in I. assert (Y : In c (B "v1/projects/-/serviceAccounts/:signBlob") \/ In c line).
      { change (B "v1/projects/-/serviceAccounts/:signBlob") with (B "v1/projects/-/serviceAccounts/" ++ B ":signBlob"). rewrite in_app_iff. tauto. }
      destruct Y as [Y|Y]; [|contradiction]. assert (Z : existsb (beq c) (B "v1/projects/-/serviceAccounts/:signBlob") = true) by (apply existsb_exists; exists c; split; [exact Y|apply beq_refl]).
      congruence. }
    split; [apply G; [reflexivity|exact T1]|]. split; [apply G; [reflexivity|exact T2]|]. split; [apply G; [reflexivity|exact T3]|].
    intros p c E. unfold tail in E. replace (B ":signBlob") with (B ":signBlo" ++ ["b"]) in E by reflexivity. rewrite !app_assoc in E. apply app_inj_tail in E. destruct E as [_ <-]. reflexivity. }
  intros path query fragment. rewrite (tail_parse d tail N path query fragment). destruct (url_parse d tail) as [a b c]. cbn [u_path u_query u_fragment].
  split; [intros E; injection E as <- <- <-; auto|intros (<- & <- & <-); reflexivity].
Qed.

(** In every execution a request with the access token is one of these. *)
Theorem C72_every_request d c tr q r : steps (run_call d c) tr q -> In r (asked tr) -> carries_token r ->
  exists account line t p qu f, one_line account line /\ target_of d (rq_url r) = Some t /\ goes_to t (B "https") (B "iamcredentials.googleapis.com") /\
    cut (B "v1/projects/-/serviceAccounts/" ++ line ++ B ":signBlob") p qu f /\ request_path (d_path_caret d) p (u_path (tg_url t)) /\
    part in_query qu (u_query (tg_url t)) /\ part in_fragment f (u_fragment (tg_url t)).
Proof.
  intros H I V. destruct (token_request_blob _ _ _ _ _ H I V) as [account U].
  destruct (C72_every_account d account [] [] (drop_tabs account)) as (t & E & G & X); [apply one_line_iff; reflexivity|].
  destruct (proj2 (X (u_path (tg_url t)) (u_query (tg_url t)) (u_fragment (tg_url t))) (conj eq_refl (conj eq_refl eq_refl))) as (p & qu & f & C).
  exists account, (drop_tabs account), t, p, qu, f. split; [apply one_line_iff; reflexivity|]. split; [rewrite U; exact E|]. split; [exact G|]. exact C.
Qed.

(** An account with dots and a question mark asks for something else. *)
Example C72_every_account_case : exists p q f, one_line (B "../../x?y" ++ [x0a]%byte) (B "../../x?y") /\
  cut (B "v1/projects/-/serviceAccounts/" ++ B "../../x?y" ++ B ":signBlob") p q f /\ request_path false p (B "/v1/projects/x") /\
  part in_query q (Some (B "y:signBlob")) /\ part in_fragment f None.
Proof.
  assert (O : one_line (B "../../x?y" ++ [x0a]%byte) (B "../../x?y")) by (apply one_line_iff; reflexivity).
  exists (B "v1/projects/-/serviceAccounts/../../x"), (Some (B "y:signBlob")), None. split; [exact O|].
  split; [apply cut_iff; vm_compute; reflexivity|]. split; [apply request_path_iff; vm_compute; reflexivity|].
  split; [apply (part_iff _ _ in_query_iff); vm_compute; reflexivity|exact Logic.I].
Qed.
