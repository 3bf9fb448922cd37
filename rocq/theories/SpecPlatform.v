(** Specification: servers that do their work, seen in a history of many tasks. *)
From Verif Require Import Base Effects Keys Conc SpecToken SpecTrace SpecSecret.

(** The metadata server at [base] names no account but [account], and what signBlob gives for [account] is its signature:
    [signs m s] says that [s] is [account]'s signature of [m].  Any request may fail. *)
Record truthful (base account : str) (signs : str -> str -> Prop) (tr : list gevent) : Prop := {
  tf_email i o body : In (GDo i (VHttp (metadata_request base (B "email")) o)) tr -> answered o body -> body = account;
  tf_sign i token message r o body s : In (GDo i (VHttp r o)) tr -> sign_blob_call account token message r ->
    answered o body -> blob_body body s -> signs message s
}.

(** The requests of call [i] that have been answered have been answered well: the metadata server at [base] gave the account
    and Bearer tokens, signBlob gave signatures for the account.  Of the requests of other calls any may have failed; only, no
    other account was named to them, and no Bearer token that cannot be sent was given to them. *)
Record well_served (base account : str) (i : nat) (tr : list gevent) : Prop := {
  ws_named j o body : In (GDo j (VHttp (metadata_request base (B "email")) o)) tr -> answered o body -> body = account;
  ws_given j o body token n : In (GDo j (VHttp (metadata_request base (B "token")) o)) tr -> answered o body ->
    token_body body token n (B "Bearer") -> sendable token;
  ws_email o : In (GDo i (VHttp (metadata_request base (B "email")) o)) tr -> exists body, answered o body;
  ws_token o : In (GDo i (VHttp (metadata_request base (B "token")) o)) tr ->
    exists body token n, answered o body /\ token_body body token n (B "Bearer");
  ws_sign token message r o : In (GDo i (VHttp r o)) tr -> sign_blob_call account token message r ->
    exists body s, answered o body /\ blob_body body s
}.

(** The three addresses are addresses for the HTTP client. *)
Definition reachable (d : deps) (base account : str) : Prop :=
  d_url_ok d (base ++ B "/computeMetadata/v1/instance/service-accounts/default/email") = true /\
  d_url_ok d (base ++ B "/computeMetadata/v1/instance/service-accounts/default/token") = true /\
  d_url_ok d (B "https://iamcredentials.googleapis.com/v1/projects/-/serviceAccounts/" ++ account ++ B ":signBlob") = true.

(** No clock reading is before 1970, and no expiry that call [i] computes for a token given by the metadata server at [base] is
    out of range. *)
Definition clocks_in_range (base : str) (i : nat) (tr : list gevent) : Prop :=
  (forall j t, In (GDo j (VNow t)) tr -> (0 <= t)%Z) /\
  (forall o body token n t, In (GDo i (VHttp (metadata_request base (B "token")) o)) tr -> answered o body -> token_body body token n (B "Bearer") ->
     In (GDo i (VNow t)) tr -> (t + Z.of_N n * 1000000000 < two63 * 1000000000)%Z).
