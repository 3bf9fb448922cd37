(** Specification: a past that spoils nothing, and servers that answer well from now on. *)
From Verif Require Import Base Effects Keys Conc SpecToken SpecTrace SpecSecret.

(** Of what has happened so far: the metadata server at [base] named no account but [account] and gave no Bearer token that
    cannot be sent, and no clock reading was before 1970.  Any request may have failed, any call may have been cancelled or may
    have panicked, and any number of calls may be running. *)
Record unspoilt (base account : str) (tr : list gevent) : Prop := {
  us_named j o body : In (GDo j (VHttp (metadata_request base (B "email")) o)) tr -> answered o body -> body = account;
  us_given j o body token n : In (GDo j (VHttp (metadata_request base (B "token")) o)) tr -> answered o body ->
    token_body body token n (B "Bearer") -> sendable token;
  us_clock j t : In (GDo j (VNow t)) tr -> (0 <= t)%Z
}.

(** Servers that answer each request in one way, and a clock that shows one time. *)
Definition answered_by (answer : request -> http_result) (now : Z) (v : gevent) : Prop :=
  match v with
  | GDo _ (VHttp r o) => o = answer r
  | GDo _ (VNow t) => t = now
  | _ => True
  end.

(** The answers are good: the account, a Bearer token that can be sent and whose expiry is in range, and signatures. *)
Record good_answers (base account : str) (answer : request -> http_result) (now : Z) : Prop := {
  ga_email : answered (answer (metadata_request base (B "email"))) account;
  ga_token : exists body token n, answered (answer (metadata_request base (B "token"))) body /\ token_body body token n (B "Bearer") /\
    sendable token /\ (now + Z.of_N n * 1000000000 < two63 * 1000000000)%Z;
  ga_sign token message r : sign_blob_call account token message r -> exists body s, answered (answer r) body /\ blob_body body s;
  ga_clock : (0 <= now)%Z
}.
