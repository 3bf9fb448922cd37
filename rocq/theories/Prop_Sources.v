(** C76, continued: what stands behind an error. *)
From Verif Require Import Base Utf8 Utf8Facts SpecConstructors Effects Keys SignedUrl HtmlForm Calls Messages.
Local Open Scope byte_scope.

(** The errors of a bound token that are made of what the server answered, not of another error. *)
Definition says_itself (e : bt_error) : Prop :=
  (exists status body, e = EmailRequestStatus status body \/ e = TokenRequestStatus status body \/ e = SignBlobRequestStatus status body) \/
  exists kind, e = TokenRequestInvalidTokenType kind.

(** What follows the crate's own texts: nothing, or the outside error and all behind it. *)
Definition behind (own : Prop) (x : outside_error) (l : list str) : Prop := (own -> l = []) /\ (~ own -> l = oe_text x :: oe_sources x).

(** A failed form leads through the crate's texts to the outside error, if there is one; a failed URL has its text only. *)
Theorem C76_sources e x : exists rest, behind (says_itself e) x rest /\
  (let f := FormBoundTokenAuthorizer (BoundTokenAuthorizer e) in
   answer_chain (AForm (Err f)) x = [form_message f x; key_message (BoundTokenAuthorizer e) x; bt_message e x] ++ rest) /\
  (let f := FormSigning (BoundTokenSigning e) in answer_chain (AForm (Err f)) x = [form_message f x; bt_message e x] ++ rest) /\
  (let f := FormSigning (ServiceAccountSigning PemParsing) in answer_chain (AForm (Err f)) x = form_message f x :: oe_text x :: oe_sources x) /\
  (forall u, answer_message (AUrl (Err u)) x = Some (url_message u x) /\ answer_chain (AUrl (Err u)) x = [url_message u x]).
Proof.
  exists (if bt_wraps e then oe_text x :: oe_sources x else []). split; [|repeat split].
  unfold behind, says_itself. destruct e; cbn [bt_wraps]; split; intros H; try reflexivity;
    try (exfalso; apply H; solve [left; eauto|right; eauto]).
  all: destruct H as [(s & b & [H|[H|H]])|[k H]]; discriminate H.
Qed.

(** A file that does not yield a text. *)
Definition unreadable (f : file_answer) : Prop := f = OpenFails \/ f = ReadFails \/ exists bytes, f = Contents bytes /\ ~ unicode bytes.

(** A key file that cannot be opened or read, or is no JSON, leads to the outside error; the other failures have their text only. *)
Theorem C76_file_sources d f e x : service_account_from_path d f = Err e ->
  (unreadable f \/ e = JsonDeserialize -> sa_chain e x = sa_message e x :: oe_text x :: oe_sources x) /\
  (~ unreadable f -> e <> JsonDeserialize -> sa_chain e x = [sa_message e x]).
Proof.
  intros H. split.
  - intros [[-> | [-> | (bytes & -> & N)]] | ->]; [injection H as <-; reflexivity..| |reflexivity]. cbn in H.
    destruct (utf8_valid bytes) eqn:U; [destruct N; apply utf8_valid_spec; exact U|]. injection H as <-. reflexivity.
  - intros N1 N2. assert (X : e <> FileOpen /\ e <> FileRead).
    { destruct f as [| |bytes]; [destruct N1; left; reflexivity|destruct N1; right; left; reflexivity|]. cbn in H. destruct (utf8_valid bytes) eqn:U.
      - unfold service_account_from_str in H.
        repeat match type of H with context [match ?y with _ => _ end] => destruct y end; try discriminate H; injection H as <-; split; discriminate.
      - destruct N1. right. right. exists bytes. split; [reflexivity|]. intros V. apply utf8_valid_spec in V. congruence. }
    destruct X as [N3 N4]. destruct e; try reflexivity; contradiction.
Qed.

Example C76_sources_case : let x := {| oe_text := B "error sending request"; oe_sources := [B "connection refused"] |} in
  ~ says_itself TokenRequestExecute /\ says_itself (TokenRequestStatus 500 (B "oops")) /\
  last (answer_chain (AForm (Err (FormSigning (BoundTokenSigning TokenRequestExecute)))) x) [] = B "connection refused".
Proof.
  cbv zeta. split; [intros [(s & b & [H|[H|H]])|[k H]]; discriminate H|]. split; [left; eauto|reflexivity].
Qed.

Example C76_file_sources_case d : service_account_from_path d ReadFails = Err FileRead /\ unreadable ReadFails /\
  service_account_from_path d (Contents (B "[]")) = Err JsonRootIsNotObject.
Proof. split; [reflexivity|]. split; [right; left; reflexivity|vm_compute; reflexivity]. Qed.
