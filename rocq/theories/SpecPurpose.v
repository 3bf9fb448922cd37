(** Specification: what the texts a key signs can be taken for. *)
From Verif Require Import Base SpecCodec SpecJson SpecPolicy SpecUrl Effects Keys HtmlForm SignedUrl Calls.
Local Open Scope byte_scope.

(** A POST policy: the base64 text of a policy document
    (https://cloud.google.com/storage/docs/authentication/signatures#policy-document). *)
Definition policy_message (m : str) : Prop :=
  exists text j cs secs, base64_of text m /\ json_text j text /\ policy_tree cs secs j.

(** The string to sign of a V4 signed URL, for some time, location and request. *)
Definition url_message (m : str) : Prop :=
  exists secs region canonical, message_text secs region canonical m.

(** The signing input of a JSON web token (RFC 7515 section 5.1): two base64url texts around a full stop.  With such a
    signature of a service account one obtains access tokens. *)
Definition base64url : str := B "ABCDEFGHIJKLMNOPQRSTUVWXYZabcdefghijklmnopqrstuvwxyz0123456789-_".
Definition token_message (m : str) : Prop :=
  exists header claims, m = header ++ "." :: claims /\
    Forall (fun c => In c base64url) header /\ Forall (fun c => In c base64url) claims.

(** The string to sign of a V2 signed URL (https://cloud.google.com/storage/docs/access-control/signed-urls-v2): the
    first line is an HTTP verb in capital letters. *)
Definition v2_message (m : str) : Prop :=
  exists verb rest, m = verb ++ x0a :: rest /\ Forall (fun c => In c (B "ABCDEFGHIJKLMNOPQRSTUVWXYZ")) verb.

(** What a call signs. *)
Definition message_kind (c : call) (m : str) : Prop :=
  match c with CallForm _ => policy_message m | CallUrl _ => url_message m end.
