(** Specification: who a key signs as and what a signature is, by what happened. *)
From Verif Require Import Base Effects Keys SpecToken SpecTrace.

(** The authorizer of a key, found during [tr]. *)
Inductive authorized : signing_key -> list event -> str -> Prop :=
| au_service_account email key : authorized (KServiceAccount email key) [] email
| au_hmac access_id secret : authorized (KHmac access_id secret) [] access_id
| au_bound_token bt email token tr : lookup (bt_id bt) (bt_base_url bt) email token tr ->
    authorized (KBoundToken bt) tr email.

(** The key's signature of [message], produced during [tr]: by the private key, or by a signBlob request
    that follows a lookup and whose response carries it. *)
Inductive signed (d : deps) : signing_key -> bool -> str -> list event -> str -> Prop :=
| sg_local email key message sig : d_rsa_sign d key message = Ok sig ->
    signed d (KServiceAccount email key) false message [] sig
| sg_remote bt email token l r o body message sig :
    lookup (bt_id bt) (bt_base_url bt) email token l -> sign_blob_call email token message r ->
    answered o body -> blob_body body sig ->
    signed d (KBoundToken bt) true message (l ++ [VHttp r o]) sig.
