(** Specification: executions that differ in secrets only.  The secrets are access tokens, private keys and
    HMAC secrets. *)
From Verif Require Import Base Time Effects Keys HtmlForm SignedUrl Calls SpecToken SpecTrace.

(** A token that can stand in a header. *)
Definition sendable (token : str) : Prop := Forall (fun c => c = x09 \/ (32 <= bN c)%N /\ bN c <> 127%N) token.

(** Cache contents that differ at most in the token. *)
Inductive same_entry : cache -> cache -> Prop :=
| se_same c : same_entry c c
| se_token email t t' expires : sendable t -> sendable t' ->
    same_entry (Some (email, t, expires)) (Some (email, t', expires)).

(** Responses to a request that differ at most in the access token of a successful token response. *)
Inductive same_response : request -> http_result -> http_result -> Prop :=
| sr_same r o : same_response r o o
| sr_token base s b b' t t' n type : success_status s -> token_body b t n type -> token_body b' t' n type ->
    sendable t -> sendable t' ->
    same_response (metadata_request base (B "token")) (HttpResponse s (Some b)) (HttpResponse s (Some b')).

(** Requests that differ at most in the token of the authorization header of a signBlob request. *)
Inductive same_request : request -> request -> Prop :=
| sq_same r : same_request r r
| sq_token email message t t' r r' : sign_blob_call email t message r -> sign_blob_call email t' message r' ->
    rq_body r = rq_body r' -> same_request r r'.

(** The responses of two events do not differ in more than tokens (nothing is asked of what was done). *)
Definition same_answer (v v' : event) : Prop :=
  match v, v' with
  | VNow t, VNow t' => t = t'
  | VHttp r o, VHttp _ o' => same_response r o o'
  | VGet _ c, VGet _ c' => same_entry c c'
  | _, _ => True
  end.

(** Two events do the same up to tokens. *)
Inductive same_event : event -> event -> Prop :=
| sv_now t : same_event (VNow t) (VNow t)
| sv_http r r' o o' : same_request r r' -> same_response r o o' -> same_event (VHttp r o) (VHttp r' o')
| sv_lock i : same_event (VLock i) (VLock i)
| sv_unlock i : same_event (VUnlock i) (VUnlock i)
| sv_get i c c' : same_entry c c' -> same_event (VGet i c) (VGet i c')
| sv_set i c c' : same_entry c c' -> same_event (VSet i c) (VSet i c').

(** Keys that differ in their secret only; two private keys count as the same if they make the same
    signatures (a signature is public). *)
Inductive same_key (d : deps) : signing_key -> signing_key -> Prop :=
| sk_same k : same_key d k k
| sk_hmac id s s' : same_key d (KHmac id s) (KHmac id s')
| sk_account email k k' : (forall m, d_rsa_sign d k m = d_rsa_sign d k' m) ->
    same_key d (KServiceAccount email k) (KServiceAccount email k').

(** The same call with another key. *)
Definition with_key (c : call) (k : signing_key) : call :=
  match c with
  | CallForm b =>
      CallForm (match b_signing_options b with
                | None => b
                | Some o => apply_call b (CSigningOptions
                    {| so_accessible_at := so_accessible_at o; so_expiration := so_expiration o; so_region := so_region o;
                       so_signing_key := k; so_use_sign_blob := so_use_sign_blob o |})
                end)
  | CallUrl o =>
      CallUrl {| o_bucket_name := o_bucket_name o; o_object_name := o_object_name o; o_region := o_region o;
                 o_expires := o_expires o; o_http_method := o_http_method o; o_accessible_at := o_accessible_at o;
                 o_signing_key := k; o_use_sign_blob := o_use_sign_blob o;
                 o_headers := o_headers o; o_query_parameters := o_query_parameters o |}
  end.

(** What remains of two calls: both returned the same, both panicked at the same place, or both go on. *)
Definition same_outcome {A} (q q' : prog A) : Prop :=
  match q, q' with
  | Ret a, Ret a' => a = a'
  | Panic s, Panic s' => s = s'
  | Act _ _, Act _ _ => True
  | _, _ => False
  end.
