(** Specification: what the text of an error tells. *)
From Verif Require Import Base Time Effects Json Keys HtmlForm SignedUrl Calls SpecJson SpecCodec SpecToken SpecTrace SpecSecret JsonFacts Messages.
Local Open Scope byte_scope.

(** The requests of an execution with what came back. *)
Definition exchanges (tr : list event) : list (request * http_result) :=
  flat_map (fun v => match v with VHttp r o => [(r, o)] | _ => [] end) tr.

(** What messages call a request of a key with that metadata server. *)
Inductive named (base : str) : request -> str -> Prop :=
| nm_email : named base (metadata_request base (B "email")) (B "email")
| nm_token : named base (metadata_request base (B "token")) (B "token")
| nm_blob email token message r : sign_blob_call email token message r -> named base r (B "signBlob").

(** What messages call an answer without a usable body; [cause] is the text of reqwest's error. *)
Inductive trouble (cause : str) : http_result -> str -> Prop :=
| tb_failed : trouble cause HttpFailed (B "execute error: " ++ cause)
| tb_status s digits body : ~ success_status s -> undec digits = Some s -> (exists c r, digits = c :: r /\ (c = "0" -> s = 0%N)) ->
    trouble cause (HttpResponse s (Some body)) (B "status error: " ++ digits ++ B " " ++ body)
| tb_error_body s : ~ success_status s -> trouble cause (HttpResponse s None) (B "error response error: " ++ cause)
| tb_body s : success_status s -> trouble cause (HttpResponse s None) (B "success response error: " ++ cause).

(** The member [signedBlob] of a signBlob response. *)
Definition blob_text (body blob : str) : Prop :=
  exists r k b key_id, raw_text r body /\ struct_of [B "keyId"; B "signedBlob"] r [k; b] /\ text_of k key_id /\ text_of b blob.

(** What messages call an answer whose body is of no use, to a request called so. *)
Inductive misunderstood (cause : str) (body : str) : str -> str -> Prop :=
| mu_token : (forall token n type, ~ token_body body token n type) ->
    misunderstood cause body (B "token") (B "success response deserialize error: " ++ cause)
| mu_type token n type : token_body body token n type -> type <> B "Bearer" ->
    misunderstood cause body (B "token") (B "invalid token_type error: " ++ type)
| mu_blob : (forall blob, ~ blob_text body blob) ->
    misunderstood cause body (B "signBlob") (B "success response deserialize error: " ++ cause)
| mu_base64 blob : blob_text body blob -> (forall signature, ~ base64_of signature blob) ->
    misunderstood cause body (B "signBlob") (B "success response base64 decode error: " ++ cause).

(** A request that cannot be sent: reqwest refuses its URL, or a header value that has a control character. *)
Definition unsendable (d : deps) (r : request) : Prop :=
  d_url_ok d (rq_url r) = false \/ exists n v, In (n, v) (rq_headers r) /\ ~ sendable v.

(** What a message says about an execution: it names the last exchange and quotes what came back, or it names a request
    that was not sent; a signBlob request that was not sent would have been for what the last lookup gave. *)
Inductive report (d : deps) (base cause : str) (tr : list event) : str -> Prop :=
| rp_answer before r o name w : exchanges tr = before ++ [(r, o)] -> named base r name -> trouble cause o w ->
    report d base cause tr (B "bound token / " ++ name ++ B " request / " ++ w)
| rp_body before r o body name w : exchanges tr = before ++ [(r, o)] -> named base r name -> answered o body -> misunderstood cause body name w ->
    report d base cause tr (B "bound token / " ++ name ++ B " request / " ++ w)
| rp_unsent name : In name [B "email"; B "token"] -> unsendable d (metadata_request base name) ->
    Forall (fun ro => exists body, answered (snd ro) body) (exchanges tr) ->
    report d base cause tr (B "bound token / " ++ name ++ B " request / build error: " ++ cause)
| rp_unsigned before id l email token message r : tr = before ++ l -> lookup id base email token l -> sign_blob_call email token message r -> unsendable d r ->
    Forall (fun ro => exists body, answered (snd ro) body) (exchanges tr) ->
    report d base cause tr (B "bound token / signBlob request / build error: " ++ cause).

(** A failed call whose text says that talking to the servers failed; [w] is what it says about that. *)
Inductive remote_message (x : outside_error) : answer -> str -> Prop :=
| rm_form_account e w : form_message e x = B "bound token authorizer: bound token authorizer error: " ++ w ->
    remote_message x (AForm (Err e)) w
| rm_form_signing e w : form_message e x = B "bound token signing error: " ++ w -> remote_message x (AForm (Err e)) w
| rm_url_account e w : url_message e x = B "signing error: bound token authorizer error: " ++ w ->
    remote_message x (AUrl (Err e)) w
| rm_url_signing e w : url_message e x = B "signing error: bound token signing error: " ++ w -> remote_message x (AUrl (Err e)) w.

Definition ends_with (s t : str) : Prop := exists a, s = a ++ t.

(** The text says all about the outside error [x] that it says about any: two such texts are equal only if the outside errors
    read the same, or the outside error is not part of the text. *)
Definition settled {A} (message : A -> outside_error -> str) (e : A) (x x' : outside_error) : Prop :=
  oe_text x = oe_text x' \/ forall y, message e y = message e x.
