(** Signing keys: src/signing_key.rs, src/private/signing_key_inner.rs, src/private/bound_token.rs,
    src/private/signing_algorithm.rs. *)
From Verif Require Import Base Time Base64 Utf8 Json Effects.
Local Open Scope Z_scope.

(** Why local signing can fail: src/private/signing_key_inner.rs lines 11-16. *)
Inductive rsa_error : Type := PemParsing | Pkcs8Parsing | RsaSigning.

(** What the model leaves open about third-party code; every theorem quantifies over it
    (behind src/signed_url.rs lines 81-113, src/signing_key.rs line 81, src/private/signing_key_inner.rs lines 66-80 and src/private/bound_token.rs lines 100-104). *)
Record deps := {
  (* whether url's PATH percent-encode set contains '^' (differs between url releases) *)
  d_path_caret : bool;
  (* whether http accepts the double quote in header names (differs between http releases) *)
  d_quote_in_header_name : bool;
  (* serde_json: whether the text of a number is in the range of f64 *)
  d_num_ok : str -> bool;
  (* pem + pkcs8 + ring RSA_PKCS1_SHA256: private key text and message to signature;
     src/private/signing_key_inner.rs lines 66-80 (the padding is deterministic) *)
  d_rsa_sign : str -> str -> res str rsa_error;
  (* http::HeaderMap: iteration order, and whether appending the headers exceeds its capacity *)
  d_hm_iter : list (str * str) -> list (str * str);
  d_hm_overflow : list (str * str) -> bool;
  (* whether reqwest accepts a URL text *)
  d_url_ok : str -> bool
}.

(** The only assumption about [deps]: iterating a header map yields, for every name, the values of that
    name in insertion order, and nothing else (documented behaviour of http::HeaderMap)
    (used at src/private/canonical_request.rs lines 17-19, 28). *)
Definition deps_ok (d : deps) : Prop :=
  forall m n, filter (fun kv => str_eqb (fst kv) n) (d_hm_iter d m)
            = filter (fun kv => str_eqb (fst kv) n) m.

(** [HeaderValue::from_str] / [try_from(String)]: every byte is at least 32 and not 127, or a tab.
    src/signed_url.rs line 107, src/private/bound_token.rs line 196. *)
Definition header_value_ok (v : str) : bool :=
  forallb (fun b => (N.leb 32 (bN b) && negb (N.eqb (bN b) 127)) || beq b x09) v.

(** [BoundTokenError], src/private/bound_token.rs lines 13-55 (wrapped causes dropped). *)
Inductive bt_error : Type :=
| EmailRequestBuild | EmailRequestErrorResponse | EmailRequestExecute
| EmailRequestStatus (status : N) (body : str) | EmailRequestSuccessResponse
| SignBlobRequestBuild | SignBlobRequestErrorResponse | SignBlobRequestExecute
| SignBlobRequestStatus (status : N) (body : str) | SignBlobRequestSuccessResponse
| SignBlobRequestSuccessResponseBase64Decode | SignBlobRequestSuccessResponseDeserialize
| TokenRequestBuild | TokenRequestErrorResponse | TokenRequestExecute
| TokenRequestInvalidTokenType (t : str) | TokenRequestStatus (status : N) (body : str)
| TokenRequestSuccessResponse | TokenRequestSuccessResponseDeserialize.

(** [BoundToken], src/private/bound_token.rs lines 57-62.  [bt_id] is the identity of the [Arc]; the
    HTTP client is the [EHttp] effect. *)
Record bound_token := { bt_id : N; bt_base_url : str }.

(** [BoundToken::new], src/private/bound_token.rs lines 65-76: [env] is the content of the variable
    [GCE_METADATA_HOST] if it is set, as bytes ([std::env::var] reports a content that is not UTF-8 as an error, which
    [ok] turns into [None]); [id] is the identity of the new [Arc]. *)
Definition bound_token_new (env : option str) (id : N) : bound_token :=
  {| bt_id := id;
     bt_base_url := B "http://" ++ match env with
                                   | Some host => if utf8_valid host then host else B "metadata.google.internal"
                                   | None => B "metadata.google.internal"
                                   end |}.

(** [AccessToken], src/private/bound_token.rs lines 6-11. *)
Record access_token := { at_token : str; at_expires_in : N; at_type : str }.

(** [serde_json::from_str::<AccessToken>], src/private/bound_token.rs line 159. *)
Definition access_token_from_str (s : str) : option access_token :=
  match from_str_raw s with
  | None => None
  | Some r =>
      match de_struct [B "access_token"; B "expires_in"; B "token_type"] r with
      | Some [a; e; t] =>
          match de_string a, de_u64 e, de_string t with
          | Some a, Some e, Some t => Some {| at_token := a; at_expires_in := e; at_type := t |}
          | _, _, _ => None
          end
      | _ => None
      end
  end.

(** [StatusCode::is_success] (src/private/bound_token.rs lines 111, 145, 216). *)
Definition is_success (status : N) : bool := (N.leb 200 status && N.ltb status 300)%bool.

(** Build, execute, check the status and read the body, written out three times in
    src/private/bound_token.rs (lines 95-124, 129-158, 190-229) with different error variants. *)
Definition request_text (d : deps) (build_err execute_err error_response_err : bt_error)
    (status_err : N -> str -> bt_error) (success_response_err : bt_error) (r : request)
  : prog (res str bt_error) :=
  if negb (d_url_ok d (rq_url r) && forallb (fun h => header_value_ok (snd h)) (rq_headers r))
  then Ret (Err build_err)
  else Act (EHttp r) (fun o =>
    match o with
    | HttpFailed => Ret (Err execute_err)
    | HttpResponse status body =>
        if negb (is_success status) then
          match body with
          | None => Ret (Err error_response_err)
          | Some b => Ret (Err (status_err status b))
          end
        else match body with
             | None => Ret (Err success_response_err)
             | Some b => Ret (Ok b)
             end
    end).

(** src/private/bound_token.rs lines 95-104. *)
Definition email_request (bt : bound_token) : request := {|
  rq_method := B "GET";
  rq_url := bt_base_url bt ++ B "/computeMetadata/v1/instance/service-accounts/default/email";
  rq_headers := [(B "Metadata-Flavor", B "Google")];
  rq_body := None
|}.

(** src/private/bound_token.rs lines 129-138. *)
Definition token_request (bt : bound_token) : request := {|
  rq_method := B "GET";
  rq_url := bt_base_url bt ++ B "/computeMetadata/v1/instance/service-accounts/default/token";
  rq_headers := [(B "Metadata-Flavor", B "Google")];
  rq_body := None
|}.

(** The refresh branch of [get_email_and_token], src/private/bound_token.rs lines 92-169. *)
Definition refresh (d : deps) (bt : bound_token) : prog (res (str * str) bt_error) :=
  bind_ok (fun e => e)
    (request_text d EmailRequestBuild EmailRequestExecute EmailRequestErrorResponse
       EmailRequestStatus EmailRequestSuccessResponse (email_request bt)) (fun email =>
  bind_ok (fun e => e)
    (request_text d TokenRequestBuild TokenRequestExecute TokenRequestErrorResponse
       TokenRequestStatus TokenRequestSuccessResponse (token_request bt)) (fun body =>
  match access_token_from_str body with
  | None => Ret (Err TokenRequestSuccessResponseDeserialize)
  | Some tok =>
      if negb (str_eqb (at_type tok) (B "Bearer"))
      then Ret (Err (TokenRequestInvalidTokenType (at_type tok)))
      else Act ENow (fun now =>
        match systime_add_secs now (at_expires_in tok) with
        | None => Panic PExpiresOverflow
        | Some expires =>
            Act (ESet (bt_id bt) (Some (email, at_token tok, expires))) (fun _ =>
            Ret (Ok (email, at_token tok)))
        end)
  end)).

(** [get_email_and_token] while the guard is held, src/private/bound_token.rs lines 80-170. *)
Definition get_locked (d : deps) (bt : bound_token) : prog (res (str * str) bt_error) :=
  Act (EGet (bt_id bt)) (fun c =>
    match c with
    | Some (email, token, expires) =>
        match duration_since expires 0 with
        | None => Panic PExpiresBeforeEpoch
        | Some e =>
            Act ENow (fun now =>
              match duration_since now 0 with
              | None => Panic PNowBeforeEpoch
              | Some n => if n + 30 * NS <? e then Ret (Ok (email, token)) else refresh d bt
              end)
        end
    | None => refresh d bt
    end).

(** [BoundToken::get_email_and_token], src/private/bound_token.rs lines 78-171.  The guard is dropped on
    every return; on a panic or a cancellation the semantics releases it (Conc.v). *)
Definition get_email_and_token (d : deps) (bt : bound_token) : prog (res (str * str) bt_error) :=
  Act (ELock (bt_id bt)) (fun _ =>
  bind (get_locked d bt) (fun r =>
  Act (EUnlock (bt_id bt)) (fun _ => Ret r))).

(** src/private/bound_token.rs lines 190-209. *)
Definition sign_blob_request (email token message : str) : request := {|
  rq_method := B "POST";
  rq_url := B "https://iamcredentials.googleapis.com/v1/projects/-/serviceAccounts/" ++ email
            ++ B ":signBlob";
  rq_headers := [(B "authorization", B "Bearer " ++ token);
                 (B "content-type", B "application/json")];
  rq_body := Some (jprint (JObj [(B "payload", JStr (b64_encode message))]))
|}.

(** [serde_json::from_str::<SignBlobResponseBody>], src/private/bound_token.rs lines 183-189, 230:
    the [signedBlob] member ([keyId] is required too). *)
Definition signed_blob_from_str (s : str) : option str :=
  match from_str_raw s with
  | None => None
  | Some r =>
      match de_struct [B "keyId"; B "signedBlob"] r with
      | Some [k; b] =>
          match de_string k, de_string b with
          | Some _, Some b => Some b
          | _, _ => None
          end
      | _ => None
      end
  end.

(** [BoundToken::sign], src/private/bound_token.rs lines 173-240. *)
Definition bound_token_sign (d : deps) (bt : bound_token) (message : str)
  : prog (res str bt_error) :=
  bind_ok (fun e => e) (get_email_and_token d bt) (fun et =>
  bind_ok (fun e => e)
    (request_text d SignBlobRequestBuild SignBlobRequestExecute SignBlobRequestErrorResponse
       SignBlobRequestStatus SignBlobRequestSuccessResponse
       (sign_blob_request (fst et) (snd et) message)) (fun body =>
  match signed_blob_from_str body with
  | None => Ret (Err SignBlobRequestSuccessResponseDeserialize)
  | Some blob =>
      match b64_decode blob with
      | None => Ret (Err SignBlobRequestSuccessResponseBase64Decode)
      | Some sig => Ret (Ok sig)
      end
  end)).

(** [SigningKeyInner], src/private/signing_key_inner.rs lines 19-32; its constructors for users are src/signing_key.rs lines 42-64. *)
Inductive signing_key : Type :=
| KBoundToken (bt : bound_token)
| KHmac (access_id secret : str)
| KServiceAccount (client_email private_key : str).

(** [signing_key_inner::Error], src/private/signing_key_inner.rs lines 3-17. *)
Inductive key_error : Type :=
| BoundTokenAuthorizer (e : bt_error)
| BoundTokenMustUseSignBlob
| BoundTokenSigning (e : bt_error)
| ServiceAccountSigning (e : rsa_error).

(** [SigningAlgorithm], src/private/signing_algorithm.rs lines 2-9. *)
Inductive algorithm : Type := Goog4RsaSha256 | Goog4HmacSha256 | Aws4HmacSha256.

(** [SigningAlgorithm::as_str], src/private/signing_algorithm.rs lines 12-18; [AsRef<str>], src/private/signing_algorithm.rs lines 22-24. *)
Definition algorithm_str (a : algorithm) : str :=
  match a with
  | Goog4RsaSha256 => B "GOOG4-RSA-SHA256"
  | Goog4HmacSha256 => B "GOOG4-HMAC-SHA256"
  | Aws4HmacSha256 => B "AWS4-HMAC-SHA256"
  end.

(** [SigningKeyInner::authorizer], src/private/signing_key_inner.rs lines 35-47. *)
Definition authorizer (d : deps) (k : signing_key) : prog (res str key_error) :=
  match k with
  | KBoundToken bt => bind_ok BoundTokenAuthorizer (get_email_and_token d bt) (fun et => Ret (Ok (fst et)))
  | KHmac access_id _ => Ret (Ok access_id)
  | KServiceAccount email _ => Ret (Ok email)
  end.

(** [SigningKeyInner::sign], src/private/signing_key_inner.rs lines 49-84. *)
Definition sign (d : deps) (k : signing_key) (use_sign_blob : bool) (message : str)
  : prog (res str key_error) :=
  match k with
  | KBoundToken bt =>
      if use_sign_blob
      then bind_ok BoundTokenSigning (bound_token_sign d bt message) (fun s => Ret (Ok s))
      else Ret (Err BoundTokenMustUseSignBlob)
  | KHmac _ _ => Panic PHmacSign
  | KServiceAccount _ private_key =>
      if use_sign_blob then Panic PServiceAccountSignBlob
      else match d_rsa_sign d private_key message with
           | Ok s => Ret (Ok s)
           | Err e => Ret (Err (ServiceAccountSigning e))
           end
  end.

(** [SigningKeyInner::x_goog_algorithm], src/private/signing_key_inner.rs lines 86-93. *)
Definition key_algorithm (k : signing_key) : algorithm :=
  match k with
  | KBoundToken _ | KServiceAccount _ _ => Goog4RsaSha256
  | KHmac _ _ => Goog4HmacSha256
  end.

(** [signing_key::ErrorKind], src/signing_key.rs lines 9-26 (wrapped causes dropped). *)
Inductive sa_error : Type :=
| FileOpen
| FileRead
| JsonDeserialize
| JsonRootIsNotObject
| ClientEmailIsNotFound
| ClientEmailIsNotString
| PrivateKeyIsNotFound
| PrivateKeyIsNotString.

(** [SigningKey::service_account_from_str], src/signing_key.rs lines 80-99. *)
Definition service_account_from_str (d : deps) (s : str) : res signing_key sa_error :=
  match from_str_value (d_num_ok d) s with
  | None => Err JsonDeserialize
  | Some (JObj o) =>
      match jobj_get (B "client_email") o with
      | None => Err ClientEmailIsNotFound
      | Some (JStr email) =>
          match jobj_get (B "private_key") o with
          | None => Err PrivateKeyIsNotFound
          | Some (JStr key) => Ok (KServiceAccount email key)
          | Some _ => Err PrivateKeyIsNotString
          end
      | Some _ => Err ClientEmailIsNotString
      end
  | Some _ => Err JsonRootIsNotObject
  end.

(** [SigningKey::bound_token], src/signing_key.rs lines 42-44. *)
Definition key_bound_token (env : option str) (id : N) : signing_key := KBoundToken (bound_token_new env id).

(** What the file system answers to [File::open] and [Read::read_to_string] (src/signing_key.rs lines 70-73): it
    refuses to open the file, or fails while it is read, or delivers its bytes. *)
Inductive file_answer : Type := OpenFails | ReadFails | Contents (bytes : str).

(** [SigningKey::service_account_from_path], src/signing_key.rs lines 69-75; [read_to_string] also fails when the bytes
    are not UTF-8. *)
Definition service_account_from_path (d : deps) (f : file_answer) : res signing_key sa_error :=
  match f with
  | OpenFails => Err FileOpen
  | ReadFails => Err FileRead
  | Contents bytes => if utf8_valid bytes then service_account_from_str d bytes else Err FileRead
  end.
