(** The texts of errors: what [Display] and [source] of the public error types give.

    The error values of the model leave out the errors of other crates that the crate's errors wrap; such an error appears
    here as a parameter [outside_error]. *)
From Verif Require Import Base Time Keys HtmlForm SignedUrl Calls.
Local Open Scope byte_scope.

(** An error of another crate (reqwest, serde_json, base64, pem, ring, std::io), as wrapped by src/private/bound_token.rs
    lines 15-54, src/private/signing_key_inner.rs lines 11-16, src/signing_key.rs lines 10-19: its text, and the texts of
    the errors behind it, outermost first. *)
Record outside_error := { oe_text : str; oe_sources : list str }.

(** Whether the variant wraps an error marked [#[source]], src/private/bound_token.rs lines 15-54. *)
Definition bt_wraps (e : bt_error) : bool :=
  match e with
  | EmailRequestStatus _ _ | SignBlobRequestStatus _ _ | TokenRequestStatus _ _ | TokenRequestInvalidTokenType _ => false
  | _ => true
  end.

(** [Display for BoundTokenError], src/private/bound_token.rs lines 15-54; [u16] and [String] by their own [Display]. *)
Definition bt_message (e : bt_error) (x : outside_error) : str :=
  match e with
  | EmailRequestBuild => B "bound token / email request / build error: " ++ oe_text x
  | EmailRequestErrorResponse => B "bound token / email request / error response error: " ++ oe_text x
  | EmailRequestExecute => B "bound token / email request / execute error: " ++ oe_text x
  | EmailRequestStatus status body => B "bound token / email request / status error: " ++ dec status ++ B " " ++ body
  | EmailRequestSuccessResponse => B "bound token / email request / success response error: " ++ oe_text x
  | SignBlobRequestBuild => B "bound token / signBlob request / build error: " ++ oe_text x
  | SignBlobRequestErrorResponse => B "bound token / signBlob request / error response error: " ++ oe_text x
  | SignBlobRequestExecute => B "bound token / signBlob request / execute error: " ++ oe_text x
  | SignBlobRequestStatus status body => B "bound token / signBlob request / status error: " ++ dec status ++ B " " ++ body
  | SignBlobRequestSuccessResponse => B "bound token / signBlob request / success response error: " ++ oe_text x
  | SignBlobRequestSuccessResponseBase64Decode =>
      B "bound token / signBlob request / success response base64 decode error: " ++ oe_text x
  | SignBlobRequestSuccessResponseDeserialize =>
      B "bound token / signBlob request / success response deserialize error: " ++ oe_text x
  | TokenRequestBuild => B "bound token / token request / build error: " ++ oe_text x
  | TokenRequestErrorResponse => B "bound token / token request / error response error: " ++ oe_text x
  | TokenRequestExecute => B "bound token / token request / execute error: " ++ oe_text x
  | TokenRequestInvalidTokenType t => B "bound token / token request / invalid token_type error: " ++ t
  | TokenRequestStatus status body => B "bound token / token request / status error: " ++ dec status ++ B " " ++ body
  | TokenRequestSuccessResponse => B "bound token / token request / success response error: " ++ oe_text x
  | TokenRequestSuccessResponseDeserialize => B "bound token / token request / success response deserialize error: " ++ oe_text x
  end.

(** The error and what is behind it, following [source]: src/private/bound_token.rs lines 15-54. *)
Definition bt_chain (e : bt_error) (x : outside_error) : list str :=
  bt_message e x :: (if bt_wraps e then oe_text x :: oe_sources x else []).

(** [Display for Error], src/private/signing_key_inner.rs lines 5-16. *)
Definition key_message (e : key_error) (x : outside_error) : str :=
  match e with
  | BoundTokenAuthorizer e => B "bound token authorizer error: " ++ bt_message e x
  | BoundTokenMustUseSignBlob => B "bound token must use sign blob"
  | BoundTokenSigning e => B "bound token signing error: " ++ bt_message e x
  | ServiceAccountSigning PemParsing => B "service account private key pem parsing error: " ++ oe_text x
  | ServiceAccountSigning Pkcs8Parsing => B "service account private key pkcs8 parsing error: " ++ oe_text x
  | ServiceAccountSigning RsaSigning => B "service account signing error: " ++ oe_text x
  end.

(** What [source] leads to, src/private/signing_key_inner.rs lines 5-16: the last two variants do not mark a source. *)
Definition key_sources (e : key_error) (x : outside_error) : list str :=
  match e with
  | BoundTokenAuthorizer e | BoundTokenSigning e => bt_chain e x
  | ServiceAccountSigning PemParsing => oe_text x :: oe_sources x
  | BoundTokenMustUseSignBlob | ServiceAccountSigning Pkcs8Parsing | ServiceAccountSigning RsaSigning => []
  end.

(** [Display for Error], src/html_form_data.rs lines 11-39: [Error] and [Signing] are transparent. *)
Definition form_message (e : form_error) (x : outside_error) : str :=
  match e with
  | AccessibleAtOutOfRange => B "accessible_at out of range"
  | FormBoundTokenAuthorizer e => B "bound token authorizer: " ++ key_message e x
  | BucketNotFound => B "bucket not found"
  | ExpirationBeforeAccessibleAt => B "expiration before accessible_at"
  | FormExpirationOutOfRange => B "expiration out of range"
  | KeyNotFound => B "key not found"
  | FormSigning e => key_message e x
  | XGoogAlgorithmNotSupported => B "x-goog-algorithm not supported"
  | XGoogCredentialInvalid => B "x-goog-credential invalid"
  | XGoogMetaNameEmpty => B "x-goog-meta-* field name is empty"
  end.

(** [source], src/html_form_data.rs lines 11-39: a transparent variant has the source of what it wraps;
    [XGoogCredentialInvalid] does not mark a source. *)
Definition form_chain (e : form_error) (x : outside_error) : list str :=
  form_message e x ::
  match e with
  | FormBoundTokenAuthorizer e => key_message e x :: key_sources e x
  | FormSigning e => key_sources e x
  | _ => []
  end.

(** [Display for i64], src/private/expiration.rs line 3. *)
Definition dec_z (z : Z) : str := if (z <? 0)%Z then B "-" ++ dec (Z.to_N (- z)) else dec (Z.to_N z).

(** [Display for Error], src/private/signed_url.rs lines 14-19, src/private/canonical_request.rs line 7. *)
Definition signed_url_message (e : signed_url_error) (x : outside_error) : str :=
  match e with
  | CanonicalRequestError => B "header value contains non visible ascii characters"
  | HostHeaderNotFound => B "host header not found"
  | UrlSigning e => B "signing error: " ++ key_message e x
  end.

(** [Display for Error], src/signed_url.rs lines 11-39, src/private/credential_scope.rs line 7, src/private/expiration.rs
    line 3, src/private/http_verb.rs line 3, src/private/location.rs line 3.  The texts of the http crate are written out: a
    URI is refused for its length only (C28). *)
Definition url_message (e : url_error) (x : outside_error) : str :=
  match e with
  | UrlCredentialScope => B "SERVICE 'storage' and REQUEST_TYPE 'goog4_request' is an invalid combination"
  | UrlExpiration seconds => B "out of range (0..=604800) : " ++ dec_z seconds
  | UrlExpirationOutOfRange => B "expiration out of range"
  | UrlHttpMethod method => B "invalid http verb: " ++ method
  | UrlHttpRequest => B "uri too long"
  | UrlInvalidHeaderName => B "invalid HTTP header name"
  | UrlInvalidHeaderValue => B "failed to parse header value"
  | UrlLocation => B "invalid location"
  | UrlNow => B "now out of range"
  | UrlSignedUrl e => signed_url_message e x
  end.

(** [source], src/signed_url.rs lines 11-39: every variant is transparent or has none, and src/private/signed_url.rs line 19
    marks no source, so nothing is behind the message. *)
Definition url_chain (e : url_error) (x : outside_error) : list str := [url_message e x].

(** [Display for Error], src/signing_key.rs lines 3-26. *)
Definition sa_message (e : sa_error) (x : outside_error) : str :=
  match e with
  | FileOpen => B "service account file open error: " ++ oe_text x
  | FileRead => B "service account file open error: " ++ oe_text x
  | JsonDeserialize => B "service account json deserialize error"
  | JsonRootIsNotObject => B "service account json root is not object"
  | ClientEmailIsNotFound => B "service account json client_email is not found"
  | ClientEmailIsNotString => B "service account json client_email is not string"
  | PrivateKeyIsNotFound => B "service account json private_key is not found"
  | PrivateKeyIsNotString => B "service account json private_key is not string"
  end.

(** [source], src/signing_key.rs lines 3-26. *)
Definition sa_chain (e : sa_error) (x : outside_error) : list str :=
  sa_message e x ::
  match e with
  | FileOpen | FileRead | JsonDeserialize => oe_text x :: oe_sources x
  | _ => []
  end.

(** The text of a failed call: src/html_form_data.rs line 13, src/signed_url.rs line 13. *)
Definition answer_message (a : answer) (x : outside_error) : option str :=
  match a with
  | AForm (Err e) => Some (form_message e x)
  | AUrl (Err e) => Some (url_message e x)
  | AForm (Ok _) | AUrl (Ok _) => None
  end.

(** The texts of a failed call, following [source]: src/html_form_data.rs line 13, src/signed_url.rs line 13. *)
Definition answer_chain (a : answer) (x : outside_error) : list str :=
  match a with
  | AForm (Err e) => form_chain e x
  | AUrl (Err e) => url_chain e x
  | AForm (Ok _) | AUrl (Ok _) => []
  end.
