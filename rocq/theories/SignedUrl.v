(** src/signed_url.rs, src/private/signed_url.rs, canonical_request.rs, string_to_sign.rs,
    http_verb.rs. *)
From Verif Require Import Base Time FormUrl Sha256 Json Effects Keys Scope Url.
Local Open Scope byte_scope.

(** * src/private/http_verb.rs *)

(** [HttpVerb], src/private/http_verb.rs lines 7-13. *)
Inductive http_verb : Type := Delete | Get | Head | Post | Put.

(** [FromStr for HttpVerb], src/private/http_verb.rs lines 31-40. *)
Definition http_verb_from_str (s : str) : option http_verb :=
  if str_eqb s (B "DELETE") then Some Delete
  else if str_eqb s (B "GET") then Some Get
  else if str_eqb s (B "HEAD") then Some Head
  else if str_eqb s (B "POST") then Some Post
  else if str_eqb s (B "PUT") then Some Put
  else None.

(** [From<HttpVerb> for http::Method] (src/private/http_verb.rs lines 16-26) and [Method]'s [Display]. *)
Definition http_verb_str (v : http_verb) : str :=
  match v with
  | Delete => B "DELETE" | Get => B "GET" | Head => B "HEAD" | Post => B "POST" | Put => B "PUT"
  end.

(** [http::Request<()>]: method, URI, headers in insertion order with lower-cased names
    (src/signed_url.rs lines 94-113). *)
Record http_request := {
  hr_method : http_verb; hr_uri : uri; hr_headers : list (str * str)
}.

(** * src/private/canonical_request.rs *)

(** [percent_encode], src/private/canonical_request.rs lines 76-102: the characters it encodes; all others are copied.  Working on
    bytes instead of [char]s is the same because only ASCII characters are matched. *)
Definition reserved (b : byte) : bool :=
  beq b "!" || beq b """" || beq b "#" || beq b "$" || beq b "&" || beq b "'" || beq b "("
  || beq b ")" || beq b "*" || beq b "+" || beq b "," || beq b ":" || beq b ";" || beq b "="
  || beq b "?" || beq b "@" || beq b "[" || beq b "]".
(** [percent_encode], src/private/canonical_request.rs lines 76-102. *)
Definition percent_encode (s : str) : str := pct_encode reserved s.

(** [canonical_query_string], src/private/canonical_request.rs lines 67-73. *)
Definition canonical_query_string (r : http_request) : str :=
  join (B "&") (str_sort (map (fun kv => percent_encode (fst kv) ++ B "=" ++ percent_encode (snd kv))
                              (form_parse (unwrap_or (uri_query (hr_uri r)) [])))).

(** Lower-cased, sorted, distinct header names joined by [;]: canonical_request.rs lines 17-24 and
    src/private/signed_url.rs lines 106-113. *)
Definition signed_header_names (d : deps) (r : http_request) : str :=
  join (B ";") (bset_of_list (map (fun kv => lower_str (fst kv)) (d_hm_iter d (hr_headers r)))).

(** The loop over all headers, src/private/canonical_request.rs lines 27-37; [None] is the error of [to_str]. *)
Fixpoint collect_headers (hs : list (str * str)) (m : list (str * list str))
  : option (list (str * list str)) :=
  match hs with
  | [] => Some m
  | (n, v) :: rest =>
      match header_value_to_str v with
      | None => None
      | Some v => collect_headers rest (bmap_push (lower_str n) v m)
      end
  end.

(** [canonical_headers], src/private/canonical_request.rs lines 26-43. *)
Definition canonical_headers (d : deps) (r : http_request) : option str :=
  match collect_headers (d_hm_iter d (hr_headers r)) [] with
  | None => None
  | Some m => Some (join [x0a] (map (fun nv => fst nv ++ B ":" ++ join (B ",") (snd nv)) m))
  end.

(** [CanonicalRequest::new], src/private/canonical_request.rs lines 14-58 (and [Display], src/private/canonical_request.rs lines 62-64); [None] is
    [Err(HeaderValueContainsInvalidCharacter)]. *)
Definition canonical_request (d : deps) (r : http_request) : option str :=
  match canonical_headers d r with
  | None => None
  | Some hs =>
      Some (join [x0a] [http_verb_str (hr_method r);
                        percent_encode (uri_path (hr_uri r));
                        canonical_query_string r;
                        hs;
                        [];
                        signed_header_names d r;
                        B "UNSIGNED-PAYLOAD"])
  end.

(** * src/private/string_to_sign.rs, lines 10-26, and [Display], src/private/string_to_sign.rs lines 30-32 *)
Definition string_to_sign (a : algorithm) (t : unix_timestamp) (scope : credential_scope)
    (canonical : str) : str :=
  join [x0a] [algorithm_str a; active_datetime_to_string t; credential_scope_to_string scope;
              sha256_digest canonical].

(** * src/private/signed_url.rs *)

(** [signed_url::Error], src/private/signed_url.rs lines 12-20. *)
Inductive signed_url_error : Type :=
| CanonicalRequestError
| HostHeaderNotFound
| UrlSigning (e : key_error).

(** [str::replace('/', "%2F")], src/private/signed_url.rs line 99. *)
Definition replace_slash (s : str) : str := flat_map (fun b => if beq b "/" then B "%2F" else [b]) s.

(** [add_signed_url_required_query_string_parameters], src/private/signed_url.rs lines 81-119, after the host check: the new
    URI; [None] is the panic of line 117 ([Url::parse] at line 93 cannot fail on a URI that was built
    from a URL, see [url_parse]). *)
Definition add_required_params (d : deps) (r : http_request) (email : str) (a : algorithm)
    (t : unix_timestamp) (scope : credential_scope) (expiration : Z) : option http_request :=
  let u := url_parse d (tl (uri_rest (hr_uri r))) in
  let u := append_pairs u [
    (B "X-Goog-Algorithm", algorithm_str a);
    (B "X-Goog-Credential", replace_slash (email ++ B "/" ++ credential_scope_to_string scope));
    (B "X-Goog-Date", active_datetime_to_string t);
    (B "X-Goog-Expires", expiration_to_string expiration);
    (B "X-Goog-SignedHeaders", signed_header_names d r)] in
  match uri_parse (url_rest u) with
  | None => None
  | Some uri => Some {| hr_method := hr_method r; hr_uri := uri; hr_headers := hr_headers r |}
  end.

(** [SignedUrl::new], src/private/signed_url.rs lines 25-72, and [From<SignedUrl> for String], src/private/signed_url.rs lines 76-78. *)
Definition signed_url_new (d : deps) (scope : credential_scope) (t : unix_timestamp) (expiration : Z)
    (r : http_request) (k : signing_key) (use_sign_blob : bool) : prog (res str signed_url_error) :=
  bind_ok UrlSigning (authorizer d k) (fun email =>
  let a := key_algorithm k in
  if negb (existsb (fun h => str_eqb (fst h) (B "host")) (hr_headers r))
  then Ret (Err HostHeaderNotFound)
  else match add_required_params d r email a t scope expiration with
  | None => Panic PUri
  | Some r =>
  let query := canonical_query_string r in
  match canonical_request d r with
  | None => Ret (Err CanonicalRequestError)
  | Some canonical =>
  bind_ok UrlSigning (sign d k use_sign_blob (string_to_sign a t scope canonical)) (fun digest =>
  Ret (Ok (origin ++ uri_path (hr_uri r) ++ B "?" ++ query ++ B "&X-Goog-Signature="
           ++ hex_encode digest)))
  end end).

(** * src/signed_url.rs *)

(** [ErrorKind], src/signed_url.rs lines 15-39 (wrapped causes dropped; [InvalidQueryParameters], [Location] and
    [CredentialScope] cannot occur). *)
Inductive url_error : Type :=
| UrlCredentialScope
| UrlExpiration (seconds : Z)
| UrlExpirationOutOfRange
| UrlHttpMethod (method : str)
| UrlHttpRequest
| UrlInvalidHeaderName
| UrlInvalidHeaderValue
| UrlLocation
| UrlNow
| UrlSignedUrl (e : signed_url_error).

(** [BuildSignedUrlOptions], src/signed_url.rs lines 41-53. *)
Record url_options := {
  o_bucket_name : str;
  o_object_name : str;
  o_region : option str;
  o_expires : systime;
  o_http_method : str;
  o_accessible_at : option systime;
  o_signing_key : signing_key;
  o_use_sign_blob : bool;
  o_headers : list (str * str);
  o_query_parameters : list (str * str)
}.

(** The header conversion, src/signed_url.rs lines 100-113. *)
Fixpoint convert_headers (d : deps) (hs : list (str * str)) : res (list (str * str)) url_error :=
  match hs with
  | [] => Ok []
  | (k, v) :: rest =>
      match header_name_from_bytes d k with
      | None => Err UrlInvalidHeaderName
      | Some k =>
          if header_value_ok v then
            match convert_headers d rest with
            | Ok l => Ok ((k, v) :: l)
            | Err e => Err e
            end
          else Err UrlInvalidHeaderValue
      end
  end.

(** [build_signed_url] (src/signed_url.rs lines 55-132) after [accessible_at] is known (line 69). *)
Definition build_signed_url_at (d : deps) (o : url_options) (accessible_at : systime)
  : prog (res str url_error) :=
  match ut_from_system_time accessible_at with
  | None => Ret (Err UrlNow)
  | Some now =>
  let region := unwrap_or (o_region o) (B "auto") in
  match duration_since (o_expires o) accessible_at with
  | None => Ret (Err UrlExpirationOutOfRange)
  | Some dur =>
  match i64_try_from (as_secs dur) with
  | None => Ret (Err UrlExpirationOutOfRange)
  | Some expiration =>
  match http_verb_from_str (o_http_method o) with
  | None => Ret (Err (UrlHttpMethod (o_http_method o)))
  | Some verb =>
  let u := append_pairs (url_parse d (o_bucket_name o ++ B "/" ++ o_object_name o))
                        (o_query_parameters o) in
  match uri_parse (url_rest u) with
  | None => Ret (Err UrlHttpRequest)
  | Some uri =>
  match convert_headers d (o_headers o) with
  | Err e => Ret (Err e)
  | Ok hs =>
  if d_hm_overflow d hs then Panic PHeaderMap
  else
  let request := {| hr_method := verb; hr_uri := uri;
                    hr_headers := (B "host", B "storage.googleapis.com") :: hs |} in
  match location_try_from region with
  | None => Ret (Err UrlLocation)
  | Some location =>
  match credential_scope_new (date_from_unix_timestamp now) location Storage Goog4Request with
  | None => Ret (Err UrlCredentialScope)
  | Some scope =>
  match expiration_try_from expiration with
  | None => Ret (Err (UrlExpiration expiration))
  | Some expiration =>
  bind_ok UrlSignedUrl
    (signed_url_new d scope now expiration request (o_signing_key o) (o_use_sign_blob o))
    (fun s => Ret (Ok s))
  end end end end end end end end end.

(** [build_signed_url], src/signed_url.rs lines 55-132. *)
Definition build_signed_url (d : deps) (o : url_options) : prog (res str url_error) :=
  match o_accessible_at o with
  | Some t => build_signed_url_at d o t
  | None => Act ENow (fun t => build_signed_url_at d o t)
  end.
