(** src/html_form_data.rs. *)
From Verif Require Import Base Time Base64 Sha256 Json Policy Effects Keys Scope.
Local Open Scope Z_scope.

(** [ErrorKind], src/html_form_data.rs lines 15-39.  Left out: the cause in [XGoogCredentialInvalid], and [PolicyDocumentSerialization], because
    writing a policy document to a string does not fail ([policy_to_string], src/html_form_data.rs line 555). *)
Inductive form_error : Type :=
| AccessibleAtOutOfRange
| FormBoundTokenAuthorizer (e : key_error)
| BucketNotFound
| ExpirationBeforeAccessibleAt
| FormExpirationOutOfRange
| KeyNotFound
| FormSigning (e : key_error)
| XGoogAlgorithmNotSupported
| XGoogCredentialInvalid
| XGoogMetaNameEmpty.

(** [PolicyDocumentSigningOptions], src/html_form_data.rs lines 186-192. *)
Record signing_options := {
  so_accessible_at : option systime;
  so_expiration : systime;
  so_region : option str;
  so_signing_key : signing_key;
  so_use_sign_blob : bool
}.

(** [HtmlFormDataBuilder], src/html_form_data.rs lines 198-221. *)
Record builder := {
  b_acl : option str;
  b_bucket : option str;
  b_cache_control : option str;
  b_content_disposition : option str;
  b_content_encoding : option str;
  b_content_length : option N;
  b_content_type : option str;
  b_expires : option str;
  b_key : option str;
  b_signing_options : option signing_options;
  b_success_action_redirect : option str;
  b_success_action_status : option N;
  b_x_goog_custom_time : option str;
  b_x_goog_meta : list (str * str)
}.

(** [HtmlFormData::builder], src/html_form_data.rs lines 171-173, with [#[derive(Default)]] of line 197. *)
Definition builder_new : builder := {|
  b_acl := None; b_bucket := None; b_cache_control := None; b_content_disposition := None;
  b_content_encoding := None; b_content_length := None; b_content_type := None; b_expires := None;
  b_key := None; b_signing_options := None; b_success_action_redirect := None;
  b_success_action_status := None; b_x_goog_custom_time := None; b_x_goog_meta := []
|}.

(** A call of one builder method. Numbers are [u64] (content_length) and [u16] (status)
    (src/html_form_data.rs lines 225-234, 307-379). *)
Inductive builder_call : Type :=
| CAcl (v : str)
| CBucket (v : str)
| CCacheControl (v : str)
| CContentDisposition (v : str)
| CContentEncoding (v : str)
| CContentLength (n : N)
| CContentType (v : str)
| CExpires (v : str)
| CKey (v : str)
| CSigningOptions (o : signing_options)
| CSuccessActionRedirect (v : str)
| CSuccessActionStatus (n : N)
| CXGoogCustomTime (v : str)
| CXGoogMeta (name value : str).

(** The builder methods, src/html_form_data.rs lines 225-234 and 307-379. *)
Definition apply_call (b : builder) (c : builder_call) : builder :=
  match b with
  | {| b_acl := acl; b_bucket := bucket; b_cache_control := cc; b_content_disposition := cd;
       b_content_encoding := ce; b_content_length := cl; b_content_type := ct; b_expires := ex;
       b_key := key; b_signing_options := so; b_success_action_redirect := sr;
       b_success_action_status := ss; b_x_goog_custom_time := xt; b_x_goog_meta := xm |} =>
    let mk acl bucket cc cd ce cl ct ex key so sr ss xt xm :=
      {| b_acl := acl; b_bucket := bucket; b_cache_control := cc; b_content_disposition := cd;
         b_content_encoding := ce; b_content_length := cl; b_content_type := ct; b_expires := ex;
         b_key := key; b_signing_options := so; b_success_action_redirect := sr;
         b_success_action_status := ss; b_x_goog_custom_time := xt; b_x_goog_meta := xm |} in
    match c with
    | CAcl v => mk (Some v) bucket cc cd ce cl ct ex key so sr ss xt xm
    | CBucket v => mk acl (Some v) cc cd ce cl ct ex key so sr ss xt xm
    | CCacheControl v => mk acl bucket (Some v) cd ce cl ct ex key so sr ss xt xm
    | CContentDisposition v => mk acl bucket cc (Some v) ce cl ct ex key so sr ss xt xm
    | CContentEncoding v => mk acl bucket cc cd (Some v) cl ct ex key so sr ss xt xm
    | CContentLength n => mk acl bucket cc cd ce (Some n) ct ex key so sr ss xt xm
    | CContentType v => mk acl bucket cc cd ce cl (Some v) ex key so sr ss xt xm
    | CExpires v => mk acl bucket cc cd ce cl ct (Some v) key so sr ss xt xm
    | CKey v => mk acl bucket cc cd ce cl ct ex (Some v) so sr ss xt xm
    | CSigningOptions o => mk acl bucket cc cd ce cl ct ex key (Some o) sr ss xt xm
    | CSuccessActionRedirect v => mk acl bucket cc cd ce cl ct ex key so (Some v) ss xt xm
    | CSuccessActionStatus n => mk acl bucket cc cd ce cl ct ex key so sr (Some n) xt xm
    | CXGoogCustomTime v => mk acl bucket cc cd ce cl ct ex key so sr ss (Some v) xm
    | CXGoogMeta n v => mk acl bucket cc cd ce cl ct ex key so sr ss xt (xm ++ [(n, v)])
    end
  end.

(** A builder after a sequence of calls (src/html_form_data.rs lines 171, 225-234, 307-379). *)
Definition builder_of (calls : list builder_call) : builder := fold_left apply_call calls builder_new.

(** [ExactMatching(Field::new(name).expect(..), Value::new(value))], e.g. src/html_form_data.rs lines 447-450;
    [None] is the panic of [expect]. *)
Definition exact (name value : str) : option condition :=
  match field_new name with Some f => Some (ExactMatching f value) | None => None end.

(** [if let Some(v) = self.field { conditions.push(..) }] (e.g. src/html_form_data.rs lines 446-451). *)
Definition exact_opt (name : str) (value : option str) : list (option condition) :=
  match value with Some v => [exact name v] | None => [] end.

(** The conditions before the custom metadata, src/html_form_data.rs lines 445-538. *)
Definition fixed_conditions (b : builder) (bucket key credential date : str) (a : algorithm)
  : list (option condition) :=
  exact_opt (B "acl") (b_acl b)
  ++ [exact (B "bucket") bucket]
  ++ exact_opt (B "Cache-Control") (b_cache_control b)
  ++ exact_opt (B "Content-Disposition") (b_content_disposition b)
  ++ exact_opt (B "Content-Encoding") (b_content_encoding b)
  ++ match b_content_length b with Some n => [Some (ContentLengthRange n n)] | None => [] end
  ++ exact_opt (B "Content-Type") (b_content_type b)
  ++ exact_opt (B "Expires") (b_expires b)
  ++ [exact (B "key") key]
  ++ exact_opt (B "success_action_redirect") (b_success_action_redirect b)
  ++ exact_opt (B "success_action_status") (option_map dec (b_success_action_status b))
  ++ [exact (B "x-goog-algorithm") (algorithm_str a)]
  ++ [exact (B "x-goog-credential") credential]
  ++ exact_opt (B "x-goog-custom-time") (b_x_goog_custom_time b)
  ++ [exact (B "x-goog-date") date].

(** Result of the metadata loop (src/html_form_data.rs lines 539-548). *)
Inductive meta_result : Type := MetaOk (l : list condition) | MetaEmptyName | MetaPanic.

(** The metadata loop, src/html_form_data.rs lines 539-548. *)
Fixpoint meta_conditions (l : list (str * str)) : meta_result :=
  match l with
  | [] => MetaOk []
  | (name, value) :: r =>
      match name with
      | [] => MetaEmptyName
      | _ =>
          match exact (B "x-goog-meta-" ++ name) value with
          | None => MetaPanic
          | Some c =>
              match meta_conditions r with
              | MetaOk cs => MetaOk (c :: cs)
              | other => other
              end
          end
      end
  end.

(** Policy, algorithm, credential, date and signature: the tuple returned at src/html_form_data.rs lines 568-574. *)
Record policy_fields := {
  pf_policy : str; pf_algorithm : str; pf_credential : str; pf_date : str; pf_signature : str
}.

(** [build_policy_and_x_goog_signature], src/html_form_data.rs lines 387-577, after [accessible_at] is known (line 408).
    [PFieldName] also stands for the [expect] of line 435, which does not fail ([location_try_from]). *)
Definition build_policy_at (d : deps) (b : builder) (o : signing_options) (accessible_at : systime)
  : prog (res (option policy_fields) form_error) :=
  if so_expiration o <=? accessible_at then Ret (Err ExpirationBeforeAccessibleAt)
  else match ut_from_system_time accessible_at with
  | None => Ret (Err AccessibleAtOutOfRange)
  | Some acc =>
  match ut_from_system_time (so_expiration o) with
  | None => Ret (Err FormExpirationOutOfRange)
  | Some exp =>
  let region := unwrap_or (so_region o) (B "auto") in
  match b_bucket b with
  | None => Ret (Err BucketNotFound)
  | Some bucket =>
  match b_key b with
  | None => Ret (Err KeyNotFound)
  | Some key =>
  match key_algorithm (so_signing_key o) with
  | Goog4HmacSha256 | Aws4HmacSha256 => Ret (Err XGoogAlgorithmNotSupported)
  | Goog4RsaSha256 as a =>
  bind_ok FormBoundTokenAuthorizer (authorizer d (so_signing_key o)) (fun email =>
  match location_try_from region with
  | None => Panic PFieldName
  | Some location =>
  match credential_scope_new (date_from_unix_timestamp acc) location Storage Goog4Request with
  | None => Ret (Err XGoogCredentialInvalid)
  | Some scope =>
  let credential := email ++ B "/" ++ credential_scope_to_string scope in
  let date := ut_to_iso8601 acc in
  match traverse (fun c => c) (fixed_conditions b bucket key credential date a) with
  | None => Panic PFieldName
  | Some fixed =>
  match meta_conditions (b_x_goog_meta b) with
  | MetaPanic => Panic PFieldName
  | MetaEmptyName => Ret (Err XGoogMetaNameEmpty)
  | MetaOk meta =>
  let policy := policy_to_string {| conditions := fixed ++ meta; pd_expiration := exp |} in
  let encoded := b64_encode policy in
  bind_ok FormSigning (sign d (so_signing_key o) (so_use_sign_blob o) encoded) (fun digest =>
  Ret (Ok (Some {| pf_policy := encoded; pf_algorithm := algorithm_str a;
                   pf_credential := credential; pf_date := date;
                   pf_signature := hex_encode digest |})))
  end end end end)
  end end end end end.

(** [build_policy_and_x_goog_signature], src/html_form_data.rs lines 387-577. *)
Definition build_policy (d : deps) (b : builder) : prog (res (option policy_fields) form_error) :=
  match b_signing_options b with
  | None => Ret (Ok None)
  | Some o =>
      match so_accessible_at o with
      | Some t => build_policy_at d b o t
      | None => Act ENow (fun t => build_policy_at d b o t)
      end
  end.

(** [if let Some(v) = .. { vec.push((name, v)) }] (e.g. src/html_form_data.rs lines 242-244). *)
Definition push_opt (name : str) (value : option str) : list (str * str) :=
  match value with Some v => [(name, v)] | None => [] end.

(** The metadata loop, src/html_form_data.rs lines 297-302. *)
Fixpoint meta_fields (l : list (str * str)) : res (list (str * str)) form_error :=
  match l with
  | [] => Ok []
  | (name, value) :: r =>
      match name with
      | [] => Err XGoogMetaNameEmpty
      | _ =>
          match meta_fields r with
          | Ok fs => Ok ((B "x-goog-meta-" ++ name, value) :: fs)
          | Err e => Err e
          end
      end
  end.

(** [HtmlFormDataBuilder::build], src/html_form_data.rs lines 237-304, followed by [into_vec], src/html_form_data.rs lines 178-180. *)
Definition build (d : deps) (b : builder) : prog (res (list (str * str)) form_error) :=
  bind_ok (fun e => e) (build_policy d b) (fun p =>
  let pol f := option_map f p in
  match b_key b with
  | None => Ret (Err KeyNotFound)
  | Some key =>
  match meta_fields (b_x_goog_meta b) with
  | Err e => Ret (Err e)
  | Ok meta =>
  Ret (Ok (
    push_opt (B "acl") (b_acl b)
    ++ push_opt (B "bucket") (b_bucket b)
    ++ push_opt (B "Cache-Control") (b_cache_control b)
    ++ push_opt (B "Content-Disposition") (b_content_disposition b)
    ++ push_opt (B "Content-Encoding") (b_content_encoding b)
    ++ push_opt (B "Content-Length") (option_map dec (b_content_length b))
    ++ push_opt (B "Content-Type") (b_content_type b)
    ++ push_opt (B "Expires") (b_expires b)
    ++ [(B "key", key)]
    ++ push_opt (B "policy") (pol pf_policy)
    ++ push_opt (B "success_action_redirect") (b_success_action_redirect b)
    ++ push_opt (B "success_action_status") (option_map dec (b_success_action_status b))
    ++ push_opt (B "x-goog-algorithm") (pol pf_algorithm)
    ++ push_opt (B "x-goog-credential") (pol pf_credential)
    ++ push_opt (B "x-goog-custom-time") (b_x_goog_custom_time b)
    ++ push_opt (B "x-goog-date") (pol pf_date)
    ++ push_opt (B "x-goog-signature") (pol pf_signature)
    ++ meta))
  end end).
