(** Specification: what the image uploader's clients see, as statements about the history of requests and responses. *)
From Verif Require Import Base JsonTree SpecJson SpecCodec SpecCalendar SpecPolicy Effects Keys HtmlForm SignedUrl SpecForm SpecToken SpecTrace SpecSign SpecUrl SpecUtf8 SpecConstructors Prop_ServiceAccount Uploader.
Local Open Scope Z_scope.

(** * Reading a history *)

(** The requests in order of arrival; the number of a request is its place in this list. *)
Definition arrivals (tr : list app_event) : list app_request :=
  flat_map (fun v => match v with AArrive r => [r] | _ => [] end) tr.
Definition requested_as (tr : list app_event) (i : nat) (r : app_request) : Prop := nth_error (arrivals tr) i = Some r.

(** The forms handed out, in order. *)
Definition forms (tr : list app_event) : list (list (str * str)) :=
  flat_map (fun v => match v with ARespond _ (RpForm fields _ _) => [fields] | _ => [] end) tr.

(** The effects performed for request [i]. *)
Definition effects_of (tr : list app_event) (i : nat) : list event :=
  flat_map (fun v => match v with ADo j e => if Nat.eqb j i then [e] else [] | _ => [] end) tr.

(** An update of [id] was answered when the [n]-th form had already been handed out. *)
Definition reported (tr : list app_event) (n : nat) (id : str) : Prop :=
  exists before i after, tr = before ++ ARespond i RpNoContent :: after /\ requested_as before i (RqUpdate id) /\
    (n < length (forms before))%nat.

(** * Identifiers: RFC 9562 sections 4 and 5.4 *)

Definition uuid_v4_text (s : str) : Prop :=
  exists a b c d e f, s = a ++ B "-" ++ b ++ B "-4" ++ c ++ B "-" ++ d :: e ++ B "-" ++ f /\
    length a = 8%nat /\ length b = 4%nat /\ length c = 3%nat /\ length e = 3%nat /\ length f = 12%nat /\
    In d (B "89ab") /\ Forall (fun x => In x hex_alphabet) (a ++ b ++ c ++ e ++ f).

(** A name the service accepts for a bucket, as far as it matters here
    (https://cloud.google.com/storage/docs/buckets#naming). *)
Definition bucket_text (s : str) : Prop :=
  s <> B "." /\ s <> B ".." /\ Forall (fun c => In c (B "abcdefghijklmnopqrstuvwxyz0123456789-_.")) s.

(** * What is handed out *)

(** The policy of a form for one object: nothing but that object, with that length and type, until [secs]. *)
Definition upload_policy (bucket id : str) (len : N) (type credential date : str) (secs : Z) (policy : str) : Prop :=
  exists text j,
    base64_of text policy /\ json_text j text /\ (forall j', json_text j' text -> j' = j) /\
    policy_tree [CEq (B "bucket") bucket; CRange len len; CEq (B "Content-Type") type; CEq (B "key") id;
                 CEq (B "x-goog-algorithm") (B "GOOG4-RSA-SHA256"); CEq (B "x-goog-credential") credential;
                 CEq (B "x-goog-date") date] secs j.

(** The form for one object.  [mine] are the effects performed for the request: the clock is read twice, then the
    policy is signed. *)
Definition upload_form (d : deps) (c : app_config) (mine : list event) (id : str) (len : N) (type : str) (fields : list (str * str)) : Prop :=
  exists t1 t2 lookup signing email digits policy day date signature secs s,
    let credential := email ++ B "/" ++ day ++ B "/auto/storage/goog4_request" in
    mine = VNow t1 :: VNow t2 :: lookup ++ signing /\
    fields = [(B "bucket", c_bucket_name c); (B "Content-Length", digits); (B "Content-Type", type); (B "key", id);
              (B "policy", policy); (B "x-goog-algorithm", B "GOOG4-RSA-SHA256"); (B "x-goog-credential", credential);
              (B "x-goog-date", date); (B "x-goog-signature", signature)] /\
    decimal_of len digits /\ authorized (c_signing_key c) lookup email /\
    utc_basic_text (t2 / 1000000000) date /\ utc_date_text (t2 / 1000000000) day /\
    upload_policy (c_bucket_name c) id len type credential date secs policy /\
    secs * 1000000000 <= t1 + 60 * 1000000000 < (secs + 1) * 1000000000 /\ 0 <= t2 < t1 + 60 * 1000000000 /\
    signed d (c_signing_key c) (c_use_sign_blob c) policy signing s /\ hex_of s signature.

(** A link to one object: a GET of that object and nothing else is signed, and the link is dead a minute after the
    first reading of the clock. *)
Definition download_link (d : deps) (c : app_config) (mine : list event) (id url : str) : Prop :=
  exists t1 t2 lookup signing email path query sig digits secs canonical message s,
    mine = VNow t1 :: VNow t2 :: lookup ++ signing /\
    url_parts url path query sig /\
    (bucket_text (c_bucket_name c) -> unescaped path (B "/" ++ c_bucket_name c ++ B "/" ++ id)) /\
    authorized (c_signing_key c) lookup email /\
    canonical_text (B "GET") path query [] canonical /\ message_text (t2 / 1000000000) (B "auto") canonical message /\
    signed d (c_signing_key c) (c_use_sign_blob c) message signing s /\ hex_of s sig /\
    decimal_of (Z.to_N secs) digits /\ query_piece query (B "X-Goog-Expires=" ++ digits) /\ 0 <= secs /\
    (t2 / 1000000000 + secs) * 1000000000 <= t1 + 60 * 1000000000.

(** One link per object, made one after the other. *)
Inductive links (d : deps) (c : app_config) : list event -> list str -> list str -> Prop :=
| lk_nil : links d c [] [] []
| lk_cons mine rest id ids url urls : download_link d c mine id url -> links d c rest ids urls ->
    links d c (mine ++ rest) (id :: ids) (url :: urls).

(** The ids of the images marked as uploaded. *)
Definition shown (images : list image) : list str := map im_id (filter im_uploaded images).

(** * The configuration *)

(** The settings with which the program starts, and what it then uses to sign. *)
Inductive configured (d : deps) (files : str -> file_answer) (id : N) (e : environment) : app_config -> Prop :=
| cf_bound bucket : e_use_sign_blob e = Some (B "true") -> e_bucket_name e = Some bucket -> unicode bucket ->
    configured d files id e
      {| c_bucket_name := bucket; c_signing_key := key_bound_token (e_metadata_host e) id; c_use_sign_blob := true |}
| cf_account path bucket bytes members account key : e_use_sign_blob e = Some (B "false") ->
    e_credentials e = Some path -> unicode path -> files path = Contents bytes -> unicode bytes ->
    readable d bytes (JObj members) -> last_member (B "client_email") members (JStr account) ->
    last_member (B "private_key") members (JStr key) ->
    e_bucket_name e = Some bucket -> unicode bucket ->
    configured d files id e
      {| c_bucket_name := bucket; c_signing_key := KServiceAccount account key; c_use_sign_blob := false |}.

(** * What can go wrong *)

(** The panics caused by an impossible clock. *)
Definition clock_panic (s : panic) : Prop := In s [PExpiresBeforeEpoch; PNowBeforeEpoch; PExpiresOverflow].

(** Failures outside the program: of the metadata server, of the signing service, or of the private key. *)
Definition remote_failure (e : key_error) : Prop :=
  (exists x, e = BoundTokenAuthorizer x) \/ (exists x, e = BoundTokenSigning x) \/ (exists x, e = ServiceAccountSigning x).

(** The ways in which making a form can fail, given the two readings of the clock. *)
Inductive form_trouble (t1 t2 : Z) : form_error -> Prop :=
| ft_late : t1 + 60 * 1000000000 <= t2 -> form_trouble t1 t2 ExpirationBeforeAccessibleAt
| ft_now : ~ in_years t2 -> form_trouble t1 t2 AccessibleAtOutOfRange
| ft_expiration : ~ in_years (t1 + 60 * 1000000000) -> form_trouble t1 t2 FormExpirationOutOfRange
| ft_authorizer x : remote_failure x -> form_trouble t1 t2 (FormBoundTokenAuthorizer x)
| ft_signing x : remote_failure x -> form_trouble t1 t2 (FormSigning x).

(** The ways in which making a link can fail: never because of the method, the headers, the region or the scope, which
    the program fixes, and never because of the combination of key and [use_sign_blob]. *)
Definition link_trouble (e : url_error) : Prop :=
  (forall m, e <> UrlHttpMethod m) /\ ~ In e [UrlInvalidHeaderName; UrlInvalidHeaderValue; UrlLocation; UrlCredentialScope; UrlSignedUrl HostHeaderNotFound] /\
  forall x, e = UrlSignedUrl (UrlSigning x) -> remote_failure x.
Definition link_panic (s : panic) : Prop := In s [PExpiresBeforeEpoch; PNowBeforeEpoch; PExpiresOverflow; PHeaderMap; PUri].
