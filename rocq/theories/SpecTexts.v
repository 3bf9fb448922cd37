(** Specification: header values beyond ASCII, and the text a failed call must have for what went wrong. *)
From Verif Require Import Base Time Effects Json Keys HtmlForm SignedUrl Messages SpecConstructors Prop_ServiceAccount SpecCodec SpecJson SpecTrace SpecForm SpecUrl SpecMessages.
Local Open Scope byte_scope.

(** A header value with a character beyond ASCII. *)
Definition beyond_ascii (h : str * str) : Prop := exists c, In c (snd h) /\ (128 <= bN c)%N.

(** Why the account could not be found out; [tr] is the execution, [cause] is the text of an error of another crate. *)
Inductive account_text (d : deps) (k : signing_key) (cause : str) (tr : list event) : str -> Prop :=
| at_remote bt w : k = KBoundToken bt -> report d (bt_base_url bt) cause tr w ->
    account_text d k cause tr (B "bound token authorizer error: " ++ w).

(** Why there is no signature. *)
Inductive signing_text (d : deps) (k : signing_key) (use_sign_blob : bool) (cause : str) (tr : list event) : str -> Prop :=
| gt_remote bt w : k = KBoundToken bt -> use_sign_blob = true -> report d (bt_base_url bt) cause tr w ->
    signing_text d k use_sign_blob cause tr (B "bound token signing error: " ++ w)
| gt_flag bt : k = KBoundToken bt -> use_sign_blob = false -> Forall (fun ro => exists body, answered (snd ro) body) (exchanges tr) ->
    signing_text d k use_sign_blob cause tr (B "bound token must use sign blob")
| gt_pem email key message : k = KServiceAccount email key -> use_sign_blob = false -> exchanges tr = [] -> d_rsa_sign d key message = Err PemParsing ->
    signing_text d k use_sign_blob cause tr (B "service account private key pem parsing error: " ++ cause)
| gt_pkcs8 email key message : k = KServiceAccount email key -> use_sign_blob = false -> exchanges tr = [] -> d_rsa_sign d key message = Err Pkcs8Parsing ->
    signing_text d k use_sign_blob cause tr (B "service account private key pkcs8 parsing error: " ++ cause)
| gt_rsa email key message : k = KServiceAccount email key -> use_sign_blob = false -> exchanges tr = [] -> d_rsa_sign d key message = Err RsaSigning ->
    signing_text d k use_sign_blob cause tr (B "service account signing error: " ++ cause).

(** Nothing is wrong with what the caller gave, but for metadata without name. *)
Definition form_ready (calls : list builder_call) (o : signing_options) (t : Z) : Prop :=
  (t < so_expiration o)%Z /\ in_years t /\ in_years (so_expiration o) /\ ~ unset calls (B "bucket") /\ ~ unset calls (B "key") /\
  forall access_id secret, so_signing_key o <> KHmac access_id secret.

(** The text of a failed signed form for time [t]. *)
Inductive form_text (d : deps) (calls : list builder_call) (o : signing_options) (t : Z) (cause : str) (tr : list event) : str -> Prop :=
| ft_order : (so_expiration o <= t)%Z -> exchanges tr = [] -> form_text d calls o t cause tr (B "expiration before accessible_at")
| ft_accessible : (t < so_expiration o)%Z -> ~ in_years t -> exchanges tr = [] -> form_text d calls o t cause tr (B "accessible_at out of range")
| ft_expiration : (t < so_expiration o)%Z -> in_years t -> ~ in_years (so_expiration o) -> exchanges tr = [] -> form_text d calls o t cause tr (B "expiration out of range")
| ft_bucket : (t < so_expiration o)%Z -> in_years t -> in_years (so_expiration o) -> unset calls (B "bucket") -> exchanges tr = [] ->
    form_text d calls o t cause tr (B "bucket not found")
| ft_key : (t < so_expiration o)%Z -> in_years t -> in_years (so_expiration o) -> ~ unset calls (B "bucket") -> unset calls (B "key") -> exchanges tr = [] ->
    form_text d calls o t cause tr (B "key not found")
| ft_hmac access_id secret : (t < so_expiration o)%Z -> in_years t -> in_years (so_expiration o) -> ~ unset calls (B "bucket") -> ~ unset calls (B "key") ->
    so_signing_key o = KHmac access_id secret -> exchanges tr = [] -> form_text d calls o t cause tr (B "x-goog-algorithm not supported")
| ft_account w : form_ready calls o t -> account_text d (so_signing_key o) cause tr w -> form_text d calls o t cause tr (B "bound token authorizer: " ++ w)
| ft_meta : form_ready calls o t -> empty_meta calls -> Forall (fun ro => exists body, answered (snd ro) body) (exchanges tr) ->
    form_text d calls o t cause tr (B "x-goog-meta-* field name is empty")
| ft_signing w : form_ready calls o t -> ~ empty_meta calls -> signing_text d (so_signing_key o) (so_use_sign_blob o) cause tr w -> form_text d calls o t cause tr w.

(** The text of a failed form without signing options. *)
Inductive unsigned_text (calls : list builder_call) : str -> Prop :=
| nt_key : unset calls (B "key") -> unsigned_text calls (B "key not found")
| nt_meta : ~ unset calls (B "key") -> empty_meta calls -> unsigned_text calls (B "x-goog-meta-* field name is empty").

(** The text of a failed URL for time [t]; each line supposes that the lines before it do not apply. *)
Inductive url_text (d : deps) (o : url_options) (t : Z) (cause : str) (tr : list event) : str -> Prop :=
| xt_time : ~ in_years t -> exchanges tr = [] -> url_text d o t cause tr (B "now out of range")
| xt_order : in_years t -> ~ ordered o t -> exchanges tr = [] -> url_text d o t cause tr (B "expiration out of range")
| xt_method : in_years t -> ordered o t -> ~ method_known o -> exchanges tr = [] -> url_text d o t cause tr (B "invalid http verb: " ++ o_http_method o)
| xt_length : in_years t -> ordered o t -> method_known o -> ~ fits d o -> exchanges tr = [] -> url_text d o t cause tr (B "uri too long")
| xt_name before h after : in_years t -> ordered o t -> method_known o -> fits d o -> o_headers o = before ++ h :: after ->
    Forall (fun h => valid_header d h /\ valid_value h) before -> ~ valid_header d h -> exchanges tr = [] ->
    url_text d o t cause tr (B "invalid HTTP header name")
| xt_value before h after : in_years t -> ordered o t -> method_known o -> fits d o -> o_headers o = before ++ h :: after ->
    Forall (fun h => valid_header d h /\ valid_value h) before -> valid_header d h -> ~ valid_value h -> exchanges tr = [] ->
    url_text d o t cause tr (B "failed to parse header value")
| xt_lifetime digits seconds : in_years t -> ordered o t -> method_known o -> fits d o -> headers_valid d o -> (604800 < lifetime o t)%Z -> exchanges tr = [] ->
    undec digits = Some seconds -> Z.of_N seconds = lifetime o t -> hd_error digits <> Some "0" ->
    url_text d o t cause tr (B "out of range (0..=604800) : " ++ digits)
| xt_account w : url_valid d o t -> account_text d (o_signing_key o) cause tr w -> url_text d o t cause tr (B "signing error: " ++ w)
| xt_ascii h : url_valid d o t -> In h (o_headers o) -> beyond_ascii h -> Forall (fun ro => exists body, answered (snd ro) body) (exchanges tr) ->
    url_text d o t cause tr (B "header value contains non visible ascii characters")
| xt_signing w : url_valid d o t -> Forall (fun h => ~ beyond_ascii h) (o_headers o) -> signing_text d (o_signing_key o) (o_use_sign_blob o) cause tr w ->
    url_text d o t cause tr (B "signing error: " ++ w).

(** The text of a failure to make a key of a file; [cause] is the text of the error of std::io. *)
Inductive file_text (d : deps) (f : file_answer) (cause : str) : str -> Prop :=
| yt_open : f = OpenFails -> file_text d f cause (B "service account file open error: " ++ cause)
| yt_read : f = ReadFails -> file_text d f cause (B "service account file open error: " ++ cause)
| yt_unicode bytes : f = Contents bytes -> ~ unicode bytes -> file_text d f cause (B "service account file open error: " ++ cause)
| yt_json bytes : f = Contents bytes -> unicode bytes -> (forall j, ~ readable d bytes j) -> file_text d f cause (B "service account json deserialize error")
| yt_root bytes j : f = Contents bytes -> unicode bytes -> readable d bytes j -> (forall l, j <> JObj l) ->
    file_text d f cause (B "service account json root is not object")
| yt_email bytes l : f = Contents bytes -> unicode bytes -> readable d bytes (JObj l) -> ~ In (B "client_email") (map fst l) ->
    file_text d f cause (B "service account json client_email is not found")
| yt_email_type bytes l v : f = Contents bytes -> unicode bytes -> readable d bytes (JObj l) -> last_member (B "client_email") l v -> (forall e, v <> JStr e) ->
    file_text d f cause (B "service account json client_email is not string")
| yt_key bytes l e : f = Contents bytes -> unicode bytes -> readable d bytes (JObj l) -> last_member (B "client_email") l (JStr e) ->
    ~ In (B "private_key") (map fst l) -> file_text d f cause (B "service account json private_key is not found")
| yt_key_type bytes l e v : f = Contents bytes -> unicode bytes -> readable d bytes (JObj l) -> last_member (B "client_email") l (JStr e) ->
    last_member (B "private_key") l v -> (forall k, v <> JStr k) -> file_text d f cause (B "service account json private_key is not string").
