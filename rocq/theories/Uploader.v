(** examples/image-uploader/src/main.rs: a web server that hands out upload forms and download links made with the
    crate.  The routing and the reading of requests and writing of responses by axum are in Page.v: here a request is the
    handler's arguments, a response is its return value. *)
From Verif Require Import Base Time FormUrl Sha256 Utf8 Effects Keys HtmlForm SignedUrl.
Local Open Scope Z_scope.

(** [Config], examples/image-uploader/src/main.rs lines 135-140. *)
Record app_config := { c_bucket_name : str; c_signing_key : signing_key; c_use_sign_blob : bool }.

(** [Image], examples/image-uploader/src/main.rs lines 142-146. *)
Record image := { im_id : str; im_uploaded : bool }.

(** [uuid::Uuid::new_v4], examples/image-uploader/src/main.rs line 29: sixteen random bytes with version 4 and the RFC
    4122 variant set.  The random bytes are an argument. *)
Definition uuid_new_v4 (random : list byte) : list byte :=
  firstn 6 random
  ++ map (fun b => nb (bN b mod 16 + 64)) (firstn 1 (skipn 6 random))
  ++ firstn 1 (skipn 7 random)
  ++ map (fun b => nb (bN b mod 64 + 128)) (firstn 1 (skipn 8 random))
  ++ skipn 9 random.

(** [Uuid::to_string], examples/image-uploader/src/main.rs line 29: lower-case hex with hyphens. *)
Definition uuid_to_string (u : list byte) : str :=
  hex_encode (firstn 4 u) ++ B "-" ++ hex_encode (firstn 2 (skipn 4 u)) ++ B "-" ++ hex_encode (firstn 2 (skipn 6 u))
  ++ B "-" ++ hex_encode (firstn 2 (skipn 8 u)) ++ B "-" ++ hex_encode (skipn 10 u).

(** [SystemTime::now() + Duration::from_secs(60)], examples/image-uploader/src/main.rs lines 41 and 92; an overflow
    panics in the same operator as at src/private/bound_token.rs line 166. *)
Definition in_a_minute {A} (f : systime -> prog A) : prog A :=
  Act ENow (fun now => match systime_add_secs now 60 with None => Panic PExpiresOverflow | Some t => f t end).

(** The form of [create_image], examples/image-uploader/src/main.rs lines 34-49, before errors are mapped to a status. *)
Definition create_form (d : deps) (c : app_config) (id : str) (content_length : N) (content_type : str)
  : prog (res (list (str * str)) form_error) :=
  in_a_minute (fun expiration =>
    build d (builder_of [
      CBucket (c_bucket_name c); CContentLength content_length; CContentType content_type; CKey id;
      CSigningOptions {| so_accessible_at := None; so_expiration := expiration; so_region := None;
                         so_signing_key := c_signing_key c; so_use_sign_blob := c_use_sign_blob c |}])).

(** The options of one link, examples/image-uploader/src/main.rs lines 88-99. *)
Definition link_options (c : app_config) (id : str) (expires : systime) : url_options := {|
  o_bucket_name := c_bucket_name c; o_object_name := id; o_region := None; o_expires := expires;
  o_http_method := B "GET"; o_accessible_at := None; o_signing_key := c_signing_key c;
  o_use_sign_blob := c_use_sign_blob c; o_headers := []; o_query_parameters := [] |}.

(** The loop of [list_images], examples/image-uploader/src/main.rs lines 82-105, before errors are mapped to a status. *)
Fixpoint list_links (d : deps) (c : app_config) (images : list image) : prog (res (list str) url_error) :=
  match images with
  | [] => Ret (Ok [])
  | i :: rest =>
      if im_uploaded i
      then bind_ok (fun e => e) (in_a_minute (fun expires => build_signed_url d (link_options c (im_id i) expires)))
             (fun url => bind_ok (fun e => e) (list_links d c rest) (fun urls => Ret (Ok (url :: urls))))
      else list_links d c rest
  end.

(** The loop of [update_image], examples/image-uploader/src/main.rs lines 120-125. *)
Fixpoint mark_uploaded (id : str) (images : list image) : list image :=
  match images with
  | [] => []
  | i :: rest =>
      if str_eqb (im_id i) id then {| im_id := im_id i; im_uploaded := true |} :: rest
      else i :: mark_uploaded id rest
  end.

(** A request, as the arguments of its handler: examples/image-uploader/src/main.rs lines 24-27, 67-77, 115. *)
Inductive app_request : Type :=
| RqCreate (content_length : N) (content_type : str)
| RqList
| RqUpdate (id : str).

(** What a handler returns: examples/image-uploader/src/main.rs lines 28, 60-64, 105, 126.  [RpFailed] is status 500
    (lines 48, 102).  The 500 for a poisoned lock (lines 54, 80, 119) never happens: no code that can panic runs while
    [images] is locked. *)
Inductive app_response : Type :=
| RpForm (form_data : list (str * str)) (method url : str)
| RpLinks (urls : list str)
| RpNoContent
| RpFailed.

(** Where a handler is: not polled yet, in [create_image] after the id was drawn (line 29), in [list_images] after the
    images were copied (line 81), or over (examples/image-uploader/src/main.rs lines 14-127). *)
Inductive handler : Type :=
| HNew
| HForm (id : str) (p : prog (res (list (str * str)) form_error))
| HLinks (p : prog (res (list str) url_error))
| HOver.

(** The images ([AppState::images], examples/image-uploader/src/main.rs line 132) and the handlers in order of arrival. *)
Record app_state := { a_images : list image; a_handlers : list (app_request * handler) }.

(** What happens: a request arrives, a handler starts, performs an effect, responds, or is dropped because the client
    went away or the handler panicked (examples/image-uploader/src/main.rs lines 164-180). *)
Inductive app_event : Type :=
| AArrive (r : app_request)
| ADraw (i : nat) (random : list byte)
| ACopy (i : nat)
| ADo (i : nat) (v : event)
| ARespond (i : nat) (r : app_response)
| ADrop (i : nat).

(** The state of handler [i] (examples/image-uploader/src/main.rs lines 164-180). *)
Definition handler_at (a : app_state) (i : nat) (r : app_request) (h : handler) : Prop := nth_error (a_handlers a) i = Some (r, h).
(** Replacing the state of handler [i] (examples/image-uploader/src/main.rs lines 164-180). *)
Fixpoint put_handler (i : nat) (h : handler) (l : list (app_request * handler)) : list (app_request * handler) :=
  match i, l with
  | _, [] => []
  | O, (r, _) :: l => (r, h) :: l
  | S i, x :: l => x :: put_handler i h l
  end.
(** The next state when handler [i] moves to [h] and the images become [images]
    (examples/image-uploader/src/main.rs lines 14-127). *)
Definition moved (a : app_state) (i : nat) (h : handler) (images : list image) : app_state :=
  {| a_images := images; a_handlers := put_handler i h (a_handlers a) |}.

(** One step (examples/image-uploader/src/main.rs lines 14-127).  The images are locked only between two awaits, so each
    use of the lock is one step.  The effects of the handlers get any response: in particular the responses the shared
    token cache of the key would give (Conc.v) are among them. *)
Inductive app_step (d : deps) (c : app_config) : app_state -> app_event -> app_state -> Prop :=
| as_arrive a r : app_step d c a (AArrive r) {| a_images := a_images a; a_handlers := a_handlers a ++ [(r, HNew)] |}
| as_draw a i random len type : handler_at a i (RqCreate len type) HNew -> length random = 16%nat ->
    let id := uuid_to_string (uuid_new_v4 random) in
    app_step d c a (ADraw i random) (moved a i (HForm id (create_form d c id len type)) (a_images a))
| as_copy a i : handler_at a i RqList HNew ->
    app_step d c a (ACopy i) (moved a i (HLinks (list_links d c (a_images a))) (a_images a))
| as_form a i r id v p q : handler_at a i r (HForm id p) -> steps p [v] q ->
    app_step d c a (ADo i v) (moved a i (HForm id q) (a_images a))
| as_links a i r v p q : handler_at a i r (HLinks p) -> steps p [v] q ->
    app_step d c a (ADo i v) (moved a i (HLinks q) (a_images a))
| as_created a i r id fields : handler_at a i r (HForm id (Ret (Ok fields))) ->
    app_step d c a (ARespond i (RpForm fields (B "POST") (B "https://storage.googleapis.com/" ++ c_bucket_name c)))
      (moved a i HOver (a_images a ++ [{| im_id := id; im_uploaded := false |}]))
| as_not_created a i r id e : handler_at a i r (HForm id (Ret (Err e))) ->
    app_step d c a (ARespond i RpFailed) (moved a i HOver (a_images a))
| as_listed a i r urls : handler_at a i r (HLinks (Ret (Ok urls))) ->
    app_step d c a (ARespond i (RpLinks urls)) (moved a i HOver (a_images a))
| as_not_listed a i r e : handler_at a i r (HLinks (Ret (Err e))) ->
    app_step d c a (ARespond i RpFailed) (moved a i HOver (a_images a))
| as_updated a i id : handler_at a i (RqUpdate id) HNew ->
    app_step d c a (ARespond i RpNoContent) (moved a i HOver (mark_uploaded id (a_images a)))
| as_drop a i r h : handler_at a i r h -> h <> HOver -> app_step d c a (ADrop i) (moved a i HOver (a_images a)).

(** Everything that happened since the start, and where it led (examples/image-uploader/src/main.rs lines 174-180). *)
Inductive app_runs (d : deps) (c : app_config) : list app_event -> app_state -> Prop :=
| ar_nil : app_runs d c [] {| a_images := []; a_handlers := [] |}
| ar_snoc tr a v a' : app_runs d c tr a -> app_step d c a v a' -> app_runs d c (tr ++ [v]) a'.

(** The variables of the environment that [main] reads, examples/image-uploader/src/main.rs lines 151-160, and
    [GCE_METADATA_HOST], src/private/bound_token.rs lines 64-76; [None] is a variable that is not set. *)
Record environment := {
  e_use_sign_blob : option str; e_credentials : option str; e_bucket_name : option str; e_metadata_host : option str
}.

(** [std::env::var], examples/image-uploader/src/main.rs lines 151, 155, 160: not set and not Unicode are errors. *)
Definition env_var (v : option str) : option str :=
  match v with Some s => if utf8_valid s then Some s else None | None => None end.

(** [bool::from_str], examples/image-uploader/src/main.rs line 151. *)
Definition bool_from_str (s : str) : option bool :=
  if str_eqb s (B "true") then Some true else if str_eqb s (B "false") then Some false else None.

(** [main] up to the configuration, examples/image-uploader/src/main.rs lines 151-163; [None] is an error, with which the
    program ends.  [files] answers for the path of the key file, [id] is the identity of the new key. *)
Definition main_config (d : deps) (files : str -> file_answer) (id : N) (e : environment) : option app_config :=
  match env_var (e_use_sign_blob e) with
  | None => None
  | Some text =>
  match bool_from_str text with
  | None => None
  | Some use_sign_blob =>
  match (if use_sign_blob then Some (key_bound_token (e_metadata_host e) id)
         else match env_var (e_credentials e) with
              | None => None
              | Some path => match service_account_from_path d (files path) with Ok k => Some k | Err _ => None end
              end) with
  | None => None
  | Some key =>
  match env_var (e_bucket_name e) with
  | None => None
  | Some bucket => Some {| c_bucket_name := bucket; c_signing_key := key; c_use_sign_blob := use_sign_blob |}
  end end end end.
