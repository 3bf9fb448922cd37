(** examples/image-uploader: the page (index.html) and what lies between it and the handlers of Uploader.v: axum's routes,
    its reading of requests and its writing of responses.  A text is its UTF-8 form on both sides. *)
From Verif Require Import Base Utf8 FormUrl Json Uploader.

(** * The server's side *)

(** A request as axum sees it (examples/image-uploader/src/main.rs lines 164-180): the path is as sent, without the query,
    which no handler reads; of the header Content-Type only whether it names a JSON type is kept. *)
Record http_request := { hq_method : str; hq_path : str; hq_json : bool; hq_body : str }.

(** A response, as the page looks at it (examples/image-uploader/index.html lines 28-29, 37-38, 46-48, 66-68). *)
Record http_response := { hs_status : N; hs_body : str }.

(** The names of an object are Unicode: serde_json reads octets here and rejects keys that are not UTF-8
    (examples/image-uploader/src/main.rs lines 24-27). *)
Definition unicode_keys (r : raw) : bool :=
  match r with
  | RObj l => forallb (fun kv => match unescape (fst kv) with Some k => utf8_valid k | None => true end) l
  | _ => true
  end.

(** [axum::extract::Json<CreateImageRequestBody>], examples/image-uploader/src/main.rs lines 1-5 and 24-27, in axum 0.7:
    one value is read with [serde_json::Deserializer::from_slice], and what follows it is not looked at. *)
Definition read_create (body : str) : option (N * str) :=
  match p_value (2 * length body + 2) body with
  | None => None
  | Some (r, _) =>
      if unicode_keys r then
        match de_struct [B "content_length"; B "content_type"] r with
        | Some [n; t] =>
            match de_u64 n, de_string t with
            | Some n, Some t => if utf8_valid t then Some (n, t) else None
            | _, _ => None
            end
        | _ => None
        end
      else None
  end.

(** Where a request goes (examples/image-uploader/src/main.rs lines 164-173): the page, a handler, or a refusal by axum
    with one of the given statuses. *)
Inductive routed : Type :=
| RtPage
| RtHandler (r : app_request)
| RtRefused (statuses : list N).

(** [MethodRouter]: a route for GET also serves HEAD (examples/image-uploader/src/main.rs lines 167, 171). *)
Definition is_get (method : str) : bool := str_eqb method (B "GET") || str_eqb method (B "HEAD").

(** The router, examples/image-uploader/src/main.rs lines 164-173, with the extractors of lines 24-27 and 117: bodies over
    2 MiB are refused, [:id] is a segment that is not empty, percent-decoded, and must be UTF-8.  Which of 400 and 422 answers
    an unreadable body is not modelled: the page looks for 200 only. *)
Definition route (r : http_request) : routed :=
  if str_eqb (hq_path r) (B "/") then (if is_get (hq_method r) then RtPage else RtRefused [405%N])
  else if str_eqb (hq_path r) (B "/images") then
    (if is_get (hq_method r) then RtHandler RqList
     else if str_eqb (hq_method r) (B "POST") then
       if negb (hq_json r) then RtRefused [415%N]
       else if N.ltb 2097152 (N.of_nat (length (hq_body r))) then RtRefused [413%N]
       else match read_create (hq_body r) with
            | Some (n, t) => RtHandler (RqCreate n t)
            | None => RtRefused [400%N; 422%N]
            end
     else RtRefused [405%N])
  else match strip_prefix (B "/images/") (hq_path r) with
       | None => RtRefused [404%N]
       | Some segment =>
           if (match segment with [] => true | _ => existsb (beq "/") segment end) then RtRefused [404%N]
           else if str_eqb (hq_method r) (B "PATCH") then
             (if utf8_valid (pct_decode segment) then RtHandler (RqUpdate (pct_decode segment)) else RtRefused [400%N])
           else RtRefused [405%N]
       end.

(** [CreateImageResponseBody] as a tree, examples/image-uploader/src/main.rs lines 7-12. *)
Definition created_tree (fields : list (str * str)) (method url : str) : json :=
  JObj [(B "form_data", JArr (map (fun f => JArr [JStr (fst f); JStr (snd f)]) fields));
        (B "method", JStr method); (B "url", JStr url)].

(** [IntoResponse]: examples/image-uploader/src/main.rs lines 28, 60-64, 77, 105, 118, 126. *)
Definition respond (r : app_response) : http_response :=
  match r with
  | RpForm fields method url => {| hs_status := 200; hs_body := jprint (created_tree fields method url) |}
  | RpLinks urls => {| hs_status := 200; hs_body := jprint (JArr (map JStr urls)) |}
  | RpNoContent => {| hs_status := 204; hs_body := [] |}
  | RpFailed => {| hs_status := 500; hs_body := [] |}
  end.

(** * The page's side *)

(** A [File], examples/image-uploader/index.html lines 73-78: its size in octets and its type, empty if not known.
    Simplified: any size; JavaScript's numbers are exact below 2^53, which no file reaches. *)
Record file := { fi_size : N; fi_type : str }.

(** The requests of the page: to its server, or the upload to the storage service, whose body is a list of entries
    (examples/image-uploader/index.html lines 20, 36, 45, 65). *)
Inductive entry : Type :=
| EText (s : str)
| EFile (f : file).
(** See above; examples/image-uploader/index.html lines 20, 36, 45, 65. *)
Inductive page_request : Type :=
| PqServer (r : http_request)
| PqStorage (method url : str) (body : list (str * entry)).

(** What a click sets off, examples/image-uploader/index.html lines 76-82: requests, each answered by a response or, if
    [fetch] is rejected, by [None]; then the list is shown, or an error is thrown. *)
Inductive flow : Type :=
| FlSend (r : page_request) (k : option http_response -> flow)
| FlShow (urls : list str)
| FlThrow.

(** [Response.json()], examples/image-uploader/index.html lines 29, 38: [JSON.parse].  It also accepts lone surrogates,
    which no server of strings in UTF-8 writes; here they are errors. *)
Definition js_json (body : str) : option json :=
  match from_str_raw body with Some r => raw_to_json (fun _ => true) r | None => None end.

(** [JSON.stringify] of the argument of [createImage], examples/image-uploader/index.html lines 23-26.  For these values
    it writes what serde_json's writer does. *)
Definition create_body (f : file) : str :=
  jprint (JObj ((B "content_length", JNum (dec (fi_size f))) ::
                match fi_type f with [] => [] | type => [(B "content_type", JStr type)] end)).

(** The request of [createImage], examples/image-uploader/index.html lines 20-27. *)
Definition create_request (f : file) : http_request :=
  {| hq_method := B "POST"; hq_path := B "/images"; hq_json := true; hq_body := create_body f |}.

(** [[name, value]] as destructured at examples/image-uploader/index.html lines 59, 79.  Anything but strings is an
    error here. *)
Definition js_pair (j : json) : option (str * str) :=
  match j with JArr (JStr n :: JStr v :: _) => Some (n, v) | _ => None end.

(** The members destructured at examples/image-uploader/index.html line 29. *)
Definition read_created (body : str) : option (list (str * str) * str * str) :=
  match js_json body with
  | Some (JObj l) =>
      match jobj_get (B "form_data") l, jobj_get (B "method") l, jobj_get (B "url") l with
      | Some (JArr pairs), Some (JStr method), Some (JStr url) =>
          match traverse js_pair pairs with Some fields => Some (fields, method, url) | None => None end
      | _, _, _ => None
      end
  | _ => None
  end.

(** [createImage], examples/image-uploader/index.html lines 19-31. *)
Definition create_image_js (f : file) (k : list (str * str) -> str -> str -> flow) : flow :=
  FlSend (PqServer (create_request f)) (fun response =>
    match response with
    | None => FlThrow
    | Some r => if N.eqb (hs_status r) 200
                then match read_created (hs_body r) with Some (fields, method, url) => k fields method url | None => FlThrow end
                else FlThrow
    end).

(** The array of strings read at examples/image-uploader/index.html line 38. *)
Definition read_links (body : str) : option (list str) :=
  match js_json body with
  | Some (JArr l) => traverse (fun j => match j with JStr s => Some s | _ => None end) l
  | _ => None
  end.

(** [loadImages], examples/image-uploader/index.html lines 34-40. *)
Definition load_images_js (k : list str -> flow) : flow :=
  FlSend (PqServer {| hq_method := B "GET"; hq_path := B "/images"; hq_json := false; hq_body := [] |}) (fun response =>
    match response with
    | None => FlThrow
    | Some r => if N.eqb (hs_status r) 200
                then match read_links (hs_body r) with Some urls => k urls | None => FlThrow end
                else FlThrow
    end).

(** Status 204 and no text, examples/image-uploader/index.html lines 46-48 and 66-68. *)
Definition no_content (response : option http_response) (k : flow) : flow :=
  match response with
  | None => FlThrow
  | Some r => if N.eqb (hs_status r) 204 then (match hs_body r with [] => k | _ => FlThrow end) else FlThrow
  end.

(** [updateImage], examples/image-uploader/index.html lines 43-49.  The browser's URL parser is not modelled here: it
    leaves letters, digits and hyphens as they are. *)
Definition update_image_js (id : str) (k : flow) : flow :=
  FlSend (PqServer {| hq_method := B "PATCH"; hq_path := B "/images/" ++ id; hq_json := false; hq_body := [] |})
    (fun response => no_content response k).

(** [FormData.set], examples/image-uploader/index.html lines 60, 63: the first entry of that name is replaced and the
    others are removed, or an entry is added at the end. *)
Fixpoint fd_set (name : str) (v : entry) (l : list (str * entry)) : list (str * entry) :=
  match l with
  | [] => [(name, v)]
  | (n, w) :: r =>
      if str_eqb n name then (name, v) :: filter (fun e => negb (str_eqb (fst e) name)) r else (n, w) :: fd_set name v r
  end.

(** The body of the upload, examples/image-uploader/index.html lines 58-63. *)
Definition upload_body (fields : list (str * str)) (f : file) : list (str * entry) :=
  fd_set (B "file") (EFile f) (fold_left (fun body nv => fd_set (fst nv) (EText (snd nv)) body) fields []).

(** [uploadImage], examples/image-uploader/index.html lines 57-69. *)
Definition upload_image_js (url method : str) (fields : list (str * str)) (f : file) (k : flow) : flow :=
  FlSend (PqStorage method url (upload_body fields f)) (fun response => no_content response k).

(** What [onChange] does with a selected file, examples/image-uploader/index.html lines 76-82. *)
Definition on_change (f : file) : flow :=
  create_image_js f (fun fields method url =>
    upload_image_js url method fields f
      (match find (fun nv => str_eqb (fst nv) (B "key")) fields with
       | None => FlThrow
       | Some (_, id) => update_image_js id (load_images_js FlShow)
       end)).

(** The loop over the live list of children, examples/image-uploader/index.html line 89: the iterator keeps a place, and
    after a removal the child that moved to that place is passed over.  [fuel] is the number of children. *)
Fixpoint remove_children (fuel place : nat) (children : list str) : list str :=
  match fuel with
  | O => children
  | S fuel =>
      match nth_error children place with
      | None => children
      | Some _ => remove_children fuel (S place) (firstn place children ++ skipn (S place) children)
      end
  end.

(** [renderListItems], examples/image-uploader/index.html lines 86-101: the children of the [ul], each as the source of
    its image. *)
Definition render (children urls : list str) : list str := remove_children (length children) 0 children ++ urls.

(** The page since it was loaded, examples/image-uploader/index.html lines 11, 81, 109: the [ul] is empty, then lists are
    shown one after the other. *)
Definition page_children (shown : list (list str)) : list str := fold_left render shown [].
