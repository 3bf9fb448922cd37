(** url 2.5.7 and http 1.3.1 as the crate uses them: URLs under https://storage.googleapis.com. *)
From Verif Require Import Base FormUrl Keys.
Local Open Scope byte_scope.

(** The scheme and host written at src/signed_url.rs line 84 and src/private/signed_url.rs line 60.
    They are lower case and contain nothing [Url::parse] would change, so every URL in the crate is this
    prefix, a path starting with ['/'], and optionally a query and a fragment. *)
Definition origin : str := B "https://storage.googleapis.com".

(** A parsed [url::Url] with that origin
    (src/signed_url.rs line 81, src/private/signed_url.rs line 93). *)
Record url := { u_path : str; u_query : option str; u_fragment : option str }.

(** [Url]'s [Display]: src/signed_url.rs line 97, src/private/signed_url.rs line 117.
    The part after the origin. *)
Definition url_rest (u : url) : str :=
  u_path u
  ++ match u_query u with Some q => "?" :: q | None => [] end
  ++ match u_fragment u with Some f => "#" :: f | None => [] end.

(** ** [Url::parse] *)

(** percent_encoding CONTROLS and, for [utf8_percent_encode], all non-ASCII bytes
    (src/signed_url.rs line 81, src/private/signed_url.rs line 93). *)
Definition set_controls (b : byte) : bool := N.ltb (bN b) 32 || N.leb 127 (bN b).
(** url parser.rs FRAGMENT, PATH, SPECIAL_QUERY
    (src/signed_url.rs line 81, src/private/signed_url.rs line 93). *)
Definition set_fragment (b : byte) : bool :=
  set_controls b || beq b " " || beq b """" || beq b "<" || beq b ">" || beq b "`".
(** PATH; src/signed_url.rs line 81, src/private/signed_url.rs line 93. *)
Definition set_path (caret : bool) (b : byte) : bool :=
  set_fragment b || beq b "#" || beq b "?" || beq b "{" || beq b "}" || (caret && beq b "^").
(** SPECIAL_QUERY; src/signed_url.rs line 81, src/private/signed_url.rs line 93. *)
Definition set_query (b : byte) : bool :=
  set_controls b || beq b " " || beq b """" || beq b "#" || beq b "<" || beq b ">" || beq b "'".

(** [Input::new]: trailing C0 controls and spaces are trimmed (the front is the origin)
    (src/signed_url.rs line 81, src/private/signed_url.rs line 93). *)
Fixpoint drop_while (f : byte -> bool) (s : str) : str :=
  match s with
  | c :: r => if f c then drop_while f r else s
  | [] => []
  end.
(** Trailing characters; src/signed_url.rs line 81, src/private/signed_url.rs line 93. *)
Definition trim_end (s : str) : str := rev (drop_while (fun b => N.leb (bN b) 32) (rev s)).

(** The input iterator skips tab, LF and CR
    (src/signed_url.rs line 81, src/private/signed_url.rs line 93). *)
Definition drop_tabs (s : str) : str := filter (fun b => negb (beq b x09 || beq b x0a || beq b x0d)) s.

(** Everything before the first ['?'] or ['#'], and the rest
    (src/signed_url.rs line 81, src/private/signed_url.rs line 93). *)
Fixpoint split_path (s : str) : str * str :=
  match s with
  | c :: r =>
      if beq c "?" || beq c "#" then ([], s)
      else let '(p, t) := split_path r in (c :: p, t)
  | [] => ([], [])
  end.

(** Path segments: ['/'] and, in special URLs, ['\'] separate
    (src/signed_url.rs line 81, src/private/signed_url.rs line 93). *)
Definition split_segments (s : str) : list str :=
  split_on "/" (map (fun b => if beq b "\" then "/" else b) s).

(** [eq_ignore_ascii_case]; src/signed_url.rs line 81, src/private/signed_url.rs line 93. *)
Definition lower_str (s : str) : str := map lower s.

(** parser.rs [parse_path]: the single- and double-dot spellings, compared after percent-encoding
    (src/signed_url.rs line 81, src/private/signed_url.rs line 93). *)
Definition is_dot (s : str) : bool :=
  let l := lower_str s in str_eqb l (B ".") || str_eqb l (B "%2e").
(** The double-dot spellings; src/signed_url.rs line 81, src/private/signed_url.rs line 93. *)
Definition is_dotdot (s : str) : bool :=
  let l := lower_str s in
  str_eqb l (B "..") || str_eqb l (B "%2e%2e") || str_eqb l (B "%2e.") || str_eqb l (B ".%2e").

(** parser.rs [starts_with_windows_drive_letter] on a whole segment
    (src/signed_url.rs line 81, src/private/signed_url.rs line 93). *)
Definition is_drive (s : str) : bool :=
  match s with
  | [a; b] => is_alpha a && (beq b ":" || beq b "|")
  | _ => false
  end.

(** parser.rs [last_slash_can_be_removed] / [pop_path]: drop the last complete segment (newest first),
    but not a drive letter (src/signed_url.rs line 81, src/private/signed_url.rs line 93). *)
Definition pop_segment (done : list str) : list str :=
  match done with
  | [] => []
  | x :: r => if is_drive x then done else r
  end.

(** Serialised path: complete segments (newest first), then the last one
    (src/signed_url.rs line 81, src/private/signed_url.rs line 93). *)
Definition render_path (done : list str) (last : str) : str :=
  "/" :: flat_map (fun s => s ++ ["/"]) (rev done) ++ last.

(** parser.rs [parse_path] (src/signed_url.rs line 81, src/private/signed_url.rs line 93). *)
Fixpoint walk_path (caret : bool) (done : list str) (segs : list str) : str :=
  match segs with
  | [] => render_path done []
  | [seg] =>
      let e := pct_encode (set_path caret) seg in
      if is_dotdot e then render_path (pop_segment done) []
      else if is_dot e then render_path done []
      else render_path done e
  | seg :: rest =>
      let e := pct_encode (set_path caret) seg in
      walk_path caret
        (if is_dotdot e then pop_segment done else if is_dot e then done else e :: done) rest
  end.

(** [Url::parse] of the origin followed by ['/'] and [s]: src/signed_url.rs lines 81-88,
    src/private/signed_url.rs line 93. It cannot fail on such a text. *)
Definition url_parse (d : deps) (s : str) : url :=
  let s := drop_tabs (trim_end ("/" :: s)) in
  let '(p, r) := split_path s in
  let path := walk_path (d_path_caret d) [] (split_segments (tl p)) in
  match r with
  | [] => {| u_path := path; u_query := None; u_fragment := None |}
  | c :: t =>
      if beq c "?" then
        let '(q, f) := split_once "#" t in
        {| u_path := path;
           u_query := Some (pct_encode set_query q);
           u_fragment := option_map (pct_encode set_fragment) f |}
      else
        {| u_path := path; u_query := None; u_fragment := Some (pct_encode set_fragment t) |}
  end.

(** [url.query_pairs_mut().extend_pairs(..)] / chained [append_pair]: src/signed_url.rs lines 89-93,
    src/private/signed_url.rs lines 94-116. The query is created even if nothing is appended. *)
Definition append_pairs (u : url) (kvs : list (str * str)) : url :=
  {| u_path := u_path u;
     u_query := Some (fold_left append_pair kvs (unwrap_or (u_query u) []));
     u_fragment := u_fragment u |}.

(** ** [http::Uri] *)

(** [http::Uri] with that origin: path and query
    (src/signed_url.rs line 97, src/private/signed_url.rs line 117). *)
Record uri := { uri_path : str; uri_query : option str }.

(** http uri/path.rs: bytes accepted in a path and in a query
    (src/signed_url.rs line 97, src/private/signed_url.rs line 117). *)
Definition uri_path_byte (b : byte) : bool :=
  beq b "!" || in_range 36 59 b || beq b "=" || in_range 64 95 b || in_range 97 122 b
  || beq b "|" || beq b "~" || beq b """" || beq b "{" || beq b "}" || in_range 127 255 b.
(** Bytes accepted in a query; src/signed_url.rs line 97, src/private/signed_url.rs line 117. *)
Definition uri_query_byte (b : byte) : bool :=
  beq b "!" || in_range 36 59 b || beq b "=" || in_range 63 126 b || in_range 127 255 b.

(** [Uri::try_from(String)] of the origin followed by [s]: longer than 65534 bytes or a forbidden byte
    is an error; the fragment is dropped.  src/signed_url.rs line 97, src/private/signed_url.rs line 117. *)
Definition uri_parse (s : str) : option uri :=
  if N.ltb 65534 (N.of_nat (length (origin ++ s))) then None
  else
    let '(p, r) := split_path s in
    if negb (forallb uri_path_byte p) then None
    else match r with
    | [] => Some {| uri_path := p; uri_query := None |}
    | c :: t =>
        if beq c "?" then
          let '(q, _) := split_once "#" t in
          if forallb uri_query_byte q then Some {| uri_path := p; uri_query := Some q |} else None
        else Some {| uri_path := p; uri_query := None |}
    end.

(** [Uri]'s [Display] after the origin: src/private/signed_url.rs line 93. *)
Definition uri_rest (u : uri) : str :=
  uri_path u ++ match uri_query u with Some q => "?" :: q | None => [] end.

(** ** Headers *)

(** http header/name.rs HEADER_CHARS: RFC 9110 token characters (src/signed_url.rs line 105). *)
Definition header_name_byte (quote_ok : bool) (b : byte) : bool :=
  is_digit b || is_alpha b || beq b "!" || beq b "#" || beq b "$" || beq b "%" || beq b "&"
  || beq b "'" || beq b "*" || beq b "+" || beq b "-" || beq b "." || beq b "^" || beq b "_"
  || beq b "`" || beq b "|" || beq b "~" || (quote_ok && beq b """").

(** [HeaderName::from_bytes], src/signed_url.rs line 105: non-empty, at most 65535 bytes, token
    characters; the name is lower-cased. *)
Definition header_name_from_bytes (d : deps) (s : str) : option str :=
  match s with
  | [] => None
  | _ =>
      if N.ltb 65535 (N.of_nat (length s)) then None
      else if forallb (header_name_byte (d_quote_in_header_name d)) s then Some (lower_str s)
      else None
  end.

(** [HeaderValue::to_str], src/private/canonical_request.rs line 34: visible ASCII, space or tab. *)
Definition header_value_to_str (v : str) : option str :=
  if forallb (fun b => in_range 32 126 b || beq b x09) v then Some v else None.
