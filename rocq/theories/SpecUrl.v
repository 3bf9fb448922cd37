(** Specification: V4 signed URLs (https://cloud.google.com/storage/docs/authentication/canonical-requests),
    percent-decoding (RFC 3986 section 2.1) and form-encoded queries, as relations independent of the
    functions in FormUrl.v, Url.v and SignedUrl.v. *)
From Coq Require Import Sorted Permutation.
From Verif Require Import Base SpecCodec SpecSha SpecCalendar SpecPolicy Effects Keys Url SignedUrl SpecForm.
Local Open Scope byte_scope.

(** * Percent-encoding *)

Definition upper_hex : str := B "0123456789ABCDEF".
Definition hex_digit (c : byte) (n : nat) : Prop := nth_error upper_hex n = Some c \/ nth_error hex_alphabet n = Some c.

(** [s] starts with a percent sign and two hex digits for [b]; [r] follows. *)
Definition triplet (s : str) (b : byte) (r : str) : Prop :=
  exists h l x y, s = "%" :: h :: l :: r /\ hex_digit h x /\ hex_digit l y /\ bN b = N.of_nat (16 * x + y).

(** Percent-decoding. *)
Inductive unescaped : str -> str -> Prop :=
| ue_nil : unescaped [] []
| ue_triplet s b r t : triplet s b r -> unescaped r t -> unescaped s (b :: t)
| ue_plain c s t : (forall b r, ~ triplet (c :: s) b r) -> unescaped s t -> unescaped (c :: s) (c :: t).

(** No percent sign is followed by two hex digits. *)
Definition plain (s : str) : Prop := forall p q b r, s = p ++ q -> ~ triplet q b r.

(** The characters the canonical request escapes; everything else is copied. *)
Definition reserved_characters : str := B "!""#$&'()*+,:;=?@[]".
Inductive escaped : str -> str -> Prop :=
| es_nil : escaped [] []
| es_reserved c h l s t : In c reserved_characters ->
    nth_error upper_hex (N.to_nat (bN c / 16)) = Some h -> nth_error upper_hex (N.to_nat (bN c mod 16)) = Some l ->
    escaped s t -> escaped (c :: s) ("%" :: h :: l :: t)
| es_other c s t : ~ In c reserved_characters -> escaped s t -> escaped (c :: s) (c :: t).

(** * Lists of texts *)

(** The texts in order, with [sep] between neighbours. *)
Inductive glued (sep : str) : list str -> str -> Prop :=
| gl_nil : glued sep [] []
| gl_one s : glued sep [s] s
| gl_more s l t : l <> [] -> glued sep l t -> glued sep (s :: l) (s ++ sep ++ t).

(** Lexicographic order by byte value. *)
Inductive text_lt : str -> str -> Prop :=
| tl_end c s : text_lt [] (c :: s)
| tl_here a b s t : (bN a < bN b)%N -> text_lt (a :: s) (b :: t)
| tl_later c s t : text_lt s t -> text_lt (c :: s) (c :: t).
Definition text_le (a b : str) : Prop := text_lt a b \/ a = b.
Definition proper_prefix (a b : str) : Prop := exists c r, b = a ++ c :: r.
Definition ascending := StronglySorted text_le.
Definition strictly_ascending := StronglySorted text_lt.

(** * Form-encoded queries as a server reads them *)

Definition plus_as_space (s : str) : str := map (fun c => if beq c "+" then " " else c) s.
Definition form_text (text value : str) : Prop := unescaped (plus_as_space text) value.

(** One piece between ampersands: a name up to the first equals sign, and a value. *)
Inductive form_piece : str -> str * str -> Prop :=
| fp_pair k v name value : ~ In "=" k -> form_text k name -> form_text v value -> form_piece (k ++ "=" :: v) (name, value)
| fp_name k name : ~ In "=" k -> form_text k name -> form_piece k (name, []).

(** Empty pieces are skipped. *)
Inductive form_pieces : list str -> list (str * str) -> Prop :=
| fs_nil : form_pieces [] []
| fs_empty l pairs : form_pieces l pairs -> form_pieces ([] :: l) pairs
| fs_piece p pair l pairs : p <> [] -> form_piece p pair -> form_pieces l pairs -> form_pieces (p :: l) (pair :: pairs).
Definition form_query (query : str) (pairs : list (str * str)) : Prop :=
  exists l, glued (B "&") l query /\ Forall (fun p => ~ In "&" p) l /\ form_pieces l pairs.

(** * The parts of a signed URL *)

Definition url_parts (url path query sig : str) : Prop :=
  url = B "https://storage.googleapis.com" ++ path ++ B "?" ++ query ++ B "&X-Goog-Signature=" ++ sig /\
  (exists r, path = "/" :: r) /\ ~ In "?" path /\ ~ In "#" path /\ ~ In "?" query /\ ~ In "#" query /\
  Forall (fun c => In c hex_alphabet) sig.

(** [piece] is one of the texts between ampersands of [query]. *)
Definition query_piece (query piece : str) : Prop :=
  exists l, glued (B "&") l query /\ Forall (fun p => ~ In "&" p) l /\ In piece l.

(** * Headers *)

Definition ascii_lower (s : str) : str :=
  map (fun c => if (N.leb 65 (bN c) && N.leb (bN c) 90)%bool then nb (bN c + 32) else c) s.

(** The values sent for the lower-case header name [n], in order. *)
Definition values (supplied : list (str * str)) (n : str) : list str :=
  (if str_eqb n (B "host") then [B "storage.googleapis.com"] else [])
  ++ map snd (filter (fun h => str_eqb (ascii_lower (fst h)) n) supplied).

(** The names that have a value, strictly ascending. *)
Definition header_names (supplied : list (str * str)) (names : list str) : Prop :=
  strictly_ascending names /\ forall n, In n names <-> values supplied n <> [].

(** One line [name:value,value] per name. *)
Definition header_line (supplied : list (str * str)) (n line : str) : Prop :=
  exists v, glued (B ",") (values supplied n) v /\ line = n ++ B ":" ++ v.
Definition header_block (supplied : list (str * str)) (names : list str) (block : str) : Prop :=
  exists lines, Forall2 (header_line supplied) names lines /\ glued [x0a] lines block.

(** Changes to a header list that should not matter: the case of a name, and the order of neighbours with different
    names. *)
Inductive rearranged : list (str * str) -> list (str * str) -> Prop :=
| ra_same l : rearranged l l
| ra_case a b name name' value : ascii_lower name = ascii_lower name' -> rearranged (a ++ (name, value) :: b) (a ++ (name', value) :: b)
| ra_swap a b h h' : ascii_lower (fst h) <> ascii_lower (fst h') -> rearranged (a ++ h :: h' :: b) (a ++ h' :: h :: b)
| ra_steps l m r : rearranged l m -> rearranged m r -> rearranged l r.

(** RFC 9110 section 5.6.2. *)
Definition token_character (c : byte) : Prop :=
  In c (B "!#$%&'*+-.^_`|~0123456789abcdefghijklmnopqrstuvwxyzABCDEFGHIJKLMNOPQRSTUVWXYZ").
Definition header_text_character (c : byte) : Prop := (32 <= bN c <= 126)%N \/ c = x09.

(** * The signed message *)

(** The canonical request. *)
Definition canonical_text (verb path query : str) (supplied : list (str * str)) (text : str) : Prop :=
  exists names names_text block escaped_path,
    header_names supplied names /\ glued (B ";") names names_text /\ header_block supplied names block /\
    escaped path escaped_path /\
    glued [x0a] [verb; escaped_path; query; block; []; names_text; B "UNSIGNED-PAYLOAD"] text.

(** The credential scope for a second and a location. *)
Definition scope_text (secs : Z) (region scope : str) : Prop :=
  exists day, utc_date_text secs day /\ glued (B "/") [day; region; B "storage"; B "goog4_request"] scope.

(** The string to sign. *)
Definition message_text (secs : Z) (region canonical message : str) : Prop :=
  exists date scope sum digest,
    utc_basic_text secs date /\ scope_text secs region scope /\ digest_of canonical sum /\ hex_of sum digest /\
    glued [x0a] [B "GOOG4-RSA-SHA256"; date; scope; digest] message.

(** * Options *)

Definition region_of (o : url_options) : str := match o_region o with Some r => r | None => B "auto" end.

(** The requested path before escaping, and the whole text after the origin. *)
Definition requested (o : url_options) : str := o_bucket_name o ++ B "/" ++ o_object_name o.

(** The time of a build, in nanoseconds, and the clock events before everything else. *)
Inductive url_time (o : url_options) : Z -> list event -> Prop :=
| ut_given t : o_accessible_at o = Some t -> url_time o t []
| ut_clock t : o_accessible_at o = None -> url_time o t [VNow t].

(** Text that survives URL parsing except for percent-encoding: no tab, LF or CR, and no space or control
    character at the end. *)
Definition tidy (s : str) : Prop :=
  ~ In x09 s /\ ~ In x0a s /\ ~ In x0d s /\ (forall p c, s = p ++ [c] -> (32 < bN c)%N).

(** The texts between the slashes, and the absence of dot segments (also in escaped form). *)
Definition segment (s seg : str) : Prop := exists l, glued (B "/") l s /\ Forall (fun p => ~ In "/" p) l /\ In seg l.
Definition no_dot_segment (s : str) : Prop := forall seg t, segment s seg -> unescaped seg t -> t <> B "." /\ t <> B "..".

(** The parameters in the bucket or object name itself: those between the first ['?'] and the next ['#'],
    if the ['?'] comes first. *)
Inductive own_parameters (s : str) : list (str * str) -> Prop :=
| op_none : ~ In "?" s -> own_parameters s []
| op_fragment p f : s = p ++ "#" :: f -> ~ In "?" p -> own_parameters s []
| op_query p q f own : tidy s -> s = p ++ "?" :: q ++ f -> ~ In "?" p -> ~ In "#" p -> ~ In "#" q ->
    (f = [] \/ exists t, f = "#" :: t) -> form_query q own -> own_parameters s own.

(** The five parameters every signed URL has besides the signature. *)
Definition required_parameters (email date scope expires names : str) : list (str * str) := [
  (B "X-Goog-Algorithm", B "GOOG4-RSA-SHA256");
  (B "X-Goog-Credential", email ++ B "/" ++ scope);
  (B "X-Goog-Date", date);
  (B "X-Goog-Expires", expires);
  (B "X-Goog-SignedHeaders", names)].

(** The texts of the parameters in the canonical query: name and value escaped, except that the slashes of
    the credential are replaced first. *)
Definition slash_free (s : str) : str := flat_map (fun c => if beq c "/" then B "%2F" else [c]) s.
Definition query_text (kv : str * str) (text : str) : Prop :=
  exists k v, escaped (fst kv) k /\ escaped (snd kv) v /\ text = k ++ B "=" ++ v.
Definition query_texts (own params : list (str * str)) (email date scope expires names : str) (texts : list str) : Prop :=
  Forall2 query_text (own ++ params ++ [
    (B "X-Goog-Algorithm", B "GOOG4-RSA-SHA256");
    (B "X-Goog-Credential", slash_free (email ++ B "/" ++ scope));
    (B "X-Goog-Date", date);
    (B "X-Goog-Expires", expires);
    (B "X-Goog-SignedHeaders", names)]) texts.

(** What a server that percent-decodes once more would read. *)
Definition unescaped_pair (kv kv' : str * str) : Prop := unescaped (fst kv) (fst kv') /\ unescaped (snd kv) (snd kv').
Definition plain_pair (kv : str * str) : Prop := plain (fst kv) /\ plain (snd kv).

(** [text] consists of [n] parts separated by slashes. *)
Definition components (text : str) (n : nat) : Prop :=
  exists l, l <> [] /\ glued (B "/") l text /\ Forall (fun p => ~ In "/" p) l /\ length l = n.

(** The parameters only the library should write. *)
Definition goog_names : list str := map B ["X-Goog-Algorithm"; "X-Goog-Credential"; "X-Goog-Date"; "X-Goog-Expires"; "X-Goog-SignedHeaders"; "X-Goog-Signature"]%string.
Definition occurrences (name : str) (pairs : list (str * str)) : nat := length (filter (fun kv => str_eqb (fst kv) name) pairs).

(** * The first violated requirement of a build for time [t] (nanoseconds since 1970) *)

Definition valid_header (d : deps) (h : str * str) : Prop :=
  fst h <> [] /\ (N.of_nat (length (fst h)) <= 65535)%N /\
  Forall (fun c => token_character c \/ d_quote_in_header_name d = true /\ c = """") (fst h).
Definition valid_value (h : str * str) : Prop := Forall (fun c => (32 <= bN c)%N /\ bN c <> 127%N \/ c = x09) (snd h).

Definition methods : list str := map B ["DELETE"; "GET"; "HEAD"; "POST"; "PUT"]%string.

(** The request URL before the X-Goog-* parameters are added, as the url crate writes it. *)
Definition target (d : deps) (o : url_options) : str :=
  origin ++ url_rest (append_pairs (url_parse d (requested o)) (o_query_parameters o)).

(** Each requirement. *)
Definition ordered (o : url_options) (t : Z) : Prop := (0 <= o_expires o - t < 9223372036854775808 * 1000000000)%Z.
Definition method_known (o : url_options) : Prop := In (o_http_method o) methods.
Definition fits (d : deps) (o : url_options) : Prop := (N.of_nat (length (target d o)) <= 65534)%N.
Definition headers_valid (d : deps) (o : url_options) : Prop := Forall (fun h => valid_header d h /\ valid_value h) (o_headers o).
Definition lifetime (o : url_options) (t : Z) : Z := ((o_expires o - t) / 1000000000)%Z.
Definition lowered (o : url_options) : list (str * str) := map (fun h => (ascii_lower (fst h), snd h)) (o_headers o).

(** The first violated one and the error for it. *)
Inductive url_violation (d : deps) (o : url_options) (t : Z) : url_error -> Prop :=
| uv_time : ~ in_years t -> url_violation d o t UrlNow
| uv_order : in_years t -> ~ ordered o t -> url_violation d o t UrlExpirationOutOfRange
| uv_method : in_years t -> ordered o t -> ~ method_known o -> url_violation d o t (UrlHttpMethod (o_http_method o))
| uv_length : in_years t -> ordered o t -> method_known o -> ~ fits d o -> url_violation d o t UrlHttpRequest
| uv_header before h after : in_years t -> ordered o t -> method_known o -> fits d o ->
    o_headers o = before ++ h :: after -> Forall (fun h => valid_header d h /\ valid_value h) before ->
    ~ valid_header d h -> url_violation d o t UrlInvalidHeaderName
| uv_value before h after : in_years t -> ordered o t -> method_known o -> fits d o ->
    o_headers o = before ++ h :: after -> Forall (fun h => valid_header d h /\ valid_value h) before ->
    valid_header d h -> ~ valid_value h -> url_violation d o t UrlInvalidHeaderValue
| uv_lifetime : in_years t -> ordered o t -> method_known o -> fits d o -> headers_valid d o ->
    d_hm_overflow d (lowered o) = false ->
    (604800 < lifetime o t)%Z -> url_violation d o t (UrlExpiration (lifetime o t)).

(** Nothing is violated. *)
Definition url_valid (d : deps) (o : url_options) (t : Z) : Prop :=
  in_years t /\ ordered o t /\ method_known o /\ fits d o /\ headers_valid d o /\
  d_hm_overflow d (lowered o) = false /\ (lifetime o t <= 604800)%Z.

(** * URIs *)

(** RFC 3986: unreserved, gen-delims, sub-delims and the percent sign. *)
Definition uri_characters : str :=
  B "ABCDEFGHIJKLMNOPQRSTUVWXYZabcdefghijklmnopqrstuvwxyz0123456789-._~:/?#[]@!$&'()*+,;=%".
