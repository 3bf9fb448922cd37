(** Specification: the text of a request URL, character by character (https://url.spec.whatwg.org, sections 1.3, 4.4 and 5), as relations
    independent of the functions in FormUrl.v and Url.v. *)
From Verif Require Import Base Effects Keys SignedUrl SpecUrl SpecPath.
Local Open Scope byte_scope.

(** A percent sign and two capital hex digits. *)
Definition escape_of (c : byte) (t : str) : Prop :=
  exists h l, nth_error upper_hex (N.to_nat (bN c / 16)) = Some h /\ nth_error upper_hex (N.to_nat (bN c mod 16)) = Some l /\ t = ["%"; h; l].

(** Special characters are escaped, others are copied. *)
Inductive written (special : byte -> Prop) : str -> str -> Prop :=
| wr_nil : written special [] []
| wr_escape c e s t : special c -> escape_of c e -> written special s t -> written special (c :: s) (e ++ t)
| wr_copy c s t : ~ special c -> written special s t -> written special (c :: s) (c :: t).

(** Special characters of a path, a query and a fragment.  Releases of the parser differ in the caret. *)
Definition control (c : byte) : Prop := (bN c < 32 \/ 127 <= bN c)%N.
Definition in_path (caret : bool) (c : byte) : Prop := control c \/ In c (B " ""#<>?`{}") \/ caret = true /\ c = "^".
Definition in_query (c : byte) : Prop := control c \/ In c (B " ""#<>'").
Definition in_fragment (c : byte) : Prop := control c \/ In c (B " ""<>`").

(** application/x-www-form-urlencoded. *)
Definition form_safe (c : byte) : Prop :=
  In c (B "*-._0123456789ABCDEFGHIJKLMNOPQRSTUVWXYZabcdefghijklmnopqrstuvwxyz").
Inductive form_written : str -> str -> Prop :=
| fw_nil : form_written [] []
| fw_copy c s t : form_safe c -> form_written s t -> form_written (c :: s) (c :: t)
| fw_space s t : form_written s t -> form_written (" " :: s) ("+" :: t)
| fw_escape c e s t : ~ form_safe c -> c <> " " -> escape_of c e -> form_written s t -> form_written (c :: s) (e ++ t).
Definition pair_text (kv : str * str) (text : str) : Prop :=
  exists k v, form_written (fst kv) k /\ form_written (snd kv) v /\ text = k ++ "=" :: v.

(** Path, query after the first question mark, fragment after the first number sign. *)
Inductive cut : str -> str -> option str -> option str -> Prop :=
| cut_path p : ~ In "?" p -> ~ In "#" p -> cut p p None None
| cut_query p q : ~ In "?" p -> ~ In "#" p -> ~ In "#" q -> cut (p ++ "?" :: q) p (Some q) None
| cut_fragment p f : ~ In "?" p -> ~ In "#" p -> cut (p ++ "#" :: f) p None (Some f)
| cut_both p q f : ~ In "?" p -> ~ In "#" p -> ~ In "#" q -> cut (p ++ "?" :: q ++ "#" :: f) p (Some q) (Some f).

(** The path: dot segments are followed, the others escaped. *)
Definition request_path (caret : bool) (p path : str) : Prop :=
  exists segs out es body, separated p segs /\ path_segments segs out /\ Forall2 (written (in_path caret)) out es /\
    glued (B "/") es body /\ path = "/" :: body.

(** The query: that of the name, if it has any characters, and the parameters, with ampersands between. *)
Definition request_query (q : option str) (params : list (str * str)) (query : str) : Prop :=
  exists own texts, match q with Some s => written in_query s own | None => own = [] end /\ Forall2 pair_text params texts /\
    glued (B "&") (match own with [] => texts | _ => own :: texts end) query.

Definition request_fragment (f : option str) (fragment : str) : Prop :=
  match f with Some s => exists t, written in_fragment s t /\ fragment = "#" :: t | None => fragment = [] end.

(** The parts of the URL for a name and parameters. *)
Definition request_parts (caret : bool) (name : str) (params : list (str * str)) (path query fragment : str) : Prop :=
  exists u v p q f, without_end name u /\ without_breaks u v /\ cut v p q f /\
    request_path caret p path /\ request_query q params query /\ request_fragment f fragment.

(** The URL with its fragment, and as it is sent. *)
Definition request_url (caret : bool) (name : str) (params : list (str * str)) (text : str) : Prop :=
  exists path query fragment, request_parts caret name params path query fragment /\
    text = B "https://storage.googleapis.com" ++ path ++ B "?" ++ query ++ fragment.
Definition sent_url (caret : bool) (name : str) (params : list (str * str)) (text : str) : Prop :=
  exists path query fragment, request_parts caret name params path query fragment /\
    text = B "https://storage.googleapis.com" ++ path ++ B "?" ++ query.

(** The parameters that the library adds. *)
Definition algorithm_text (k : signing_key) : str := match k with KHmac _ _ => B "GOOG4-HMAC-SHA256" | _ => B "GOOG4-RSA-SHA256" end.
Inductive added (o : url_options) (t : Z) (email : str) : list (str * str) -> Prop :=
| ad_five date scope expires names names_text :
    SpecCalendar.utc_basic_text (t / 1000000000)%Z date -> scope_text (t / 1000000000)%Z (region_of o) scope ->
    SpecPolicy.decimal_of (Z.to_N ((o_expires o - t) / 1000000000)) expires ->
    header_names (o_headers o) names -> glued (B ";") names names_text ->
    added o t email [
      (B "X-Goog-Algorithm", algorithm_text (o_signing_key o));
      (B "X-Goog-Credential", slash_free (email ++ B "/" ++ scope));
      (B "X-Goog-Date", date);
      (B "X-Goog-Expires", expires);
      (B "X-Goog-SignedHeaders", names_text)].
