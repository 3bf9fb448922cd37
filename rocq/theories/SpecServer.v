(** Specification: a server that checks V4 signed URLs.  It decodes what it received, builds the canonical request anew
    in its own encoding and verifies the signature of the string to sign
    (https://cloud.google.com/storage/docs/authentication/signatures and .../canonical-requests).
    Nothing here refers to the functions of the library. *)
From Coq Require Import Sorted Permutation.
From Verif Require Import Base SpecCodec SpecSha SpecCalendar SpecPolicy SpecUrl SignedUrl Keys.
Local Open Scope byte_scope.

(** * The server's encoding *)

(** RFC 3986 section 2.3. *)
Definition unreserved_characters : str := B "ABCDEFGHIJKLMNOPQRSTUVWXYZabcdefghijklmnopqrstuvwxyz0123456789-._~".

(** The characters in [kept] are copied, all others are written as percent sign and two upper-case hex digits. *)
Inductive encoded (kept : byte -> bool) : str -> str -> Prop :=
| en_nil : encoded kept [] []
| en_kept c s t : kept c = true -> encoded kept s t -> encoded kept (c :: s) (c :: t)
| en_escaped c h l s t : kept c = false ->
    nth_error upper_hex (N.to_nat (bN c / 16)) = Some h -> nth_error upper_hex (N.to_nat (bN c mod 16)) = Some l ->
    encoded kept s t -> encoded kept (c :: s) ("%" :: h :: l :: t).

(** A server: its encoding of query and path, and its verification of an account's signature of a message. *)
Record server := { sv_query : byte -> bool; sv_path : byte -> bool; sv_verifies : str -> str -> str -> Prop }.

(** Unreserved characters are copied, the percent sign and the reserved ones are escaped; the slash is copied in the path only;
    in the path also the characters that no URL contains are escaped.  Everything else is up to the server. *)
Definition server_ok (sv : server) : Prop :=
  (forall c, In c unreserved_characters -> sv_query sv c = true /\ sv_path sv c = true) /\
  (forall c, In c ("%" :: reserved_characters) -> sv_query sv c = false /\ sv_path sv c = false) /\
  sv_query sv "/" = false /\ sv_path sv "/" = true /\
  (forall c, (bN c <= 32 \/ 127 <= bN c)%N \/ In c (B "<>`{}") -> sv_path sv c = false).

(** * Requests *)

Record request := { rq_verb : str; rq_path : str; rq_query : str; rq_headers : list (str * str) }.

(** Header fields as received: names in lower case, no blanks around the values (RFC 9110 section 5.5). *)
Definition blank (c : byte) : Prop := c = " " \/ c = x09.
Definition trimmed (v : str) : Prop := (forall c s, v = c :: s -> ~ blank c) /\ (forall c s, v = s ++ [c] -> ~ blank c).
Definition received (h h' : str * str) : Prop :=
  fst h' = ascii_lower (fst h) /\ trimmed (snd h') /\ exists a b, snd h = a ++ snd h' ++ b /\ Forall blank a /\ Forall blank b.

(** The values received for a name, and the line for it. *)
Definition received_values (seen : list (str * str)) (n : str) : list str := map snd (filter (fun h => str_eqb (fst h) n) seen).
Definition server_line (seen : list (str * str)) (n line : str) : Prop :=
  exists v, received_values seen n <> [] /\ glued (B ",") (received_values seen n) v /\ line = n ++ B ":" ++ v.

(** * The canonical request the server builds *)

Definition encoded_pair (kept : byte -> bool) (kv kv' : str * str) : Prop := encoded kept (fst kv) (fst kv') /\ encoded kept (snd kv) (snd kv').
(** By name, then by value. *)
Definition pair_le (a b : str * str) : Prop := text_lt (fst a) (fst b) \/ fst a = fst b /\ text_le (snd a) (snd b).

(** All parameters except the signature, encoded and in order. *)
Definition server_query (sv : server) (pairs : list (str * str)) (sig text : str) : Prop :=
  exists rest texts, Permutation pairs (rest ++ [(B "X-Goog-Signature", sig)]) /\
    Forall2 (encoded_pair (sv_query sv)) rest texts /\ StronglySorted pair_le texts /\
    glued (B "&") (map (fun kv => fst kv ++ B "=" ++ snd kv) texts) text.

Definition server_path (sv : server) (path text : str) : Prop := exists decoded, unescaped path decoded /\ encoded (sv_path sv) decoded text.

Definition server_headers (headers : list (str * str)) (names : list str) (block : str) : Prop :=
  exists seen lines, Forall2 received headers seen /\ Forall2 (server_line seen) names lines /\ glued [x0a] lines block.

Definition server_canonical (sv : server) (r : request) (pairs : list (str * str)) (sig : str) (names : list str) (text : str) : Prop :=
  exists path query block names_text,
    server_path sv (rq_path r) path /\ server_query sv pairs sig query /\ server_headers (rq_headers r) names block /\
    glued (B ";") names names_text /\
    glued [x0a] [rq_verb r; path; query; block; []; names_text; B "UNSIGNED-PAYLOAD"] text.

(** * The check *)

(** The parameter is given exactly once. *)
Definition given (pairs : list (str * str)) (name value : str) : Prop := filter (fun kv => str_eqb (fst kv) name) pairs = [(name, value)].

(** At second [now] the server accepts [r] as signed by [account], having verified [s] as signature of [message]. *)
Definition accepts (sv : server) (now : Z) (r : request) (account message s : str) : Prop :=
  exists pairs secs region date scope expires lifetime names names_text sig canonical,
    In (rq_verb r) methods /\
    Forall (fun h => Forall token_character (fst h) /\ valid_value h) (rq_headers r) /\
    form_query (rq_query r) pairs /\
    given pairs (B "X-Goog-Algorithm") (B "GOOG4-RSA-SHA256") /\
    given pairs (B "X-Goog-Credential") (account ++ B "/" ++ scope) /\ scope_text secs region scope /\
    given pairs (B "X-Goog-Date") date /\ utc_basic_text secs date /\
    given pairs (B "X-Goog-Expires") expires /\ decimal_of lifetime expires /\ (lifetime <= 604800)%N /\
    (secs <= now < secs + Z.of_N lifetime)%Z /\
    given pairs (B "X-Goog-SignedHeaders") names_text /\ glued (B ";") names names_text /\ strictly_ascending names /\ In (B "host") names /\
    Forall (fun n => n <> [] /\ Forall token_character n) names /\
    given pairs (B "X-Goog-Signature") sig /\ hex_of s sig /\
    server_canonical sv r pairs sig names canonical /\ message_text secs region canonical message /\
    sv_verifies sv account message s.

(** * Options for which nothing depends on the server's encoding *)

Definition parameter_text (s : str) : Prop := Forall (fun c => In c (unreserved_characters ++ reserved_characters)) s.
Definition account_text (s : str) : Prop := Forall (fun c => In c ("/" :: unreserved_characters ++ reserved_characters)) s.

Record portable (o : url_options) : Prop := {
  po_path : Forall (fun c => ~ In c (B "?#%\^|")) (requested o);
  po_tidy : tidy (requested o);
  po_segments : forall seg, segment (requested o) seg -> seg <> B "." /\ seg <> B "..";
  po_parameters : Forall (fun kv => parameter_text (fst kv) /\ parameter_text (snd kv)) (o_query_parameters o);
  po_names : forall n, In n (map fst (o_query_parameters o)) -> ~ In n goog_names;
  po_prefixes : forall a b, In a (map fst (o_query_parameters o) ++ goog_names) -> In b (map fst (o_query_parameters o) ++ goog_names) -> ~ proper_prefix a b;
  po_region : account_text (region_of o);
  po_headers : Forall (fun h => parameter_text (fst h) /\ Forall token_character (fst h) /\ trimmed (snd h)) (o_headers o)
}.

(** The same without conditions on the path; [own] are the parameters in the name itself. *)
Record sendable (own : list (str * str)) (o : url_options) : Prop := {
  sd_parameters : Forall (fun kv => parameter_text (fst kv) /\ parameter_text (snd kv)) (own ++ o_query_parameters o);
  sd_names : forall n, In n (map fst (own ++ o_query_parameters o)) -> ~ In n goog_names;
  sd_prefixes : forall a b, In a (map fst (own ++ o_query_parameters o) ++ goog_names) -> In b (map fst (own ++ o_query_parameters o) ++ goog_names) -> ~ proper_prefix a b;
  sd_region : account_text (region_of o);
  sd_headers : Forall (fun h => parameter_text (fst h) /\ Forall token_character (fst h) /\ trimmed (snd h)) (o_headers o)
}.

(** A client sends the signed headers: for every signed name the values of the options, in order; other headers are up to it. *)
Definition sends (o : url_options) (headers : list (str * str)) : Prop :=
  Forall (fun h => Forall token_character (fst h) /\ valid_value h) headers /\
  forall n, values (o_headers o) n <> [] -> map snd (filter (fun h => str_eqb (ascii_lower (fst h)) n) headers) = values (o_headers o) n.
