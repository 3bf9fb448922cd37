(** What one [Client::execute] sends: redirects, followed by reqwest 0.12.24 with tower-http 0.6.6 (from memory). *)
From Verif Require Import Base Effects Keys Url Target.
Local Open Scope byte_scope.

(** A URL as the client reads it: scheme, host, port ([port_or_known_default]), path with query
    (src/private/bound_token.rs lines 105-109, 139-143, 210-214). *)
Record place := { pl_scheme : str; pl_host : str; pl_port : N; pl_path : str }.

(** One message on the wire (src/private/bound_token.rs lines 105-109, 139-143, 210-214). *)
Record message := { ms_method : str; ms_place : place; ms_headers : list (str * str); ms_body : option str }.

(** Where a [Location] header leads, resolved by the client: a place, or a URL that is neither http nor https
    (src/private/bound_token.rs lines 105-109, 139-143, 210-214).  Simplification: resolving relative references is not
    modelled; the place is arbitrary. *)
Inductive location := LAt (p : place) | LForeign.

(** What comes back for one message; no [Location] stands for one that is absent or cannot be read
    (src/private/bound_token.rs lines 105-109, 139-143, 210-214). *)
Inductive reply := NoReply | Reply (status : N) (l : option location) (body : option str).

(** [Url::port_or_known_default] without a port (src/private/bound_token.rs lines 101, 135, 195). *)
Definition default_port (scheme : str) : N := if str_eqb scheme (B "https") then 443%N else 80%N.

(** What follows the last ['@'] of an authority: host and port (src/private/bound_token.rs lines 101, 135, 195). *)
Fixpoint after_user (a : str) : str :=
  match a with
  | [] => []
  | c :: t => if existsb (beq "@") a then after_user t else a
  end.

(** The longest beginning of digits and the rest; the authority is read from its end
    (src/private/bound_token.rs lines 101, 135, 195). *)
Fixpoint span_digits (s : str) : str * str :=
  match s with
  | c :: t => if is_digit c then let '(a, r) := span_digits t in (c :: a, r) else ([], s)
  | [] => ([], [])
  end.

(** Host in lower case, and port, of an authority (src/private/bound_token.rs lines 101, 135, 195).  Simplification: other
    normalisations of hosts (IDNA, spellings of IPv4 addresses) are not modelled. *)
Definition host_port (scheme a : str) : str * N :=
  let a := after_user a in
  match span_digits (rev a) with
  | (ds, c :: h) =>
      if beq c ":" then (lower_str (rev h), match undec (rev ds) with Some n => n | None => default_port scheme end)
      else (lower_str a, default_port scheme)
  | _ => (lower_str a, default_port scheme)
  end.

(** The place a request text leads to (src/private/bound_token.rs lines 101, 135, 195). *)
Definition place_of (t : destination) : place :=
  let '(h, p) := host_port (tg_scheme t) (tg_authority t) in
  {| pl_scheme := tg_scheme t; pl_host := h; pl_port := p;
     pl_path := u_path (tg_url t) ++ match u_query (tg_url t) with Some q => "?" :: q | None => [] end |}.

(** [HeaderMap::remove] of some names (src/private/bound_token.rs lines 105-109, 139-143, 210-214). *)
Definition without (names : list str) (h : list (str * str)) : list (str * str) :=
  filter (fun kv => negb (existsb (str_eqb (lower_str (fst kv))) names)) h.

(** tower-http [drop_payload_headers] (src/private/bound_token.rs lines 105-109, 139-143, 210-214). *)
Definition payload_names : list str := map B ["content-type"; "content-length"; "content-encoding"; "transfer-encoding"]%string.
(** reqwest [remove_sensitive_headers] (src/private/bound_token.rs lines 105-109, 139-143, 210-214). *)
Definition sensitive_names : list str := map B ["authorization"; "cookie"; "cookie2"; "proxy-authorization"; "www-authenticate"]%string.

(** tower-http's choice of method, body and headers by status: 301 and 302 turn POST into GET, 303 turns all but HEAD
    into GET, 307 and 308 leave the message as it is; [None] for a status that is no redirect
    (src/private/bound_token.rs lines 105-109, 139-143, 210-214). *)
Definition redirected (status : N) (method : str) (body : option str) (h : list (str * str))
  : option (str * option str * list (str * str)) :=
  if (status =? 301)%N || (status =? 302)%N then
    if str_eqb method (B "POST") then Some (B "GET", None, without payload_names h) else Some (method, body, h)
  else if (status =? 303)%N then
    Some (if str_eqb method (B "HEAD") then method else B "GET", None, without payload_names h)
  else if (status =? 307)%N || (status =? 308)%N then Some (method, body, h)
  else None.

(** [cross_host] of reqwest [remove_sensitive_headers] is the negation (src/private/bound_token.rs lines 105-109, 139-143, 210-214). *)
Definition same_server (a b : place) : bool := str_eqb (pl_host a) (pl_host b) && (pl_port a =? pl_port b)%N.

(** The text of a URL without fragment (src/private/bound_token.rs lines 105-109, 139-143, 210-214). *)
Definition place_text (p : place) : str :=
  pl_scheme p ++ B "://" ++ pl_host p ++
  (if (pl_port p =? default_port (pl_scheme p))%N then [] else ":" :: dec (pl_port p)) ++ pl_path p.

(** reqwest [make_referer] and its insertion: the previous URL, except from https to http
    (src/private/bound_token.rs lines 105-109, 139-143, 210-214). *)
Definition with_referer (next previous : place) (h : list (str * str)) : list (str * str) :=
  if str_eqb (pl_scheme next) (B "http") && str_eqb (pl_scheme previous) (B "https") then h
  else without [B "referer"] h ++ [(B "referer", place_text previous)].

(** One [Client::execute] (src/private/bound_token.rs lines 105-109, 139-143, 210-214): what it sends and what it returns,
    [more] redirects before reqwest's default limit is reached.  [net] answers any message, depending on all that was
    sent before.  [h] is the client's copy of the headers.  [remembers]: whether headers removed for one redirect stay
    removed for the next.  They did while reqwest followed redirects by itself; tower-http starts each time from its
    own copy, and whether reqwest 0.12.24 makes up for it could not be looked up, so both are modelled. *)
Fixpoint follow (remembers : bool) (net : list message -> reply) (more : nat) (sent : list message)
    (h : list (str * str)) (m : message) : list message * http_result :=
  let sent := sent ++ [m] in
  match net sent with
  | NoReply => (sent, HttpFailed)
  | Reply status l body =>
      match redirected status (ms_method m) (ms_body m) h, l with
      | Some (method, content, h), Some (LAt p) =>
          match more with
          | O => (sent, HttpFailed)
          | S more =>
              let kept := if same_server p (ms_place m) then h else without sensitive_names h in
              let out := with_referer p (ms_place m) kept in
              follow remembers net more sent (if remembers then out else h)
                {| ms_method := method; ms_place := p; ms_headers := out; ms_body := content |}
          end
      | Some _, Some LForeign => (sent, HttpFailed)
      | _, _ => (sent, HttpResponse status body)
      end
  end.

(** The first message of a request (src/private/bound_token.rs lines 105-109, 139-143, 210-214).  Headers that reqwest adds on
    its own ([accept], [host], [content-length]) are not modelled. *)
Definition first_message (t : destination) (r : request) : message :=
  {| ms_method := rq_method r; ms_place := place_of t; ms_headers := rq_headers r; ms_body := rq_body r |}.

(** A request with all its redirects; the default policy of [reqwest::Client::new] allows ten
    (src/private/bound_token.rs lines 74, 105-109, 139-143, 210-214). *)
Definition execute (remembers : bool) (net : list message -> reply) (t : destination) (r : request) : list message * http_result :=
  follow remembers net 10 [] (rq_headers r) (first_message t r).
