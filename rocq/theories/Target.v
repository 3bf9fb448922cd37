(** Where the requests of a bound-token key go: [Url::parse] inside reqwest. *)
From Verif Require Import Base Keys Url.
Local Open Scope byte_scope.

(** A parsed request URL: scheme, authority as written, and the rest
    (src/private/bound_token.rs lines 101, 135, 195).  Simplification: the host is not normalised
    (case, IDNA, IPv4 spellings) and the port is not taken apart; user name and password are in Login.v. *)
Record destination := { tg_scheme : str; tg_authority : str; tg_url : url }.

(** parser.rs [after_double_slash]: the authority ends at the first ['/'], ['\'], ['?'] or ['#']
    (src/private/bound_token.rs lines 101, 135, 195). *)
Fixpoint split_authority (s : str) : str * str :=
  match s with
  | c :: r =>
      if beq c "/" || beq c "\" || beq c "?" || beq c "#" then ([], s)
      else let '(a, t) := split_authority r in (c :: a, t)
  | [] => ([], [])
  end.

(** What follows the authority, as [url_parse] reads it: the text after the first slash
    (src/private/bound_token.rs lines 101, 135, 195). *)
Definition after_slash (r : str) : str :=
  match r with
  | c :: t => if beq c "/" || beq c "\" then t else r
  | [] => []
  end.

(** parser.rs [parse_with_scheme] for the two schemes in use: any number of slashes and backslashes after the colon is
    skipped, so an empty host is never seen as such (src/private/bound_token.rs lines 101, 135, 195). *)
Definition target_with (d : deps) (scheme rest : str) : destination :=
  let '(a, r) := split_authority (drop_while (fun b => beq b "/" || beq b "\") rest) in
  {| tg_scheme := scheme; tg_authority := a; tg_url := url_parse d (after_slash r) |}.

(** [reqwest::Client::request(method, text)]: src/private/bound_token.rs lines 101, 135, 195.  [None] for a text with another
    scheme, which the crate never builds.  Whether reqwest accepts the result is [d_url_ok]. *)
Definition target_of (d : deps) (s : str) : option destination :=
  let s := drop_tabs (trim_end s) in
  match strip_prefix (B "https:") s with
  | Some r => Some (target_with d (B "https") r)
  | None =>
      match strip_prefix (B "http:") s with
      | Some r => Some (target_with d (B "http") r)
      | None => None
      end
  end.
