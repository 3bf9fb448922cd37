(** User names and passwords in the host of a bound-token key: url's authority and reqwest's request builder. *)
From Verif Require Import Base Utf8 Base64 FormUrl Effects Keys Url Target.
Local Open Scope byte_scope.

(** parser.rs [parse_userinfo]: the user information ends at the last ['@'] of the authority
    (src/private/bound_token.rs lines 101, 135, 195). *)
Fixpoint split_last_at (s : str) : option (str * str) :=
  match s with
  | c :: r =>
      match split_last_at r with
      | Some (u, h) => Some (c :: u, h)
      | None => if beq c "@" then Some ([], r) else None
      end
  | [] => None
  end.

(** The first colon of the user information (src/private/bound_token.rs lines 101, 135, 195). *)
Fixpoint split_colon (s : str) : option (str * str) :=
  match s with
  | c :: r =>
      if beq c ":" then Some ([], r)
      else match split_colon r with Some (u, p) => Some (c :: u, p) | None => None end
  | [] => None
  end.

(** USERINFO; src/private/bound_token.rs lines 101, 135, 195. *)
Definition set_userinfo (caret : bool) (b : byte) : bool :=
  set_path caret b || beq b "/" || beq b ":" || beq b ";" || beq b "=" || beq b "@" || beq b "[" || beq b "\" || beq b "]" || beq b "^" || beq b "|".

(** [Url::username] and [Url::password] of the parsed URL: a colon with nothing behind it starts no password
    (src/private/bound_token.rs lines 101, 135, 195). *)
Definition parse_userinfo (d : deps) (u : str) : str * option str :=
  let encode := pct_encode (set_userinfo (d_path_caret d)) in
  match split_colon u with
  | None => (encode u, None)
  | Some (a, []) => (encode a, None)
  | Some (a, p) => (encode a, Some (encode p))
  end.

(** reqwest [extract_authority], called by [Client::request] (src/private/bound_token.rs lines 101, 135, 195).
    Simplification: when the user name is not UTF-8 nothing is taken out of the URL, and what hyper does with such a URL
    is left open. *)
Definition extract_login (user : str) (password : option str) : option (str * option str) :=
  let user := pct_decode user in
  if utf8_valid user then
    let password :=
      match password with
      | Some p => if utf8_valid (pct_decode p) then Some (pct_decode p) else None
      | None => None
      end in
    match user, password with
    | [], None => None
    | _, _ => Some (user, password)
    end
  else None.

(** reqwest [util::basic_auth] (src/private/bound_token.rs lines 101, 135, 195). *)
Definition basic_auth (user : str) (password : option str) : str :=
  B "Basic " ++ b64_encode (user ++ ":" :: match password with Some p => p | None => [] end).

(** The headers of a request as reqwest sends it: those taken from the URL come first
    (src/private/bound_token.rs lines 99-104, 133-138, 193-209).  Simplification: the client's own headers are left out. *)
Definition sent_headers (d : deps) (r : request) : list (str * str) :=
  match target_of d (rq_url r) with
  | Some t =>
      match split_last_at (tg_authority t) with
      | Some (u, _) =>
          let '(user, password) := parse_userinfo d u in
          match extract_login user password with
          | Some (user, password) => [(B "authorization", basic_auth user password)]
          | None => []
          end
      | None => []
      end
  | None => []
  end ++ rq_headers r.

(** The host, with its port if there is one, that the request is sent to
    (src/private/bound_token.rs lines 101, 135, 195). *)
Definition server_of (t : destination) : str :=
  match split_last_at (tg_authority t) with Some (_, h) => h | None => tg_authority t end.
