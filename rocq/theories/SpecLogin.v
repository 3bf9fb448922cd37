(** Specification: what an authority says about user, password and server, and the header for them (RFC 3986 section 3.2.1, RFC 7617). *)
From Verif Require Import Base SpecCodec SpecUrl SpecUtf8 SpecConstructors.
Local Open Scope byte_scope.

(** The parts of an authority as written. *)
Inductive login : str -> option (str * option str) -> str -> Prop :=
| lg_none host : ~ In "@" host -> login host None host
| lg_user user host : ~ In "@" host -> ~ In ":" user -> login (user ++ "@" :: host) (Some (user, None)) host
| lg_colon user host : ~ In "@" host -> ~ In ":" user -> login (user ++ ":" :: "@" :: host) (Some (user, None)) host
| lg_both user password host : ~ In "@" host -> ~ In ":" user -> password <> [] ->
    login (user ++ ":" :: password ++ "@" :: host) (Some (user, Some password)) host.

(** The value of the authorization header for a user and a password as written in a URL.  A password that is not Unicode
    text is left out, and without user and password there is no header. *)
Inductive credentials (user : str) : option str -> str -> Prop :=
| cr_both password name secret text : unescaped user name -> unicode name -> unescaped password secret -> unicode secret ->
    base64_of (name ++ B ":" ++ secret) text -> credentials user (Some password) (B "Basic " ++ text)
| cr_user password name text : unescaped user name -> unicode name -> name <> [] ->
    (forall p secret, password = Some p -> unescaped p secret -> ~ unicode secret) ->
    base64_of (name ++ B ":") text -> credentials user password (B "Basic " ++ text).
