(** Specification: what may be said of the messages of one request, in the order they are sent. *)
From Verif Require Import Base Effects Redirect.
Local Open Scope byte_scope.

(** [a] is sent directly before [b]. *)
Definition then_sent (l : list message) (a b : message) : Prop := exists before after, l = before ++ a :: b :: after.
Definition sent_first (l : list message) (a : message) : Prop := exists after, l = a :: after.
Definition sent_last (l : list message) (a : message) : Prop := exists before, l = before ++ [a].

(** A message that goes to this host and port. *)
Definition reaches (m : message) (host : str) (port : N) : Prop := pl_host (ms_place m) = host /\ pl_port (ms_place m) = port.
Definition same_end (a b : message) : Prop := reaches a (pl_host (ms_place b)) (pl_port (ms_place b)).

(** A message with credentials. *)
Definition bears_token (m : message) : Prop := exists v, In (B "authorization", v) (ms_headers m).

(** The answers that make the client send another message; those that let it repeat the payload. *)
Definition sends_on (status : N) : Prop := In status [301; 302; 303; 307; 308]%N.
Definition repeats (status : N) : Prop := In status [307; 308]%N.

(** Every message but the last is answered with such a status and with the place of the next one. *)
Definition led_on (net : list message -> reply) (l : list message) (P : N -> Prop) : Prop :=
  forall before m next after, l = before ++ m :: next :: after ->
    exists status body, P status /\ net (before ++ [m]) = Reply status (Some (LAt (ms_place next))) body.

(** Authorities: maybe a user before the last at sign, a host, maybe a colon and digits. *)
Definition user_part (u : str) : Prop := u = [] \/ exists n, u = n ++ ["@"].
Definition digits (s : str) : Prop := Forall (fun c => (48 <= bN c <= 57)%N) s.
Definition portless (host : str) : Prop := ~ In "@" host /\ forall h ds, digits ds -> host <> h ++ ":" :: ds.

(** The value of digits, from the last one. *)
Inductive valued : str -> N -> Prop :=
| va_nil : valued [] 0
| va_snoc ds c n : valued ds n -> (48 <= bN c <= 57)%N -> valued (ds ++ [c]) (10 * n + (bN c - 48)).

(** The port of the scheme. *)
Inductive usual_port : str -> N -> Prop := up_http : usual_port (B "http") 80 | up_https : usual_port (B "https") 443.

(** The address of a place as text: the port is left out if it is the scheme's own, else it is a decimal number. *)
Definition address_text (p : place) (usual : N) (text : str) : Prop :=
  (pl_port p = usual -> text = pl_scheme p ++ B "://" ++ pl_host p ++ pl_path p) /\
  (pl_port p <> usual -> exists ds, valued ds (pl_port p) /\ ds <> [] /\ (hd "0" ds = "0" -> ds = B "0") /\
     text = pl_scheme p ++ B "://" ++ pl_host p ++ ":" :: ds ++ pl_path p).

(** The headers that describe a content. *)
Definition content_headers : list str := map B ["content-type"; "content-length"; "content-encoding"; "transfer-encoding"]%string.
Definition contentless (m : message) : Prop := ms_body m = None /\ forall name v, In name content_headers -> ~ In (name, v) (ms_headers m).

(** What a redirect makes of the method, and whether the content is dropped. *)
Inductive redirects : N -> str -> str -> bool -> Prop :=
| rd_see method : method <> B "HEAD" -> redirects 303 method (B "GET") true
| rd_see_head : redirects 303 (B "HEAD") (B "HEAD") true
| rd_post status : In status [301; 302]%N -> redirects status (B "POST") (B "GET") true
| rd_moved status method : In status [301; 302]%N -> method <> B "POST" -> redirects status method method false
| rd_repeat status method : repeats status -> redirects status method method false.

(** The headers a client does not take to another server. *)
Definition private_headers : list str := map B ["authorization"; "cookie"; "cookie2"; "proxy-authorization"; "www-authenticate"]%string.
