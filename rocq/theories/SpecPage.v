(** Specification: which requests reach the handlers of the image uploader, what a visit of its page does, and what the
    page shows. *)
From Verif Require Import Base Json SpecJson JsonFacts SpecToken SpecUtf8 SpecConstructors SpecUrl SpecUploader Uploader Page.

(** * Reaching the handlers *)

(** The body of a request for a form: a JSON struct, after which anything may follow. *)
Definition create_text (body : str) (len : N) (type : str) : Prop :=
  exists w text rest r n t, body = w ++ text ++ rest /\ ws w /\ rvalue r text /\
    (forall l k key, r = RObj l -> In k (map fst l) -> jstring key k -> unicode key) /\
    struct_of [B "content_length"; B "content_type"] r [n; t] /\ number_of n len /\ text_of t type /\ unicode type.

Inductive reaches : http_request -> app_request -> Prop :=
| rc_list r : hq_path r = B "/images" -> hq_method r = B "GET" \/ hq_method r = B "HEAD" -> reaches r RqList
| rc_create r len type : hq_path r = B "/images" -> hq_method r = B "POST" -> hq_json r = true ->
    (N.of_nat (length (hq_body r)) <= 2 * 1024 * 1024)%N -> create_text (hq_body r) len type -> reaches r (RqCreate len type)
| rc_update r segment id : hq_path r = B "/images/" ++ segment -> segment <> [] -> ~ In "/"%byte segment -> hq_method r = B "PATCH" ->
    unescaped segment id -> unicode id -> reaches r (RqUpdate id).

(** * A visit *)

(** What a flow does when its requests are answered. *)
Inductive flows : flow -> list (page_request * option http_response) -> flow -> Prop :=
| fw_nil p : flows p [] p
| fw_cons r k a l q : flows (k a) l q -> flows (FlSend r k) ((r, a) :: l) q.

(** The exchanges with the server, in order. *)
Definition server_part (l : list (page_request * option http_response)) : list (http_request * option http_response) :=
  flat_map (fun x => match fst x with PqServer r => [(r, snd x)] | PqStorage _ _ _ => [] end) l.

(** [served past future l]: in the history [past ++ future] of the server, the exchanges [l] happen one after the other in
    [future].  A request arrives after the response to the one before it; it is answered by its handler, by axum if it does
    not reach one, or not at all as far as the page sees. *)
Inductive served : list app_event -> list app_event -> list (http_request * option http_response) -> Prop :=
| sd_nil past future : served past future []
| sd_handler past x q y i rp z r l : reaches r q -> i = length (arrivals (past ++ x)) ->
    served (past ++ x ++ AArrive q :: y ++ [ARespond i rp]) z l ->
    served past (x ++ AArrive q :: y ++ ARespond i rp :: z) ((r, Some (respond rp)) :: l)
| sd_refused past future r a l : (forall q, ~ reaches r q) -> (400 <= hs_status a < 500)%N -> served past future l ->
    served past future ((r, Some a) :: l)
| sd_lost past future r l : served past future l -> served past future ((r, None) :: l).

(** The entries for [fields] and then the file. *)
Definition entries (fields : list (str * str)) (f : file) : list (str * entry) :=
  map (fun nv => (fst nv, EText (snd nv))) fields ++ [(B "file", EFile f)].

(** A type as browsers give it: printable ASCII (https://w3c.github.io/FileAPI/#dfn-type). *)
Definition printable (s : str) : Prop := Forall (fun c => (32 <= bN c <= 126)%N) s.

(** * The list *)

(** Every second one, from the second on. *)
Definition alternate (l r : list str) : Prop := forall k, nth_error r k = nth_error l (2 * k + 1).
