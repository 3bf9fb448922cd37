(** Specification: a storage service that checks uploads by POST forms
    (https://cloud.google.com/storage/docs/xml-api/post-object-forms,
    https://cloud.google.com/storage/docs/authentication/signatures#policy-document), and what browsers do to form fields
    (https://html.spec.whatwg.org/multipage/form-control-infrastructure.html#multipart-form-data). *)
From Coq Require Import Permutation.
From Verif Require Import Base JsonTree SpecCalendar SpecCodec SpecJson SpecPolicy SpecUrl SpecServer HtmlForm SpecForm.
Local Open Scope byte_scope.

(** * The service *)

(** Fields a policy need not mention. *)
Definition exempt (name : str) : Prop :=
  name = B "policy" \/ name = B "x-goog-signature" \/ name = B "file" \/ exists r, name = B "x-ignore-" ++ r.

(** The fields a condition is about. *)
Definition mentions (c : cond) (name : str) : Prop :=
  match c with CEq n _ | CPrefix n _ => n = name | CRange _ _ => name = B "Content-Length" end.

(** At second [now] the service accepts a form with a file of [size] octets as signed by [account], having verified [s] as
    signature of [policy].  [verifies account message s] is what the service knows about the keys of accounts. *)
Definition upload_accepted (verifies : str -> str -> str -> Prop) (now : Z) (form : list (str * str)) (size : N) (account policy s : str) : Prop :=
  exists text j cs expiry secs region date scope sig,
    given form (B "policy") policy /\ base64_of text policy /\ json_text j text /\ policy_tree cs expiry j /\
    given form (B "x-goog-algorithm") (B "GOOG4-RSA-SHA256") /\
    given form (B "x-goog-credential") (account ++ B "/" ++ scope) /\ scope_text secs region scope /\
    given form (B "x-goog-date") date /\ utc_basic_text secs date /\
    given form (B "x-goog-signature") sig /\ hex_of s sig /\
    (secs <= now < expiry)%Z /\ accepted cs form size /\
    (forall n v, In (n, v) form -> exempt n \/ exists c, In c cs /\ mentions c n) /\
    verifies account policy s.

(** * Browsers *)

(** In values every line break becomes CR LF. *)
Inductive crlf : str -> str -> Prop :=
| cr_nil : crlf [] []
| cr_pair r r' : crlf r r' -> crlf (x0d :: x0a :: r) (x0d :: x0a :: r')
| cr_return r r' : (forall t, r <> x0a :: t) -> crlf r r' -> crlf (x0d :: r) (x0d :: x0a :: r')
| cr_feed r r' : crlf r r' -> crlf (x0a :: r) (x0d :: x0a :: r')
| cr_other c r r' : c <> x0d -> c <> x0a -> crlf r r' -> crlf (c :: r) (c :: r').

(** In names so too, and then line breaks and quotation marks are escaped. *)
Inductive quoted : str -> str -> Prop :=
| qu_nil : quoted [] []
| qu_return r r' : quoted r r' -> quoted (x0d :: r) (B "%0D" ++ r')
| qu_feed r r' : quoted r r' -> quoted (x0a :: r) (B "%0A" ++ r')
| qu_quote r r' : quoted r r' -> quoted (x22 :: r) (B "%22" ++ r')
| qu_other c r r' : c <> x0d -> c <> x0a -> c <> x22 -> quoted r r' -> quoted (c :: r) (c :: r').

(** The form the service receives when a browser submits [fields]. *)
Definition submitted (fields form : list (str * str)) : Prop :=
  Forall2 (fun f g => (exists n, crlf (fst f) n /\ quoted n (fst g)) /\ crlf (snd f) (snd g)) fields form.

(** Fields that browsers leave alone: line breaks are CR LF in values, and there are none, nor quotation marks, in names. *)
Definition line_breaks (s : str) : Prop :=
  forall a b, (s = a ++ x0a :: b -> exists a', a = a' ++ [x0d]) /\ (s = a ++ x0d :: b -> exists b', b = x0a :: b').
Definition plain_fields (fields : list (str * str)) : Prop :=
  Forall (fun f => (forall c, In c (fst f) -> ~ In c [x0d; x0a; x22]) /\ line_breaks (snd f)) fields.
