(** Specification: form field names and the JSON tree of a policy document
    (https://cloud.google.com/storage/docs/authentication/signatures#policy-document), independent of
    the serialiser modelled in Policy.v. *)
From Verif Require Import Base JsonTree SpecCalendar SpecCodec.

(** The form fields with a fixed name. *)
Definition fixed_names : list str := map B
  ["acl"; "bucket"; "Cache-Control"; "Content-Disposition"; "Content-Encoding"; "Content-Length";
   "Content-Type"; "Expires"; "file"; "key"; "policy"; "success_action_redirect";
   "success_action_status"; "x-goog-algorithm"; "x-goog-credential"; "x-goog-custom-time";
   "x-goog-date"; "x-goog-signature"]%string.

(** A field name the service defines. *)
Definition field_name (s : str) : Prop :=
  In s fixed_names \/ exists m, m <> [] /\ s = B "x-goog-meta-" ++ m.

(** What a condition says, with field names as text. *)
Inductive cond : Type :=
| CEq (name value : str)
| CPrefix (name value : str)
| CRange (min max : N).

(** Decimal text of a number without leading zeros. *)
Definition decimal_of (n : N) (s : str) : Prop :=
  undec s = Some n /\ (s = B "0" \/ exists c r, s = c :: r /\ c <> "0"%byte).

(** The tree of a condition. *)
Inductive cond_tree : cond -> json -> Prop :=
| ct_eq n v : cond_tree (CEq n v) (JArr [JStr (B "eq"); JStr ("$"%byte :: n); JStr v])
| ct_prefix n v : cond_tree (CPrefix n v) (JArr [JStr (B "starts-with"); JStr ("$"%byte :: n); JStr v])
| ct_range a b ta tb : decimal_of a ta -> decimal_of b tb ->
    cond_tree (CRange a b) (JArr [JStr (B "content-length-range"); JNum ta; JNum tb]).

(** The tree of a policy document that expires at the given second. *)
Definition policy_tree (cs : list cond) (secs : Z) (j : json) : Prop :=
  exists trees text,
    Forall2 cond_tree cs trees /\ utc_rfc3339_text secs text /\
    j = JObj [(B "conditions", JArr trees); (B "expiration", JStr text)].

(** The tree of a signBlob request body. *)
Definition payload_tree (message : str) (j : json) : Prop :=
  exists text, base64_of message text /\ j = JObj [(B "payload", JStr text)].
