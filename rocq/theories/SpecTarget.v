(** Specification: where a request goes and what it asks for, said of the target without reference to how it is found. *)
From Verif Require Import Base Effects Url Target SpecUrl.
Local Open Scope byte_scope.

(** The request goes to [authority] over [scheme] and asks for [path], with no query and no fragment. *)
Definition goes_to (t : destination) (scheme authority : str) : Prop := tg_scheme t = scheme /\ tg_authority t = authority.
Definition asks_for (t : destination) (path : str) : Prop :=
  u_path (tg_url t) = path /\ u_query (tg_url t) = None /\ u_fragment (tg_url t) = None.

(** A request that carries credentials. *)
Definition carries_token (r : request) : Prop := exists v, In (B "authorization", v) (rq_headers r).

(** The text without tabs and line breaks. *)
Inductive one_line : str -> str -> Prop :=
| ol_nil : one_line [] []
| ol_break c s t : In c [x09; x0a; x0d] -> one_line s t -> one_line (c :: s) t
| ol_keep c s t : ~ In c [x09; x0a; x0d] -> one_line s t -> one_line (c :: s) (c :: t).

(** The method of the IAM credentials service that signs for an account. *)
Definition sign_blob_path (account : str) : str := B "/v1/projects/-/serviceAccounts/" ++ account ++ B ":signBlob".

(** A text without the characters that structure a URL. *)
Definition unstructured (s : str) : Prop := ~ In "/" s /\ ~ In "\" s /\ ~ In "?" s /\ ~ In "#" s.

(** What account names consist of. *)
Definition account_name (s : str) : Prop :=
  Forall (fun c => In c (B "ABCDEFGHIJKLMNOPQRSTUVWXYZabcdefghijklmnopqrstuvwxyz0123456789@.-_+")) s.

(** A host name or address, possibly with a port. *)
Definition host_text (s : str) : Prop :=
  s <> [] /\ Forall (fun c => In c (B "ABCDEFGHIJKLMNOPQRSTUVWXYZabcdefghijklmnopqrstuvwxyz0123456789.-_:[]")) s.

Definition metadata_path (attribute : str) : str := B "/computeMetadata/v1/instance/service-accounts/default/" ++ attribute.
