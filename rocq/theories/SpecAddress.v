(** Specification: the paths and parameters for which some signed URL is accepted. *)
From Verif Require Import Base SpecUrl SpecServer SpecParameter.
Local Open Scope byte_scope.

(** [target] is bucket, slash, object as the server knows them; [kept] are the characters the server copies in its canonical
    request, [caret] says that the URL library escapes the caret.  No segment is a dot or two; the server escapes the backslash,
    which means a slash in a URL; and the caret is not one that only the URL library escapes. *)
Record addressable (kept : byte -> bool) (caret : bool) (target : str) : Prop := {
  ad_dots : forall seg, segment target seg -> seg <> B "." /\ seg <> B "..";
  ad_backslash : In "\" target -> kept "\" = false;
  ad_caret : In "^" target -> kept "^" = true -> caret = false
}.

(** Parameters that can be added: none has a name that only the library writes, and by name they are in the same order as their
    texts. *)
Record passable (kept : byte -> bool) (wanted : list (str * str)) : Prop := {
  pa_names : forall n, In n (map fst wanted) -> ~ In n goog_names;
  pa_order : forall a b, In a (map fst wanted ++ signed_names) -> In b (map fst wanted ++ signed_names) -> ~ overtakes kept a b
}.
