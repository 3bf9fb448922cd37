(** Specification: the options whose URLs a server accepts. *)
From Verif Require Import Base SpecUrl SignedUrl SpecServer SpecName SpecParameter.
Local Open Scope byte_scope.

(** The library and the server write the character alike in a query. *)
Definition written_alike (kept : byte -> bool) (c : byte) : Prop := c <> "%" /\ (In c reserved_characters \/ kept c = true).

(** [own] are the parameters in the name itself, [out] the segments of the path. *)
Record acceptable (sv : server) (caret : bool) (o : url_options) (own : list (str * str)) (out : list str) (account : str) : Prop := {
  ac_path : Forall (agrees (sv_path sv) caret) out;
  ac_parameters : exists read, parameters_agree (sv_query sv) (own ++ o_query_parameters o) read;
  ac_account : Forall (fun c => c = "/" \/ written_alike (sv_query sv) c) (account ++ region_of o);
  ac_names : Forall (fun h => Forall (fun c => token_character c /\ written_alike (sv_query sv) c) (ascii_lower (fst h))) (o_headers o);
  ac_values : Forall (fun h => trimmed (snd h)) (o_headers o)
}.
