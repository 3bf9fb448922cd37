(** Specification: query parameters that the library and a server write alike in a canonical request. *)
From Verif Require Import Base SpecUrl SignedUrl SpecServer.
Local Open Scope byte_scope.

(** [read_alike kept s t]: the server reads [t] where the library wrote [s], and writes it as the library did.  Percent signs start escapes,
    in capitals, of characters that the server escapes; other characters are reserved or not escaped by the server. *)
Inductive read_alike (kept : byte -> bool) : str -> str -> Prop :=
| ra_nil : read_alike kept [] []
| ra_escape b h l s t : kept b = false -> nth_error upper_hex (N.to_nat (bN b / 16)) = Some h -> nth_error upper_hex (N.to_nat (bN b mod 16)) = Some l ->
    read_alike kept s t -> read_alike kept ("%" :: h :: l :: s) (b :: t)
| ra_same c s t : c <> "%" -> In c reserved_characters \/ kept c = true -> read_alike kept s t -> read_alike kept (c :: s) (c :: t).

(** [b] comes before [a] if names and values are ordered as one text (61 is the equals sign), after [a] if they are ordered by name. *)
Definition overtakes (kept : byte -> bool) (a b : str) : Prop := exists c r, b = a ++ c :: r /\ (kept c = false \/ (bN c < 61)%N).

(** The names of the parameters that the library adds before it signs. *)
Definition signed_names : list str := map fst (required_parameters [] [] [] [] []).

Record parameters_agree (kept : byte -> bool) (params read : list (str * str)) : Prop := {
  pg_read : Forall2 (fun kv kv' => read_alike kept (fst kv) (fst kv') /\ read_alike kept (snd kv) (snd kv')) params read;
  pg_names : forall n, In n (map fst read) -> ~ In n goog_names;
  pg_order : forall a b, In a (map fst read ++ signed_names) -> In b (map fst read ++ signed_names) -> ~ overtakes kept a b
}.

(** Conditions on the rest of the options. *)
Record plain_rest (o : url_options) : Prop := {
  pr_region : account_text (region_of o);
  pr_headers : Forall (fun h => parameter_text (fst h) /\ Forall token_character (fst h) /\ trimmed (snd h)) (o_headers o)
}.
