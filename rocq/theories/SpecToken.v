(** Specification: the JSON bodies of the metadata server's token response and of the signBlob response,
    read with serde's struct rules.  Stated over the JSON grammar ([raw_text]), not over the reader. *)
From Verif Require Import Base Json SpecJson JsonFacts SpecCodec.

(** A string literal that denotes [s]. *)
Definition text_of (r : raw) (s : str) : Prop := exists t, r = RStr t /\ jstring s t.

(** An unsigned integer literal below 2^64. *)
Definition number_of (r : raw) (n : N) : Prop := exists t, r = RNum t /\ undec t = Some n /\ (n < two64)%N.

(** [n] names exactly one member, with value [v]. *)
Definition only_member {V} (l : list (str * V)) (n : str) (v : V) : Prop :=
  exists a b, l = a ++ (n, v) :: b /\ ~ In n (map fst a) /\ ~ In n (map fst b).

(** A struct with the given required field names: an object with each name exactly once and any other
    members, or an array of exactly the fields. *)
Inductive struct_of (names : list str) : raw -> list raw -> Prop :=
| so_array l : length l = length names -> struct_of names (RArr l) l
| so_object l l' vs :
    Forall2 (fun kv kv' => jstring (fst kv') (fst kv) /\ snd kv' = snd kv) l l' ->
    Forall2 (only_member l') names vs ->
    struct_of names (RObj l) vs.

(** A token response body. *)
Definition token_body (body token : str) (expires_in : N) (token_type : str) : Prop :=
  exists r a e t,
    raw_text r body /\ struct_of [B "access_token"; B "expires_in"; B "token_type"] r [a; e; t] /\
    text_of a token /\ number_of e expires_in /\ text_of t token_type.

(** A signBlob response body: the signature is the base64 decoding of [signedBlob]. *)
Definition blob_body (body signature : str) : Prop :=
  exists r k b key_id blob,
    raw_text r body /\ struct_of [B "keyId"; B "signedBlob"] r [k; b] /\
    text_of k key_id /\ text_of b blob /\ base64_of signature blob.
