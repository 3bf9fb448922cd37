(** Specification: calls that ask for the same thing, with whatever key. *)
From Verif Require Import Base Time Effects Keys HtmlForm SignedUrl Conc SpecPlatform.

(** The calls on a builder that set fields. *)
Definition field_calls (calls : list builder_call) : list builder_call :=
  filter (fun c => match c with CSigningOptions _ => false | _ => true end) calls.

(** Two forms with the same fields, the same region and an expiration in the same second. *)
Record forms_alike (calls : list builder_call) (o : signing_options) (calls' : list builder_call) (o' : signing_options) : Prop := {
  fa_fields : field_calls calls = field_calls calls';
  fa_region : so_region o = so_region o';
  fa_expiration : (so_expiration o / 1000000000 = so_expiration o' / 1000000000)%Z
}.

(** Two URL requests for the same thing. *)
Record urls_alike (o o' : url_options) : Prop := {
  ua_bucket : o_bucket_name o = o_bucket_name o';
  ua_object : o_object_name o = o_object_name o';
  ua_region : o_region o = o_region o';
  ua_method : o_http_method o = o_http_method o';
  ua_headers : o_headers o = o_headers o';
  ua_parameters : o_query_parameters o = o_query_parameters o'
}.

(** The key stands for [account], whose signatures are given by [signs]: it is a service account's, or a bound token with
    servers that serve this account. *)
Inductive key_of (d : deps) (base : N -> str) (tr : list gevent) (account : str) (signs : str -> str -> Prop) : signing_key -> Prop :=
| key_local key : (forall m s, d_rsa_sign d key m = Ok s -> signs m s) -> key_of d base tr account signs (KServiceAccount account key)
| key_remote bt : truthful (base (bt_id bt)) account signs tr -> key_of d base tr account signs (KBoundToken bt).
