(** Concrete arguments and environments for examples and witnesses.  Models no code. *)
From Verif Require Import Base Time Json Effects EffectsFacts Keys Scope Url HtmlForm SignedUrl Calls.
Local Open Scope Z_scope.

(** An environment in which third-party code behaves in the simplest way; the "signature" is the key text
    followed by the message. *)
Definition demo_deps : deps := {|
  d_path_caret := false; d_quote_in_header_name := false; d_num_ok := fun _ => true;
  d_rsa_sign := fun key message => Ok (key ++ message);
  d_hm_iter := fun l => l; d_hm_overflow := fun _ => false; d_url_ok := fun _ => true
|}.

Lemma demo_deps_ok : deps_ok demo_deps.
Proof. intros m n. reflexivity. Qed.

(** 2020-01-01T00:00:00Z. *)
Definition demo_time : systime := 1577836800 * NS.

Definition demo_token : bound_token := {| bt_id := 7; bt_base_url := B "http://metadata.google.internal" |}.

Definition demo_form_at (t : option systime) (key : signing_key) (use_sign_blob : bool) : list builder_call := [
  CBucket (B "bucket1"); CKey (B "a/b"); CContentLength 3; CXGoogMeta (B "who") (B "me ""you""");
  CSigningOptions {| so_accessible_at := t; so_expiration := demo_time + 60 * NS; so_region := None;
                     so_signing_key := key; so_use_sign_blob := use_sign_blob |}].
Definition demo_form (key : signing_key) (use_sign_blob : bool) : builder :=
  builder_of (demo_form_at (Some demo_time) key use_sign_blob).

Definition demo_bound_form : call := CallForm (demo_form (KBoundToken demo_token) true).

Definition ok_response (body : str) : reply := RHttp (HttpResponse 200 (Some body)).
Definition demo_token_body : str := B "{""access_token"":""tok1"",""expires_in"":3599,""token_type"":""Bearer""}".
Definition demo_blob_body : str := B "{""keyId"":""k"",""signedBlob"":""AQI=""}".

(** A run with an empty cache: the first lookup refreshes, the second finds the new entry. *)
Definition demo_run : list reply := [
  RUnit; RCache None; ok_response (B "sa@example.com"); ok_response demo_token_body; RNow demo_time; RUnit; RUnit;
  RUnit; RCache (Some (B "sa@example.com", B "tok1", demo_time + 3599 * NS)); RNow (demo_time + 1 * NS); RUnit;
  ok_response demo_blob_body].

(** A run in which the token request fails with status 500. *)
Definition demo_failed_run : list reply := [
  RUnit; RCache None; ok_response (B "sa@example.com"); RHttp (HttpResponse 500 (Some (B "oops"))); RUnit].

(** A run in which [expires_in] is the largest [u64]. *)
Definition demo_overflow_run : list reply := [
  RUnit; RCache None; ok_response (B "sa@example.com");
  ok_response (B "{""access_token"":""tok1"",""expires_in"":18446744073709551615,""token_type"":""Bearer""}");
  RNow demo_time].

(** A run in which the entry read by the first lookup has expired at the second, which finds another
    service account. *)
Definition demo_switch_run : list reply := [
  RUnit; RCache (Some (B "old@example.com", B "tok0", demo_time + 31 * NS)); RNow demo_time; RUnit;
  RUnit; RCache (Some (B "old@example.com", B "tok0", demo_time + 31 * NS)); RNow (demo_time + 2 * NS);
  ok_response (B "new@example.com"); ok_response demo_token_body; RNow (demo_time + 2 * NS); RUnit; RUnit;
  ok_response demo_blob_body].

(** A signed URL request with parameters, a non-ASCII object name and headers. *)
Definition demo_url_with (bucket object : str) (region : option str) (headers params : list (str * str)) (key : signing_key) (use_sign_blob : bool) : url_options := {|
  o_bucket_name := bucket; o_object_name := object; o_region := region; o_expires := demo_time + 600 * NS + 5;
  o_http_method := B "GET"; o_accessible_at := Some demo_time; o_signing_key := key; o_use_sign_blob := use_sign_blob;
  o_headers := headers; o_query_parameters := params |}.
Definition demo_account : signing_key := KServiceAccount (B "sa@example.com") (B "key").
Definition demo_url : url_options :=
  demo_url_with (B "bucket1") (B "a/" ++ [xc3; xa9] ++ B " c+d") (Some (B "us")) [(B "X-Goog-Meta-A", B "1"); (B "Content-Type", B "text/plain"); (B "x-goog-meta-a", B "2")]
    [(B "q", B "x y&z=1"); (B "q", B "a"); (B "", B "/")] demo_account false.
