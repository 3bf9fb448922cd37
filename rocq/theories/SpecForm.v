(** Specification: the result of a sequence of form-builder calls, in terms of the calls themselves, and a
    reading of an issued policy by a server that checks an upload. *)
From Verif Require Import Base SpecPolicy Effects Keys HtmlForm.
Local Open Scope Z_scope.

(** The form field a call sets. *)
Definition sets (c : builder_call) (name value : str) : Prop :=
  match c with
  | CAcl v => name = B "acl" /\ value = v
  | CBucket v => name = B "bucket" /\ value = v
  | CCacheControl v => name = B "Cache-Control" /\ value = v
  | CContentDisposition v => name = B "Content-Disposition" /\ value = v
  | CContentEncoding v => name = B "Content-Encoding" /\ value = v
  | CContentLength n => name = B "Content-Length" /\ decimal_of n value
  | CContentType v => name = B "Content-Type" /\ value = v
  | CExpires v => name = B "Expires" /\ value = v
  | CKey v => name = B "key" /\ value = v
  | CSuccessActionRedirect v => name = B "success_action_redirect" /\ value = v
  | CSuccessActionStatus n => name = B "success_action_status" /\ decimal_of n value
  | CXGoogCustomTime v => name = B "x-goog-custom-time" /\ value = v
  | CSigningOptions _ => False
  | CXGoogMeta _ _ => False
  end.

(** No call sets [name]. *)
Definition unset (calls : list builder_call) (name : str) : Prop :=
  Forall (fun c => forall value, ~ sets c name value) calls.

(** The last call that sets [name] sets it to [value]. *)
Definition last_value (calls : list builder_call) (name value : str) : Prop :=
  exists before c after, calls = before ++ c :: after /\ sets c name value /\ unset after name.

(** The last signing options. *)
Definition no_options (calls : list builder_call) : Prop := forall o, ~ In (CSigningOptions o) calls.
Definition last_options (calls : list builder_call) (o : signing_options) : Prop :=
  exists before after, calls = before ++ CSigningOptions o :: after /\ no_options after.

(** Documented order of the fields (src/html_form_data.rs, example of [HtmlFormData]). *)
Definition documented_names : list str := map B
  ["acl"; "bucket"; "Cache-Control"; "Content-Disposition"; "Content-Encoding"; "Content-Length";
   "Content-Type"; "Expires"; "key"; "policy"; "success_action_redirect"; "success_action_status";
   "x-goog-algorithm"; "x-goog-credential"; "x-goog-custom-time"; "x-goog-date"; "x-goog-signature"]%string.

(** The fields that have a value, in the order of [names]. *)
Inductive listed (value : str -> str -> Prop) : list str -> list (str * str) -> Prop :=
| li_nil : listed value [] []
| li_set n v names l : value n v -> listed value names l -> listed value (n :: names) ((n, v) :: l)
| li_unset n names l : (forall v, ~ value n v) -> listed value names l -> listed value (n :: names) l.

(** The metadata fields, in call order. *)
Definition meta_pairs (calls : list builder_call) : list (str * str) :=
  flat_map (fun c => match c with CXGoogMeta n v => [(B "x-goog-meta-" ++ n, v)] | _ => [] end) calls.
Definition empty_meta (calls : list builder_call) : Prop := exists v, In (CXGoogMeta [] v) calls.

(** The result of building without signing options. *)
Inductive unsigned_result (calls : list builder_call) : res (list (str * str)) form_error -> Prop :=
| ur_no_key : unset calls (B "key") -> unsigned_result calls (Err KeyNotFound)
| ur_meta : ~ unset calls (B "key") -> empty_meta calls -> unsigned_result calls (Err XGoogMetaNameEmpty)
| ur_ok fields : ~ unset calls (B "key") -> ~ empty_meta calls ->
    listed (last_value calls) documented_names fields ->
    unsigned_result calls (Ok (fields ++ meta_pairs calls)).

(** The time a build is for, and the clock events before everything else. *)
Inductive build_time (o : signing_options) : Z -> list event -> Prop :=
| bt_given t : so_accessible_at o = Some t -> build_time o t []
| bt_clock t : so_accessible_at o = None -> build_time o t [VNow t].

(** The first violated requirement of a signed build for time [t] (nanoseconds since 1970). *)
Definition in_years (t : Z) : Prop := 0 <= t < 253402300800 * 1000000000.
Inductive violation (calls : list builder_call) (o : signing_options) (t : Z) : form_error -> Prop :=
| vi_order : so_expiration o <= t -> violation calls o t ExpirationBeforeAccessibleAt
| vi_accessible : t < so_expiration o -> ~ in_years t -> violation calls o t AccessibleAtOutOfRange
| vi_expiration : t < so_expiration o -> in_years t -> ~ in_years (so_expiration o) ->
    violation calls o t FormExpirationOutOfRange
| vi_bucket : t < so_expiration o -> in_years t -> in_years (so_expiration o) ->
    unset calls (B "bucket") -> violation calls o t BucketNotFound
| vi_key : t < so_expiration o -> in_years t -> in_years (so_expiration o) ->
    ~ unset calls (B "bucket") -> unset calls (B "key") -> violation calls o t KeyNotFound
| vi_hmac access_id secret : t < so_expiration o -> in_years t -> in_years (so_expiration o) ->
    ~ unset calls (B "bucket") -> ~ unset calls (B "key") -> so_signing_key o = KHmac access_id secret ->
    violation calls o t XGoogAlgorithmNotSupported.

(** The condition that covers a field. *)
Inductive covers : str * str -> cond -> Prop :=
| cv_length v n : decimal_of n v -> covers (B "Content-Length", v) (CRange n n)
| cv_eq n v : n <> B "Content-Length" -> covers (n, v) (CEq n v).

(** The fields a policy has to cover. *)
Definition covered (fields : list (str * str)) : list (str * str) :=
  filter (fun f => negb (str_eqb (fst f) (B "policy") || str_eqb (fst f) (B "x-goog-signature"))) fields.

(** A server's check of an uploaded form and file length against conditions. *)
Definition has_field (form : list (str * str)) (name value : str) : Prop :=
  In (name, value) form /\ forall v, In (name, v) form -> v = value.
Definition satisfied (form : list (str * str)) (length : N) (c : cond) : Prop :=
  match c with
  | CEq n v => has_field form n v
  | CPrefix n p => exists v, has_field form n (p ++ v)
  | CRange a b => (a <= length <= b)%N
  end.
Definition accepted (cs : list cond) (form : list (str * str)) (length : N) : Prop :=
  Forall (satisfied form length) cs.
