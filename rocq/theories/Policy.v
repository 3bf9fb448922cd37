(** src/private/policy_document.rs and src/private/policy_document/. *)
From Verif Require Import Base Time Json.

(** * src/private/policy_document/field.rs *)

(** [Inner], src/private/policy_document/field.rs lines 24-45. *)
Inductive field : Type :=
| FAcl | FBucket | FCacheControl | FContentDisposition | FContentEncoding | FContentLength
| FContentType | FExpires | FFile | FKey | FPolicy | FSuccessActionRedirect | FSuccessActionStatus
| FXGoogAlgorithm | FXGoogCredential | FXGoogCustomTime | FXGoogDate | FXGoogSignature
| FXGoogMeta (name : str).

(** [Field::new], [Field::content_length], src/private/policy_document/field.rs lines 9-15, and [Inner::new], src/private/policy_document/field.rs lines 48-79. [None] is [Err]. *)
Definition field_new (s : str) : option field :=
  if str_eqb s (B "acl") then Some FAcl
  else if str_eqb s (B "bucket") then Some FBucket
  else if str_eqb s (B "Cache-Control") then Some FCacheControl
  else if str_eqb s (B "Content-Disposition") then Some FContentDisposition
  else if str_eqb s (B "Content-Encoding") then Some FContentEncoding
  else if str_eqb s (B "Content-Length") then Some FContentLength
  else if str_eqb s (B "Content-Type") then Some FContentType
  else if str_eqb s (B "Expires") then Some FExpires
  else if str_eqb s (B "file") then Some FFile
  else if str_eqb s (B "key") then Some FKey
  else if str_eqb s (B "policy") then Some FPolicy
  else if str_eqb s (B "success_action_redirect") then Some FSuccessActionRedirect
  else if str_eqb s (B "success_action_status") then Some FSuccessActionStatus
  else if str_eqb s (B "x-goog-algorithm") then Some FXGoogAlgorithm
  else if str_eqb s (B "x-goog-credential") then Some FXGoogCredential
  else if str_eqb s (B "x-goog-custom-time") then Some FXGoogCustomTime
  else if str_eqb s (B "x-goog-date") then Some FXGoogDate
  else if str_eqb s (B "x-goog-signature") then Some FXGoogSignature
  else match strip_prefix (B "x-goog-meta-") s with
       | None => None
       | Some [] => None
       | Some m => Some (FXGoogMeta m)
       end.

(** [Display for Field] and [for Inner], src/private/policy_document/field.rs lines 19-21 and src/private/policy_document/field.rs lines 82-107. *)
Definition field_to_string (f : field) : str :=
  match f with
  | FAcl => B "acl"
  | FBucket => B "bucket"
  | FCacheControl => B "Cache-Control"
  | FContentDisposition => B "Content-Disposition"
  | FContentEncoding => B "Content-Encoding"
  | FContentLength => B "Content-Length"
  | FContentType => B "Content-Type"
  | FExpires => B "Expires"
  | FFile => B "file"
  | FKey => B "key"
  | FPolicy => B "policy"
  | FSuccessActionRedirect => B "success_action_redirect"
  | FSuccessActionStatus => B "success_action_status"
  | FXGoogAlgorithm => B "x-goog-algorithm"
  | FXGoogCredential => B "x-goog-credential"
  | FXGoogCustomTime => B "x-goog-custom-time"
  | FXGoogDate => B "x-goog-date"
  | FXGoogSignature => B "x-goog-signature"
  | FXGoogMeta m => B "x-goog-meta-" ++ m
  end.

(** [field == Field::content_length()], src/private/policy_document/condition.rs lines 32, 58. *)
Definition is_content_length (f : field) : bool :=
  match f with FContentLength => true | _ => false end.

(** * src/private/policy_document/condition.rs *)

(** [Condition], src/private/policy_document/condition.rs lines 3-8; a [Value] (src/private/policy_document/value.rs lines 5-7, src/private/policy_document/value.rs lines 11-13) is its string. *)
Inductive condition : Type :=
| ExactMatching (f : field) (v : str)
| StartsWith (f : field) (v : str)
| ContentLengthRange (min max : N).

(** [Serialize for Condition], src/private/policy_document/condition.rs lines 95-112. *)
Definition condition_to_json (c : condition) : json :=
  match c with
  | ExactMatching f v => JArr [JStr (B "eq"); JStr (B "$" ++ field_to_string f); JStr v]
  | StartsWith f v => JArr [JStr (B "starts-with"); JStr (B "$" ++ field_to_string f); JStr v]
  | ContentLengthRange a b => JArr [JStr (B "content-length-range"); JNum (dec a); JNum (dec b)]
  end.

(** The first element read as a borrowed [&str], src/private/policy_document/condition.rs line 43: serde_json can only lend the text of a string
    without escapes. *)
Definition de_borrowed_str (r : raw) : option str :=
  match r with
  | RStr t => if existsb (beq "\"%byte) t then None else unescape t
  | _ => None
  end.

(** [Deserialize for Condition], src/private/policy_document/condition.rs lines 10-93.  The visitor reads one entry of an object or three
    elements of an array; serde_json then requires the container to end. *)
Definition condition_from_raw (r : raw) : option condition :=
  match r with
  | RObj [(k, v)] =>
      match unescape k, de_string v with
      | Some k, Some v =>
          match field_new k with
          | Some f => if is_content_length f then None else Some (ExactMatching f v)
          | None => None
          end
      | _, _ => None
      end
  | RArr [c; a; b] =>
      match de_borrowed_str c with
      | None => None
      | Some c =>
          if str_eqb c (B "eq") || str_eqb c (B "starts-with") then
            match de_string a with
            | None => None
            | Some fs =>
                match strip_prefix (B "$") fs with
                | None => None
                | Some name =>
                    match field_new name with
                    | None => None
                    | Some f =>
                        if is_content_length f then None
                        else match de_string b with
                             | None => None
                             | Some v =>
                                 if str_eqb c (B "eq") then Some (ExactMatching f v)
                                 else Some (StartsWith f v)
                             end
                    end
                end
            end
          else if str_eqb c (B "content-length-range") then
            match de_u64 a, de_u64 b with
            | Some x, Some y => Some (ContentLengthRange x y)
            | _, _ => None
            end
          else None
      end
  | _ => None
  end.

(** * src/private/policy_document.rs and policy_document/expiration.rs *)

(** [PolicyDocument], src/private/policy_document.rs lines 12-16; [Expiration] wraps a [UnixTimestamp]
    (src/private/policy_document/expiration.rs lines 15-16, src/private/policy_document/expiration.rs lines 19-21). *)
Record policy_document := { conditions : list condition; pd_expiration : unix_timestamp }.

(** Derived [Serialize], src/private/policy_document.rs line 12; src/private/policy_document/expiration.rs lines 24-28 and 70-77. *)
Definition policy_to_json (p : policy_document) : json :=
  JObj [(B "conditions", JArr (map condition_to_json (conditions p)));
        (B "expiration", JStr (ut_to_rfc3339 (pd_expiration p)))].

(** [serde_json::to_string(&policy_document)] (src/html_form_data.rs line 555). *)
Definition policy_to_string (p : policy_document) : str := jprint (policy_to_json p).

(** [expiration::Error], src/private/policy_document/expiration.rs lines 5-11. *)
Inductive expiration_error : Type :=
| EOutOfRange (v : Z)
| ERfc3339Format (s : str).

(** [FromStr for Expiration], src/private/policy_document/expiration.rs lines 30-42; [None] is the
    [unreachable!()] panic of line 36. *)
Definition pd_expiration_from_str (s : str) : option (res unix_timestamp expiration_error) :=
  match ut_from_rfc3339 s with
  | Ok t => Some (Ok t)
  | Err (InvalidIso8601Format _) => None
  | Err (InvalidRfc3339Format s) => Some (Err (ERfc3339Format s))
  | Err (UtOutOfRange v) => Some (Err (EOutOfRange v))
  end.

(** [Deserialize for Expiration], src/private/policy_document/expiration.rs lines 44-68.  The error is
    made a serde error; a panic would count as an error here, but there is none
    (Prop_TimeText.v). *)
Definition expiration_from_raw (r : raw) : option unix_timestamp :=
  match de_string r with
  | Some s => match pd_expiration_from_str s with
              | Some (Ok t) => Some t
              | _ => None
              end
  | None => None
  end.

(** Derived [Deserialize] (src/private/policy_document.rs line 12) through [serde_json::from_str]. *)
Definition policy_from_string (s : str) : option policy_document :=
  match from_str_raw s with
  | None => None
  | Some r =>
      match de_struct [B "conditions"; B "expiration"] r with
      | Some [c; e] =>
          match c with
          | RArr l =>
              match traverse condition_from_raw l, expiration_from_raw e with
              | Some cs, Some t => Some {| conditions := cs; pd_expiration := t |}
              | _, _ => None
              end
          | _ => None
          end
      | _ => None
      end
  end.
