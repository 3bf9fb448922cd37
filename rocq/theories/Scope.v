(** Credential scope: src/private/credential_scope.rs, location.rs, service.rs, request_type.rs. *)
From Verif Require Import Base Time.

(** [Service], src/private/service.rs lines 2-17. *)
Inductive service : Type := Storage | S3.
(** [Display for Service], src/private/service.rs lines 10-24. *)
Definition service_str (s : service) : str :=
  match s with Storage => B "storage" | S3 => B "s3" end.

(** [RequestType], src/private/request_type.rs lines 2-17. *)
Inductive request_type : Type := Goog4Request | Aws4Request.
(** [Display for RequestType], src/private/request_type.rs lines 10-24. *)
Definition request_type_str (r : request_type) : str :=
  match r with Goog4Request => B "goog4_request" | Aws4Request => B "aws4_request" end.

(** [CredentialScope], src/private/credential_scope.rs lines 11-17; a [Date] is its number, a
    [Location] its string. *)
Record credential_scope := {
  cs_date : N; cs_location : str; cs_service : service; cs_request_type : request_type
}.

(** [TryFrom<&str> for Location], src/private/location.rs lines 12-14: never fails; [Display], src/private/location.rs lines 18-20, is the text itself. *)
Definition location_try_from (s : str) : option str := Some s.

(** [CredentialScope::new], src/private/credential_scope.rs lines 20-45. *)
Definition credential_scope_new (d : N) (l : str) (s : service) (r : request_type)
  : option credential_scope :=
  match s, r with
  | Storage, Aws4Request | S3, Goog4Request => None
  | Storage, Goog4Request | S3, Aws4Request =>
      Some {| cs_date := d; cs_location := l; cs_service := s; cs_request_type := r |}
  end.

(** [Display for CredentialScope], src/private/credential_scope.rs lines 48-56. *)
Definition credential_scope_to_string (c : credential_scope) : str :=
  date_to_string (cs_date c) ++ B "/" ++ cs_location c ++ B "/" ++ service_str (cs_service c)
  ++ B "/" ++ request_type_str (cs_request_type c).
