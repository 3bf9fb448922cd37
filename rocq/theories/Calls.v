(** The two public operations that sign, as programs with one result type: [HtmlFormDataBuilder::build]
    (src/html_form_data.rs lines 237-304) and [build_signed_url] (src/signed_url.rs lines 55-132). *)
From Verif Require Import Base Time Effects Keys HtmlForm SignedUrl.

(** A call of a public operation with its arguments: src/html_form_data.rs line 237,
    src/signed_url.rs line 55. *)
Inductive call : Type :=
| CallForm (b : builder)
| CallUrl (o : url_options).

(** What a call returned: src/html_form_data.rs line 237, src/signed_url.rs line 68. *)
Inductive answer : Type :=
| AForm (r : res (list (str * str)) form_error)
| AUrl (r : res str url_error).

(** Running a call: src/html_form_data.rs lines 237-304, src/signed_url.rs lines 55-132. *)
Definition run_call (d : deps) (c : call) : prog answer :=
  match c with
  | CallForm b => bind (build d b) (fun r => Ret (AForm r))
  | CallUrl o => bind (build_signed_url d o) (fun r => Ret (AUrl r))
  end.

(** The key a call signs with: src/html_form_data.rs line 190, src/signed_url.rs line 49. *)
Definition call_key (c : call) : option signing_key :=
  match c with
  | CallForm b => option_map so_signing_key (b_signing_options b)
  | CallUrl o => Some (o_signing_key o)
  end.

(** The [use_sign_blob] option of a call: src/html_form_data.rs line 191, src/signed_url.rs line 50. *)
Definition call_use_sign_blob (c : call) : bool :=
  match c with
  | CallForm b => match b_signing_options b with Some o => so_use_sign_blob o | None => false end
  | CallUrl o => o_use_sign_blob o
  end.

(** The [accessible_at] option of a call: src/html_form_data.rs line 187, src/signed_url.rs line 48. *)
Definition call_accessible_at (c : call) : option systime :=
  match c with
  | CallForm b => match b_signing_options b with Some o => so_accessible_at o | None => None end
  | CallUrl o => o_accessible_at o
  end.
