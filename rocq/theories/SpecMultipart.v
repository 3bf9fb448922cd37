(** Specification: how a service reads the body of an upload (RFC 2046 section 5.1.1, RFC 7578 section 4), and which texts
    keep out of a boundary's way. *)
From Verif Require Import Base SpecUpload.
Local Open Scope byte_scope.

Definition occurs (w s : str) : Prop := exists u v, s = u ++ w ++ v.
Definition one_line (s : str) : Prop := ~ In x0d s /\ ~ In x0a s.

(** A part: header lines, an empty line, content. *)
Record part := { pt_lines : list str; pt_content : str }.
Definition part_text (p : part) (text : str) : Prop :=
  Forall (fun l => l <> [] /\ one_line l) (pt_lines p) /\
  text = flat_map (fun l => l ++ [x0d; x0a]) (pt_lines p) ++ [x0d; x0a] ++ pt_content p.

(** A part ends where the delimiter occurs for the first time.  [parts_text] is about what follows a delimiter; after the
    last one there are two hyphens and then anything. *)
Definition delimiter (boundary : str) : str := [x0d; x0a; "-"; "-"] ++ boundary.
Inductive parts_text (boundary : str) : list part -> str -> Prop :=
| ps_end rest : parts_text boundary [] (B "--" ++ rest)
| ps_part p text l rest : part_text p text -> ~ occurs (delimiter boundary) text -> parts_text boundary l rest ->
    parts_text boundary (p :: l) ([x0d; x0a] ++ text ++ delimiter boundary ++ rest).
Definition multipart (boundary : str) (l : list part) (body : str) : Prop :=
  exists rest, body = B "--" ++ boundary ++ rest /\ parts_text boundary l rest.

(** What the parts say: fields, and then the file.  A name goes to the next quotation mark. *)
Definition disposition (name : str) : str := B "Content-Disposition: form-data; name=" ++ [x22] ++ name ++ [x22].
Definition field_part (p : part) (nv : str * str) : Prop :=
  ~ In x22 (fst nv) /\ pt_lines p = [disposition (fst nv)] /\ pt_content p = snd nv.
Definition file_part (p : part) (filename type content : str) : Prop :=
  ~ In x22 filename /\ pt_lines p = [disposition (B "file") ++ B "; filename=" ++ [x22] ++ filename ++ [x22]; B "Content-Type: " ++ type] /\ pt_content p = content.
Definition upload_read (boundary body : str) (form : list (str * str)) (filename type content : str) : Prop :=
  exists l p, multipart boundary (l ++ [p]) body /\ Forall2 field_part l form /\ file_part p filename type content.

(** Boundaries are one line and not empty. *)
Definition boundary_text (b : str) : Prop := b <> [] /\ one_line b.

(** Content in which the delimiter does not occur, the line break before the content included. *)
Definition free (boundary content : str) : Prop := ~ occurs (delimiter boundary) ([x0d; x0a] ++ content).

(** The type with which a browser sends a file. *)
Definition sent_type (type t : str) : Prop := (type = [] /\ t = B "application/octet-stream") \/ (type <> [] /\ t = type).
