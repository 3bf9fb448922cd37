(** The octets of the upload of examples/image-uploader/index.html: the browser's encoding of a [FormData] body, from
    https://html.spec.whatwg.org/multipage/form-control-infrastructure.html#multipart-form-data. *)
From Verif Require Import Base Page.
Local Open Scope byte_scope.

(** In names and values, CR not before LF and LF not after CR become CR LF (behind
    examples/image-uploader/index.html line 65). *)
Fixpoint normalized (s : str) : str :=
  match s with
  | [] => []
  | c :: r =>
      if beq c x0d then x0d :: x0a :: match r with x0a :: r' => normalized r' | _ => normalized r end
      else if beq c x0a then x0d :: x0a :: normalized r
      else c :: normalized r
  end.

(** Names and file names are escaped (behind examples/image-uploader/index.html line 65). *)
Definition escape_name (s : str) : str :=
  flat_map (fun c => if beq c x0a then B "%0A" else if beq c x0d then B "%0D" else if beq c x22 then B "%22" else [c]) s.

(** Beginning of a part (behind examples/image-uploader/index.html line 65). *)
Definition part_name (boundary name : str) : str :=
  B "--" ++ boundary ++ [x0d; x0a] ++ B "Content-Disposition: form-data; name=" ++ [x22] ++ escape_name (normalized name) ++ [x22].

(** One entry: a text, or the selected file with its name and content, which [file] leaves out (behind
    examples/image-uploader/index.html lines 60, 63, 65). *)
Definition encode_entry (boundary filename content : str) (e : str * entry) : str :=
  part_name boundary (fst e)
  ++ match snd e with
     | EText v => [x0d; x0a; x0d; x0a] ++ normalized v
     | EFile f =>
         B "; filename=" ++ [x22] ++ escape_name filename ++ [x22; x0d; x0a]
         ++ B "Content-Type: " ++ match fi_type f with [] => B "application/octet-stream" | t => t end
         ++ [x0d; x0a; x0d; x0a] ++ content
     end
  ++ [x0d; x0a].

(** The body of [fetch(url, { body, method })], examples/image-uploader/index.html line 65; the boundary is chosen by
    the browser. *)
Definition encode_body (boundary filename content : str) (l : list (str * entry)) : str :=
  flat_map (encode_entry boundary filename content) l ++ B "--" ++ boundary ++ B "--" ++ [x0d; x0a].
