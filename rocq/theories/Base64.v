(** base64 0.22.1 with [engine::general_purpose::STANDARD]. *)
From Verif Require Import Base.
Local Open Scope N_scope.

(** The standard alphabet (src/html_form_data.rs line 558, src/private/bound_token.rs lines 202, 234). *)
Definition b64_char (n : N) : byte :=
  if n <? 26 then nb (65 + n)
  else if n <? 52 then nb (97 + (n - 26))
  else if n <? 62 then nb (48 + (n - 52))
  else if n =? 62 then "+"%byte else "/"%byte.

(** Value of a character of that alphabet, src/private/bound_token.rs line 234. *)
Definition b64_val (b : byte) : option N :=
  if is_upper b then Some (bN b - 65)
  else if is_lower b then Some (bN b - 97 + 26)
  else if is_digit b then Some (bN b - 48 + 52)
  else if beq b "+"%byte then Some 62
  else if beq b "/"%byte then Some 63
  else None.

(** [STANDARD.encode]: src/html_form_data.rs lines 557-560, src/private/bound_token.rs lines 201-204. *)
Fixpoint b64_encode (s : str) : str :=
  match s with
  | [] => []
  | [a] =>
      let n := bN a * 16 in
      [b64_char (n / 64); b64_char (n mod 64); "="%byte; "="%byte]
  | [a; b] =>
      let n := (bN a * 256 + bN b) * 4 in
      [b64_char (n / 4096); b64_char (n / 64 mod 64); b64_char (n mod 64); "="%byte]
  | a :: b :: c :: r =>
      let n := bN a * 65536 + bN b * 256 + bN c in
      b64_char (n / 262144) :: b64_char (n / 4096 mod 64) :: b64_char (n / 64 mod 64)
      :: b64_char (n mod 64) :: b64_encode r
  end.

(** [STANDARD.decode]: canonical padding required, unused trailing bits must be zero.
    src/private/bound_token.rs lines 233-237; [None] is [Err(DecodeError)]. *)
Fixpoint b64_decode (s : str) : option str :=
  match s with
  | [] => Some []
  | a :: b :: c :: d :: r =>
      match b64_val a, b64_val b with
      | Some va, Some vb =>
          if beq d "="%byte then
            match r with
            | _ :: _ => None
            | [] =>
                if beq c "="%byte then
                  let n := va * 64 + vb in
                  if n mod 16 =? 0 then Some [nb (n / 16)] else None
                else match b64_val c with
                | Some vc =>
                    let n := va * 4096 + vb * 64 + vc in
                    if n mod 4 =? 0 then Some [nb (n / 1024); nb (n / 4 mod 256)] else None
                | None => None
                end
            end
          else
            match b64_val c, b64_val d with
            | Some vc, Some vd =>
                let n := va * 262144 + vb * 4096 + vc * 64 + vd in
                match b64_decode r with
                | Some rest => Some (nb (n / 65536) :: nb (n / 256 mod 256) :: nb (n mod 256) :: rest)
                | None => None
                end
            | _, _ => None
            end
      | _, _ => None
      end
  | _ => None
  end.
