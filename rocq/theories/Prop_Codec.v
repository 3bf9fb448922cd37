(** C49: hex and base64 encodings are lossless. *)
From Verif Require Import Base BaseFacts Base64 Sha256 SpecCodec CodecFacts.

(** Signature hex (src/private/signed_url.rs lines 121-127, called for x-goog-signature and X-Goog-Signature): exactly the two lower-case digits of each byte, hence determined by and
    determining the bytes. *)
Theorem C49_hex data :
  hex_of data (hex_encode data) /\
  length (hex_encode data) = (2 * length data)%nat /\
  Forall (fun c => In c (B "0123456789abcdef")) (hex_encode data) /\
  (forall text, hex_of data text -> text = hex_encode data) /\
  (forall data', hex_encode data' = hex_encode data -> data' = data).
Proof.
  repeat split.
  - apply hex_encode_spec.
  - apply hex_encode_length.
  - apply (hex_of_alphabet data). apply hex_encode_spec.
  - intros text H. eapply hex_of_text_unique; [exact H|apply hex_encode_spec].
  - intros data' E. apply hex_encode_inj. exact E.
Qed.

Example C49_hex_example : hex_encode [x00; xff; x1a; xa0]%byte = B "00ff1aa0".
Proof. reflexivity. Qed.

(** Base64 (policy, payload, signedBlob). *)
Theorem C49_base64 data :
  base64_of data (b64_encode data) /\
  (forall text, base64_of data text -> text = b64_encode data) /\
  length (b64_encode data) = (4 * ((length data + 2) / 3))%nat /\
  (forall data', b64_encode data' = b64_encode data -> data' = data).
Proof.
  repeat split.
  - apply b64_encode_spec.
  - intros text H. eapply base64_of_text_unique; [exact H|apply b64_encode_spec].
  - apply b64_length.
  - intros data' E. apply b64_encode_inj. exact E.
Qed.

(** Decoding accepts exactly the base64 texts and returns the encoded bytes. *)
Theorem C49_base64_decode text data : b64_decode text = Some data <-> base64_of data text.
Proof. apply b64_decode_spec. Qed.

(** Only the standard alphabet and padding. *)
Theorem C49_base64_alphabet data :
  Forall (fun c => In c b64_alphabet \/ c = "="%byte) (b64_encode data).
Proof.
  destruct (b64_encode_spec data) as (chars & fill & pad & _ & _ & Hs & -> & _).
  apply Forall_app. split.
  - clear - Hs. remember (byte_bits data ++ repeat false fill) as bs eqn:E. clear E.
    induction Hs as [|c i chars bs Hi Hs IH]; constructor; [left; eapply nth_error_In; exact Hi|exact IH].
  - apply Forall_forall. intros c Hc. apply repeat_spec in Hc. auto.
Qed.

Example C49_base64_example : b64_encode (B "Ma") = B "TWE=" /\ b64_decode (B "TWE=") = Some (B "Ma")
  /\ b64_decode (B "TWF=") = None /\ b64_decode (B "TWE") = None.
Proof. repeat split; reflexivity. Qed.
