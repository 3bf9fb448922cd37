(** Property of the digest in the string to sign (C53). *)
From Verif Require Import Base BaseFacts SpecCodec CodecFacts Sha256 SpecSha ShaFacts.

(** The digest text of every canonical request is the lower-case hex of its SHA-256 as FIPS 180-4 defines it, and nothing else. *)
Theorem C53_digest m text : sha256_digest m = text <-> exists sum, digest_of m sum /\ hex_of sum text.
Proof.
  split.
  - intros <-. exists (sha256 m). split; [apply sha256_digest_of|apply hex_encode_spec].
  - intros (sum & D & H). apply digest_iff in D. subst sum. eapply hex_of_text_unique; [apply hex_encode_spec|exact H].
Qed.

(** It always has 64 lower-case hex digits. *)
Theorem C53_shape m : length (sha256_digest m) = 64%nat /\ Forall (fun c => In c hex_alphabet) (sha256_digest m).
Proof.
  split; [|eapply hex_of_alphabet; apply hex_encode_spec]. unfold sha256_digest.
  rewrite hex_encode_length, sha256_length. reflexivity.
Qed.

(** The specification defines a digest for every message, and only one. *)
Theorem C53_function m : exists sum, digest_of m sum /\ forall sum', digest_of m sum' -> sum' = sum.
Proof. exists (sha256 m). split; [apply sha256_digest_of|]. intros sum' H. apply digest_iff. exact H. Qed.

(** The digests of a short message and of one whose padding needs a second block (FIPS 180-4 examples), by the specification. *)
Example C53_case :
  (exists sum, digest_of (B "abc") sum /\ hex_of sum (B "ba7816bf8f01cfea414140de5dae2223b00361a396177a9cb410ff61f20015ad")) /\
  (exists sum, digest_of (B "abcdbcdecdefdefgefghfghighijhijkijkljklmklmnlmnomnopnopq") sum /\
    hex_of sum (B "248d6a61d20638b8e5c026930c3e6039a33ce45964ff2167f6ecedd419db06c1")).
Proof. split; apply C53_digest; vm_compute; reflexivity. Qed.
