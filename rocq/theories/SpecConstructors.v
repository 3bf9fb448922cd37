(** Specification: which host a bound-token key asks, and what a key file must contain. *)
From Verif Require Import Base Effects SpecUtf8.

(** A byte sequence that is Unicode text. *)
Definition unicode (s : str) : Prop := exists l, text_of_chars l s.

(** The host that is asked, given the content of [GCE_METADATA_HOST] ([None] if it is not set). *)
Inductive asked_host : option str -> str -> Prop :=
| ah_unset : asked_host None (B "metadata.google.internal")
| ah_set host : unicode host -> asked_host (Some host) host
| ah_garbled bytes : ~ unicode bytes -> asked_host (Some bytes) (B "metadata.google.internal").
