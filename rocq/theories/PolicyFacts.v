(** Policy documents: field names, serialisation round trip. *)
From Verif Require Import Base BaseFacts Time TimeFacts Json SpecJson JsonFacts Policy.

(** A [Field] as the crate can make it: an x-goog-meta name is not empty
    (src/private/policy_document/field.rs lines 72-76). *)
Definition field_ok (f : field) : Prop := match f with FXGoogMeta m => m <> [] | _ => True end.

Lemma field_new_to_string f : field_ok f -> field_new (field_to_string f) = Some f.
Proof.
  destruct f; intros H; try reflexivity. cbn in H. destruct name as [|c m]; [congruence|].
  unfold field_new, field_to_string.
  repeat (match goal with |- context [str_eqb ?a ?b] => change (str_eqb a b) with false; cbv iota end).
  rewrite strip_prefix_app. reflexivity.
Qed.

Lemma field_to_string_new s f : field_new s = Some f -> field_to_string f = s /\ field_ok f.
Proof.
  unfold field_new.
  repeat (match goal with |- context [if str_eqb s ?b then _ else _] => destruct (str_eqb_spec s b) as [->|?];
     [intros E; injection E as <-; split; [reflexivity|exact I]|] end).
  destruct (strip_prefix (B "x-goog-meta-") s) as [m|] eqn:E; [|discriminate]. apply strip_prefix_some in E.
  destruct m as [|c m]; [discriminate|]. intros H. injection H as <-. split; [symmetry; exact E|discriminate].
Qed.

Lemma field_to_string_inj f g : field_ok f -> field_ok g -> field_to_string f = field_to_string g -> f = g.
Proof.
  intros Hf Hg E. apply field_new_to_string in Hf, Hg. rewrite E in Hf. congruence.
Qed.

(** A [Condition] as the crate can make it. *)
Definition condition_ok (c : condition) : Prop :=
  match c with
  | ExactMatching f _ | StartsWith f _ => field_ok f
  | ContentLengthRange a b => (a < two64)%N /\ (b < two64)%N
  end.

Definition names_content_length (c : condition) : bool :=
  match c with
  | ExactMatching f _ | StartsWith f _ => is_content_length f
  | ContentLengthRange _ _ => false
  end.

Lemma esc_word w : existsb (fun c => match escape_byte c with [c'] => negb (beq c c') | _ => true end) w = false -> esc w = w.
Proof.
  unfold esc. induction w as [|c w IH]; [reflexivity|]. cbn [existsb flat_map]. intros H. apply orb_false_iff in H.
  destruct H as [H1 H2]. destruct (escape_byte c) as [|c' [|? ?]]; try discriminate.
  apply negb_false_iff in H1. apply beq_eq in H1. subst. rewrite (IH H2). reflexivity.
Qed.

Lemma condition_raw_eq v1 v2 kind : kind = B "eq" \/ kind = B "starts-with" ->
  forall f, field_ok f -> v1 = B "$" ++ field_to_string f ->
  condition_from_raw (RArr [RStr (esc kind); RStr (esc v1); RStr (esc v2)]) =
  if is_content_length f then None
  else Some (if str_eqb kind (B "eq") then ExactMatching f v2 else StartsWith f v2).
Proof.
  intros Hk f Hf ->. unfold condition_from_raw, de_borrowed_str, de_string.
  assert (Ek : esc kind = kind) by (destruct Hk; subst; reflexivity). rewrite Ek.
  assert (Eb : existsb (beq "\"%byte) kind = false) by (destruct Hk; subst; reflexivity). rewrite Eb.
  assert (Eu : unescape kind = Some kind) by (destruct Hk; subst; reflexivity). rewrite Eu.
  assert (Eq : (str_eqb kind (B "eq") || str_eqb kind (B "starts-with"))%bool = true) by (destruct Hk; subst; reflexivity). rewrite Eq.
  rewrite unescape_esc, strip_prefix_app, field_new_to_string by exact Hf.
  destruct (is_content_length f); [reflexivity|]. rewrite unescape_esc. destruct (str_eqb kind (B "eq")); reflexivity.
Qed.

Lemma condition_roundtrip c : condition_ok c ->
  condition_from_raw (raw_of (condition_to_json c)) = if names_content_length c then None else Some c.
Proof.
  destruct c as [f v|f v|a b]; intros H; cbn [condition_to_json raw_of map names_content_length].
  - rewrite (condition_raw_eq _ v (B "eq") ltac:(auto) f H eq_refl). reflexivity.
  - rewrite (condition_raw_eq _ v (B "starts-with") ltac:(auto) f H eq_refl). reflexivity.
  - destruct H as [Ha Hb]. unfold condition_from_raw, de_borrowed_str, de_u64.
    change (esc (B "content-length-range")) with (B "content-length-range").
    change (existsb (beq "\"%byte) (B "content-length-range")) with false. cbv iota.
    change (unescape (B "content-length-range")) with (Some (B "content-length-range")). cbv iota.
    change (str_eqb (B "content-length-range") (B "eq") || str_eqb (B "content-length-range") (B "starts-with"))%bool with false.
    change (str_eqb (B "content-length-range") (B "content-length-range")) with true. cbv iota.
    rewrite !undec_dec. apply N.ltb_lt in Ha, Hb. rewrite Ha, Hb. reflexivity.
Qed.

Lemma condition_json_nums c : json_nums num_tok (condition_to_json c).
Proof. destruct c; cbn; auto using dec_num_tok. Qed.

Lemma policy_json_nums p : json_nums num_tok (policy_to_json p).
Proof.
  cbn. split; [|auto]. induction (conditions p) as [|c l IH]; cbn; [exact I|]. split; [apply condition_json_nums|exact IH].
Qed.

(** A document as the crate can make it. *)
Definition policy_ok (p : policy_document) : Prop := Forall condition_ok (conditions p) /\ ts_ok (pd_expiration p).

Lemma traverse_conditions cs : Forall condition_ok cs ->
  traverse condition_from_raw (map raw_of (map condition_to_json cs)) =
  if existsb names_content_length cs then None else Some cs.
Proof.
  induction 1 as [|c cs Hc Hcs IH]; [reflexivity|]. cbn [map traverse existsb]. rewrite condition_roundtrip by exact Hc.
  destruct (names_content_length c); [reflexivity|]. rewrite IH. cbn [orb]. destruct (existsb _ cs); reflexivity.
Qed.

Lemma policy_roundtrip p : policy_ok p ->
  policy_from_string (policy_to_string p) = if existsb names_content_length (conditions p) then None else Some p.
Proof.
  intros [Hc Ht]. unfold policy_from_string, policy_to_string. rewrite jprint_raw by apply policy_json_nums.
  cbn [policy_to_json raw_of map fst snd].
  change (esc (B "conditions")) with (B "conditions"). change (esc (B "expiration")) with (B "expiration").
  unfold de_struct, decode_keys. cbn [traverse fst snd].
  change (unescape (B "conditions")) with (Some (B "conditions")). change (unescape (B "expiration")) with (Some (B "expiration")).
  cbv iota beta. unfold members_named. cbn [filter fst snd].
  change (str_eqb (B "conditions") (B "conditions")) with true. change (str_eqb (B "expiration") (B "conditions")) with false.
  change (str_eqb (B "conditions") (B "expiration")) with false. change (str_eqb (B "expiration") (B "expiration")) with true.
  cbn [map snd]. rewrite traverse_conditions by exact Hc.
  destruct (existsb names_content_length (conditions p)); [reflexivity|].
  unfold expiration_from_raw, de_string, pd_expiration_from_str. rewrite unescape_esc, ut_from_rfc3339_print by exact Ht.
  destruct p; reflexivity.
Qed.
