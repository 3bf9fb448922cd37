(** C45-C47: policy documents and field names. *)
From Verif Require Import Base BaseFacts Base64 SpecCodec CodecFacts SpecCalendar Time TimeFacts
  Json SpecJson JsonFacts Policy PolicyFacts SpecPolicy Keys Effects.
Local Open Scope Z_scope.

(** * C47 *)

(** Field::new accepts exactly the service's field names and printing gives the input back. *)
Theorem C47_field_names s :
  ((exists f, field_new s = Some f) <-> field_name s) /\
  (forall f, field_new s = Some f -> field_to_string f = s).
Proof.
  split; [split|].
  - intros (f & H). apply field_to_string_new in H. destruct H as [<- Hok].
    unfold field_name, fixed_names. destruct f; cbn [field_to_string map In];
      try (left; repeat (first [left; reflexivity|right]); fail).
    right. exists name. split; [exact Hok|reflexivity].
  - intros [H|(m & Hm & ->)].
    + unfold fixed_names in H. cbn [map In] in H.
      repeat (destruct H as [<-|H]; [eexists; reflexivity|]). destruct H.
    + exists (FXGoogMeta m). exact (field_new_to_string (FXGoogMeta m) Hm).
  - intros f H. apply field_to_string_new in H. apply H.
Qed.

(** Distinct accepted names are distinct fields. *)
Theorem C47_field_injective s t f : field_new s = Some f -> field_new t = Some f -> s = t.
Proof. intros H1 H2. apply field_to_string_new in H1, H2. destruct H1 as [<- _], H2 as [<- _]. reflexivity. Qed.

Example C47_example : field_new (B "x-goog-meta-reviewer") = Some (FXGoogMeta (B "reviewer"))
  /\ field_new (B "x-goog-meta-") = None /\ field_new (B "content-type") = None
  /\ field_new (B "Content-Type") = Some FContentType.
Proof. repeat split; reflexivity. Qed.

(** * C45 *)

(** Content-Length in an eq or starts-with condition. *)
Definition mentions_content_length (c : condition) : Prop :=
  match c with
  | ExactMatching f _ | StartsWith f _ => field_to_string f = B "Content-Length"
  | ContentLengthRange _ _ => False
  end.

(** Type invariants of the document: a meta field has a name, lengths are [u64], the expiration is in
    the years 0 to 9999. *)
Definition document_ok (p : policy_document) : Prop :=
  Forall (fun c => match c with
                   | ExactMatching f _ | StartsWith f _ => field_to_string f <> B "x-goog-meta-"
                   | ContentLengthRange a b => (a < 18446744073709551616)%N /\ (b < 18446744073709551616)%N
                   end) (conditions p) /\
  -62167219200 <= pd_expiration p <= 253402300799.

Lemma field_ok_name f : field_to_string f <> B "x-goog-meta-" -> field_ok f.
Proof. destruct f; cbn; auto. intros H ->. apply H. reflexivity. Qed.

Lemma document_policy_ok p : document_ok p -> policy_ok p.
Proof.
  intros [H1 H2]. split; [|exact H2]. eapply Forall_impl; [|exact H1].
  intros [f v|f v|a b]; cbn; auto using field_ok_name.
Qed.

Lemma mentions_spec c : names_content_length c = true <-> mentions_content_length c.
Proof.
  destruct c as [f v|f v|a b]; cbn; [| |split; [discriminate|tauto]];
    (destruct f; cbn; split; try discriminate; try reflexivity; try tauto).
Qed.

Theorem C45_roundtrip p : document_ok p ->
  (policy_from_string (policy_to_string p) = Some p <-> ~ Exists mentions_content_length (conditions p)) /\
  (Exists mentions_content_length (conditions p) -> policy_from_string (policy_to_string p) = None).
Proof.
  intros H. rewrite policy_roundtrip by (apply document_policy_ok; exact H).
  destruct (existsb names_content_length (conditions p)) eqn:E.
  - assert (X : Exists mentions_content_length (conditions p)).
    { apply existsb_exists in E. destruct E as (c & Hc & Hn). apply Exists_exists. exists c.
      split; [exact Hc|apply mentions_spec; exact Hn]. }
    split; [split; [discriminate|tauto]|reflexivity].
  - assert (X : ~ Exists mentions_content_length (conditions p)).
    { intros X. apply Exists_exists in X. destruct X as (c & Hc & Hn). apply mentions_spec in Hn.
      assert (existsb names_content_length (conditions p) = true) by (apply existsb_exists; eauto). congruence. }
    split; [tauto|]. tauto.
Qed.

Definition example_document : policy_document := {|
  conditions := [ExactMatching FKey (B "a""b\c"); StartsWith (FXGoogMeta (B "x")) []; ContentLengthRange 0 18446744073709551615];
  pd_expiration := 951782400 |}.

Example C45_example : document_ok example_document
  /\ ~ Exists mentions_content_length (conditions example_document)
  /\ policy_to_string example_document =
     B "{""conditions"":[[""eq"",""$key"",""a\""b\\c""],[""starts-with"",""$x-goog-meta-x"",""""],[""content-length-range"",0,18446744073709551615]],""expiration"":""2000-02-29T00:00:00Z""}".
Proof.
  split; [|split].
  - split; [|split; discriminate]. repeat constructor; discriminate.
  - intros H. apply Exists_exists in H. destruct H as (c & Hc & Hm). cbn [example_document conditions In] in Hc.
    destruct Hc as [<-|[<-|[<-|[]]]]; [discriminate Hm|discriminate Hm|exact Hm].
  - reflexivity.
Qed.

(** * C46 *)

(** What a condition says. *)
Definition cond_of (c : condition) : cond :=
  match c with
  | ExactMatching f v => CEq (field_to_string f) v
  | StartsWith f v => CPrefix (field_to_string f) v
  | ContentLengthRange a b => CRange a b
  end.

Lemma decimal_dec n : decimal_of n (dec n).
Proof.
  split; [apply undec_dec|]. destruct (N.eq_dec n 0) as [->|Hn]; [left; reflexivity|right].
  apply dec_head. lia.
Qed.

Lemma condition_tree c : cond_tree (cond_of c) (condition_to_json c).
Proof. destruct c; cbn; constructor; apply decimal_dec. Qed.

(** The policy text is valid JSON for exactly the document's tree: no string in it can end its quotes,
    or add or remove members. *)
Theorem C46_policy_text p : document_ok p ->
  exists j, policy_tree (map cond_of (conditions p)) (pd_expiration p) j /\
            json_text j (policy_to_string p) /\
            (forall j', json_text j' (policy_to_string p) -> j' = j).
Proof.
  intros [_ H]. exists (policy_to_json p). split; [|split].
  - exists (map condition_to_json (conditions p)), (ut_to_rfc3339 (pd_expiration p)).
    split; [|split; [apply rfc3339_spec; exact H|reflexivity]].
    induction (conditions p) as [|c l IH]; constructor; [apply condition_tree|exact IH].
  - apply jprint_text. apply policy_json_nums.
  - intros j' Hj. eapply json_text_unique; [exact Hj|]. apply jprint_text. apply policy_json_nums.
Qed.

(** Hence equal texts mean equal documents. *)
Theorem C46_policy_injective p q : document_ok p -> document_ok q ->
  policy_to_string p = policy_to_string q -> p = q.
Proof.
  intros Hp Hq E.
  assert (J : policy_to_json p = policy_to_json q).
  { eapply json_text_unique; [apply jprint_text; apply policy_json_nums|].
    change (json_text (policy_to_json q) (policy_to_string p)). rewrite E. apply jprint_text. apply policy_json_nums. }
  injection J as J1 J2. apply rfc3339_inj in J2; [|apply Hp|apply Hq].
  destruct p as [cp ep], q as [cq eq]. cbn [conditions pd_expiration] in *. subst eq. f_equal.
  destruct Hp as [Hp _]. destruct Hq as [Hq _]. cbn [conditions] in *. clear E.
  revert cq J1 Hq; induction cp as [|a cp IH]; intros [|b cq] J Hq; try discriminate J; [reflexivity|].
  cbn [map] in J. injection J as J1 J2. inversion Hp; subst. inversion Hq; subst. f_equal; [|apply IH; assumption].
  destruct a as [f v|f v|x y], b as [g w|g w|x' y']; cbn [condition_to_json] in J1; try discriminate J1.
  - injection J1 as E1 E2. subst. f_equal. apply field_to_string_inj; auto using field_ok_name.
  - injection J1 as E1 E2. subst. f_equal. apply field_to_string_inj; auto using field_ok_name.
  - injection J1 as E1 E2. apply dec_inj in E1, E2. subst. reflexivity.
Qed.

(** The signBlob body is valid JSON for exactly [{"payload": base64(message)}]. *)
Theorem C46_payload_text email token message :
  exists body j, rq_body (sign_blob_request email token message) = Some body /\
    payload_tree message j /\ json_text j body /\ (forall j', json_text j' body -> j' = j).
Proof.
  exists (jprint (JObj [(B "payload", JStr (b64_encode message))])), (JObj [(B "payload", JStr (b64_encode message))]).
  assert (T : json_text (JObj [(B "payload", JStr (b64_encode message))]) (jprint (JObj [(B "payload", JStr (b64_encode message))]))).
  { apply jprint_text. cbn. auto. }
  split; [reflexivity|]. split; [exists (b64_encode message); split; [apply b64_encode_spec|reflexivity]|].
  split; [exact T|]. intros j' Hj. eapply json_text_unique; eassumption.
Qed.

Example C46_example : document_ok example_document
  /\ jprint (JObj [(B "payload", JStr (B "a""},{"))]) = B "{""payload"":""a\""},{""}".
Proof. split; [apply C45_example|reflexivity]. Qed.
