(** C48: loading a service account key from JSON. *)
From Verif Require Import Base BaseFacts Json SpecJson JsonFacts Keys Effects.

(** The texts serde_json reads as a [Value]: JSON within its nesting limit and number range. *)
Definition readable (d : deps) (s : str) (j : json) : Prop :=
  json_text j s /\ (json_depth j <= 127)%nat /\ json_nums (fun t => d_num_ok d t = true) j.

Lemma readable_spec d s j : from_str_value (d_num_ok d) s = Some j <-> readable d s j.
Proof. apply from_str_value_spec. Qed.

Lemma readable_unique d s j1 j2 : readable d s j1 -> readable d s j2 -> j1 = j2.
Proof. intros (H1 & _) (H2 & _). eapply json_text_unique; eassumption. Qed.

Lemma last_member_unique k l v1 v2 : last_member k l v1 -> last_member k l v2 -> v1 = v2.
Proof. intros H1 H2. apply jobj_get_spec in H1, H2. congruence. Qed.

(** Success: exactly for objects with string members client_email and private_key (last duplicate). *)
Theorem C48_success d s k :
  service_account_from_str d s = Ok k <->
  exists l email key, readable d s (JObj l) /\
    last_member (B "client_email") l (JStr email) /\ last_member (B "private_key") l (JStr key) /\
    k = KServiceAccount email key.
Proof.
  unfold service_account_from_str. split.
  - destruct (from_str_value (d_num_ok d) s) as [j|] eqn:E; [|discriminate]. apply readable_spec in E.
    destruct j as [|?|?|?|?|o]; try discriminate.
    destruct (jobj_get (B "client_email") o) as [j|] eqn:E1; [|discriminate].
    destruct j as [|?|?|email|?|?]; try discriminate.
    destruct (jobj_get (B "private_key") o) as [j|] eqn:E2; [|discriminate].
    destruct j as [|?|?|key|?|?]; try discriminate.
    intros H. injection H as <-. apply jobj_get_spec in E1, E2. exists o, email, key. auto.
  - intros (l & email & key & R & H1 & H2 & ->). apply readable_spec in R. rewrite R.
    apply jobj_get_spec in H1, H2. rewrite H1, H2. reflexivity.
Qed.

(** Errors, in order. *)
Inductive sa_failure (d : deps) (s : str) : sa_error -> Prop :=
| sf_json : (forall j, ~ readable d s j) -> sa_failure d s JsonDeserialize
| sf_root j : readable d s j -> (forall l, j <> JObj l) -> sa_failure d s JsonRootIsNotObject
| sf_email_missing l : readable d s (JObj l) -> ~ In (B "client_email") (map fst l) ->
    sa_failure d s ClientEmailIsNotFound
| sf_email_type l v : readable d s (JObj l) -> last_member (B "client_email") l v ->
    (forall e, v <> JStr e) -> sa_failure d s ClientEmailIsNotString
| sf_key_missing l e : readable d s (JObj l) -> last_member (B "client_email") l (JStr e) ->
    ~ In (B "private_key") (map fst l) -> sa_failure d s PrivateKeyIsNotFound
| sf_key_type l e v : readable d s (JObj l) -> last_member (B "client_email") l (JStr e) ->
    last_member (B "private_key") l v -> (forall k, v <> JStr k) ->
    sa_failure d s PrivateKeyIsNotString.

Theorem C48_errors d s e : service_account_from_str d s = Err e <-> sa_failure d s e.
Proof.
  unfold service_account_from_str. split.
  - destruct (from_str_value (d_num_ok d) s) as [j|] eqn:E.
    + apply readable_spec in E.
      destruct j as [|?|?|?|?|o]; try (intros H; injection H as <-; eapply sf_root; [exact E|discriminate]).
      destruct (jobj_get (B "client_email") o) as [j|] eqn:E1.
      * apply jobj_get_spec in E1.
        destruct j as [|?|?|email|?|?]; try (intros H; injection H as <-; eapply sf_email_type; [exact E|exact E1|discriminate]).
        destruct (jobj_get (B "private_key") o) as [j|] eqn:E2.
        -- apply jobj_get_spec in E2.
           destruct j as [|?|?|key|?|?]; try discriminate;
             intros H; injection H as <-; eapply sf_key_type; try exact E; try exact E1; try exact E2; discriminate.
        -- apply jobj_get_none in E2. intros H; injection H as <-. eapply sf_key_missing; eassumption.
      * apply jobj_get_none in E1. intros H; injection H as <-. eapply sf_email_missing; eassumption.
    + intros H. injection H as <-. apply sf_json. intros j Hj. apply readable_spec in Hj. congruence.
  - intros H. destruct H as [H|j H1 H2|l H1 H2|l v H1 H2 H3|l e H1 H2 H3|l e v H1 H2 H3 H4].
    + destruct (from_str_value (d_num_ok d) s) as [j|] eqn:E; [|reflexivity]. apply readable_spec in E. destruct (H j E).
    + apply readable_spec in H1. rewrite H1. destruct j; try reflexivity. destruct (H2 l eq_refl).
    + apply readable_spec in H1. rewrite H1. apply jobj_get_none in H2. rewrite H2. reflexivity.
    + apply readable_spec in H1. rewrite H1. apply jobj_get_spec in H2. rewrite H2.
      destruct v; try reflexivity. destruct (H3 s0 eq_refl).
    + apply readable_spec in H1. rewrite H1. apply jobj_get_spec in H2. rewrite H2. apply jobj_get_none in H3. rewrite H3.
      reflexivity.
    + apply readable_spec in H1. rewrite H1. apply jobj_get_spec in H2, H3. rewrite H2, H3.
      destruct v; try reflexivity. destruct (H4 s0 eq_refl).
Qed.

(** The loaded key signs as that email with that private key, without any effect. *)
Theorem C48_key d email key message :
  (forall tr r, returns (authorizer d (KServiceAccount email key)) tr r <-> (tr = [] /\ r = Ok email)) /\
  (forall tr sig, returns (sign d (KServiceAccount email key) false message) tr (Ok sig) <->
                  (tr = [] /\ d_rsa_sign d key message = Ok sig)).
Proof.
  split.
  - intros tr r. cbn [authorizer]. split.
    + intros H. inversion H; subst; auto.
    + intros [-> ->]. constructor.
  - intros tr sig. cbn [sign]. split.
    + destruct (d_rsa_sign d key message); intros H; inversion H; subst; auto.
    + intros [-> E]. rewrite E. constructor.
Qed.

(** A concrete file, with duplicate and unknown members and escapes. *)
Example C48_example d : d_num_ok d (B "1e3") = true ->
  service_account_from_str d
    (B " { ""client_email"" : 1e3 , ""x"":[{},null], ""private_key"":""k\n"", ""client_email"":""a@b"" } ")
  = Ok (KServiceAccount (B "a@b") (B "k" ++ [x0a]%byte)).
Proof. intros H. vm_compute in H. vm_compute. rewrite H. reflexivity. Qed.
Example C48_example_error d : service_account_from_str d (B "{""client_email"":""a""}") = Err PrivateKeyIsNotFound
  /\ service_account_from_str d (B "[]") = Err JsonRootIsNotObject
  /\ service_account_from_str d (B "{") = Err JsonDeserialize.
Proof. repeat split; reflexivity. Qed.
