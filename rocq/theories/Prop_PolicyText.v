(** C58: the texts read as policy documents. *)
From Verif Require Import Base BaseFacts JsonTree Json SpecJson JsonFacts SpecToken TokenFacts Time SpecCalendar Policy PolicyFacts SpecPolicy
  Prop_Policy SpecTimeText Prop_TimeText SpecPolicyText.
Local Open Scope Z_scope.

Lemma unescape_plain t : existsb (beq "\"%byte) t = false -> unescape t = Some t.
Proof.
  induction t as [|c t IH]; [reflexivity|]. cbn [existsb]. intros H. apply Bool.orb_false_iff in H. destruct H as [H1 H2].
  cbn [unescape]. assert (N : beq c "\"%byte = false). { apply beq_neq. intros ->. discriminate H1. }
  rewrite N. rewrite (IH H2). reflexivity.
Qed.

Lemma borrowed_spec r s : de_borrowed_str r = Some s <-> r = RStr s /\ existsb (beq "\"%byte) s = false.
Proof.
  split.
  - destruct r as [| |?|t|?|?]; cbn [de_borrowed_str]; try discriminate. destruct (existsb _ t) eqn:E; [discriminate|].
    rewrite (unescape_plain t E). intros H. injection H as <-. auto.
  - intros [-> E]. cbn [de_borrowed_str]. rewrite E. apply unescape_plain. exact E.
Qed.

Lemma matchable_spec name f : field_new name = Some f -> is_content_length f = false -> matchable name /\ field_to_string f = name.
Proof.
  intros H C. destruct (C47_field_names name) as [A P]. specialize (P f H). split; [|exact P]. split; [apply A; eauto|].
  intros ->. destruct f; try discriminate P. discriminate C.
Qed.

Lemma matchable_new name : matchable name -> exists f, field_new name = Some f /\ is_content_length f = false /\ field_to_string f = name.
Proof.
  intros [F N]. destruct (C47_field_names name) as [A P]. apply A in F. destruct F as [f F]. exists f. specialize (P f F).
  split; [exact F|]. split; [|exact P]. destruct f; try reflexivity. destruct N. symmetry. exact P.
Qed.

Lemma condition_sound r c : raw_wf r -> condition_from_raw r = Some c -> condition_read r (cond_of c).
Proof.
  intros W H. destruct r as [| | | |l|l]; try discriminate H.
  - destruct l as [|k [|a [|b [|? ?]]]]; try discriminate H. cbn [condition_from_raw] in H. cbn [raw_wf fold_right] in W.
    destruct W as (_ & Wa & Wb & _).
    destruct (de_borrowed_str k) as [kind|] eqn:K; [|discriminate]. apply borrowed_spec in K. destruct K as [-> K].
    destruct (str_eqb kind (B "eq") || str_eqb kind (B "starts-with"))%bool eqn:E.
    + destruct (de_string a) as [fs|] eqn:A; [|discriminate]. destruct (strip_prefix (B "$") fs) as [name|] eqn:Sp; [|discriminate].
      apply strip_prefix_some in Sp. subst fs. destruct (field_new name) as [f|] eqn:F; [|discriminate].
      destruct (is_content_length f) eqn:C; [discriminate|]. destruct (de_string b) as [v|] eqn:V; [|discriminate].
      apply text_of_spec in A; [|exact Wa]. apply text_of_spec in V; [|exact Wb]. destruct (matchable_spec _ _ F C) as [M P].
      destruct (str_eqb_spec kind (B "eq")) as [->|N].
      * injection H as <-. cbn [cond_of]. rewrite P. apply cr_eq; assumption.
      * apply Bool.orb_true_iff in E. destruct E as [E|E]; [discriminate E|]. apply str_eqb_eq in E. subst kind.
        injection H as <-. cbn [cond_of]. rewrite P. apply cr_prefix; assumption.
    + destruct (str_eqb_spec kind (B "content-length-range")) as [->|]; [|discriminate].
      destruct (de_u64 a) as [x|] eqn:A; [|discriminate]. destruct (de_u64 b) as [y|] eqn:V; [|discriminate]. injection H as <-.
      apply number_of_spec in A, V. apply cr_range; assumption.
  - destruct l as [|[k v] [|? ?]]; try discriminate H. cbn [condition_from_raw] in H. cbn [raw_wf fold_right fst snd] in W.
    destruct W as (Wk & Wv & _). destruct (unescape k) as [name|] eqn:K; [|discriminate]. destruct (de_string v) as [value|] eqn:V; [|discriminate].
    destruct (field_new name) as [f|] eqn:F; [|discriminate]. destruct (is_content_length f) eqn:C; [discriminate|]. injection H as <-.
    destruct (matchable_spec _ _ F C) as [M P]. cbn [cond_of]. rewrite P. apply cr_member; [apply jstring_unescape; assumption| |exact M].
    apply text_of_spec; assumption.
Qed.

Lemma condition_complete r c : raw_wf r -> condition_read r c -> exists c', condition_from_raw r = Some c' /\ cond_of c' = c.
Proof.
  intros W H. revert W. destruct H as [k v name value K V M|a b name value A V M|a b name value A V M|a b x y A V]; intros W; cbn [raw_wf fold_right fst snd] in W.
  - destruct W as (_ & Wv & _). destruct (matchable_new _ M) as (f & F & C & P). exists (ExactMatching f value). cbn [condition_from_raw].
    apply unescape_jstring in K. destruct K as [_ K]. rewrite K. apply text_of_spec in V; [|exact Wv]. rewrite V, F, C.
    cbn [cond_of]. rewrite P. auto.
  - destruct W as (_ & Wa & Wb & _). destruct (matchable_new _ M) as (f & F & C & P). exists (ExactMatching f value). cbn [condition_from_raw].
    rewrite (proj2 (borrowed_spec (RStr (B "eq")) (B "eq"))) by (split; reflexivity).
    change (str_eqb (B "eq") (B "eq") || str_eqb (B "eq") (B "starts-with"))%bool with true. change (str_eqb (B "eq") (B "eq")) with true. cbv iota.
    apply text_of_spec in A; [|exact Wa]. apply text_of_spec in V; [|exact Wb]. rewrite A, strip_prefix_app, F, C, V. cbn [cond_of]. rewrite P. auto.
  - destruct W as (_ & Wa & Wb & _). destruct (matchable_new _ M) as (f & F & C & P). exists (StartsWith f value). cbn [condition_from_raw].
    rewrite (proj2 (borrowed_spec (RStr (B "starts-with")) (B "starts-with"))) by (split; reflexivity).
    change (str_eqb (B "starts-with") (B "eq") || str_eqb (B "starts-with") (B "starts-with"))%bool with true.
    change (str_eqb (B "starts-with") (B "eq")) with false. cbv iota.
    apply text_of_spec in A; [|exact Wa]. apply text_of_spec in V; [|exact Wb]. rewrite A, strip_prefix_app, F, C, V. cbn [cond_of]. rewrite P. auto.
  - exists (ContentLengthRange x y). cbn [condition_from_raw].
    rewrite (proj2 (borrowed_spec (RStr (B "content-length-range")) (B "content-length-range"))) by (split; reflexivity).
    change (str_eqb (B "content-length-range") (B "eq") || str_eqb (B "content-length-range") (B "starts-with"))%bool with false.
    change (str_eqb (B "content-length-range") (B "content-length-range")) with true. cbv iota.
    apply number_of_spec in A, V. rewrite A, V. auto.
Qed.

Lemma conditions_sound l cs : raw_wf (RArr l) -> traverse condition_from_raw l = Some cs -> Forall2 condition_read l (map cond_of cs).
Proof.
  cbn [raw_wf]. intros W T. apply traverse_forall2 in T. induction T as [|r c l cs H T IH]; cbn [map fold_right] in *; constructor.
  - apply condition_sound; [apply W|exact H].
  - apply IH, W.
Qed.

Lemma conditions_complete l cs : raw_wf (RArr l) -> Forall2 condition_read l cs ->
  exists cs', traverse condition_from_raw l = Some cs' /\ map cond_of cs' = cs.
Proof.
  cbn [raw_wf]. intros W T. induction T as [|r c l cs H T IH]; cbn [fold_right] in *; [exists []; auto|].
  destruct (condition_complete r c (proj1 W) H) as (c' & E & P). destruct (IH (proj2 W)) as (cs' & E' & P').
  exists (c' :: cs'). cbn [traverse map]. rewrite E, E', P, P'. auto.
Qed.

Lemma expiration_spec r t : raw_wf r ->
  (expiration_from_raw r = Some t <-> exists text, text_of r text /\ rfc3339_read text t /\ -62167219200 <= t <= 253402300799).
Proof.
  intros W. unfold expiration_from_raw. split.
  - destruct (de_string r) as [text|] eqn:E; [|discriminate]. apply text_of_spec in E; [|exact W].
    destruct (pd_expiration_from_str text) as [[t'|e]|] eqn:P; try discriminate. intros H. injection H as <-.
    exists text. split; [exact E|]. apply (proj1 (proj2 (C59_expiration text))). exact P.
  - intros (text & E & P). apply text_of_spec in E; [|exact W]. rewrite E.
    apply (proj1 (proj2 (C59_expiration text))) in P. rewrite P. reflexivity.
Qed.

(** Exactly these texts are read, as exactly these documents. *)
Theorem C58_read s cs t :
  policy_read s cs t <-> exists p, policy_from_string s = Some p /\ map cond_of (conditions p) = cs /\ pd_expiration p = t.
Proof.
  unfold policy_from_string. split.
  - intros (r & l & e & text & R & St & C & E & X & Ra). pose proof (raw_text_wf _ _ R) as W. apply from_str_raw_spec in R. rewrite R.
    pose proof (struct_of_wf _ _ _ W St) as F. inversion F as [|? ? Wc F1]; subst. inversion F1 as [|? ? We _]; subst.
    apply struct_of_spec in St; [|exact W]. rewrite St. destruct (conditions_complete _ _ Wc C) as (cs' & T & P). rewrite T.
    rewrite (proj2 (expiration_spec e t We)) by (exists text; auto). eexists. split; [reflexivity|]. auto.
  - intros (p & H & <- & <-). destruct (from_str_raw s) as [r|] eqn:R; [|discriminate]. apply from_str_raw_spec in R.
    pose proof (raw_text_wf _ _ R) as W. destruct (de_struct _ r) as [fs|] eqn:St; [|discriminate]. apply struct_of_spec in St; [|exact W].
    destruct fs as [|c [|e [|? ?]]]; try discriminate. destruct c as [| | | |l|]; try discriminate.
    pose proof (struct_of_wf _ _ _ W St) as F. inversion F as [|? ? Wc F1]; subst. inversion F1 as [|? ? We _]; subst.
    destruct (traverse condition_from_raw l) as [cs|] eqn:T; [|discriminate]. destruct (expiration_from_raw e) as [t|] eqn:E; [|discriminate].
    injection H as <-. cbn [conditions pd_expiration]. apply expiration_spec in E; [|exact We]. destruct E as (text & E & X & Ra).
    exists r, l, e, text. split; [exact R|]. split; [exact St|]. split; [apply conditions_sound; assumption|]. auto.
Qed.

(** A document is read in one way only. *)
Theorem C58_unique s cs t cs' t' : policy_read s cs t -> policy_read s cs' t' -> cs = cs' /\ t = t'.
Proof.
  intros H H'. apply C58_read in H, H'. destruct H as (p & E & <- & <-). destruct H' as (p' & E' & <- & <-).
  rewrite E in E'. injection E' as <-. auto.
Qed.

(** Reading is not a function of the JSON value: an escape in the operator makes it fail. *)
Theorem C58_value_refuted : exists s s' j p, json_text j s /\ json_text j s' /\
  policy_from_string s = Some p /\ policy_from_string s' = None.
Proof.
  exists (B "{""conditions"":[[""eq"",""$key"",""a""]],""expiration"":""2020-01-01T00:00:00Z""}").
  exists (B "{""conditions"":[[""\u0065q"",""$key"",""a""]],""expiration"":""2020-01-01T00:00:00Z""}").
  exists (JObj [(B "conditions", JArr [JArr [JStr (B "eq"); JStr (B "$key"); JStr (B "a")]]); (B "expiration", JStr (B "2020-01-01T00:00:00Z"))]).
  exists {| conditions := [ExactMatching FKey (B "a")]; pd_expiration := 1577836800 |}.
  split; [|split; [|split; vm_compute; reflexivity]].
  - apply (proj2 (json_text_raw _ _)). eexists. split; [apply from_str_raw_spec; vm_compute; reflexivity|vm_compute; reflexivity].
  - apply (proj2 (json_text_raw _ _)). eexists. split; [apply from_str_raw_spec; vm_compute; reflexivity|vm_compute; reflexivity].
Qed.

(** White space, other members, objects and arrays. *)
Example C58_case :
  policy_read (B "{ ""x"": [null], ""expiration"": ""2020-01-01 00:00:00+00:00"", ""conditions"": [ {""key"": ""a\u00e9""}, [""content-length-range"", 0, 10] ] }")
    [CEq (B "key") [x61; xc3; xa9]%byte; CRange 0 10] 1577836800 /\
  policy_read (B "[[],""2020-01-01T00:00:00Z""]") [] 1577836800 /\
  (forall cs t, ~ policy_read (B "{""conditions"":[],""conditions"":[],""expiration"":""2020-01-01T00:00:00Z""}") cs t).
Proof.
  split; [|split].
  - apply C58_read. eexists. split; [vm_compute; reflexivity|]. split; vm_compute; reflexivity.
  - apply C58_read. eexists. split; [vm_compute; reflexivity|]. split; vm_compute; reflexivity.
  - intros cs t H. apply C58_read in H. destruct H as (p & E & _). vm_compute in E. discriminate E.
Qed.
