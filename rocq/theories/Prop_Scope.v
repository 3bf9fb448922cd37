(** C50: credential scopes. *)
From Verif Require Import Base BaseFacts Time TimeFacts Scope.

(** A scope exists exactly for the two matching pairs and keeps its parts. *)
Theorem C50_new d l s r :
  (exists c, credential_scope_new d l s r = Some c) <->
  (service_str s = B "storage" /\ request_type_str r = B "goog4_request") \/
  (service_str s = B "s3" /\ request_type_str r = B "aws4_request").
Proof.
  destruct s, r; cbn; split; intros H; try (left; split; reflexivity); try (right; split; reflexivity);
    try (eexists; reflexivity); try (destruct H as [? H]; discriminate H);
    destruct H as [[H1 H2]|[H1 H2]]; discriminate.
Qed.

Theorem C50_text d l s r c : credential_scope_new d l s r = Some c ->
  credential_scope_to_string c =
  join (B "/") [date_to_string d; l; service_str s; request_type_str r].
Proof.
  destruct s, r; cbn [credential_scope_new]; intros H; try discriminate H; injection H as <-;
    unfold credential_scope_to_string; cbn [cs_date cs_location cs_service cs_request_type join]; reflexivity.
Qed.

Lemma date_to_string_inj a b : date_to_string a = date_to_string b -> a = b.
Proof.
  unfold date_to_string. intros E.
  pose proof (undec_pad0 8 _ _ (undec_dec a)) as Ha. pose proof (undec_pad0 8 _ _ (undec_dec b)) as Hb.
  rewrite E in Ha. congruence.
Qed.

Lemma date_no_slash d : ~ In "/"%byte (date_to_string d).
Proof.
  intros H. pose proof (pad0_digits 8 (dec d) (dec_digits d)) as F. rewrite Forall_forall in F.
  apply F in H. discriminate H.
Qed.

(** Without '/' in the locations, the text determines the scope. *)
Theorem C50_injective d1 l1 s1 r1 c1 d2 l2 s2 r2 c2 :
  credential_scope_new d1 l1 s1 r1 = Some c1 -> credential_scope_new d2 l2 s2 r2 = Some c2 ->
  ~ In "/"%byte l1 -> ~ In "/"%byte l2 ->
  credential_scope_to_string c1 = credential_scope_to_string c2 -> c1 = c2.
Proof.
  intros H1 H2 N1 N2 E. rewrite (C50_text _ _ _ _ _ H1), (C50_text _ _ _ _ _ H2) in E. cbn [join] in E.
  assert (G : forall a b x y, ~ In "/"%byte a -> ~ In "/"%byte b -> a ++ B "/" ++ x = b ++ B "/" ++ y -> a = b /\ x = y).
  { clear. intros a b x y Ha Hb E. pose proof (split_once_app "/"%byte a x Ha) as A1.
    pose proof (split_once_app "/"%byte b y Hb) as A2. change (B "/" ++ x) with ("/"%byte :: x) in E.
    change (B "/" ++ y) with ("/"%byte :: y) in E. rewrite E in A1. rewrite A1 in A2. injection A2; auto. }
  apply G in E; [|apply date_no_slash|apply date_no_slash]. destruct E as [Ed E]. apply date_to_string_inj in Ed.
  apply G in E; [|assumption|assumption]. destruct E as [El E]. subst.
  destruct s1, r1, s2, r2; cbn in H1, H2, E; try discriminate; congruence.
Qed.

Example C50_example : exists c, credential_scope_new 20200101 (B "us-central1") Storage Goog4Request = Some c
  /\ credential_scope_to_string c = B "20200101/us-central1/storage/goog4_request"
  /\ ~ In "/"%byte (B "us-central1").
Proof.
  eexists. split; [reflexivity|]. split; [reflexivity|]. cbn. intros H.
  repeat (destruct H as [H|H]; [discriminate H|]). exact H.
Qed.
