(** Properties of [build_signed_url]: credential and date, and the X-Goog-* parameters (C24, C25, C26). *)
From Coq Require Import Sorted Permutation.
From Verif Require Import Base BaseFacts Utf8 FormUrl FormUrlFacts Sha256 SpecCodec CodecFacts Time TimeFacts SpecCalendar SpecPolicy SpecForm FormFacts
  Effects EffectsFacts Keys Scope Url SignedUrl UrlFacts SpecUrl UrlSpecFacts SpecToken SpecTrace SpecSign SignFacts SignedUrlFacts HeaderFacts
  HtmlForm Calls Demo UrlResult UrlQueryFacts Prop_Url Prop_UrlQuery.
Local Open Scope byte_scope.

(** * C24: credential and date *)

Lemma form_read_in l sig k v : Forall (fun c => In c hex_alphabet) sig -> In (k, v) l ->
  In (pct_decode k, pct_decode v) (form_read (sorted_query l ++ B "&X-Goog-Signature=" ++ sig)).
Proof.
  intros Hs H. apply (Permutation_in _ (Permutation_sym (query_read l sig Hs))). rewrite map_app. apply in_or_app. left.
  apply (in_map decode2) in H. exact H.
Qed.

(** The scope has the day of the signing time, the date parameter has the same day, both are signed, and the credential
    a server reads is the authorizer followed by the scope. *)
Theorem C24_credential d o tr url path query sig : deps_ok d ->
  returns (build_signed_url d o) tr (Ok url) -> url_parts url path query sig ->
  exists t t1 t2 t3 email date day scope digest message s,
    url_time o t t1 /\ tr = t1 ++ t2 ++ t3 /\ authorized (o_signing_key o) t2 email /\
    utc_basic_text (t / 1000000000)%Z date /\ utc_date_text (t / 1000000000)%Z day /\ firstn 8 date = day /\
    scope = day ++ B "/" ++ region_of o ++ B "/storage/goog4_request" /\
    glued [x0a] [B "GOOG4-RSA-SHA256"; date; scope; digest] message /\
    signed d (o_signing_key o) (o_use_sign_blob o) message t3 s /\ hex_of s sig /\
    forall pairs, form_query (query ++ B "&X-Goog-Signature=" ++ sig) pairs ->
      In (B "X-Goog-Date", date) pairs /\
      (utf8_valid email = true -> utf8_valid (region_of o) = true -> plain email -> plain (region_of o) ->
       In (B "X-Goog-Credential", email ++ B "/" ++ scope) pairs).
Proof.
  intros D H P. destruct (url_facts _ _ _ _ _ _ _ D H P) as (t & pre & t1 & t2 & email & block & s & T & -> & A & Y & L & N & Al & _ & _ & -> & -> & Sg).
  exists t, pre, t1, t2, email, (ut_to_iso8601 (t / NS)%Z), (date_to_string (ut_to_date (t / NS)%Z)), (scope_of o (t / NS)%Z). do 3 eexists.
  split; [exact T|]. split; [reflexivity|]. split; [exact A|]. split; [apply iso8601_spec; apply years_ts; exact Y|].
  split; [apply date_utc_spec; apply years_ts; exact Y|]. split; [apply date_prefix_of_iso8601; apply years_ts; exact Y|].
  split; [reflexivity|]. split; [|split; [exact Sg|split; [apply hex_encode_spec|]]].
  { apply glued_iff. unfold message_of. rewrite Al. reflexivity. }
  intros pairs Q. apply form_query_iff in Q. subst pairs.
  assert (I : forall k v, In (k, v) (five d o (t / NS)%Z (lifetime o t) (lowered o) email) ->
    In (pct_decode (utf8_lossy k), pct_decode (utf8_lossy v)) (form_read (sorted_query (pairs_of d o (t / NS)%Z (lifetime o t) (lowered o) email) ++ B "&X-Goog-Signature=" ++ hex_encode s))).
  { intros k v Hk. apply form_read_in; [apply hex_sig|]. unfold pairs_of. apply in_or_app. right. rewrite map_app. apply in_or_app. right.
    apply (in_map lossy2) in Hk. exact Hk. }
  assert (X : forall s, forallb date_byte s = true -> pct_decode (utf8_lossy s) = s).
  { intros x Hx. rewrite clear_lossy by (apply date_clear; exact Hx). apply plain_unescaped; [apply plain_date; exact Hx|apply unescaped_iff; reflexivity]. }
  split.
  - assert (J : In (B "X-Goog-Date", ut_to_iso8601 (t / NS)%Z) (five d o (t / NS)%Z (lifetime o t) (lowered o) email)) by (right; right; left; reflexivity).
    apply I in J. rewrite (X (ut_to_iso8601 _)) in J by (apply iso_bytes; exact Y). exact J.
  - intros Em R Pe Pr.
    assert (J : In (B "X-Goog-Credential", replace_slash (email ++ B "/" ++ scope_of o (t / NS)%Z)) (five d o (t / NS)%Z (lifetime o t) (lowered o) email)) by (right; left; reflexivity).
    apply I in J.
    assert (V : utf8_valid (replace_slash (email ++ B "/" ++ scope_of o (t / NS)%Z)) = true).
    { apply replace_slash_valid. rewrite utf8_valid_app by exact Em. change (B "/" ++ ?x) with ("/" :: x). rewrite utf8_valid_cons by reflexivity.
      unfold scope_of. rewrite utf8_valid_app.
      2: { apply utf8_valid_ascii. apply Forall_forall. intros b Hb. pose proof (day_bytes t) as F. apply date_clear in F. rewrite forallb_forall in F. specialize (F b Hb).
        apply andb_true_iff in F. destruct F as [F _]. apply N.ltb_lt in F. exact F. }
      change (B "/" ++ ?x) with ("/" :: x). rewrite utf8_valid_cons by reflexivity. rewrite utf8_valid_app by exact R. reflexivity. }
    rewrite (utf8_lossy_valid_id _ V) in J. rewrite replace_slash_decode in J.
    assert (Pl : plain (email ++ B "/" ++ scope_of o (t / NS)%Z)).
    { apply (plain_join email "/" (scope_of o (t / NS)%Z)); [discriminate|reflexivity|]. split; [exact Pe|]. eapply plain_scope; [apply scope_spec; exact Y|exact Pr]. }
    assert (E : pct_decode (email ++ B "/" ++ scope_of o (t / NS)%Z) = email ++ B "/" ++ scope_of o (t / NS)%Z) by (apply plain_unescaped; [exact Pl|apply unescaped_iff; reflexivity]).
    rewrite E in J. exact J.
Qed.

Example C24_case : exists url path query sig, returns (build_signed_url demo_deps demo_query) [] (Ok url) /\ url_parts url path query sig /\
  authorized (o_signing_key demo_query) [] (B "sa@example.com") /\ utf8_valid (B "sa@example.com") = true /\ plain (B "sa@example.com") /\
  utf8_valid (region_of demo_query) = true /\ plain (region_of demo_query) /\ region_of demo_query <> B "auto".
Proof.
  destruct (demo_success demo_query eq_refl eq_refl eq_refl) as [s R]; [vm_compute; reflexivity|]. do 4 eexists. split; [exact R|]. split; [apply url_parts_of|].
  split; [constructor|]. split; [reflexivity|]. split; [apply plain_iff; reflexivity|]. split; [reflexivity|]. split; [apply plain_iff; reflexivity|discriminate].
Qed.

(** * C25: components of the scope *)

Lemma components_glued l n s : components s n -> l <> [] -> Forall (fun p => ~ In "/" p) l -> forall a, ~ In "/" a ->
  components (a ++ B "/" ++ s ++ B "/" ++ join (B "/") l) (S (n + length l)).
Proof.
  intros (r & Nr & G & F & <-) Nl Fl a Ha. apply glued_iff in G. subst s. exists (a :: r ++ l). split; [discriminate|]. split; [|split].
  - apply glued_iff. rewrite (join_app _ [a] (r ++ l)); [|discriminate|]. 2: { destruct r; [contradiction|discriminate]. }
    rewrite join_app by assumption. reflexivity.
  - constructor; [exact Ha|]. apply Forall_app. split; assumption.
  - cbn [length]. rewrite app_length. reflexivity.
Qed.

Lemma components_unique s n m : components s n -> components s m -> n = m.
Proof.
  intros (l & N & G & F & <-) (l' & N' & G' & F' & <-). apply glued_iff in G, G'.
  rewrite <- (split_on_join "/" l), <- (split_on_join "/" l') by assumption. change ["/"] with (B "/"). congruence.
Qed.

(** A region of [n] components gives a scope of [n + 3]; a region without slash gives the required four. *)
Theorem C25_components d o tr url path query sig n : deps_ok d ->
  returns (build_signed_url d o) tr (Ok url) -> url_parts url path query sig -> components (region_of o) n ->
  exists t t1 t2 t3 date scope digest message s,
    url_time o t t1 /\ tr = t1 ++ t2 ++ t3 /\
    scope_text (t / 1000000000)%Z (region_of o) scope /\ components scope (n + 3) /\
    glued [x0a] [B "GOOG4-RSA-SHA256"; date; scope; digest] message /\
    signed d (o_signing_key o) (o_use_sign_blob o) message t3 s /\ hex_of s sig.
Proof.
  intros D H P C. destruct (C24_credential _ _ _ _ _ _ _ D H P) as (t & t1 & t2 & t3 & email & date & day & scope & digest & message & s & T & E & _ & _ & Dy & _ & Sc & G & Sg & X & _).
  exists t, t1, t2, t3, date, scope, digest, message, s. split; [exact T|]. split; [exact E|]. split; [|split; [|split; [exact G|split; [exact Sg|exact X]]]].
  - exists day. split; [exact Dy|]. apply glued_iff. subst scope. reflexivity.
  - subst scope. replace (n + 3)%nat with (S (n + length [B "storage"; B "goog4_request"])) by (cbn [length]; lia).
    apply (components_glued [B "storage"; B "goog4_request"] n (region_of o) C); [discriminate| |].
    + repeat (constructor; [apply (forallb_not_in (fun c => negb (beq c "/"))); reflexivity|]). constructor.
    + apply (forallb_not_in date_byte); [reflexivity|]. eapply date_bytes. exact Dy.
Qed.

Theorem C25_four d o tr url path query sig : deps_ok d ->
  returns (build_signed_url d o) tr (Ok url) -> url_parts url path query sig -> ~ In "/" (region_of o) ->
  exists t t1 t2 t3 date scope digest message s,
    url_time o t t1 /\ tr = t1 ++ t2 ++ t3 /\
    scope_text (t / 1000000000)%Z (region_of o) scope /\ components scope 4 /\
    glued [x0a] [B "GOOG4-RSA-SHA256"; date; scope; digest] message /\
    signed d (o_signing_key o) (o_use_sign_blob o) message t3 s /\ hex_of s sig.
Proof.
  intros D H P N. apply (C25_components d o tr url path query sig 1 D H P). exists [region_of o]. split; [discriminate|]. split; [constructor|].
  split; [constructor; [exact N|constructor]|reflexivity].
Qed.

(** A slash in the region is accepted; the credential then has six components instead of five. *)
Definition demo_region : url_options := demo_url_with (B "bucket1") (B "a") (Some (B "us/x")) [] [] demo_account false.
Example C25_case : (exists url path query sig, returns (build_signed_url demo_deps demo_region) [] (Ok url) /\ url_parts url path query sig) /\
  components (region_of demo_region) 2 /\ ~ In "/" (region_of demo_query).
Proof.
  split; [|split].
  - destruct (demo_success demo_region eq_refl eq_refl eq_refl) as [s R]; [vm_compute; reflexivity|]. do 4 eexists. split; [exact R|apply url_parts_of].
  - exists [B "us"; B "x"]. split; [discriminate|]. split; [apply glued_iff; reflexivity|]. split; [|reflexivity].
    repeat (constructor; [apply (forallb_not_in (fun c => negb (beq c "/"))); reflexivity|]). constructor.
  - apply (forallb_not_in (fun c => negb (beq c "/"))); reflexivity.
Qed.
Theorem C25_refuted : ~ (forall d o tr url path query sig pairs credential t2 email, deps_ok d ->
  returns (build_signed_url d o) tr (Ok url) -> url_parts url path query sig -> o_query_parameters o = [] -> ~ In "?" (requested o) ->
  authorized (o_signing_key o) t2 email -> ~ In "/" email ->
  form_query (query ++ B "&X-Goog-Signature=" ++ sig) pairs -> In (B "X-Goog-Credential", credential) pairs -> components credential 5).
Proof.
  intros H. destruct (demo_success demo_region eq_refl eq_refl eq_refl) as [s R]; [vm_compute; reflexivity|].
  destruct (C24_credential _ _ _ _ _ _ _ demo_deps_ok R (url_parts_of _ _ _ _)) as (t & t1 & t2 & t3 & email & date & day & scope & digest & message & s' & T & E & A & _ & Dy & _ & Sc & _ & _ & _ & G).
  destruct (G _ (proj2 (form_query_iff _ _) eq_refl)) as [_ G'].
  assert (t2 = [] /\ email = B "sa@example.com") as [-> ->] by (inversion A; subst; split; reflexivity).
  specialize (G' eq_refl eq_refl ltac:(apply plain_iff; reflexivity) ltac:(apply plain_iff; reflexivity)).
  specialize (H demo_deps demo_region _ _ _ _ _ _ _ _ _ demo_deps_ok R (url_parts_of _ _ _ _) eq_refl ltac:(apply (forallb_not_in (fun c => negb (beq c "?"))); reflexivity) A
    ltac:(apply (forallb_not_in (fun c => negb (beq c "/"))); reflexivity) (proj2 (form_query_iff _ _) eq_refl) G').
  assert (C : components (B "sa@example.com" ++ B "/" ++ scope) 6).
  { exists [B "sa@example.com"; day; B "us"; B "x"; B "storage"; B "goog4_request"]. split; [discriminate|]. split; [apply glued_iff; subst scope; cbn [join]; rewrite <- ?app_assoc; reflexivity|].
    split; [|reflexivity]. repeat (constructor; [first [apply (forallb_not_in (fun c => negb (beq c "/"))); reflexivity|apply (forallb_not_in date_byte); [reflexivity|eapply date_bytes; exact Dy]]|]). constructor. }
  pose proof (components_unique _ _ _ H C). discriminate.
Qed.

(** * C26: the parameters of the library *)

Lemma occurrences_perm name a b : Permutation a b -> occurrences name a = occurrences name b.
Proof.
  unfold occurrences. induction 1 as [|x a b P IH|x y a|a b c P1 IH1 P2 IH2]; [reflexivity| | |congruence]; cbn [filter].
  - destruct (str_eqb (fst x) name); cbn [length]; congruence.
  - destruct (str_eqb (fst x) name), (str_eqb (fst y) name); reflexivity.
Qed.
Lemma occurrences_app name a b : occurrences name (a ++ b) = (occurrences name a + occurrences name b)%nat.
Proof. unfold occurrences. rewrite filter_app, app_length. reflexivity. Qed.
Lemma occurrences_none name l : Forall (fun kv => fst kv <> name) l -> occurrences name l = 0%nat.
Proof.
  unfold occurrences. induction 1 as [|kv l H F IH]; [reflexivity|]. cbn [filter]. destruct (str_eqb_spec (fst kv) name); [contradiction|exact IH].
Qed.

(** If no other parameter has such a name, not even after unescaping, each occurs once. *)
Theorem C26_once d o tr url path query sig own : deps_ok d ->
  returns (build_signed_url d o) tr (Ok url) -> url_parts url path query sig ->
  own_parameters (requested o) own -> Forall valid_pair (own ++ o_query_parameters o) -> utf8_valid (region_of o) = true ->
  (forall kv name, In kv (own ++ o_query_parameters o) -> unescaped (fst kv) name -> ~ In name goog_names) ->
  exists t t1 t2 t3 email, url_time o t t1 /\ tr = t1 ++ t2 ++ t3 /\ authorized (o_signing_key o) t2 email /\
    (utf8_valid email = true -> forall pairs name, form_query (query ++ B "&X-Goog-Signature=" ++ sig) pairs ->
      In name goog_names -> occurrences name pairs = 1%nat).
Proof.
  intros D H P O F R C. destruct (C17_read _ _ _ _ _ _ _ _ D H P O F R) as (t & t1 & t2 & t3 & email & date & scope & expires & names & nt & T & E & A & _ & _ & _ & _ & _ & G).
  exists t, t1, t2, t3, email. split; [exact T|]. split; [exact E|]. split; [exact A|]. intros Em pairs name Q Hn. destruct (G Em) as (pairs' & read & Q' & Pm & U).
  rewrite (form_query_unique _ _ _ Q Q'), (occurrences_perm _ _ _ Pm). clear Q Q' Pm G. rewrite app_assoc in U. apply Forall2_app_inv_l in U. destruct U as (r1 & r2 & U1 & U2 & ->).
  rewrite occurrences_app, occurrences_none.
  - cbn [Nat.add]. unfold required_parameters in U2. cbn [app] in U2.
    repeat match goal with X : Forall2 _ (_ :: _) _ |- _ => inversion X as [|? [? ?] ? ? [?K _] ?X']; subst; clear X; cbn [fst] in * end.
    match goal with X : Forall2 _ [] _ |- _ => inversion X; subst end.
    repeat match goal with K : unescaped (B _) _ |- _ => apply unescaped_iff in K; vm_compute in K; subst end.
    unfold goog_names in Hn. cbn [map In] in Hn. repeat (destruct Hn as [<-|Hn]; [reflexivity|]). contradiction.
  - assert (W : forall l r, Forall2 unescaped_pair l r -> (forall kv name, In kv l -> unescaped (fst kv) name -> ~ In name goog_names) -> Forall (fun kv => fst kv <> name) r).
    { clear - Hn. induction 1 as [|x y l r [K _] U IH]; intros C; constructor.
      - intros E. apply (C x (fst y)); [left; reflexivity|exact K|rewrite E; exact Hn].
      - apply IH. intros kv n I. apply C. right. exact I. }
    exact (W _ _ U1 C).
Qed.

Example C26_case : exists url path query sig own, returns (build_signed_url demo_deps demo_query) [] (Ok url) /\ url_parts url path query sig /\
  own_parameters (requested demo_query) own /\ Forall valid_pair (own ++ o_query_parameters demo_query) /\ utf8_valid (region_of demo_query) = true /\
  (forall kv name, In kv (own ++ o_query_parameters demo_query) -> unescaped (fst kv) name -> ~ In name goog_names).
Proof.
  destruct C16_case as (_ & (url & path & query & sig & R & P) & O & V & Rg & _). exists url, path, query, sig. eexists. split; [exact R|]. split; [exact P|].
  split; [exact O|]. split; [exact V|]. split; [exact Rg|]. intros kv name I U. apply unescaped_iff in U. subst name.
  revert kv I. apply Forall_forall. repeat (constructor; [vm_compute; intros X; repeat (destruct X as [X|X]; [discriminate X|]); exact X|]). constructor.
Qed.

(** Otherwise the caller's parameter is emitted as well, also with the name written with an escape. *)
Definition demo_twice (name : str) : url_options := demo_url_with (B "bucket1") (B "a") None [] [(name, B "999999")] demo_account false.
Theorem C26_refuted : ~ (forall d o tr url path query sig pairs name, deps_ok d -> returns (build_signed_url d o) tr (Ok url) -> url_parts url path query sig ->
  form_query (query ++ B "&X-Goog-Signature=" ++ sig) pairs -> In name goog_names -> occurrences name pairs = 1%nat).
Proof.
  intros H. destruct (demo_success (demo_twice (B "X-Goog-Expires")) eq_refl eq_refl eq_refl) as [s R]; [vm_compute; reflexivity|].
  specialize (H _ _ _ _ _ _ _ _ (B "X-Goog-Expires") demo_deps_ok R (url_parts_of _ _ _ _) (proj2 (form_query_iff _ _) eq_refl) ltac:(do 3 right; left; reflexivity)).
  rewrite (occurrences_perm _ _ _ (query_read _ _ (hex_sig s))), map_app, occurrences_app in H. vm_compute in H. discriminate H.
Qed.

(** Every one of the six names can be doubled, also in escaped form. *)
Theorem C26_witnesses : forall name, In name goog_names -> forall spelling, In spelling [name; B "%58" ++ skipn 1 name] ->
  exists url path query sig pairs, returns (build_signed_url demo_deps (demo_twice spelling)) [] (Ok url) /\ url_parts url path query sig /\
    form_query (query ++ B "&X-Goog-Signature=" ++ sig) pairs /\ occurrences name pairs = 2%nat.
Proof.
  intros name Hn spelling Hs.
  assert (R : demo_ready (demo_twice spelling) = true /\ (forall sig, occurrences name (map decode2 (pairs_of demo_deps (demo_twice spelling) (demo_time / NS)%Z (lifetime (demo_twice spelling) demo_time) (lowered (demo_twice spelling)) (B "sa@example.com") ++ [(B "X-Goog-Signature", sig)])) = 2%nat)).
  { cbn [In] in Hs. unfold goog_names in Hn. cbn [map In] in Hn.
    repeat (destruct Hn as [<-|Hn]; [destruct Hs as [<-|[<-|[]]]; (split; [vm_compute; reflexivity|]); intros sig; rewrite map_app, occurrences_app; vm_compute; reflexivity|]). contradiction. }
  destruct R as [R1 R2]. destruct (demo_success (demo_twice spelling) eq_refl eq_refl eq_refl R1) as [s R]. do 5 eexists. split; [exact R|]. split; [apply url_parts_of|].
  split; [apply form_query_iff; reflexivity|]. rewrite (occurrences_perm _ _ _ (query_read _ _ (hex_sig s))). apply R2.
Qed.
