(** The behaviour of [build_signed_url] in closed form. *)
From Coq Require Import Sorted Permutation.
From Verif Require Import Base BaseFacts Utf8 FormUrl FormUrlFacts Sha256 SpecCodec CodecFacts Time TimeFacts SpecCalendar SpecPolicy SpecForm
  Effects EffectsFacts Keys Scope Url SignedUrl UrlFacts SpecUrl UrlSpecFacts SpecToken SpecTrace SpecSign SignFacts.
Local Open Scope byte_scope.

(** * Programs equal at every response *)

Inductive peq {A} : prog A -> prog A -> Prop :=
| pq_ret a : peq (Ret a) (Ret a)
| pq_panic s : peq (Panic s) (Panic s)
| pq_act e k k' : (forall r, peq (k r) (k' r)) -> peq (Act e k) (Act e k').

Lemma peq_refl {A} (p : prog A) : peq p p.
Proof. induction p; constructor; auto. Qed.

Lemma peq_sym {A} (p q : prog A) : peq p q -> peq q p.
Proof. induction 1; constructor; auto. Qed.

Lemma peq_bind {A C} (p p' : prog A) (f f' : A -> prog C) : peq p p' -> (forall a, peq (f a) (f' a)) -> peq (bind p f) (bind p' f').
Proof. intros H Hf. induction H; cbn [bind]; [apply Hf|constructor|constructor; assumption]. Qed.

Lemma peq_bind_ok {A C E F} (g : E -> F) (p p' : prog (res A E)) (f f' : A -> prog (res C F)) :
  peq p p' -> (forall a, peq (f a) (f' a)) -> peq (bind_ok g p f) (bind_ok g p' f').
Proof. intros H Hf. apply peq_bind; [exact H|]. intros [a|e]; [apply Hf|apply peq_refl]. Qed.

Lemma peq_steps {A} (p q : prog A) tr p' : peq p q -> steps p tr p' -> exists q', steps q tr q' /\ peq p' q'.
Proof.
  intros H. revert tr p'. induction H as [a|s|e k k' H IH]; intros tr p' S.
  - apply steps_ret in S. destruct S as [-> ->]. eexists. split; constructor.
  - apply steps_panic in S. destruct S as [-> ->]. eexists. split; constructor.
  - apply steps_act_inv in S. destruct S as [[-> ->]|(r & tr' & -> & S)].
    + eexists. split; [constructor|constructor; exact H].
    + destruct (IH r tr' p' S) as (q' & S' & H'). exists q'. split; [constructor; exact S'|exact H'].
Qed.

Lemma peq_returns {A} (p q : prog A) tr a : peq p q -> (returns p tr a <-> returns q tr a).
Proof.
  assert (G : forall p q : prog A, peq p q -> returns p tr a -> returns q tr a).
  { intros x y H S. destruct (peq_steps _ _ _ _ H S) as (q' & S' & H'). remember (Ret a) as z eqn:E. destruct H'; try discriminate E. rewrite E in S'. exact S'. }
  intros H. split; apply G; [exact H|apply peq_sym; exact H].
Qed.

Lemma peq_panics {A} (p q : prog A) tr s : peq p q -> (panics p tr s <-> panics q tr s).
Proof.
  assert (G : forall p q : prog A, peq p q -> panics p tr s -> panics q tr s).
  { intros x y H S. destruct (peq_steps _ _ _ _ H S) as (q' & S' & H'). remember (Panic s) as z eqn:E. destruct H'; try discriminate E. rewrite E in S'. exact S'. }
  intros H. split; apply G; [exact H|apply peq_sym; exact H].
Qed.

(** * The parts of the result *)

Section Parts.
Context (d : deps) (o : url_options).

Definition path_of : str := u_path (url_parse d (requested o)).
Definition own_query : str := raw_query (url_parse d (requested o)).
Definition own_pairs : list (str * str) := form_parse own_query.
Definition request_headers (hs : list (str * str)) : list (str * str) := (B "host", B "storage.googleapis.com") :: hs.
Definition names_of (hs : list (str * str)) : str :=
  join (B ";") (bset_of_list (map (fun kv => lower_str (fst kv)) (d_hm_iter d (request_headers hs)))).
Definition block_of (hs : list (str * str)) : option str :=
  match collect_headers (d_hm_iter d (request_headers hs)) [] with
  | None => None
  | Some m => Some (join [x0a] (map (fun nv => fst nv ++ B ":" ++ join (B ",") (snd nv)) m))
  end.
Definition scope_of (now : Z) : str :=
  date_to_string (date_from_unix_timestamp now) ++ B "/" ++ region_of o ++ B "/" ++ B "storage" ++ B "/" ++ B "goog4_request".
Definition five (now secs : Z) (hs : list (str * str)) (email : str) : list (str * str) := [
  (B "X-Goog-Algorithm", algorithm_str (key_algorithm (o_signing_key o)));
  (B "X-Goog-Credential", replace_slash (email ++ B "/" ++ scope_of now));
  (B "X-Goog-Date", ut_to_iso8601 now);
  (B "X-Goog-Expires", expiration_to_string secs);
  (B "X-Goog-SignedHeaders", names_of hs)].
Definition query_before : str := fold_left append_pair (o_query_parameters o) own_query.
Definition query_after (now secs : Z) (hs : list (str * str)) (email : str) : str :=
  fold_left append_pair (five now secs hs email) query_before.
Definition pairs_of (now secs : Z) (hs : list (str * str)) (email : str) : list (str * str) :=
  own_pairs ++ map lossy2 (o_query_parameters o ++ five now secs hs email).
Definition enc_pair (kv : str * str) : str := percent_encode (fst kv) ++ B "=" ++ percent_encode (snd kv).
Definition sorted_query (l : list (str * str)) : str := join (B "&") (str_sort (map enc_pair l)).
Definition canonical_of (verb : http_verb) (query block names : str) : str :=
  join [x0a] [http_verb_str verb; percent_encode path_of; query; block; []; names; B "UNSIGNED-PAYLOAD"].
Definition message_of (now : Z) (canonical : str) : str :=
  join [x0a] [algorithm_str (key_algorithm (o_signing_key o)); ut_to_iso8601 now; scope_of now; sha256_digest canonical].
Definition url_of (query : str) (sig : str) : str :=
  origin ++ path_of ++ B "?" ++ query ++ B "&X-Goog-Signature=" ++ hex_encode sig.

(** What follows the authorizer lookup. *)
Definition sign_step (now secs : Z) (verb : http_verb) (hs : list (str * str)) (email : str) : prog (res str signed_url_error) :=
  if too_long path_of (query_after now secs hs email) [] then Panic PUri
  else match block_of hs with
  | None => Ret (Err CanonicalRequestError)
  | Some block =>
      let query := sorted_query (pairs_of now secs hs email) in
      bind_ok UrlSigning (sign d (o_signing_key o) (o_use_sign_blob o) (message_of now (canonical_of verb query block (names_of hs))))
        (fun sig => Ret (Ok (url_of query sig)))
  end.

Definition run_valid (now secs : Z) (verb : http_verb) (hs : list (str * str)) : prog (res str url_error) :=
  bind_ok UrlSignedUrl (bind_ok UrlSigning (authorizer d (o_signing_key o)) (sign_step now secs verb hs)) (fun s => Ret (Ok s)).

Lemma query_before_ok : forallb query_byte query_before = true.
Proof. apply append_pairs_bytes. apply url_parse_ok. Qed.
Lemma query_after_ok now secs hs email : forallb query_byte (query_after now secs hs email) = true.
Proof. apply append_pairs_bytes. exact query_before_ok. Qed.
Lemma path_of_ok : path_ok (d_path_caret d) path_of.
Proof. apply url_parse_ok. Qed.

Lemma pairs_of_parse now secs hs email : form_parse (query_after now secs hs email) = pairs_of now secs hs email.
Proof.
  unfold query_after, query_before, pairs_of, own_pairs. rewrite <- fold_left_app. apply form_parse_fold.
Qed.

Definition the_scope (now : Z) : credential_scope := {|
  cs_date := date_from_unix_timestamp now; cs_location := region_of o; cs_service := Storage; cs_request_type := Goog4Request |}.

Lemma signed_url_new_eq now secs verb hs :
  peq (signed_url_new d (the_scope now) now secs {| hr_method := verb; hr_uri := {| uri_path := path_of; uri_query := Some query_before |};
         hr_headers := request_headers hs |} (o_signing_key o) (o_use_sign_blob o))
      (bind_ok UrlSigning (authorizer d (o_signing_key o)) (sign_step now secs verb hs)).
Proof.
  unfold signed_url_new. apply peq_bind_ok; [apply peq_refl|]. intros email.
  change (negb (existsb (fun h => str_eqb (fst h) (B "host")) (hr_headers _))) with false. cbv iota zeta.
  unfold add_required_params. cbn [hr_uri hr_method hr_headers]. rewrite url_parse_again by (first [exact path_of_ok|exact query_before_ok]).
  unfold append_pairs. cbn [u_path u_query u_fragment unwrap_or]. unfold url_rest. cbn [u_path u_query u_fragment].
  match goal with |- context [fold_left append_pair ?l query_before] => change (fold_left append_pair l query_before) with (query_after now secs hs email) end.
  pose proof (uri_parse_url _ _ _ None path_of_ok (query_after_ok now secs hs email)) as U. cbn iota in U.
  cbn [app]. rewrite U. unfold sign_step. destruct (too_long _ _ _); [apply peq_refl|].
  unfold canonical_request, canonical_headers. cbn [hr_uri hr_method hr_headers uri_path uri_query unwrap_or].
  unfold block_of. destruct (collect_headers _ _) as [m|]; [|apply peq_refl].
  unfold canonical_query_string. cbn [hr_uri uri_query unwrap_or]. rewrite pairs_of_parse. apply peq_refl.
Qed.

End Parts.

(** * Validation *)

Lemma valid_header_iff d h : valid_header d h <-> header_name_from_bytes d (fst h) = Some (ascii_lower (fst h)).
Proof.
  unfold valid_header, header_name_from_bytes. destruct (fst h) as [|c n]; [split; [intros [H _]; congruence|discriminate]|].
  destruct (N.ltb_spec 65535 (N.of_nat (length (c :: n)))) as [L|L]; [split; [intros (_ & H & _); lia|discriminate]|].
  destruct (forallb _ (c :: n)) eqn:F.
  - split; [reflexivity|]. intros _. split; [discriminate|]. split; [exact L|]. apply Forall_forall. intros x Hx.
    rewrite forallb_forall in F. apply header_name_byte_iff. auto.
  - split; [|discriminate]. intros (_ & _ & H). exfalso. assert (G : forallb (header_name_byte (d_quote_in_header_name d)) (c :: n) = true).
    { apply forallb_forall. intros x Hx. rewrite Forall_forall in H. apply header_name_byte_iff. auto. }
    congruence.
Qed.

Lemma header_name_cases d (h : str * str) : header_name_from_bytes d (fst h) = Some (ascii_lower (fst h)) \/ header_name_from_bytes d (fst h) = None.
Proof.
  unfold header_name_from_bytes. destruct (fst h); [auto|]. destruct (N.ltb _ _); [auto|]. destruct (forallb _ _); auto.
Qed.

Lemma valid_value_iff h : valid_value h <-> header_value_ok (snd h) = true.
Proof.
  unfold valid_value, header_value_ok. rewrite forallb_forall, Forall_forall. split; intros H c Hc; specialize (H c Hc).
  - destruct H as [[H1 H2]| ->]; [|rewrite orb_comm; reflexivity]. apply N.leb_le in H1. apply N.eqb_neq in H2. rewrite H1, H2. reflexivity.
  - apply orb_true_iff in H. destruct H as [H|H]; [left|right; apply beq_eq; exact H]. apply andb_true_iff in H. destruct H as [H1 H2].
    apply N.leb_le in H1. apply negb_true_iff in H2. apply N.eqb_neq in H2. auto.
Qed.

Lemma convert_headers_spec d hs :
  match convert_headers d hs with
  | Ok l => Forall (fun h => valid_header d h /\ valid_value h) hs /\ l = map (fun h => (ascii_lower (fst h), snd h)) hs
  | Err e => exists before h after, hs = before ++ h :: after /\ Forall (fun h => valid_header d h /\ valid_value h) before /\
      (~ valid_header d h /\ e = UrlInvalidHeaderName \/ valid_header d h /\ ~ valid_value h /\ e = UrlInvalidHeaderValue)
  end.
Proof.
  induction hs as [|[k v] hs IH]; cbn [convert_headers]; [split; [constructor|reflexivity]|].
  pose proof (valid_header_iff d (k, v)) as V. cbn [fst] in V.
  destruct (header_name_cases d (k, v)) as [E|E]; cbn [fst] in E; rewrite E.
  2:{ exists [], (k, v), hs. split; [reflexivity|]. split; [constructor|]. left. split; [|reflexivity]. rewrite V, E. discriminate. }
  apply V in E. pose proof (valid_value_iff (k, v)) as W. cbn [snd] in W. destruct (header_value_ok v).
  2:{ exists [], (k, v), hs. split; [reflexivity|]. split; [constructor|]. right. split; [exact E|]. split; [rewrite W; discriminate|reflexivity]. }
  assert (Ev : valid_value (k, v)) by (apply W; reflexivity).
  destruct (convert_headers d hs) as [l|e].
  - destruct IH as [F ->]. split; [constructor; auto|reflexivity].
  - destruct IH as (b & h & a & -> & F & H). exists ((k, v) :: b), h, a. split; [reflexivity|]. split; [constructor; auto|exact H].
Qed.

Lemma verb_known s : match http_verb_from_str s with Some v => In s methods /\ http_verb_str v = s | None => ~ In s methods end.
Proof.
  unfold http_verb_from_str.
  repeat match goal with |- context [str_eqb s ?x] => destruct (str_eqb_spec s x) as [->|]; [split; [cbn; tauto|reflexivity]|] end.
  unfold methods. cbn [map In]. intuition congruence.
Qed.

Lemma in_years_time t : in_years t <-> ut_from_system_time t = Some (t / NS)%Z.
Proof.
  rewrite ut_from_system_time_spec. unfold in_years, NS. intuition reflexivity.
Qed.

Lemma target_length d o : N.of_nat (length (target d o)) =
  N.of_nat (length (origin ++ path_of d o ++ "?" :: query_before d o ++ fragment_text (url_parse d (requested o)))).
Proof. reflexivity. Qed.

Lemma ordered_iff o t : ordered o t <-> exists dur, duration_since (o_expires o) t = Some dur /\ i64_try_from (as_secs dur) = Some (lifetime o t).
Proof.
  unfold ordered, duration_since, i64_try_from, as_secs, lifetime, two63, NS. split.
  - intros H. exists (o_expires o - t)%Z. destruct (Z.leb_spec t (o_expires o)); [|lia]. split; [reflexivity|].
    destruct (Z.ltb_spec ((o_expires o - t) / 1000000000) 9223372036854775808); [reflexivity|]. exfalso.
    assert ((o_expires o - t) / 1000000000 < 9223372036854775808)%Z by (apply Z.div_lt_upper_bound; lia). lia.
  - intros (dur & H1 & H2). destruct (Z.leb_spec t (o_expires o)); [|discriminate H1]. injection H1 as <-. split; [lia|].
    destruct (Z.ltb_spec ((o_expires o - t) / 1000000000) 9223372036854775808) as [L|L]; [|discriminate H2].
    pose proof (Z.mul_succ_div_gt (o_expires o - t) 1000000000). lia.
Qed.

Lemma build_cases d o t :
  (exists e, url_violation d o t e /\ build_signed_url_at d o t = Ret (Err e)) \/
  (in_years t /\ ordered o t /\ method_known o /\ fits d o /\ headers_valid d o /\ d_hm_overflow d (lowered o) = true /\
     build_signed_url_at d o t = Panic PHeaderMap) \/
  (url_valid d o t /\ exists verb, http_verb_str verb = o_http_method o /\
     peq (build_signed_url_at d o t) (run_valid d o (t / NS) (lifetime o t) verb (lowered o))).
Proof.
  unfold build_signed_url_at. pose proof (in_years_time t) as Y.
  destruct (ut_from_system_time t) as [now|] eqn:En.
  2:{ left. eexists. split; [|reflexivity]. apply uv_time. rewrite Y. discriminate. }
  assert (Hy : in_years t) by (apply ut_from_system_time_spec in En; unfold NS in En; apply En).
  assert (now = (t / NS)%Z) as -> by (apply Y in Hy; congruence). clear Y En.
  pose proof (ordered_iff o t) as O. destruct (duration_since (o_expires o) t) as [dur|] eqn:Ed.
  2:{ left. eexists. split; [|reflexivity]. apply uv_order; [exact Hy|]. rewrite O. intros (x & X & _). discriminate X. }
  assert (Hs : forall s, i64_try_from (as_secs dur) = Some s -> s = lifetime o t).
  { unfold duration_since in Ed. destruct (_ <=? _)%Z; [|discriminate Ed]. injection Ed as <-. unfold i64_try_from, lifetime, as_secs, NS.
    intros s. destruct (_ <? _)%Z; congruence. }
  destruct (i64_try_from (as_secs dur)) as [secs|] eqn:Es.
  2:{ left. eexists. split; [|reflexivity]. apply uv_order; [exact Hy|]. rewrite O. intros (x & X & X2). injection X as <-. congruence. }
  rewrite (Hs secs eq_refl) in *.
  assert (Ho : ordered o t) by (apply O; exists dur; split; [reflexivity|exact Es]). clear O Hs Ed Es.
  pose proof (verb_known (o_http_method o)) as V. destruct (http_verb_from_str (o_http_method o)) as [verb|].
  2:{ left. eexists. split; [|reflexivity]. apply uv_method; assumption. }
  destruct V as [Vm Vs].
  change (o_bucket_name o ++ B "/" ++ o_object_name o) with (requested o). unfold append_pairs.
  change (fold_left append_pair (o_query_parameters o) (unwrap_or (u_query (url_parse d (requested o))) [])) with (query_before d o).
  change (u_path (url_parse d (requested o))) with (path_of d o).
  assert (U : uri_parse (url_rest {| u_path := path_of d o; u_query := Some (query_before d o); u_fragment := u_fragment (url_parse d (requested o)) |})
    = if too_long (path_of d o) (query_before d o) match u_fragment (url_parse d (requested o)) with Some f => "#" :: f | None => [] end then None
      else Some {| uri_path := path_of d o; uri_query := Some (query_before d o) |}).
  { exact (uri_parse_url _ _ _ (u_fragment (url_parse d (requested o))) (path_of_ok d o) (query_before_ok d o)). }
  rewrite U. clear U.
  assert (Fi : fits d o <-> too_long (path_of d o) (query_before d o) match u_fragment (url_parse d (requested o)) with Some f => "#" :: f | None => [] end = false).
  { unfold fits, too_long. rewrite target_length. rewrite N.ltb_ge. reflexivity. }
  destruct (too_long _ _ _).
  { left. eexists. split; [|reflexivity]. apply uv_length; try assumption. rewrite Fi. discriminate. }
  assert (Hf : fits d o) by (apply Fi; reflexivity). clear Fi.
  pose proof (convert_headers_spec d (o_headers o)) as C. destruct (convert_headers d (o_headers o)) as [hs|e].
  2:{ left. exists e. split; [|reflexivity]. destruct C as (b & h & a & E & F & [[N ->]|(N1 & N2 & ->)]); [eapply uv_header|eapply uv_value]; eassumption. }
  destruct C as [Hh ->]. change (map (fun h => (ascii_lower (fst h), snd h)) (o_headers o)) with (lowered o).
  destruct (d_hm_overflow d (lowered o)) eqn:Eo.
  { right. left. repeat split; assumption || apply Ho || apply Hy. }
  cbn [location_try_from credential_scope_new]. unfold expiration_try_from.
  assert (Hl : (0 <=? lifetime o t)%Z = true).
  { apply Z.leb_le. unfold lifetime. destruct Ho as [Ho _]. apply Z.div_pos; lia. }
  rewrite Hl. cbn [andb]. destruct (Z.leb_spec (lifetime o t) 604800) as [L|L].
  2:{ left. eexists. split; [|reflexivity]. apply uv_lifetime; assumption. }
  right. right. split; [repeat split; assumption || apply Ho || apply Hy|]. exists verb. split; [exact Vs|].
  unfold run_valid. apply peq_bind_ok; [|intros; apply peq_refl].
  exact (signed_url_new_eq d o (t / NS) (lifetime o t) verb (lowered o)).
Qed.

(** * Executions *)

Lemma url_start d o tr q : steps (build_signed_url d o) tr q ->
  (tr = [] /\ q = build_signed_url d o) \/
  exists t pre rest, url_time o t pre /\ tr = pre ++ rest /\ steps (build_signed_url_at d o t) rest q.
Proof.
  unfold build_signed_url. destruct (o_accessible_at o) as [t|] eqn:E; intros H.
  - right. exists t, [], tr. split; [constructor; exact E|auto].
  - apply steps_act_inv in H. destruct H as [[-> ->]|(t & tr' & -> & H)]; [left; auto|]. right.
    exists t, [VNow t], tr'. split; [constructor; exact E|auto].
Qed.

Lemma url_start_back d o t pre rest q : url_time o t pre -> steps (build_signed_url_at d o t) rest q -> steps (build_signed_url d o) (pre ++ rest) q.
Proof.
  intros [x E|x E] H; unfold build_signed_url; rewrite E; [exact H|]. exact (steps_act ENow (fun t => build_signed_url_at d o t) x rest q H).
Qed.

Lemma url_start_ret d o tr r : returns (build_signed_url d o) tr r ->
  exists t pre rest, url_time o t pre /\ tr = pre ++ rest /\ returns (build_signed_url_at d o t) rest r.
Proof.
  intros H. apply url_start in H. destruct H as [[-> H]|H]; [|exact H]. unfold build_signed_url in H.
  destruct (o_accessible_at o) as [t|] eqn:E; [|discriminate H]. exists t, [], []. split; [constructor; exact E|]. split; [reflexivity|]. rewrite <- H. constructor.
Qed.

Lemma url_start_panic d o tr s : panics (build_signed_url d o) tr s ->
  exists t pre rest, url_time o t pre /\ tr = pre ++ rest /\ panics (build_signed_url_at d o t) rest s.
Proof.
  intros H. apply url_start in H. destruct H as [[-> H]|H]; [|exact H]. unfold build_signed_url in H.
  destruct (o_accessible_at o) as [t|] eqn:E; [|discriminate H]. exists t, [], []. split; [constructor; exact E|]. split; [reflexivity|]. rewrite <- H. constructor.
Qed.

(** A successful build, in parts. *)
Record success (d : deps) (o : url_options) (url : str) (t : Z) (t1 t2 : list event) (email : str) (verb : http_verb) (block sig : str) : Prop := {
  sc_valid : url_valid d o t;
  sc_verb : http_verb_str verb = o_http_method o;
  sc_auth : returns (authorizer d (o_signing_key o)) t1 (Ok email);
  sc_short : too_long (path_of d o) (query_after d o (t / NS) (lifetime o t) (lowered o) email) [] = false;
  sc_block : block_of d (lowered o) = Some block;
  sc_sign : returns (sign d (o_signing_key o) (o_use_sign_blob o) (message_of o (t / NS)
      (canonical_of d o verb (sorted_query (pairs_of d o (t / NS) (lifetime o t) (lowered o) email)) block (names_of d (lowered o))))) t2 (Ok sig);
  sc_url : url = url_of d o (sorted_query (pairs_of d o (t / NS) (lifetime o t) (lowered o) email)) sig
}.

Lemma url_ok_inv d o tr url : returns (build_signed_url d o) tr (Ok url) ->
  exists t pre t1 t2 email verb block sig, url_time o t pre /\ tr = pre ++ t1 ++ t2 /\ success d o url t t1 t2 email verb block sig.
Proof.
  intros H. apply url_start_ret in H. destruct H as (t & pre & rest & T & -> & H).
  destruct (build_cases d o t) as [(e & _ & E)|[(_ & _ & _ & _ & _ & _ & E)|(V & verb & Ev & E)]].
  - rewrite E in H. apply returns_ret_inv in H. destruct H as [_ H]. discriminate H.
  - rewrite E in H. destruct (returns_panic_inv _ _ _ H).
  - apply (peq_returns _ _ _ _ E) in H. unfold run_valid in H.
    apply returns_bind_ok_inv in H. destruct H as [(u & x1 & x2 & H & H' & ->)|(e & _ & X)]; [|discriminate X].
    apply returns_ret_inv in H'. destruct H' as [-> X]. injection X as <-. rewrite app_nil_r.
    apply returns_bind_ok_inv in H. destruct H as [(email & t1 & t2 & Ha & H & ->)|(e & _ & X)]; [|discriminate X].
    unfold sign_step in H. destruct (too_long _ _ _) eqn:Et; [destruct (returns_panic_inv _ _ _ H)|].
    destruct (block_of d (lowered o)) as [block|] eqn:Eb; [|apply returns_ret_inv in H; destruct H as [_ H]; discriminate H].
    apply returns_bind_ok_inv in H. destruct H as [(sig & y1 & y2 & Hs & H & ->)|(e & _ & X)]; [|discriminate X].
    apply returns_ret_inv in H. destruct H as [-> X]. injection X as ->. rewrite app_nil_r.
    exists t, pre, t1, y1, email, verb, block, sig. split; [exact T|]. split; [reflexivity|]. constructor; try assumption. reflexivity.
Qed.

Lemma url_ok_back d o t pre t1 t2 url email verb block sig : url_time o t pre -> success d o url t t1 t2 email verb block sig ->
  returns (build_signed_url d o) (pre ++ t1 ++ t2) (Ok url).
Proof.
  intros T [V Ev Ha Et Eb Hs ->]. apply (url_start_back d o t pre); [exact T|]. change (returns (build_signed_url_at d o t) (t1 ++ t2) (Ok (url_of d o (sorted_query (pairs_of d o (t / NS) (lifetime o t) (lowered o) email)) sig))).
  destruct (build_cases d o t) as [(e & W & _)|[(_ & _ & _ & _ & _ & W & _)|(_ & verb' & Ev' & E)]].
  - exfalso. destruct V as (V1 & V2 & V3 & V4 & V5 & V6 & V7). destruct W; try contradiction.
    + unfold headers_valid in V5. rewrite H3 in V5. apply Forall_app in V5. destruct V5 as [_ V5]. inversion V5; subst. tauto.
    + unfold headers_valid in V5. rewrite H3 in V5. apply Forall_app in V5. destruct V5 as [_ V5]. inversion V5; subst. tauto.
    + lia.
  - exfalso. destruct V as (V1 & V2 & V3 & V4 & V5 & V6 & V7). congruence.
  - assert (verb' = verb) as -> by (rewrite <- Ev in Ev'; destruct verb, verb'; try reflexivity; discriminate Ev').
    apply (peq_returns _ _ _ _ E). unfold run_valid. rewrite <- (app_nil_r (t1 ++ t2)). eapply returns_bind_ok; [|constructor].
    eapply returns_bind_ok; [exact Ha|]. unfold sign_step. rewrite Et, Eb. rewrite <- (app_nil_r t2). eapply returns_bind_ok; [exact Hs|constructor].
Qed.

(** Only the two RSA keys can sign. *)
Lemma sign_ok_rsa d k usb m tr sig : returns (sign d k usb m) tr (Ok sig) -> algorithm_str (key_algorithm k) = B "GOOG4-RSA-SHA256".
Proof.
  destruct k; cbn [sign]; intros H; try reflexivity. destruct (returns_panic_inv _ _ _ H).
Qed.
