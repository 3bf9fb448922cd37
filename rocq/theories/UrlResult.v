(** Successful builds as seen from outside, and a way to show that concrete builds succeed without computing the
    signature. *)
From Coq Require Import Sorted Permutation.
From Verif Require Import Base BaseFacts Utf8 FormUrl FormUrlFacts Sha256 SpecCodec CodecFacts SpecSha ShaFacts Time TimeFacts SpecCalendar SpecPolicy SpecForm
  Effects EffectsFacts Keys Scope Url SignedUrl UrlFacts SpecUrl UrlSpecFacts SpecToken SpecTrace SpecSign SignFacts SignedUrlFacts HeaderFacts
  HtmlForm Calls Demo.
Local Open Scope byte_scope.

(** * Splitting at the last separator *)

Lemma split_first (c : byte) a b a' b' : ~ In c a -> ~ In c a' -> a ++ c :: b = a' ++ c :: b' -> a = a' /\ b = b'.
Proof.
  intros H H' E. pose proof (split_once_app c a b H) as E1. pose proof (split_once_app c a' b' H') as E2. rewrite E in E1.
  rewrite E1 in E2. injection E2. auto.
Qed.

Lemma split_last (c : byte) a b a' b' : ~ In c b -> ~ In c b' -> a ++ c :: b = a' ++ c :: b' -> a = a' /\ b = b'.
Proof.
  intros H H' E. apply (f_equal (@rev byte)) in E. rewrite !rev_app_distr in E. cbn [rev] in E. rewrite <- !app_assoc in E. cbn [app] in E.
  apply split_first in E; [|rewrite <- in_rev; exact H|rewrite <- in_rev; exact H']. destruct E as [E1 E2].
  apply (f_equal (@rev byte)) in E1, E2. rewrite !rev_involutive in E1, E2. auto.
Qed.

(** * The query *)

Lemma sorted_query_avoids c l : reserved c = true -> c <> "&" -> c <> "=" -> ~ In c (sorted_query l).
Proof.
  intros R N1 N2 I. unfold sorted_query in I. change (B "&") with ["&"] in I. apply in_glue in I. destruct I as [->|(s & Hs & I)]; [congruence|].
  apply (proj1 (sort_in _ _)) in Hs. apply in_map_iff in Hs. destruct Hs as (kv & <- & _). unfold enc_pair in I. apply in_app_or in I.
  destruct I as [I|I]; [exact (percent_encode_avoids _ _ R I)|]. apply in_app_or in I. destruct I as [[E|[]]|I]; [apply N2; symmetry; exact E|exact (percent_encode_avoids _ _ R I)].
Qed.

Lemma hex_sig sig : Forall (fun c => In c hex_alphabet) (hex_encode sig).
Proof. eapply hex_of_alphabet. apply hex_encode_spec. Qed.

Lemma url_parts_of d o l sig : url_parts (url_of d o (sorted_query l) sig) (path_of d o) (sorted_query l) (hex_encode sig).
Proof.
  destruct (path_no_mark _ _ (path_of_ok d o)) as [N1 N2]. split; [reflexivity|]. split; [apply (path_ok_head _ _ (path_of_ok d o))|].
  split; [exact N1|]. split; [exact N2|]. split; [apply sorted_query_avoids; [reflexivity|discriminate|discriminate]|].
  split; [apply sorted_query_avoids; [reflexivity|discriminate|discriminate]|]. apply hex_sig.
Qed.

Lemma url_parts_unique url p q s p' q' s' : url_parts url p q s -> url_parts url p' q' s' -> p = p' /\ q = q' /\ s = s'.
Proof.
  intros (E & _ & N1 & _ & _ & _ & H) (E' & _ & N1' & _ & _ & _ & H'). rewrite E in E'. apply app_inv_head in E'.
  change (B "?" ++ ?x) with ("?" :: x) in E'. apply split_first in E'; [|exact N1|exact N1']. destruct E' as [-> E'].
  assert (NE : forall s, Forall (fun c => In c hex_alphabet) s -> ~ In "=" s).
  { intros x F I. rewrite Forall_forall in F. apply F in I. cbn in I. repeat destruct I as [I|I]; try discriminate I. exact I. }
  assert (G : forall q s, q ++ B "&X-Goog-Signature=" ++ s = (q ++ B "&X-Goog-Signature") ++ "=" :: s).
  { intros x y. rewrite <- app_assoc. reflexivity. }
  rewrite !G in E'. apply split_last in E'; [|apply NE; exact H|apply NE; exact H']. destruct E' as [E1 ->]. apply app_inv_tail in E1. auto.
Qed.

(** What the URL of a successful build consists of. *)
Lemma success_parts d o url t t1 t2 email verb block sig p q s :
  success d o url t t1 t2 email verb block sig -> url_parts url p q s ->
  p = path_of d o /\ q = sorted_query (pairs_of d o (t / NS) (lifetime o t) (lowered o) email) /\ s = hex_encode sig.
Proof. intros S H. rewrite (sc_url _ _ _ _ _ _ _ _ _ _ S) in H. exact (url_parts_unique _ _ _ _ _ _ _ H (url_parts_of _ _ _ _)). Qed.

(** * Spec forms *)

Lemma canonical_spec d o verb query block : deps_ok d -> block_of d (lowered o) = Some block ->
  canonical_text (http_verb_str verb) (path_of d o) query (o_headers o) (canonical_of d o verb query block (names_of d (lowered o))).
Proof.
  intros D Hb. exists (name_list d o), (names_of d (lowered o)), block, (percent_encode (path_of d o)).
  split; [apply names_spec; exact D|]. split; [apply glued_iff; apply names_text|]. split; [apply block_text; assumption|].
  split; [apply escaped_iff; reflexivity|]. apply glued_iff. reflexivity.
Qed.

Lemma years_ts t : in_years t -> ts_ok (t / NS)%Z.
Proof. intros H. apply in_years_time in H. apply (ut_ts_ok t). exact H. Qed.

Lemma scope_spec o t : in_years t -> scope_text (t / NS)%Z (region_of o) (scope_of o (t / NS)%Z).
Proof.
  intros H. exists (date_to_string (date_from_unix_timestamp (t / NS))%Z). split; [apply date_utc_spec; apply years_ts; exact H|].
  apply glued_iff. cbn [join]. reflexivity.
Qed.

Lemma message_spec o t canonical : in_years t -> algorithm_str (key_algorithm (o_signing_key o)) = B "GOOG4-RSA-SHA256" ->
  message_text (t / NS)%Z (region_of o) canonical (message_of o (t / NS)%Z canonical).
Proof.
  intros H A. exists (ut_to_iso8601 (t / NS)%Z), (scope_of o (t / NS)%Z), (sha256 canonical), (sha256_digest canonical).
  split; [apply iso8601_spec; apply years_ts; exact H|]. split; [apply scope_spec; exact H|]. split; [apply sha256_digest_of|]. split; [apply hex_encode_spec|].
  apply glued_iff. unfold message_of. rewrite A. reflexivity.
Qed.

(** * Pieces of the query *)

Lemma sorted_query_piece l kv : In kv l -> query_piece (sorted_query l) (enc_pair kv).
Proof.
  intros H. exists (str_sort (map enc_pair l)). split; [apply glued_iff; reflexivity|]. split.
  - apply Forall_forall. intros p Hp. apply (proj1 (sort_in _ _)) in Hp. apply in_map_iff in Hp. destruct Hp as (x & <- & _). unfold enc_pair.
    intros I. apply in_app_or in I. destruct I as [I|I]; [exact (percent_encode_avoids "&" _ eq_refl I)|]. apply in_app_or in I.
    destruct I as [[E|[]]|I]; [discriminate E|exact (percent_encode_avoids "&" _ eq_refl I)].
  - apply sort_in. apply in_map. exact H.
Qed.

(** Pieces are those of any way to cut the query at its ampersands. *)
Lemma query_piece_split q p : query_piece q p -> q <> [] -> In p (split_on "&" q).
Proof.
  intros (l & G & F & I) N. apply glued_iff in G. subst q. rewrite split_on_join; [exact I|intros ->; apply N; reflexivity|exact F].
Qed.

Definition clear_byte (b : byte) : bool := N.ltb (bN b) 128 && negb (reserved b).

Lemma clear_lossy s : forallb clear_byte s = true -> utf8_lossy s = s.
Proof.
  intros H. apply utf8_lossy_valid_id. apply utf8_valid_ascii. apply Forall_forall. intros b Hb. rewrite forallb_forall in H.
  specialize (H b Hb). apply andb_true_iff in H. destruct H as [H _]. apply N.ltb_lt in H. exact H.
Qed.
Lemma clear_encode s : forallb clear_byte s = true -> percent_encode s = s.
Proof. intros H. apply pct_encode_id. revert H. apply forallb_impl. intros b H. apply andb_true_iff in H. apply H. Qed.
Lemma clear_dec n : forallb clear_byte (dec n) = true.
Proof.
  apply forallb_forall. intros c Hc. pose proof (dec_digits n) as D. rewrite Forall_forall in D. generalize (D c Hc). clear. revert c. apply sweep_impl. vm_compute. reflexivity.
Qed.

Lemma clear_piece d o now secs hs email k v : In (k, v) (five d o now secs hs email) -> forallb clear_byte k = true -> forallb clear_byte v = true ->
  query_piece (sorted_query (pairs_of d o now secs hs email)) (k ++ B "=" ++ v).
Proof.
  intros I Hk Hv. assert (E : k ++ B "=" ++ v = enc_pair (lossy2 (k, v))).
  { unfold enc_pair, lossy2. cbn [fst snd]. rewrite !clear_lossy, !clear_encode by assumption. reflexivity. }
  rewrite E. apply sorted_query_piece. unfold pairs_of. apply in_or_app. right. apply in_map. apply in_or_app. right. exact I.
Qed.

(** Dates consist of digits and letters. *)
Definition date_byte (b : byte) : bool := is_digit b || beq b "T" || beq b "Z".

Lemma digits_bytes w n s : digits w n s -> forallb date_byte s = true.
Proof.
  intros (_ & F & _). apply forallb_forall. intros c Hc. rewrite Forall_forall in F. unfold date_byte. rewrite (F c Hc). reflexivity.
Qed.

Lemma iso_bytes t : in_years t -> forallb date_byte (ut_to_iso8601 (t / NS)%Z) = true.
Proof.
  intros H. destruct (iso8601_spec (t / NS)%Z (years_ts t H)) as (? & ? & ? & ? & ? & ? & ? & ? & ? & ? & _ & D1 & D2 & D3 & D4 & D5 & D6 & ->).
  rewrite !forallb_app. rewrite (digits_bytes _ _ _ D1), (digits_bytes _ _ _ D2), (digits_bytes _ _ _ D3), (digits_bytes _ _ _ D4),
    (digits_bytes _ _ _ D5), (digits_bytes _ _ _ D6). reflexivity.
Qed.

Lemma day_bytes t : forallb date_byte (date_to_string (date_from_unix_timestamp (t / NS)%Z)) = true.
Proof.
  apply forallb_forall. intros c Hc. pose proof (pad0_digits 8 (dec (date_from_unix_timestamp (t / NS)%Z)) (dec_digits _)) as F. rewrite Forall_forall in F.
  unfold date_byte. rewrite (F c Hc). reflexivity.
Qed.

Lemma date_clear s : forallb date_byte s = true -> forallb clear_byte s = true.
Proof. apply forallb_impl. apply sweep_impl. vm_compute. reflexivity. Qed.

(** * Runs *)

(** After the clock reading (if any) for time [t], a build is [build_signed_url_at d o t]. *)
Lemma url_at d o t pre rest q : url_time o t pre -> (steps (build_signed_url d o) (pre ++ rest) q <-> steps (build_signed_url_at d o t) rest q).
Proof.
  intros T. split; [|apply url_start_back; exact T]. destruct T as [t E|t E]; unfold build_signed_url; rewrite E; [intros H; exact H|].
  intros H. apply steps_act_inv in H. destruct H as [[X _]|(r & tr' & X & H)]; [discriminate X|]. cbn [app event_of] in X. injection X as <- <-. exact H.
Qed.

Lemma rejected_steps d o t rest q : ~ url_valid d o t -> steps (build_signed_url_at d o t) rest q ->
  rest = [] /\ ((exists e, url_violation d o t e /\ q = Ret (Err e)) \/ d_hm_overflow d (lowered o) = true /\ q = Panic PHeaderMap).
Proof.
  intros N H. destruct (build_cases d o t) as [(e & V & E)|[(_ & _ & _ & _ & _ & O & E)|(V & _)]]; [| |contradiction]; rewrite E in H.
  - apply steps_ret in H. destruct H as [-> ->]. eauto 6.
  - apply steps_panic in H. destruct H as [-> ->]. eauto.
Qed.

(** * Concrete builds *)

Definition valid_check (d : deps) (o : url_options) (t : Z) : bool :=
  (0 <=? t)%Z && (t <? 253402300800 * 1000000000)%Z && (0 <=? o_expires o - t)%Z &&
  (lifetime o t <=? 604800)%Z && existsb (str_eqb (o_http_method o)) methods && N.leb (N.of_nat (length (target d o))) 65534 &&
  forallb (fun h => match header_name_from_bytes d (fst h) with Some _ => header_value_ok (snd h) | None => false end) (o_headers o) &&
  negb (d_hm_overflow d (lowered o)).

Lemma valid_check_ok d o t : valid_check d o t = true -> url_valid d o t.
Proof.
  unfold valid_check. intros H. repeat (apply andb_true_iff in H; destruct H as [H ?]).
  repeat match goal with X : (_ <=? _)%Z = true |- _ => apply Z.leb_le in X | X : (_ <? _)%Z = true |- _ => apply Z.ltb_lt in X
    | X : N.leb _ _ = true |- _ => apply N.leb_le in X | X : negb _ = true |- _ => apply negb_true_iff in X end.
  assert (Ho : ordered o t).
  { split; [assumption|]. assert (lifetime o t <= 604800)%Z as L by assumption. unfold lifetime in L.
    pose proof (Z.mul_succ_div_gt (o_expires o - t) 1000000000). lia. }
  split; [split; assumption|]. split; [exact Ho|]. split.
  { match goal with X : existsb _ _ = true |- _ => apply existsb_exists in X; destruct X as (m & I & E); apply str_eqb_eq in E end. unfold method_known. congruence. }
  split; [assumption|]. split; [|split; assumption].
  apply Forall_forall. intros h Hh. match goal with X : forallb _ (o_headers o) = true |- _ => rewrite forallb_forall in X; specialize (X h Hh); rename X into F end.
  destruct (header_name_cases d h) as [E|E]; rewrite E in F; [|discriminate F]. split; [apply valid_header_iff; exact E|apply valid_value_iff; exact F].
Qed.

(** A local signature in an environment whose signer always succeeds. *)
Lemma local_success d o t email key sig0 : valid_check d o t = true -> o_accessible_at o = Some t ->
  o_signing_key o = KServiceAccount email key -> o_use_sign_blob o = false -> (forall m, d_rsa_sign d key m = Ok (sig0 m)) ->
  too_long (path_of d o) (query_after d o (t / NS) (lifetime o t) (lowered o) email) [] = false ->
  block_of d (lowered o) <> None ->
  exists sig, returns (build_signed_url d o) [] (Ok (url_of d o (sorted_query (pairs_of d o (t / NS) (lifetime o t) (lowered o) email)) sig)).
Proof.
  intros V A K U R T Bk. apply valid_check_ok in V. destruct (block_of d (lowered o)) as [block|] eqn:Eb; [|congruence]. clear Bk.
  pose proof (verb_known (o_http_method o)) as W. destruct (http_verb_from_str (o_http_method o)) as [verb|]; [|exfalso; apply W; apply V].
  set (m := message_of o (t / NS) (canonical_of d o verb (sorted_query (pairs_of d o (t / NS) (lifetime o t) (lowered o) email)) block (names_of d (lowered o)))).
  exists (sig0 m).
  assert (S : success d o (url_of d o (sorted_query (pairs_of d o (t / NS) (lifetime o t) (lowered o) email)) (sig0 m)) t [] [] email verb block (sig0 m)).
  { constructor; try assumption; try reflexivity.
    - apply W.
    - rewrite K. constructor.
    - rewrite K, U. cbn [sign]. fold m. rewrite R. constructor. }
  exact (url_ok_back _ _ _ [] _ _ _ _ _ _ _ (ut_given _ _ A) S).
Qed.

(** The demo environment. *)
Definition demo_ready (o : url_options) : bool :=
  valid_check demo_deps o demo_time &&
  negb (too_long (path_of demo_deps o) (query_after demo_deps o (demo_time / NS) (lifetime o demo_time) (lowered o) (B "sa@example.com")) []) &&
  match block_of demo_deps (lowered o) with Some _ => true | None => false end.

Lemma demo_success o : o_accessible_at o = Some demo_time -> o_signing_key o = demo_account -> o_use_sign_blob o = false ->
  demo_ready o = true ->
  exists sig, returns (build_signed_url demo_deps o) [] (Ok (url_of demo_deps o
    (sorted_query (pairs_of demo_deps o (demo_time / NS) (lifetime o demo_time) (lowered o) (B "sa@example.com"))) sig)).
Proof.
  intros A K U H. unfold demo_ready in H. apply andb_true_iff in H. destruct H as [H H3]. apply andb_true_iff in H. destruct H as [H1 H2].
  apply (local_success demo_deps o demo_time (B "sa@example.com") (B "key") (fun m => B "key" ++ m)); try assumption.
  - reflexivity.
  - apply negb_true_iff in H2. exact H2.
  - destruct (block_of _ _); [discriminate|discriminate H3].
Qed.

Lemma demo_url_ok : exists sig, returns (build_signed_url demo_deps demo_url) [] (Ok (url_of demo_deps demo_url
    (sorted_query (pairs_of demo_deps demo_url (demo_time / NS) (lifetime demo_url demo_time) (lowered demo_url) (B "sa@example.com"))) sig)).
Proof. apply demo_success; vm_compute; reflexivity. Qed.
