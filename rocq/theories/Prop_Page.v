(** C92-C95: the page of the image uploader and its server. *)
From Verif Require Import Base BaseFacts Utf8 Utf8Facts FormUrl Json SpecJson JsonFacts SpecCodec SpecToken TokenFacts SpecUtf8 SpecConstructors Prop_Constructors
  SpecUrl UrlSpecFacts SpecPolicy SpecForm SpecServer SpecUpload Prop_Upload SpecCalendar SpecTrace SpecSign Time Effects Keys Demo Uploader SpecUploader UploaderFacts Prop_Uploader Page SpecPage.
Local Open Scope byte_scope.

(** * Reading requests *)

(** An array or an object ends with its bracket, whatever follows. *)
Lemma p_value_boxed r t w rest f : rvalue r t -> (exists l, r = RArr l) \/ (exists l, r = RObj l) -> ws w -> (2 * length t <= f)%nat ->
  p_value f (w ++ t ++ rest) = Some (r, rest).
Proof.
  intros R K W F. assert (G : forall rest0, after_value rest0 -> p_value f (w ++ t ++ rest0) = Some (r, rest0)).
  { intros rest0 A. destruct parse_complete as [P _]. apply P; assumption. }
  clear G. destruct parse_complete as (_ & Pe & Pm).
  destruct R as [| | | | |w0 W0|l t E|w0 W0|l t E]; try (destruct K as [[l0 K]|[l0 K]]; discriminate K).
  - rewrite !app_length in F. cbn [length B] in F. destruct f as [|f]; [cbn in F; lia|]. cbn [p_value]. rewrite <- !app_assoc. rewrite skip_ws_app by (assumption || reflexivity).
    change (B "[" ++ ?x) with ("[" :: x). cbv iota beta. change (beq "[" """") with false. change (beq "[" "[") with true. cbv iota.
    rewrite skip_ws_app by (assumption || reflexivity). reflexivity.
  - rewrite !app_length in F. destruct f as [|f]; [cbn in F; lia|]. cbn [p_value]. rewrite <- !app_assoc. rewrite skip_ws_app by (assumption || reflexivity).
    change (B "[" ++ ?x) with ("[" :: x). cbv iota beta. change (beq "[" """") with false. change (beq "[" "[") with true. cbv iota.
    change (B "]" ++ rest) with ("]" :: rest). change (length (B "[")) with 1%nat in F. change (length (B "]")) with 1%nat in F.
    assert (H : exists c u, skip_ws (t ++ "]" :: rest) = c :: u /\ beq c "]" = false).
    { destruct E as [w1 v t w2 H1 Hv H2|w1 v t w2 l u H1 Hv H2 _]; destruct (rvalue_head _ _ Hv) as (c & u0 & -> & Cw & C1 & _); rewrite <- !app_assoc;
        rewrite skip_ws_app by (assumption || exact Cw); eexists; eexists; (split; [reflexivity|apply beq_neq; exact C1]). }
    destruct H as (c & u & -> & ->). rewrite (Pe _ _ E) by lia. reflexivity.
  - rewrite !app_length in F. destruct f as [|f]; [cbn in F; lia|]. cbn [p_value]. rewrite <- !app_assoc. rewrite skip_ws_app by (assumption || reflexivity).
    change (B "{" ++ ?x) with ("{" :: x). cbv iota beta. change (beq "{" """") with false. change (beq "{" "[") with false. change (beq "{" "{") with true. cbv iota.
    rewrite skip_ws_app by (assumption || reflexivity). reflexivity.
  - rewrite !app_length in F. destruct f as [|f]; [cbn in F; lia|]. cbn [p_value]. rewrite <- !app_assoc. rewrite skip_ws_app by (assumption || reflexivity).
    change (B "{" ++ ?x) with ("{" :: x). cbv iota beta. change (beq "{" """") with false. change (beq "{" "[") with false. change (beq "{" "{") with true. cbv iota.
    change (B "}" ++ rest) with ("}" :: rest). change (length (B "{")) with 1%nat in F. change (length (B "}")) with 1%nat in F.
    assert (H : exists c u, skip_ws (t ++ "}" :: rest) = c :: u /\ beq c "}" = false).
    { destruct E as [w1 k w2 w3 v t w4 H1 _ _ _ _ _|w1 k w2 w3 v t w4 l u H1 _ _ _ _ _ _]; rewrite <- !app_assoc;
        rewrite skip_ws_app by (assumption || reflexivity); eexists; eexists; split; reflexivity. }
    destruct H as (c & u & -> & ->). rewrite (Pm _ _ E) by lia. reflexivity.
Qed.

Lemma unicode_keys_spec r : raw_wf r -> (unicode_keys r = true <-> forall l k key, r = RObj l -> In k (map fst l) -> jstring key k -> unicode key).
Proof.
  intros W. split.
  - intros U l k key -> I J. cbn [unicode_keys] in U. apply in_map_iff in I. destruct I as ([k0 v] & E & I). cbn in E. subst k0.
    rewrite forallb_forall in U. specialize (U _ I). cbn [fst] in U. apply unescape_jstring in J. rewrite (proj2 J) in U. apply unicode_spec. exact U.
  - intros H. destruct r as [| | | | |l]; try reflexivity. cbn [unicode_keys]. apply forallb_forall. intros [k v] I. cbn [fst].
    destruct (unescape k) as [key|] eqn:E; [|reflexivity]. apply unicode_spec. apply (H l k key eq_refl); [apply in_map_iff; exists (k, v); auto|].
    apply jstring_unescape; [|exact E]. clear -W I. cbn [raw_wf] in W. induction l as [|[k' v'] l IH]; [destruct I|]. cbn in W. destruct I as [E|I]; [injection E as -> ->; tauto|tauto].
Qed.

Lemma read_create_spec body n t : read_create body = Some (n, t) <-> create_text body n t.
Proof.
  unfold read_create, create_text. split.
  - destruct (p_value _ body) as [[r rest]|] eqn:E; [|discriminate]. destruct (parse_sound (2 * length body + 2)) as [P _].
    apply P in E. destruct E as (w & text & Ww & R & ->). pose proof (proj1 rvalue_wf _ _ R) as W.
    destruct (unicode_keys r) eqn:K; [|discriminate]. pose proof (proj1 (unicode_keys_spec _ W) K) as K'.
    destruct (de_struct _ r) as [l|] eqn:S; [|discriminate]. apply struct_of_spec in S; [|exact W]. pose proof (struct_of_wf _ _ _ W S) as WF.
    destruct l as [|a [|b [|? ?]]]; try discriminate. inversion WF as [|? ? Wa WF1]; subst. inversion WF1 as [|? ? Wb _]; subst.
    destruct (de_u64 a) as [na|] eqn:Ea; [|discriminate]. destruct (de_string b) as [tb|] eqn:Eb; [|discriminate].
    destruct (utf8_valid tb) eqn:U; [|discriminate]. intros X. injection X as -> ->. apply unicode_spec in U. apply number_of_spec in Ea. apply text_of_spec in Eb; [|exact Wb].
    exists w, text, rest, r, a, b. tauto.
  - intros (w & text & rest & r & a & b & -> & Ww & R & K & S & Na & Tb & U). pose proof (proj1 rvalue_wf _ _ R) as W.
    rewrite (p_value_boxed _ _ _ _ _ R); [|destruct S; eauto|exact Ww|rewrite !app_length; lia].
    pose proof (struct_of_wf _ _ _ W S) as WF. inversion WF as [|? ? Wa WF1]; subst. inversion WF1 as [|? ? Wb _]; subst.
    rewrite (proj2 (unicode_keys_spec _ W) K). apply struct_of_spec in S; [|exact W]. rewrite S.
    apply number_of_spec in Na. apply text_of_spec in Tb; [|exact Wb]. rewrite Na, Tb. apply unicode_spec in U. rewrite U. reflexivity.
Qed.

(** Exactly the described requests reach a handler, with exactly those arguments. *)
Theorem C92_routes r q : route r = RtHandler q <-> reaches r q.
Proof.
  unfold route. split.
  - destruct (str_eqb_spec (hq_path r) (B "/")) as [E|N1]; [destruct (is_get _); discriminate|].
    destruct (str_eqb_spec (hq_path r) (B "/images")) as [E|N2].
    + unfold is_get. destruct (str_eqb_spec (hq_method r) (B "GET")) as [M|M]; [intros X; injection X as <-; constructor; auto|].
      destruct (str_eqb_spec (hq_method r) (B "HEAD")) as [M'|M']; [intros X; injection X as <-; constructor; auto|]. cbn [orb].
      destruct (str_eqb_spec (hq_method r) (B "POST")) as [M''|M'']; [|discriminate]. destruct (hq_json r) eqn:J; [|discriminate]. cbn [negb].
      destruct (N.ltb_spec 2097152 (N.of_nat (length (hq_body r)))) as [L|L]; [discriminate|]. destruct (read_create (hq_body r)) as [[n t]|] eqn:R; [|discriminate].
      intros X. injection X as <-. apply read_create_spec in R. constructor; auto.
    + destruct (strip_prefix (B "/images/") (hq_path r)) as [s|] eqn:P; [|discriminate]. apply strip_prefix_some in P.
      destruct s as [|c s]; [discriminate|]. destruct (existsb (beq "/") (c :: s)) eqn:X; [discriminate|].
      destruct (str_eqb_spec (hq_method r) (B "PATCH")) as [M|M]; [|discriminate]. destruct (utf8_valid _) eqn:U; [|discriminate].
      intros Y. injection Y as <-. apply unicode_spec in U. apply (rc_update r (c :: s)); try assumption; [discriminate| |apply unescaped_iff; reflexivity].
      intros I. assert (Z : existsb (beq "/") (c :: s) = true); [|congruence]. apply existsb_exists. exists "/". split; [exact I|reflexivity].
  - intros H. destruct H as [r P M|r n t P M J L T|r s id P N1 N2 M U V].
    + rewrite P. cbn [str_eqb]. change (str_eqb (B "/images") (B "/")) with false. change (str_eqb (B "/images") (B "/images")) with true. cbv iota.
      unfold is_get. destruct M as [-> | ->]; reflexivity.
    + rewrite P. change (str_eqb (B "/images") (B "/")) with false. change (str_eqb (B "/images") (B "/images")) with true. cbv iota.
      rewrite M, J. change (is_get (B "POST")) with false. change (str_eqb (B "POST") (B "POST")) with true. cbn [negb].
      destruct (N.ltb_spec 2097152 (N.of_nat (length (hq_body r)))) as [L'|L']; [lia|]. apply read_create_spec in T. rewrite T. reflexivity.
    + rewrite P. destruct (str_eqb_spec (B "/images/" ++ s) (B "/")) as [E|_]; [discriminate E|]. destruct (str_eqb_spec (B "/images/" ++ s) (B "/images")) as [E|_]; [discriminate E|].
      replace (strip_prefix (B "/images/") (B "/images/" ++ s)) with (Some s) by (symmetry; apply strip_prefix_app).
      destruct s as [|c s]; [congruence|]. destruct (existsb (beq "/") (c :: s)) eqn:X.
      { apply existsb_exists in X. destruct X as (x & I & E). apply beq_eq in E. subst x. contradiction. }
      rewrite M. change (str_eqb (B "PATCH") (B "PATCH")) with true. cbv iota. apply unescaped_iff in U. subst id. apply unicode_spec in V. rewrite V. reflexivity.
Qed.

(** * The requests of the page *)

Lemma esc_length s : (length (esc s) <= 6 * length s)%nat.
Proof.
  induction s as [|c s IH]; [cbn; lia|]. unfold esc in *. cbn [flat_map]. rewrite app_length. change (length (c :: s)) with (S (length s)).
  assert (L : (length (escape_byte c) <= 6)%nat); [|lia]. unfold escape_byte. repeat (match goal with |- context [if ?b then _ else _] => destruct b end; cbn; try lia).
Qed.

Lemma dec_length n : (n < two64)%N -> (length (dec n) <= 20)%nat.
Proof.
  intros L. pose proof (dec_num_tok n) as _. destruct (le_lt_dec (length (dec n)) 20) as [G|G]; [exact G|exfalso].
  pose proof (undec_dec n) as U. revert G U. generalize (dec_head n).
  destruct (N.eq_dec n 0) as [->|Hn]; [intros _ G; vm_compute in G; lia|]. intros Hh G U. destruct (Hh ltac:(lia)) as (c & r & E & C). clear Hh.
  pose proof (dec_digits n) as D. rewrite E in *. cbn [length] in G. clear E.
  assert (Lb : forall l acc m, undec_acc acc l = Some m -> (acc * 10 ^ N.of_nat (length l) <= m)%N).
  { clear. induction l as [|x l IH]; intros acc m H; cbn [undec_acc] in H; [injection H as <-; cbn; lia|].
    destruct (is_digit x); [|discriminate]. apply IH in H. cbn [length]. rewrite Nat2N.inj_succ, N.pow_succ_r'. nia. }
  cbn [undec] in U. cbn [undec_acc] in U. inversion D as [|? ? Dc _]; subst. rewrite Dc in U. apply Lb in U.
  assert (C1 : (1 <= 10 * 0 + (bN c - 48))%N).
  { clear -Dc C. destruct c; try discriminate Dc; try (exfalso; apply C; reflexivity); vm_compute; discriminate. }
  assert (P : (10 ^ 20 <= 10 ^ N.of_nat (length r))%N) by (apply N.pow_le_mono_r; lia).
  unfold two64 in L. change (10 ^ 20)%N with 100000000000000000000%N in P. nia.
Qed.

Lemma js_json_print j : json_nums num_tok j -> js_json (jprint j) = Some j.
Proof.
  intros H. unfold js_json. pose proof (jprint_text j H) as T. apply json_text_raw in T. destruct T as (r & R & T).
  apply from_str_raw_spec in R. rewrite R. exact T.
Qed.

Lemma create_body_raw f : exists w, rvalue (RObj ((esc (B "content_length"), RNum (dec (fi_size f))) ::
    match fi_type f with [] => [] | _ => [(esc (B "content_type"), RStr (esc (fi_type f)))] end)) w /\ create_body f = w.
Proof.
  eexists. split; [|reflexivity]. unfold create_body.
  match goal with |- rvalue _ (jprint ?j) => assert (N : json_nums num_tok j) end.
  { cbn [json_nums fold_right snd]. split; [apply dec_num_tok|]. destruct (fi_type f); cbn; tauto. }
  apply jprint_grammar in N. destruct N as [_ N]. destruct (fi_type f); exact N.
Qed.

(** A file with a type of moderate length: the request reaches the handler with its size and its type. *)
Theorem C92_create f : fi_type f <> [] -> unicode (fi_type f) -> (fi_size f < two64)%N -> (N.of_nat (length (fi_type f)) <= 300000)%N ->
  reaches (create_request f) (RqCreate (fi_size f) (fi_type f)).
Proof.
  intros N U L Len. assert (Lb : (N.of_nat (length (create_body f)) <= 2 * 1024 * 1024)%N).
  { pose proof (dec_length _ L) as Ld. pose proof (esc_length (fi_type f)) as Le. unfold create_body, esc in *. destruct (fi_type f) as [|c s] eqn:E; [congruence|].
    set (t := c :: s) in *. cbn [jprint map join fst snd]. unfold quote. rewrite !app_length. unfold str in *.
    change (length (flat_map escape_byte (B "content_length"))) with 14%nat. change (length (flat_map escape_byte (B "content_type"))) with 12%nat.
    change (length (B "{")) with 1%nat. change (length (B "}")) with 1%nat. change (length (B ",")) with 1%nat. change (length (B ":")) with 1%nat. cbn [length]. lia. }
  apply rc_create; try reflexivity; [exact Lb|]. cbn [create_request hq_body]. destruct (create_body_raw f) as (w & R & E).
  exists [], (create_body f), []. rewrite E. destruct (fi_type f) as [|c s] eqn:T; [congruence|]. rewrite <- T in *.
  eexists _, (RNum (dec (fi_size f))), (RStr (esc (fi_type f))). split; [cbn [app]; rewrite app_nil_r; reflexivity|]. split; [constructor|]. split; [exact R|].
  split.
  { intros l k key X I J. injection X as <-. cbn [map fst In] in I. apply unescape_jstring in J. destruct J as [_ J]. apply unicode_spec.
    destruct I as [<-|[<-|[]]]; vm_compute in J; injection J as <-; reflexivity. }
  split.
  { eapply (so_object _ _ [(B "content_length", RNum (dec (fi_size f))); (B "content_type", RStr (esc (fi_type f)))]).
    - constructor; [split; [apply esc_jstring|reflexivity]|]. constructor; [split; [apply esc_jstring|reflexivity]|]. constructor.
    - constructor; [exists [], [(B "content_type", RStr (esc (fi_type f)))]; split; [reflexivity|]; split; [intros []|intros [X|[]]; discriminate X]|].
      constructor; [exists [(B "content_length", RNum (dec (fi_size f)))], []; split; [reflexivity|]; split; [intros [X|[]]; discriminate X|intros []]|]. constructor. }
  split; [exists (dec (fi_size f)); split; [reflexivity|]; split; [apply undec_dec|exact L]|].
  split; [exists (esc (fi_type f)); split; [reflexivity|apply esc_jstring]|exact U].
Qed.

Lemma read_own_body f : read_create (create_body f) =
  match fi_type f with
  | [] => None
  | type => match de_u64 (RNum (dec (fi_size f))) with Some n => if utf8_valid type then Some (n, type) else None | None => None end
  end.
Proof.
  destruct (create_body_raw f) as (w & R & E). unfold read_create. rewrite E. pose proof (p_value_boxed _ w [] [] (2 * length w + 2) R) as P. cbn [app] in P.
  rewrite app_nil_r in P. rewrite P; [|right; eauto|constructor|lia]. clear P.
  destruct (fi_type f) as [|c s] eqn:T; [cbn [unicode_keys forallb fst]; rewrite unescape_esc; change (utf8_valid (B "content_length")) with true; cbv iota;
    cbn [andb de_struct]; unfold decode_keys; cbn [traverse fst snd]; rewrite unescape_esc; reflexivity|].
  cbn [unicode_keys forallb fst]. rewrite !unescape_esc. change (utf8_valid (B "content_length")) with true. change (utf8_valid (B "content_type")) with true. cbv iota. cbn [andb].
  cbn [de_struct]. unfold decode_keys. cbn [traverse fst snd]. rewrite !unescape_esc. unfold members_named.
  cbn [filter fst]. change (str_eqb (B "content_length") (B "content_length")) with true. change (str_eqb (B "content_type") (B "content_length")) with false.
  change (str_eqb (B "content_length") (B "content_type")) with false. change (str_eqb (B "content_type") (B "content_type")) with true. cbv iota. cbn [map snd de_string].
  rewrite unescape_esc. reflexivity.
Qed.

(** What the server reads of such a request is right whenever it reads anything. *)
Lemma create_reached f q : reaches (create_request f) q -> q = RqCreate (fi_size f) (fi_type f) /\ fi_type f <> [] /\ unicode (fi_type f).
Proof.
  intros H. inversion H as [r P M|r n t P M J L T|r s id P N1 N2 M U V]; subst.
  - cbn in M. destruct M as [M|M]; discriminate M.
  - apply read_create_spec in T. cbn [create_request hq_body] in T. rewrite read_own_body in T. destruct (fi_type f) as [|c s] eqn:E; [discriminate|].
    cbn [de_u64] in T. rewrite undec_dec in T. destruct (_ <? two64)%N; [|discriminate]. destruct (utf8_valid _) eqn:U; [|discriminate].
    injection T as <- <-. apply unicode_spec in U. split; [reflexivity|]. split; [discriminate|exact U].
  - cbn in M. discriminate M.
Qed.

(** A file without a type: the request reaches no handler. *)
Theorem C92_untyped f q : fi_type f = [] -> ~ reaches (create_request f) q.
Proof. intros E H. apply create_reached in H. destruct H as (_ & N & _). contradiction. Qed.

Definition update_request (id : str) : http_request := {| hq_method := B "PATCH"; hq_path := B "/images/" ++ id; hq_json := false; hq_body := [] |}.
Definition list_request : http_request := {| hq_method := B "GET"; hq_path := B "/images"; hq_json := false; hq_body := [] |}.

Lemma plain_decode s : ~ In "%" s -> pct_decode s = s.
Proof.
  induction s as [|c s IH]; [reflexivity|]. intros N. cbn [pct_decode]. rewrite (proj2 (beq_neq c "%")) by (intros ->; apply N; left; reflexivity).
  rewrite IH; [reflexivity|]. intros I. apply N. right. exact I.
Qed.

Lemma uuid_clean id : uuid_v4_text id -> Forall (fun c => In c name_characters) id /\ id <> [].
Proof.
  intros U. pose proof (uuid_characters _ U) as (F & _). split; [exact F|]. destruct U as (a & b & c & d & e & f & -> & La & _). destruct a; [discriminate La|discriminate].
Qed.

Lemma ascii_unicode s : Forall (fun c => In c name_characters) s -> unicode s.
Proof.
  intros F. apply unicode_spec. apply FormUrlFacts.utf8_valid_ascii. eapply Forall_impl; [|exact F].
  intros c I. cbn in I. repeat destruct I as [<-|I]; try contradiction; vm_compute; reflexivity.
Qed.

Lemma update_reached id q : ~ In "%" id -> reaches (update_request id) q -> q = RqUpdate id.
Proof.
  intros N H. inversion H as [r P M|r n t P M J L T|r s id' P N1 N2 M U V]; subst.
  - cbn in M. destruct M as [M|M]; discriminate M.
  - discriminate M.
  - cbn [update_request hq_path] in P. apply app_inv_head in P. subst s. apply unescaped_iff in U. rewrite plain_decode in U by exact N. subst. reflexivity.
Qed.

(** The other two requests reach their handlers, with the id of the form. *)
Theorem C92_update id : uuid_v4_text id -> reaches (update_request id) (RqUpdate id) /\ reaches list_request RqList.
Proof.
  intros U. destruct (uuid_clean _ U) as [F N]. assert (P : ~ In "%" id /\ ~ In "/" id).
  { rewrite Forall_forall in F. split; intros I; apply F in I; cbn in I; repeat destruct I as [I|I]; try discriminate I; contradiction. }
  split; [|apply rc_list; [reflexivity|left; reflexivity]]. apply (rc_update _ id); try reflexivity; try tauto.
  - apply unescaped_iff. rewrite plain_decode; tauto.
  - apply ascii_unicode. exact F.
Qed.

Lemma read_created_own fields method url : read_created (hs_body (respond (RpForm fields method url))) = Some (fields, method, url).
Proof.
  cbn [respond hs_body]. unfold read_created. rewrite js_json_print.
  - cbn [created_tree]. change (jobj_get (B "form_data") ?l) with (Some (JArr (map (fun f : str * str => JArr [JStr (fst f); JStr (snd f)]) fields))).
    change (jobj_get (B "method") ?l) with (Some (JStr method)). change (jobj_get (B "url") ?l) with (Some (JStr url)). cbv iota beta.
    assert (T : traverse js_pair (map (fun f : str * str => JArr [JStr (fst f); JStr (snd f)]) fields) = Some fields); [|rewrite T; reflexivity].
    induction fields as [|[n v] fields IH]; [reflexivity|]. cbn [map traverse js_pair fst snd]. rewrite IH. reflexivity.
  - cbn [created_tree json_nums fold_right snd]. repeat split. induction fields as [|x fields IH]; cbn; [exact I|tauto].
Qed.

Lemma links_tree urls : json_nums num_tok (JArr (map JStr urls)).
Proof. cbn [json_nums]. induction urls; cbn; [exact I|tauto]. Qed.

Lemma read_links_own urls : read_links (hs_body (respond (RpLinks urls))) = Some urls.
Proof.
  cbn [respond hs_body]. unfold read_links. rewrite js_json_print by apply links_tree. induction urls as [|u urls IH]; [reflexivity|].
  cbn [map traverse]. rewrite IH. reflexivity.
Qed.

(** The page reads exactly what the handlers returned. *)
Theorem C92_answers rp : match rp with
  | RpForm fields method url => hs_status (respond rp) = 200%N /\ read_created (hs_body (respond rp)) = Some (fields, method, url) /\ read_links (hs_body (respond rp)) = None
  | RpLinks urls => hs_status (respond rp) = 200%N /\ read_links (hs_body (respond rp)) = Some urls /\ read_created (hs_body (respond rp)) = None
  | RpNoContent => respond rp = {| hs_status := 204; hs_body := [] |}
  | RpFailed => hs_status (respond rp) = 500%N
  end.
Proof.
  destruct rp as [fields method url|urls| |]; try reflexivity.
  - split; [reflexivity|]. split; [apply read_created_own|]. cbn [respond hs_body]. unfold read_links. rewrite js_json_print; [reflexivity|].
    cbn [created_tree json_nums fold_right snd]. repeat split. induction fields as [|x fields IH]; cbn; [exact I|tauto].
  - split; [reflexivity|]. split; [apply read_links_own|]. cbn [respond hs_body]. unfold read_created. rewrite js_json_print by apply links_tree. reflexivity.
Qed.

(** * A visit *)

Lemma fd_set_new l n v : ~ In n (map fst l) -> fd_set n v l = l ++ [(n, v)].
Proof.
  induction l as [|[m w] l IH]; [reflexivity|]. cbn [map fst In]. intros N. cbn [fd_set]. destruct (str_eqb_spec m n) as [E|_]; [tauto|].
  rewrite IH by tauto. reflexivity.
Qed.

Lemma upload_body_distinct fields f : NoDup (map fst fields) -> ~ In (B "file") (map fst fields) -> upload_body fields f = entries fields f.
Proof.
  intros D N. unfold upload_body, entries. assert (G : forall l done, NoDup (map fst done ++ map fst l) ->
    fold_left (fun body nv => fd_set (fst nv) (EText (snd nv)) body) l done = done ++ map (fun nv : str * str => (fst nv, EText (snd nv))) l).
  { clear. induction l as [|[n v] l IH]; intros done D; cbn [fold_left map fst snd]; [rewrite app_nil_r; reflexivity|]. cbn [map fst] in D.
    pose proof (NoDup_remove_2 _ _ _ D) as X. rewrite fd_set_new by (intros I; apply X; apply in_or_app; left; exact I). rewrite IH.
    - rewrite <- app_assoc. reflexivity.
    - rewrite map_app. cbn [map fst]. rewrite <- app_assoc. exact D. }
  rewrite (G fields []) by exact D. cbn [app]. apply fd_set_new. rewrite map_map. exact N.
Qed.

Lemma form_body d c mine id len type fields f : upload_form d c mine id len type fields -> upload_body fields f = entries fields f /\
  find (fun nv => str_eqb (fst nv) (B "key")) fields = Some (B "key", id).
Proof.
  intros (t1 & t2 & lookup & signing & email & dg & policy & day & date & signature & secs & s & X). cbn zeta in X. destruct X as (_ & -> & _). split; [|reflexivity].
  apply upload_body_distinct.
  - cbn [map fst]. repeat (constructor; [cbn [In]; intuition discriminate|]). constructor.
  - cbn [map fst In]. intuition discriminate.
Qed.

Lemma flows_end p q l : (forall r k, p <> FlSend r k) -> flows p l q -> l = [] /\ q = p.
Proof. intros N H. destruct H; [auto|]. exfalso. eapply N. reflexivity. Qed.

Lemma no_content_inv a k l q : flows (no_content a k) l q -> q <> FlThrow -> exists r, a = Some r /\ hs_status r = 204%N /\ hs_body r = [] /\ flows k l q.
Proof.
  intros H N. unfold no_content in H. destruct a as [r|]; [|apply flows_end in H; [destruct H; subst; congruence|discriminate]].
  destruct (N.eqb_spec (hs_status r) 204) as [E|_]; [|apply flows_end in H; [destruct H; subst; congruence|discriminate]].
  destruct (hs_body r) eqn:B0; [|apply flows_end in H; [destruct H; subst; congruence|discriminate]]. exists r. auto.
Qed.

(** The course of a visit that ends with a list. *)
Lemma visit_shape f l urls : flows (on_change f) l (FlShow urls) ->
  exists r1 fields method url r2 name id r3 r4,
    l = [(PqServer (create_request f), Some r1); (PqStorage method url (upload_body fields f), Some r2);
         (PqServer (update_request id), Some r3); (PqServer list_request, Some r4)] /\
    hs_status r1 = 200%N /\ read_created (hs_body r1) = Some (fields, method, url) /\ hs_status r2 = 204%N /\
    find (fun nv => str_eqb (fst nv) (B "key")) fields = Some (name, id) /\ hs_status r3 = 204%N /\ hs_status r4 = 200%N /\ read_links (hs_body r4) = Some urls.
Proof.
  intros H. unfold on_change, create_image_js in H. inversion H as [|x k a l1 q H1]; subst. clear H.
  destruct a as [r1|]; [|apply flows_end in H1; [destruct H1; discriminate|discriminate]].
  destruct (N.eqb_spec (hs_status r1) 200) as [E1|_]; [|apply flows_end in H1; [destruct H1; discriminate|discriminate]].
  destruct (read_created (hs_body r1)) as [[[fields method] url]|] eqn:R1; [|apply flows_end in H1; [destruct H1; discriminate|discriminate]].
  unfold upload_image_js in H1. inversion H1 as [|x k a l2 q H2]; subst. clear H1.
  apply no_content_inv in H2; [|discriminate]. destruct H2 as (r2 & -> & E2 & _ & H2).
  destruct (find _ fields) as [[name id]|] eqn:F; [|apply flows_end in H2; [destruct H2; discriminate|discriminate]].
  unfold update_image_js in H2. inversion H2 as [|x k a l3 q H3]; subst. clear H2.
  apply no_content_inv in H3; [|discriminate]. destruct H3 as (r3 & -> & E3 & _ & H3).
  unfold load_images_js in H3. inversion H3 as [|x k a l4 q H4]; subst. clear H3.
  destruct a as [r4|]; [|apply flows_end in H4; [destruct H4; discriminate|discriminate]].
  destruct (N.eqb_spec (hs_status r4) 200) as [E4|_]; [|apply flows_end in H4; [destruct H4; discriminate|discriminate]].
  destruct (read_links (hs_body r4)) as [us|] eqn:R4; [|apply flows_end in H4; [destruct H4; discriminate|discriminate]].
  apply flows_end in H4; [|discriminate]. destruct H4 as [-> E]. injection E as ->.
  exists r1, fields, method, url, r2, name, id, r3, r4. repeat split; assumption.
Qed.

(** An answered request whose status is not a refusal was answered by its handler. *)
Lemma served_some past future r a l : served past future ((r, Some a) :: l) -> ~ (400 <= hs_status a < 500)%N ->
  exists x q y i rp z, future = x ++ AArrive q :: y ++ ARespond i rp :: z /\ a = respond rp /\ reaches r q /\ i = length (arrivals (past ++ x)) /\
    served (past ++ x ++ AArrive q :: y ++ [ARespond i rp]) z l.
Proof.
  intros H N. inversion H as [|? x q y i rp z ? ? Rc Ei S| |]; subst; [|contradiction]. exists x, q, y, (length (arrivals (past ++ x))), rp, z. auto.
Qed.

Lemma asked tr x q y i : tr = x ++ AArrive q :: y -> i = length (arrivals x) -> requested_as tr i q.
Proof. intros -> ->. unfold requested_as. rewrite arrivals_app. change (arrivals (AArrive q :: y)) with (q :: arrivals y). rewrite nth_error_app2 by lia. rewrite Nat.sub_diag. reflexivity. Qed.

Lemma first_such (l : list image) n im : nth_error l n = Some im ->
  exists m im', (m <= n)%nat /\ nth_error l m = Some im' /\ im_id im' = im_id im /\ forall k im'', (k < m)%nat -> nth_error l k = Some im'' -> im_id im'' <> im_id im.
Proof.
  revert n. induction l as [|x l IH]; intros [|n] E; try discriminate E.
  - injection E as ->. exists 0%nat, im. repeat split; try lia. 
  - cbn in E. destruct (str_eqb_spec (im_id x) (im_id im)) as [Ex|Nx].
    + exists 0%nat, x. repeat split; [lia|exact Ex|]. intros; lia.
    + destruct (IH n E) as (m & im' & L & E' & Ei & U). exists (S m), im'. repeat split; [lia|exact E'|exact Ei|].
      intros [|k] im'' Lk Ek; [injection Ek as <-; exact Nx|]. apply (U k); [lia|exact Ek].
Qed.

Lemma links_at d c mine ids urls : links d c mine ids urls -> forall id, In id ids -> exists m url, In url urls /\ download_link d c m id url.
Proof. induction 1 as [|mine rest id ids url urls D L IH]; intros x I; [destruct I|]. destruct I as [<-|I]; [eauto using in_eq|]. destruct (IH x I) as (m & u & Iu & Du). exists m, u. split; [right; exact Iu|exact Du]. Qed.

Lemma prefix_of {A} (a b c d : list A) : a ++ b = c ++ d -> (length c <= length a)%nat -> exists e, a = c ++ e.
Proof.
  intros E L. exists (skipn (length c) a). assert (X : firstn (length c) (a ++ b) = c) by (rewrite E, firstn_app, Nat.sub_diag, firstn_all, app_nil_r; reflexivity).
  rewrite firstn_app in X. replace (length c - length a)%nat with 0%nat in X by lia. cbn [firstn] in X. rewrite app_nil_r in X. rewrite <- X at 1. symmetry. apply firstn_skipn.
Qed.

(** A visit that ends with a list: the file had a type; a form for exactly this file was issued, and it and the file were sent to the bucket, which took
    them; the list has a link to the new object. *)
Theorem C93_visit d c tr a f l urls : deps_ok d -> app_runs d c tr a -> flows (on_change f) l (FlShow urls) -> served [] tr (server_part l) ->
  fi_type f <> [] /\ exists id fields mine r2,
    map fst l = [PqServer (create_request f); PqStorage (B "POST") (B "https://storage.googleapis.com/" ++ c_bucket_name c) (entries fields f);
                 PqServer (update_request id); PqServer list_request] /\
    nth_error (map snd l) 1 = Some (Some r2) /\ hs_status r2 = 204%N /\
    uuid_v4_text id /\ upload_form d c mine id (fi_size f) (fi_type f) fields /\
    exists before a1 theirs, app_runs d c before a1 /\ In id (shown (a_images a1)) /\ links d c theirs (shown (a_images a1)) urls /\
      exists m url, In url urls /\ download_link d c m id url.
Proof.
  intros D H W S. destruct (visit_shape _ _ _ W) as (r1 & fields & method & url & r2 & name & id & r3 & r4 & -> & E1 & R1 & E2 & F & E3 & E4 & R4).
  cbn [server_part flat_map fst snd app] in S.
  apply served_some in S; [|rewrite E1; lia]. destruct S as (x1 & q1 & y1 & i1 & rp1 & z1 & Et1 & -> & Rc1 & Ei1 & S). cbn [app] in Ei1, S.
  apply create_reached in Rc1. destruct Rc1 as (-> & Nt & _). split; [exact Nt|].
  apply served_some in S; [|rewrite E3; lia]. destruct S as (x2 & q2 & y2 & i2 & rp2 & z2 & Et2 & -> & Rc2 & Ei2 & S).
  apply served_some in S; [|rewrite E4; lia]. destruct S as (x3 & q3 & y3 & i3 & rp3 & z3 & Et3 & -> & Rc3 & Ei3 & _).
  (* the form *)
  pose proof (C92_answers rp1) as A1. destruct rp1 as [fs m u|us| |]; try (rewrite A1 in E1; discriminate E1); [|destruct A1 as (_ & _ & A1); rewrite A1 in R1; discriminate R1].
  destruct A1 as (_ & A1 & _). rewrite A1 in R1. injection R1 as -> -> ->.
  pose proof (C70_form d c tr a (x1 ++ AArrive (RqCreate (fi_size f) (fi_type f)) :: y1) i1 fields method url z1 H) as G.
  destruct G as (-> & -> & len & type & id0 & Q & U & Fo); [rewrite Et1, <- app_assoc; reflexivity|].
  assert (Q' : requested_as (x1 ++ AArrive (RqCreate (fi_size f) (fi_type f)) :: y1) i1 (RqCreate (fi_size f) (fi_type f))) by (eapply asked; [reflexivity|exact Ei1]).
  pose proof (requested_fun _ _ _ _ Q Q') as X. injection X as -> ->. destruct (form_body _ _ _ _ _ _ _ f Fo) as [Bo Fi]. rewrite Fi in F. injection F as <- <-.
  set (mine := effects_of _ i1) in Fo. exists id0, fields, mine, r2. split; [cbn [map fst]; rewrite Bo; reflexivity|]. split; [reflexivity|]. split; [exact E2|]. split; [exact U|]. split; [exact Fo|].
  (* the update *)
  destruct (uuid_clean _ U) as [Fc _]. assert (Np : ~ In "%" id0).
  { rewrite Forall_forall in Fc. intros I. apply Fc in I. cbn in I. repeat destruct I as [I|I]; try discriminate I; contradiction. }
  apply update_reached in Rc2; [|exact Np]. subst q2.
  pose proof (C92_answers rp2) as A2. destruct rp2 as [fs2 m2 u2|us| |]; try (destruct A2 as (A2 & _); rewrite A2 in E3; discriminate E3); [|rewrite A2 in E3; discriminate E3].
  (* the list *)
  assert (q3 = RqList) as -> by (inversion Rc3 as [? ? ?|? ? ? ? M|? ? ? ? ? ? M]; subst; [reflexivity|discriminate M|discriminate M]).
  pose proof (C92_answers rp3) as A3. destruct rp3 as [fs3 m3 u3|us| |]; try (rewrite A3 in E4; discriminate E4); [destruct A3 as (_ & _ & A3); rewrite A3 in R4; discriminate R4|].
  destruct A3 as (_ & A3 & _). rewrite A3 in R4. injection R4 as ->.
  set (p1 := x1 ++ AArrive (RqCreate (fi_size f) (fi_type f)) :: y1 ++ [ARespond i1 (RpForm fields (B "POST") (B "https://storage.googleapis.com/" ++ c_bucket_name c))]) in *.
  set (p2 := p1 ++ x2 ++ AArrive (RqUpdate id0) :: y2) in *.
  set (p3 := p2 ++ [ARespond i2 RpNoContent]) in *.
  assert (E5 : tr = (p3 ++ x3 ++ AArrive RqList :: y3) ++ ARespond i3 (RpLinks urls) :: z3).
  { rewrite Et1, Et2, Et3. unfold p3, p2, p1. repeat (rewrite <- app_assoc; cbn [app]). reflexivity. }
  destruct (C69_links _ _ _ _ _ _ _ _ D H E5) as (before & y & a1 & Eb & Ra & _ & Lk).
  assert (Ei3' : i3 = length (arrivals (p3 ++ x3))).
  { rewrite Ei3. f_equal. f_equal. unfold p3, p2. repeat (rewrite <- app_assoc; cbn [app]). reflexivity. }
  assert (Lc : (i3 < length (arrivals before))%nat).
  { destruct (app_runs_split _ _ _ _ H before (ACopy i3) (y ++ ARespond i3 (RpLinks urls) :: z3)) as (b1 & b2 & R1' & St & _); [rewrite E5, Eb, <- app_assoc; reflexivity|].
    inversion St; subst. destruct (app_inv _ _ _ _ R1') as (Ln & _ & _). rewrite <- Ln. apply nth_error_Some. unfold handler_at in *. congruence. }
  assert (P3 : exists e, before = p3 ++ e).
  { apply (prefix_of before (ACopy i3 :: y) p3 (x3 ++ AArrive RqList :: y3)); [symmetry; exact Eb|].
    destruct (le_lt_dec (length p3) (length before)) as [G|G]; [exact G|exfalso].
    destruct (prefix_of p3 (x3 ++ AArrive RqList :: y3) before (ACopy i3 :: y)) as (e & Ee); [exact Eb|lia|]. rewrite Ei3', Ee in Lc. rewrite !arrivals_app, !app_length in Lc. lia. }
  destruct P3 as (e & Ebe).
  assert (Sh : In id0 (shown (a_images a1))).
  { pose proof (images_inv _ _ _ _ Ra) as IF. assert (Fm : exists n, (n < length (forms p2))%nat /\ nth_error (forms before) n = Some fields).
    { assert (Ef : forms p1 = forms (x1 ++ AArrive (RqCreate (fi_size f) (fi_type f)) :: y1) ++ [fields]).
      { unfold p1. replace (x1 ++ AArrive (RqCreate (fi_size f) (fi_type f)) :: y1 ++ [ARespond i1 (RpForm fields (B "POST") (B "https://storage.googleapis.com/" ++ c_bucket_name c))])
          with ((x1 ++ AArrive (RqCreate (fi_size f) (fi_type f)) :: y1) ++ [ARespond i1 (RpForm fields (B "POST") (B "https://storage.googleapis.com/" ++ c_bucket_name c))]) by (rewrite <- app_assoc; reflexivity).
        rewrite forms_app. reflexivity. }
      rewrite Ebe. unfold p3, p2. exists (length (forms (x1 ++ AArrive (RqCreate (fi_size f) (fi_type f)) :: y1))). rewrite <- !app_assoc. rewrite (forms_app p1), (forms_app p1), Ef. split.
      - rewrite !app_length. cbn [length]. lia.
      - rewrite <- app_assoc. rewrite nth_error_app2 by lia. rewrite Nat.sub_diag. reflexivity. }
    destruct Fm as (n & Ln & En). assert (Im : exists im, nth_error (a_images a1) n = Some im /\ im_id im = id0).
    { clear -IF En Fo. revert n En. induction IF as [|im fs l fl [Hk Hu] IF IH]; intros [|n] En; try discriminate En.
      - injection En as ->. exists im. split; [reflexivity|]. destruct (form_key _ _ _ _ _ _ _ Fo) as [K1 K2]. destruct Hk as [K3 _]. exact (K2 _ K3).
      - exact (IH n En). }
    destruct Im as (im & En' & Eid). destruct (first_such _ _ _ En') as (m & im' & Lm & Em & Eim & Um). rewrite Eid in Eim, Um.
    unfold shown. rewrite <- Eim. apply in_map. apply filter_In. split; [eapply nth_error_In; exact Em|].
    apply (C68_uploaded _ _ _ _ _ _ Ra Em). split.
    - exists p2, i2, e. split; [rewrite Ebe; unfold p3; rewrite <- app_assoc; reflexivity|]. split; [|lia]. rewrite Eim. eapply asked; [unfold p2; rewrite app_assoc; reflexivity|].
      rewrite Ei2. reflexivity.
    - intros k im'' Lk' Ek. rewrite Eim. exact (Um k im'' Lk' Ek). }
  exists before, a1, (effects_of (p3 ++ x3 ++ AArrive RqList :: y3) i3). split; [exact Ra|]. split; [exact Sh|]. split; [exact Lk|]. exact (links_at _ _ _ _ _ Lk _ Sh).
Qed.

(** A file without a type: nothing is uploaded, the visit ends with an error. *)
Theorem C93_untyped f tr l q : fi_type f = [] -> flows (on_change f) l q -> served [] tr (server_part l) ->
  l = [] \/ q = FlThrow /\ exists a, l = [(PqServer (create_request f), a)].
Proof.
  intros E H S. inversion H as [|x k a l1 q' H1]; subst; [left; reflexivity|right]. cbn [server_part flat_map fst snd app] in S.
  assert (Ok : forall r, a = Some r -> hs_status r <> 200%N).
  { intros r -> E2. apply served_some in S; [|rewrite E2; lia]. destruct S as (x & q0 & y & i & rp & z & _ & _ & R & _). exact (C92_untyped _ _ E R). }
  assert (X : (match a with None => FlThrow | Some r => if N.eqb (hs_status r) 200 then
      match read_created (hs_body r) with Some (fields, method, url) => upload_image_js url method fields f
        (match find (fun nv => str_eqb (fst nv) (B "key")) fields with None => FlThrow | Some (_, id) => update_image_js id (load_images_js FlShow) end) | None => FlThrow end
      else FlThrow end) = FlThrow).
  { destruct a as [r|]; [|reflexivity]. destruct (N.eqb_spec (hs_status r) 200) as [E2|_]; [destruct (Ok r eq_refl E2)|reflexivity]. }
  cbv beta in H1. rewrite X in H1. apply flows_end in H1; [|discriminate]. destruct H1 as [-> ->]. split; [reflexivity|]. eauto.
Qed.

(** If server and bucket answer well, the visit ends with the list: the page asks nothing that is not there. *)
Theorem C93_shows d c mine id f fields method url text urls : upload_form d c mine id (fi_size f) (fi_type f) fields -> text = [] ->
  flows (on_change f)
    [(PqServer (create_request f), Some (respond (RpForm fields method url)));
     (PqStorage method url (entries fields f), Some {| hs_status := 204; hs_body := text |});
     (PqServer (update_request id), Some (respond RpNoContent)); (PqServer list_request, Some (respond (RpLinks urls)))] (FlShow urls).
Proof.
  intros Fo ->. destruct (form_body _ _ _ _ _ _ _ f Fo) as [Bo Fi]. unfold on_change, create_image_js. constructor. cbv beta iota.
  rewrite read_created_own. change (hs_status (respond (RpForm fields method url)) =? 200)%N with true. cbv iota. unfold upload_image_js. rewrite Bo, Fi. constructor. cbn [no_content hs_status hs_body].
  change (204 =? 204)%N with true. cbv iota. unfold update_image_js. constructor. change (respond RpNoContent) with {| hs_status := 204; hs_body := [] |}. cbn [no_content hs_status hs_body]. change (204 =? 204)%N with true. cbv iota.
  unfold load_images_js. constructor. rewrite read_links_own. change (hs_status (respond (RpLinks urls)) =? 200)%N with true. cbv iota. constructor.
Qed.

(** * The form before the service *)

Lemma unbroken s : ~ In x0d s -> ~ In x0a s -> line_breaks s.
Proof. intros N1 N2 a b. split; intros ->; exfalso; [apply N2|apply N1]; apply in_or_app; right; left; reflexivity. Qed.

Lemma digits_unbroken w n s : digits w n s -> ~ In x0d s /\ ~ In x0a s.
Proof. intros (_ & D & _). rewrite Forall_forall in D. split; intros I; apply D in I; discriminate I. Qed.

Lemma app_unbroken a b : (~ In x0d a /\ ~ In x0a a) -> (~ In x0d b /\ ~ In x0a b) -> ~ In x0d (a ++ b) /\ ~ In x0a (a ++ b).
Proof. intros [A1 A2] [B1 B2]. split; intros I; apply in_app_or in I; tauto. Qed.

Ltac unbroken_pieces := repeat apply app_unbroken; try (eapply digits_unbroken; eassumption); split; intros I; cbn in I; repeat destruct I as [I|I]; try discriminate I; contradiction.

Lemma day_unbroken secs s : utc_date_text secs s -> ~ In x0d s /\ ~ In x0a s.
Proof. intros (d & h & mi & sc & ty & tm & td & _ & D1 & D2 & D3 & ->). unbroken_pieces. Qed.
Lemma date_unbroken secs s : utc_basic_text secs s -> ~ In x0d s /\ ~ In x0a s.
Proof. intros (d & h & mi & sc & ty & tm & td & th & tmi & ts & _ & D1 & D2 & D3 & D4 & D5 & D6 & ->). unbroken_pieces. Qed.

Lemma named_unbroken s : Forall (fun c => In c name_characters) s -> ~ In x0d s /\ ~ In x0a s.
Proof. intros F. rewrite Forall_forall in F. split; intros I; apply F in I; cbn in I; repeat destruct I as [I|I]; try discriminate I; contradiction. Qed.

(** The form issued for a file, as the browser sends it, is accepted by the service together with the file, from the time of
    issue until the minute is over. *)
Theorem C93_accepted d c mine id f fields : upload_form d c mine id (fi_size f) (fi_type f) fields -> bucket_text (c_bucket_name c) -> printable (fi_type f) -> uuid_v4_text id ->
  exists t1 t2 lookup signing email policy s, mine = VNow t1 :: VNow t2 :: lookup ++ signing /\ authorized (c_signing_key c) lookup email /\
    signed d (c_signing_key c) (c_use_sign_blob c) policy signing s /\
    forall (verifies : str -> str -> str -> Prop) now form, verifies email policy s -> ~ In x0d email -> ~ In x0a email -> submitted fields form ->
      (t2 / 1000000000 <= now < (t1 + 60 * 1000000000) / 1000000000)%Z -> upload_accepted verifies now form (fi_size f) email policy s.
Proof.
  intros (t1 & t2 & lookup & signing & email & dg & policy & day & date & signature & secs & s & X) Bt Pt U. cbn zeta in X.
  destruct X as (-> & -> & Dg & Au & Da & Dy & (text & j & D & J & _ & P) & Sx & Tx & Sg & Hx).
  exists t1, t2, lookup, signing, email, policy, s. split; [reflexivity|]. split; [exact Au|]. split; [exact Sg|].
  intros verifies now form V N1 N2 Sub Now.
  assert (Secs : secs = ((t1 + 60 * 1000000000) / 1000000000)%Z) by (apply (Z.div_unique_pos _ _ _ (t1 + 60 * 1000000000 - secs * 1000000000)%Z); lia).
  assert (Ty : ~ In x0d (fi_type f) /\ ~ In x0a (fi_type f)).
  { unfold printable in Pt. rewrite Forall_forall in Pt. split; intros I; apply Pt in I; revert I; vm_compute; intuition congruence. }
  match type of Sub with submitted ?fs _ => set (fields := fs) in * end.
  assert (Pl : plain_fields fields).
  { assert (Cl : forall n v, forallb (fun c => negb (existsb (beq c) [x0d; x0a; x22])) n = true -> line_breaks v ->
      (forall c, In c (fst (n, v)) -> ~ In c [x0d; x0a; x22]) /\ line_breaks (snd (n, v))) by (intros n v E L; split; [apply clean_iff; exact E|exact L]).
    assert (Ub : forall v, ~ In x0d v /\ ~ In x0a v -> line_breaks v) by (intros v [? ?]; apply unbroken; assumption).
    unfold plain_fields, fields. constructor; [apply Cl; [reflexivity|apply Ub, named_unbroken; apply Bt]|]. constructor; [apply Cl; [reflexivity|eapply decimal_plain; exact Dg]|].
    constructor; [apply Cl; [reflexivity|apply Ub; exact Ty]|]. constructor; [apply Cl; [reflexivity|apply Ub, named_unbroken; apply uuid_clean; exact U]|].
    constructor; [apply Cl; [reflexivity|eapply base64_plain; exact D]|]. constructor; [apply Cl; [reflexivity|apply Ub; unbroken_pieces]|].
    constructor; [apply Cl; [reflexivity|apply Ub; repeat apply app_unbroken; try (eapply day_unbroken; exact Dy); [split; assumption|unbroken_pieces|unbroken_pieces]]|].
    constructor; [apply Cl; [reflexivity|apply Ub; eapply date_unbroken; exact Da]|]. constructor; [apply Cl; [reflexivity|eapply hex_plain; exact Hx]|]. constructor. }
  apply (C86_browser fields form Sub) in Pl. subst form.
  exists text, j, [CEq (B "bucket") (c_bucket_name c); CRange (fi_size f) (fi_size f); CEq (B "Content-Type") (fi_type f); CEq (B "key") id;
    CEq (B "x-goog-algorithm") (B "GOOG4-RSA-SHA256"); CEq (B "x-goog-credential") (email ++ B "/" ++ day ++ B "/auto/storage/goog4_request"); CEq (B "x-goog-date") date],
    secs, (t2 / 1000000000)%Z, (B "auto"), date, (day ++ B "/auto/storage/goog4_request"), signature.
  split; [reflexivity|]. split; [exact D|]. split; [exact J|]. split; [exact P|]. split; [reflexivity|]. split; [reflexivity|].
  split; [exists day; split; [exact Dy|]; apply glued_iff; reflexivity|]. split; [reflexivity|]. split; [exact Da|]. split; [reflexivity|]. split; [exact Hx|].
  split; [rewrite Secs; exact Now|]. split.
  { assert (Nd : NoDup (map fst fields)) by (unfold fields; cbn [map fst]; repeat (constructor; [cbn [In]; intuition discriminate|]); constructor).
    assert (Hf : forall n v, In (n, v) fields -> has_field fields n v) by (intros n v I; split; [exact I|]; intros w Iw; exact (once fields n v w Nd I Iw)).
    unfold accepted. apply Forall_forall. intros k I. cbn [In] in I.
    repeat destruct I as [<-|I]; try contradiction; cbn [satisfied]; try lia; apply Hf; unfold fields; cbn [In]; tauto. }
  split; [|exact V]. intros n v I. unfold fields in I. cbn [In] in I.
  repeat destruct I as [I|I]; try contradiction; apply (f_equal fst) in I; cbn [fst] in I; subst n;
    first [left; left; reflexivity|left; right; left; reflexivity|right; eexists; split; [left; reflexivity|reflexivity]|right; eexists; split; [right; left; reflexivity|reflexivity]|right; eexists; split; [right; right; left; reflexivity|reflexivity]|right; eexists; split; [right; right; right; left; reflexivity|reflexivity]|right; eexists; split; [right; right; right; right; left; reflexivity|reflexivity]|right; eexists; split; [right; right; right; right; right; left; reflexivity|reflexivity]|right; eexists; split; [right; right; right; right; right; right; left; reflexivity|reflexivity]].
Qed.

(** * The list *)

Fixpoint seconds (l : list str) : list str := match l with _ :: y :: r => y :: seconds r | _ => [] end.

Lemma pairs_ind (P : list str -> Prop) : P [] -> (forall x, P [x]) -> (forall x y r, P r -> P (x :: y :: r)) -> forall l, P l.
Proof. intros H0 H1 H2. assert (G : forall l, P l /\ forall x, P (x :: l)) by (induction l as [|y l [A C]]; [auto|]; split; [apply C|]; intros x; apply H2; exact A). intros l. apply G. Qed.

Lemma seconds_spec l : alternate l (seconds l).
Proof.
  unfold alternate. induction l as [|x|x y r IH] using pairs_ind; intros k.
  - cbn. rewrite nth_error_nil || destruct k; reflexivity.
  - cbn [seconds]. replace (2 * k + 1)%nat with (S (2 * k)) by lia. cbn [nth_error]. destruct k; [reflexivity|]. cbn. reflexivity.
  - destruct k as [|k]; [reflexivity|]. cbn [seconds nth_error]. rewrite IH. replace (2 * S k + 1)%nat with (S (S (2 * k + 1))) by lia. reflexivity.
Qed.

Lemma seconds_length l : length (seconds l) = Nat.div2 (length l).
Proof. induction l as [|x|x y r IH] using pairs_ind; [reflexivity|reflexivity|]. cbn [seconds length Nat.div2]. rewrite IH. reflexivity. Qed.

Lemma remove_spec rest : forall fuel done, (length rest <= fuel)%nat -> remove_children fuel (length done) (done ++ rest) = done ++ seconds rest.
Proof.
  induction rest as [|x|x y r IH] using pairs_ind; intros fuel done L.
  - destruct fuel as [|fuel]; cbn [remove_children seconds]; [reflexivity|]. rewrite nth_error_app2 by lia. rewrite Nat.sub_diag. reflexivity.
  - destruct fuel as [|fuel]; [cbn in L; lia|]. cbn [remove_children seconds]. rewrite nth_error_app2 by lia. rewrite Nat.sub_diag. cbn [nth_error].
    rewrite firstn_app, firstn_all, Nat.sub_diag. rewrite skipn_app, (skipn_all2 done) by lia. replace (S (length done) - length done)%nat with 1%nat by lia. cbn [firstn skipn app].
    rewrite !app_nil_r. destruct fuel as [|fuel]; [reflexivity|]. cbn [remove_children]. rewrite (proj2 (nth_error_None done (S (length done)))) by lia. reflexivity.
  - destruct fuel as [|fuel]; [cbn in L; lia|]. cbn [remove_children seconds]. rewrite nth_error_app2 by lia. rewrite Nat.sub_diag. cbn [nth_error].
    rewrite firstn_app, firstn_all, Nat.sub_diag. rewrite skipn_app, (skipn_all2 done) by lia. replace (S (length done) - length done)%nat with 1%nat by lia. cbn [firstn skipn app].
    rewrite app_nil_r. replace (done ++ y :: r) with ((done ++ [y]) ++ r) by (rewrite <- app_assoc; reflexivity).
    replace (S (length done)) with (length (done ++ [y])) by (rewrite app_length; cbn; lia). rewrite IH by (cbn in L; lia). rewrite <- app_assoc. reflexivity.
Qed.

Lemma render_seconds children urls : render children urls = seconds children ++ urls.
Proof. unfold render. f_equal. exact (remove_spec children (length children) [] (le_n _)). Qed.

(** Every image of a response is shown, in order, after every second one of what was there before. *)
Theorem C94_render children urls : exists kept, render children urls = kept ++ urls /\ alternate children kept.
Proof. exists (seconds children). split; [apply render_seconds|apply seconds_spec]. Qed.

(** So the list shows just the response exactly if there was at most one image before. *)
Theorem C94_exact children urls : render children urls = urls <-> (length children <= 1)%nat.
Proof.
  rewrite render_seconds. split.
  - intros E. apply (f_equal (@length str)) in E. rewrite app_length in E. destruct children as [|x [|y r]]; cbn in *; lia.
  - intros L. destruct children as [|x [|y r]]; [reflexivity|reflexivity|cbn in L; lia].
Qed.

(** The first list is shown as it is; what piles up later is bounded by twice the longest response. *)
Theorem C94_first urls : page_children [urls] = urls.
Proof. reflexivity. Qed.
Theorem C94_bounded n shown : Forall (fun urls => (length urls <= n)%nat) shown -> (length (page_children shown) <= 2 * n)%nat.
Proof.
  unfold page_children. intros F. assert (G : forall children, (length children <= 2 * n)%nat -> (length (fold_left render shown children) <= 2 * n)%nat); [|apply G; cbn; lia].
  induction F as [|urls shown L F IH]; intros children C; [exact C|]. cbn [fold_left]. apply IH. rewrite render_seconds, app_length, seconds_length.
  pose proof (Nat.div2_odd (length children)) as X. destruct (Nat.odd (length children)); cbn [Nat.b2n] in X; lia.
Qed.

(** The page does not always show just the latest response: images stay from before. *)
Theorem C95_latest_refuted : exists shown last, page_children (shown ++ [last]) <> last.
Proof. exists [[B "a"; B "b"]], [B "a"; B "b"; B "c"]. discriminate. Qed.

(** * Cases *)

Definition demo_upload : file := {| fi_size := 3; fi_type := B "image/png" |}.

Example C92_case : reaches (create_request demo_upload) (RqCreate 3 (B "image/png")) /\
  create_body demo_upload = B "{""content_length"":3,""content_type"":""image/png""}" /\
  route (create_request {| fi_size := 3; fi_type := [] |}) = RtRefused [400%N; 422%N] /\
  route {| hq_method := B "POST"; hq_path := B "/images"; hq_json := true; hq_body := B "[3,""ab""] and more" |} = RtHandler (RqCreate 3 (B "ab")) /\
  route {| hq_method := B "PATCH"; hq_path := B "/images/a%2Fb"; hq_json := false; hq_body := [] |} = RtHandler (RqUpdate (B "a/b")) /\
  route {| hq_method := B "PATCH"; hq_path := B "/images/%ff"; hq_json := false; hq_body := [] |} = RtRefused [400%N].
Proof.
  split; [|repeat split; vm_compute; reflexivity]. apply (C92_create demo_upload); [discriminate| | |].
  - apply unicode_spec. reflexivity.
  - reflexivity.
  - cbn. lia.
Qed.

Lemma demo_uuid : uuid_v4_text demo_id.
Proof. rewrite <- demo_id_eq. apply uuid_text. reflexivity. Qed.

(** A visit of the page with the history of C69: it meets the hypotheses of C93_visit and of C93_accepted. *)
Example C93_case : exists tr a l urls fields mine, app_runs demo_deps demo_app tr a /\ flows (on_change demo_upload) l (FlShow urls) /\ served [] tr (server_part l) /\ deps_ok demo_deps /\
  upload_form demo_deps demo_app mine demo_id (fi_size demo_upload) (fi_type demo_upload) fields /\ bucket_text (c_bucket_name demo_app) /\ printable (fi_type demo_upload) /\ uuid_v4_text demo_id.
Proof.
  destruct C69_case as (fields & url & a & H & Im & Bk & D). set (history := [AArrive (RqCreate 3 (B "image/png")); ADraw 0 demo_random; _; _; _; _; _; _; _; _; _; _]) in H.
  destruct (C70_form _ _ _ _ (firstn 4 history) 0 _ _ _ _ H eq_refl) as (_ & _ & len & type & id & Q & _ & Fo). injection Q as <- <-.
  assert (id = demo_id) as ->.
  { pose proof (C68_images _ _ _ _ H) as I. rewrite Im in I. change (forms history) with [fields] in I. inversion I as [|? ? ? ? [[K _] _] _]; subst. cbn [im_id] in K.
    destruct (form_key _ _ _ _ _ _ _ Fo) as [_ K2]. symmetry. exact (K2 _ K). }
  pose proof (C93_shows _ _ _ _ demo_upload fields (B "POST") (B "https://storage.googleapis.com/bucket1") [] [url] Fo eq_refl) as W.
  eexists history, a, _, [url], fields, _. split; [exact H|]. split; [exact W|]. split.
  { cbn [server_part flat_map fst snd app].
    apply (sd_handler [] [] (RqCreate 3 (B "image/png")) (firstn 3 (skipn 1 history)) 0 (RpForm fields (B "POST") (B "https://storage.googleapis.com/bucket1")) (skipn 5 history)); [apply C92_case|reflexivity|].
    apply (sd_handler _ [] (RqUpdate demo_id) [] 1 RpNoContent (skipn 7 history)); [apply C92_update; exact demo_uuid|reflexivity|].
    apply (sd_handler _ [] RqList (firstn 3 (skipn 8 history)) 2 (RpLinks [url]) []); [apply (C92_update demo_id); exact demo_uuid|reflexivity|]. constructor. }
  split; [exact D|]. split; [exact Fo|]. split; [exact Bk|]. split; [|exact demo_uuid].
  apply Forall_forall. intros x I. cbn in I. repeat destruct I as [<-|I]; try contradiction; split; vm_compute; discriminate.
Qed.

(** A file without a type is turned away. *)
Example C93_untyped_case : let f := {| fi_size := 3; fi_type := [] |} in
  let l := [(PqServer (create_request f), Some {| hs_status := 422; hs_body := [] |})] in fi_type f = [] /\ flows (on_change f) l FlThrow /\ served [] [] (server_part l).
Proof.
  split; [reflexivity|]. split; [constructor; constructor|]. apply sd_refused; [|split; vm_compute; [discriminate|reflexivity]|constructor]. intros q. apply C92_untyped. reflexivity.
Qed.

Example C94_case : page_children [[B "a"; B "b"; B "c"]; [B "a"; B "b"; B "c"; B "d"]] = [B "b"; B "a"; B "b"; B "c"; B "d"] /\
  Forall (fun urls : list str => (length urls <= 4)%nat) [[B "a"; B "b"; B "c"]; [B "a"; B "b"; B "c"; B "d"]].
Proof. split; [reflexivity|]. repeat constructor. Qed.
