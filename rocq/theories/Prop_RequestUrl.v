(** C103: the text of the request URL, and what its length decides. *)
From Coq Require Import Sorted Permutation.
From Verif Require Import Base BaseFacts Utf8 FormUrl FormUrlFacts SpecCodec CodecFacts Time CalendarFacts TimeFacts SpecCalendar SpecPolicy SpecForm FormFacts
  Effects EffectsFacts Keys Scope Url SignedUrl UrlFacts SpecUrl UrlSpecFacts SpecToken SpecTrace SpecSign SignFacts SignedUrlFacts HeaderFacts
  HtmlForm Calls Demo UrlResult UrlQueryFacts RefreshFacts Prop_Url Prop_UrlQuery Prop_UrlHeaders Prop_UrlPath SpecPath Prop_Path SpecRequestUrl.
Local Open Scope byte_scope.

(** * Escapes *)

Lemma escape_iff c t : escape_of c t <-> t = pct c.
Proof.
  pose proof (byte_sweep (fun c => match nth_error upper_hex (N.to_nat (bN c / 16)), nth_error upper_hex (N.to_nat (bN c mod 16)) with Some h, Some l => beq h (HEXD (bN c / 16)) && beq l (HEXD (bN c mod 16)) | _, _ => false end) eq_refl c) as G.
  cbv beta in G. unfold escape_of, pct. destruct (nth_error upper_hex (N.to_nat (bN c / 16))) as [h|]; [|discriminate G]. destruct (nth_error upper_hex (N.to_nat (bN c mod 16))) as [l|]; [|discriminate G].
  apply andb_true_iff in G. destruct G as [G1 G2]. apply beq_eq in G1, G2. subst. split; [intros (a & b & E1 & E2 & ->); congruence|intros ->; eauto].
Qed.

Lemma written_iff (special : byte -> Prop) set : (forall c, special c <-> set c = true) -> forall s t, written special s t <-> t = pct_encode set s.
Proof.
  intros S. assert (W : forall s, written special s (pct_encode set s)).
  { induction s as [|c s IH]; [constructor|]. rewrite pct_encode_cons. destruct (set c) eqn:E; [apply wr_escape; [apply S, E|apply escape_iff; reflexivity|exact IH]|apply wr_copy; [rewrite S; congruence|exact IH]]. }
  intros s t. split; [|intros ->; apply W]. induction 1 as [|c e s t C X H IH|c s t C H IH]; [reflexivity| |]; rewrite pct_encode_cons.
  - apply S in C. rewrite C. apply escape_iff in X. subst. reflexivity.
  - rewrite S in C. destruct (set c); [congruence|]. subst. reflexivity.
Qed.

Definition mem (c : byte) (l : str) : bool := existsb (beq c) l.
Lemma mem_iff c l : mem c l = true <-> In c l.
Proof.
  unfold mem. rewrite existsb_exists. split; [intros (x & I & E); apply beq_eq in E; subst; exact I|intros I; exists c; split; [exact I|apply beq_refl]].
Qed.

Lemma control_iff c : control c <-> set_controls c = true.
Proof. unfold control, set_controls. rewrite orb_true_iff, N.ltb_lt, N.leb_le. reflexivity. Qed.

Lemma in_query_iff c : in_query c <-> set_query c = true.
Proof.
  unfold in_query. rewrite control_iff, <- mem_iff, <- orb_true_iff.
  pose proof (byte_sweep (fun c => Bool.eqb (set_controls c || mem c (B " ""#<>'")) (set_query c)) eq_refl c) as G. apply Bool.eqb_prop in G. cbv beta in G. rewrite G. reflexivity.
Qed.
Lemma in_fragment_iff c : in_fragment c <-> set_fragment c = true.
Proof.
  unfold in_fragment. rewrite control_iff, <- mem_iff, <- orb_true_iff.
  pose proof (byte_sweep (fun c => Bool.eqb (set_controls c || mem c (B " ""<>`")) (set_fragment c)) eq_refl c) as G. apply Bool.eqb_prop in G. cbv beta in G. rewrite G. reflexivity.
Qed.
Lemma in_path_iff caret c : in_path caret c <-> set_path caret c = true.
Proof.
  unfold in_path. rewrite control_iff, <- mem_iff, <- beq_eq, <- andb_true_iff, <- !orb_true_iff.
  pose proof (byte_sweep (fun c => Bool.eqb (set_controls c || (mem c (B " ""#<>?`{}") || (caret && beq c "^"))) (set_path caret c)) ltac:(destruct caret; reflexivity) c) as G. apply Bool.eqb_prop in G. cbv beta in G. rewrite G. reflexivity.
Qed.

Lemma form_safe_iff c : form_safe c <-> form_unchanged c = true.
Proof.
  unfold form_safe. rewrite <- mem_iff.
  pose proof (byte_sweep (fun c => Bool.eqb (mem c (B "*-._0123456789ABCDEFGHIJKLMNOPQRSTUVWXYZabcdefghijklmnopqrstuvwxyz")) (form_unchanged c)) eq_refl c) as G. apply Bool.eqb_prop in G. cbv beta in G. rewrite G. reflexivity.
Qed.

Lemma form_written_iff s t : form_written s t <-> t = form_serialize s.
Proof.
  assert (W : forall s, form_written s (form_serialize s)).
  { clear. induction s as [|c s IH]; [constructor|]. unfold form_serialize. cbn [flat_map]. fold (form_serialize s).
    destruct (form_unchanged c) eqn:E; [apply fw_copy; [apply form_safe_iff, E|exact IH]|]. destruct (beq_spec c " ") as [->|N]; [apply fw_space, IH|].
    apply fw_escape; [rewrite form_safe_iff; congruence|exact N|apply escape_iff; reflexivity|exact IH]. }
  split; [|intros ->; apply W]. induction 1 as [|c s t C H IH|s t H IH|c e s t C N X H IH]; [reflexivity|..]; unfold form_serialize; cbn [flat_map]; fold (form_serialize s); subst t.
  - apply form_safe_iff in C. rewrite C. reflexivity.
  - reflexivity.
  - rewrite form_safe_iff in C. destruct (form_unchanged c); [congruence|]. destruct (beq_spec c " ") as [->|_]; [congruence|]. apply escape_iff in X. subst. reflexivity.
Qed.

Definition pair_of (kv : str * str) : str := form_serialize (fst kv) ++ "=" :: form_serialize (snd kv).
Lemma pair_text_iff kv t : pair_text kv t <-> t = pair_of kv.
Proof.
  split.
  - intros (k & v & K & V & ->). apply form_written_iff in K, V. subst. reflexivity.
  - intros ->. exists (form_serialize (fst kv)), (form_serialize (snd kv)). split; [apply form_written_iff; reflexivity|]. split; [apply form_written_iff; reflexivity|reflexivity].
Qed.

Lemma forall2_map {A B} (R : A -> B -> Prop) f : (forall a b, R a b <-> b = f a) -> forall l m, Forall2 R l m <-> m = map f l.
Proof.
  intros E l m. split.
  - induction 1 as [|a b l m H F IH]; [reflexivity|]. apply E in H. subst. reflexivity.
  - intros ->. induction l; constructor; [apply E; reflexivity|assumption].
Qed.

(** * The parts *)

Definition marks (v : str) : str * option str * option str :=
  let '(p, r) := split_path v in
  match r with
  | [] => (p, None, None)
  | c :: t => if beq c "?" then let '(q, f) := split_once "#" t in (p, Some q, f) else (p, None, Some t)
  end.

Lemma cut_iff v p q f : cut v p q f <-> marks v = (p, q, f).
Proof.
  unfold marks. split.
  - intros [p' N M|p' q' N M L|p' f' N M|p' q' f' N M L].
    + rewrite split_path_none by assumption. reflexivity.
    + rewrite split_path_app by auto. rewrite beq_refl, split_once_none by exact L. reflexivity.
    + rewrite split_path_app by auto. reflexivity.
    + rewrite split_path_app by auto. rewrite beq_refl, split_once_app by exact L. reflexivity.
  - pose proof (split_path_spec v) as S. destruct (split_path v) as [p' r]. destruct S as (-> & N & M & [->|(t & [-> | ->])]).
    + intros E. injection E as <- <- <-. rewrite app_nil_r. apply cut_path; assumption.
    + rewrite beq_refl. pose proof (split_once_spec "#" t) as S. destruct (split_once "#" t) as [a [b|]]; destruct S as [-> L]; intros E; injection E as <- <- <-; [apply cut_both|apply cut_query]; assumption.
    + cbn [beq]. change (beq "#" "?") with false. intros E. injection E as <- <- <-. apply cut_fragment; assumption.
Qed.

Lemma parse_marks d s : let '(p, q, f) := marks (drop_tabs (trim_end s)) in
  url_parse d s = {| u_path := walk_path (d_path_caret d) [] (split_segments p); u_query := option_map (pct_encode set_query) q; u_fragment := option_map (pct_encode set_fragment) f |}.
Proof.
  unfold marks, url_parse. rewrite trim_end_slash. change (drop_tabs ("/" :: trim_end s)) with ("/" :: drop_tabs (trim_end s)). cbn [split_path]. change (beq "/" "?" || beq "/" "#")%bool with false. cbv iota.
  destruct (split_path (drop_tabs (trim_end s))) as [p r]. cbn [tl]. destruct r as [|c t]; [reflexivity|]. destruct (beq c "?"); [|reflexivity]. destruct (split_once "#" t) as [a b]. reflexivity.
Qed.

Lemma request_path_iff caret p path : request_path caret p path <-> path = walk_path caret [] (split_segments p).
Proof.
  destruct (walk_reached caret (split_segments p) (segments_not_nil p) [] [] re_root) as (out & P & W). cbn [map app] in P, W. rewrite W. split.
  - intros (segs & out' & es & body & Se & Ps & F & G & ->). pose proof (separated_unique _ _ Se _ (split_segments_spec p)) as ->. rewrite (path_segments_unique _ _ _ Ps P) in F.
    apply (forall2_map _ (pct_encode (set_path caret)) (written_iff _ _ (in_path_iff caret))) in F. subst es. apply glued_iff in G. subst body. reflexivity.
  - intros ->. exists (split_segments p), out, (map (pct_encode (set_path caret)) out). eexists. split; [apply split_segments_spec|]. split; [exact P|].
    split; [apply (forall2_map _ _ (written_iff _ _ (in_path_iff caret))); reflexivity|]. split; [apply glued_iff; reflexivity|reflexivity].
Qed.

Lemma append_pairs_glued params : forall own, fold_left append_pair params own = join (B "&") (match own with [] => map pair_of params | _ => own :: map pair_of params end).
Proof.
  assert (E : forall own kv, append_pair own kv = match own with [] => pair_of kv | _ => own ++ "&" :: pair_of kv end).
  { intros own kv. unfold append_pair, pair_of. destruct own; reflexivity. }
  assert (Ne : forall kv, pair_of kv <> []) by (intros kv; unfold pair_of; destruct (form_serialize (fst kv)); discriminate).
  assert (G : forall params own, own <> [] -> fold_left append_pair params own = join (B "&") (own :: map pair_of params)).
  { clear params. induction params as [|kv l IH]; intros own N; [reflexivity|]. cbn [fold_left map]. rewrite IH.
    - rewrite E. destruct own as [|c own]; [congruence|]. destruct (map pair_of l) as [|x m]; cbn [join]; rewrite <- ?app_assoc; reflexivity.
    - rewrite E. destruct own; [congruence|discriminate]. }
  intros own. destruct own as [|c own]; [|apply G; discriminate]. destruct params as [|kv l]; [reflexivity|]. cbn [fold_left map]. rewrite E. apply G, Ne.
Qed.

Lemma request_query_iff q params query : request_query q params query <-> query = fold_left append_pair params (unwrap_or (option_map (pct_encode set_query) q) []).
Proof.
  rewrite append_pairs_glued. unfold request_query. split.
  - intros (own & texts & O & F & G). apply (forall2_map _ _ pair_text_iff) in F. subst texts. apply glued_iff in G.
    destruct q as [s|]; cbn [option_map unwrap_or]; [apply (written_iff _ _ in_query_iff) in O|]; subst own; exact G.
  - intros ->. exists (unwrap_or (option_map (pct_encode set_query) q) []), (map pair_of params). split; [destruct q; [apply (written_iff _ _ in_query_iff)|]; reflexivity|].
    split; [apply (forall2_map _ _ pair_text_iff); reflexivity|]. apply glued_iff. reflexivity.
Qed.

Lemma request_fragment_iff f fragment : request_fragment f fragment <-> fragment = match option_map (pct_encode set_fragment) f with Some t => "#" :: t | None => [] end.
Proof.
  destruct f as [s|]; cbn [request_fragment option_map]; [|reflexivity]. split; [intros (t & W & ->); apply (written_iff _ _ in_fragment_iff) in W; subst; reflexivity|].
  intros ->. eexists. split; [apply (written_iff _ _ in_fragment_iff); reflexivity|reflexivity].
Qed.

Lemma request_parts_iff d name params path query fragment : request_parts (d_path_caret d) name params path query fragment <->
  path = u_path (url_parse d name) /\ query = fold_left append_pair params (unwrap_or (u_query (url_parse d name)) []) /\
  fragment = match u_fragment (url_parse d name) with Some f => "#" :: f | None => [] end.
Proof.
  pose proof (parse_marks d name) as M. destruct (marks (drop_tabs (trim_end name))) as [[p q] f] eqn:E. rewrite M. cbn [u_path u_query u_fragment]. split.
  - intros (u & v & p' & q' & f' & W1 & W2 & C & P & Q & F). pose proof (without_end_unique _ _ _ W1 (trim_end_spec name)) as ->. pose proof (without_breaks_unique _ _ W2 _ (drop_tabs_spec _)) as ->.
    apply cut_iff in C. rewrite E in C. injection C as <- <- <-. apply request_path_iff in P. apply request_query_iff in Q. apply request_fragment_iff in F. auto.
  - intros (-> & -> & ->). exists (trim_end name), (drop_tabs (trim_end name)), p, q, f. split; [apply trim_end_spec|]. split; [apply drop_tabs_spec|]. split; [apply cut_iff; exact E|].
    split; [apply request_path_iff; reflexivity|]. split; [apply request_query_iff; reflexivity|apply request_fragment_iff; reflexivity].
Qed.

Lemma request_url_iff d o text : request_url (d_path_caret d) (requested o) (o_query_parameters o) text <-> text = target d o.
Proof.
  split.
  - intros (path & query & fragment & P & ->). apply request_parts_iff in P. destruct P as (-> & -> & ->). reflexivity.
  - intros ->. do 3 eexists. split; [apply request_parts_iff; repeat split|reflexivity].
Qed.

Lemma sent_url_iff d o ps text : sent_url (d_path_caret d) (requested o) (o_query_parameters o ++ ps) text <-> text = extended d o ps.
Proof.
  split.
  - intros (path & query & fragment & P & ->). apply request_parts_iff in P. destruct P as (-> & -> & _). reflexivity.
  - intros ->. do 3 eexists. split; [apply request_parts_iff; repeat split|reflexivity].
Qed.

(** * C103 *)

(** Every name and list of parameters has exactly one text, the one meant in C27 and C28. *)
Theorem C103_text d o : (forall text, request_url (d_path_caret d) (requested o) (o_query_parameters o) text <-> text = target d o) /\
  (forall ps text, sent_url (d_path_caret d) (requested o) (o_query_parameters o ++ ps) text <-> text = extended d o ps).
Proof. split; [apply request_url_iff|intros ps text; apply sent_url_iff]. Qed.

(** The path of a signed URL. *)
Theorem C103_path d o tr url path query sig : returns (build_signed_url d o) tr (Ok url) -> url_parts url path query sig ->
  exists q f, forall path', request_parts (d_path_caret d) (requested o) (o_query_parameters o) path' q f <-> path' = path.
Proof.
  intros H P. destruct (url_ok_inv _ _ _ _ H) as (? & pre & t1 & t2 & email & verb & block & s & _ & _ & S).
  destruct (success_parts _ _ _ _ _ _ _ _ _ _ _ _ _ S P) as (-> & _ & _). unfold path_of. do 2 eexists. intros path'. rewrite request_parts_iff. split; [intros (-> & _); reflexivity|intros ->; repeat split].
Qed.

(** The error for long URLs is returned exactly if the URL, with its fragment, has more than 65534 octets. *)
Theorem C103_too_long d o tr : returns (build_signed_url d o) tr (Err UrlHttpRequest) <->
  exists t text, url_time o t tr /\ in_years t /\ ordered o t /\ method_known o /\
    request_url (d_path_caret d) (requested o) (o_query_parameters o) text /\ (65534 < N.of_nat (length text))%N.
Proof.
  split.
  - intros H. destruct (C28_reported _ _ _ _ H ltac:(discriminate)) as (t & T & V). exists t, (target d o). inversion V as [| | |Y O M F| | |]. subst. split; [exact T|]. split; [exact Y|]. split; [exact O|]. split; [exact M|].
    split; [apply request_url_iff; reflexivity|]. unfold fits in F. lia.
  - intros (t & text & T & Y & O & M & R & L). apply request_url_iff in R. subst text.
    assert (V : url_violation d o t UrlHttpRequest) by (apply uv_length; try assumption; unfold fits; lia).
    destruct (build_cases d o t) as [(e & V' & E)|[(_ & _ & _ & F & _)|((_ & _ & _ & F & _) & _)]]; [|unfold fits in F; lia|unfold fits in F; lia].
    assert (e = UrlHttpRequest) as ->. { destruct V'; try reflexivity; try contradiction; unfold fits in *; lia. }
    rewrite <- (app_nil_r tr). apply (url_start_back d o t tr []); [exact T|]. rewrite E. constructor.
Qed.

Lemma added_of d o t email : deps_ok d -> in_years t -> ordered o t -> added o t email (five d o (t / NS) (lifetime o t) (lowered o) email).
Proof.
  intros D Y O. unfold five. replace (expiration_to_string (lifetime o t)) with (dec (Z.to_N (lifetime o t))).
  2: { unfold expiration_to_string. destruct O as [O _]. unfold lifetime in *. assert (0 <= (o_expires o - t) / 1000000000)%Z by (apply Z.div_pos; lia).
       destruct (Z.ltb_spec ((o_expires o - t) / 1000000000) 0); [lia|reflexivity]. }
  replace (algorithm_str (key_algorithm (o_signing_key o))) with (algorithm_text (o_signing_key o)) by (destruct (o_signing_key o); reflexivity).
  apply (ad_five o t email (ut_to_iso8601 (t / NS)%Z) (scope_of o (t / NS)%Z) (dec (Z.to_N (lifetime o t))) (name_list d o) (names_of d (lowered o))).
  - apply iso8601_spec, years_ts, Y.
  - apply scope_spec, Y.
  - apply decimal_dec.
  - apply names_spec, D.
  - apply glued_iff, names_text.
Qed.

Lemma utc_unique secs d h m s d' h' m' s' : utc_of_seconds secs d h m s -> utc_of_seconds secs d' h' m' s' -> d = d' /\ h = h' /\ m = m' /\ s = s'.
Proof.
  intros H H'. remember secs as x eqn:E. destruct H as [n d h m s D Hh Hm Hs]. remember secs as y eqn:E'. assert (Y : y = (n * 86400 + h * 3600 + m * 60 + s)%Z) by congruence. clear E E' secs.
  rewrite <- Y in H'. destruct H' as [n' d' h' m' s' D' Hh' Hm' Hs']. assert (n = n') as <- by lia. assert (h = h') as <- by lia. assert (m = m') as <- by lia. assert (s = s') as <- by lia.
  rewrite (date_of_day_unique _ _ _ D D'). auto.
Qed.

Lemma added_unique o t email a b : added o t email a -> added o t email b -> a = b.
Proof.
  intros [da sa ea na xa A1 A2 A3 A4 A5] [db sb eb nb xb B1 B2 B3 B4 B5].
  assert (da = db) as <-.
  { destruct A1 as (d & h & m & s & y1 & y2 & y3 & y4 & y5 & y6 & U & Y1 & Y2 & Y3 & Y4 & Y5 & Y6 & ->). destruct B1 as (d' & h' & m' & s' & z1 & z2 & z3 & z4 & z5 & z6 & U' & Z1 & Z2 & Z3 & Z4 & Z5 & Z6 & ->).
    destruct (utc_unique _ _ _ _ _ _ _ _ _ U U') as (<- & <- & <- & <-).
    rewrite (digits_unique _ _ _ _ Y1 Z1), (digits_unique _ _ _ _ Y2 Z2), (digits_unique _ _ _ _ Y3 Z3), (digits_unique _ _ _ _ Y4 Z4), (digits_unique _ _ _ _ Y5 Z5), (digits_unique _ _ _ _ Y6 Z6). reflexivity. }
  assert (sa = sb) as <-.
  { destruct A2 as (x & (d & h & m & s & y1 & y2 & y3 & U & Y1 & Y2 & Y3 & ->) & G). destruct B2 as (x' & (d' & h' & m' & s' & z1 & z2 & z3 & U' & Z1 & Z2 & Z3 & ->) & G').
    destruct (utc_unique _ _ _ _ _ _ _ _ _ U U') as (<- & <- & <- & <-).
    rewrite (digits_unique _ _ _ _ Y1 Z1), (digits_unique _ _ _ _ Y2 Z2), (digits_unique _ _ _ _ Y3 Z3) in G. apply glued_iff in G, G'. congruence. }
  rewrite (decimal_unique _ _ _ A3 B3).
  assert (na = nb) as <-. { destruct A4 as [S1 I1], B4 as [S2 I2]. apply strict_sorted_unique; [apply strictly_ascending_iff, S1|apply strictly_ascending_iff, S2|]. intros x. rewrite I1, I2. reflexivity. }
  apply glued_iff in A5, B5. subst. reflexivity.
Qed.

Lemma long_iff d o t email : deps_ok d -> in_years t -> ordered o t -> forall ps text, added o t email ps -> sent_url (d_path_caret d) (requested o) (o_query_parameters o ++ ps) text ->
  (too_long (path_of d o) (query_after d o (t / NS) (lifetime o t) (lowered o) email) [] = true <-> (65534 < N.of_nat (length text))%N).
Proof.
  intros D Y O ps text A S. rewrite (added_unique _ _ _ _ _ A (added_of d o t email D Y O)) in S. apply sent_url_iff in S. subst text. rewrite extended_of. unfold too_long. apply N.ltb_lt.
Qed.

Lemma authorizer_no_uri d k tr : ~ panics (authorizer d k) tr PUri.
Proof. intros H. destruct k as [bt|a x|e x]; [apply auth_panics in H; inversion H|destruct (panics_ret_inv _ _ _ H)|destruct (panics_ret_inv _ _ _ H)]. Qed.
Lemma sign_no_uri d k usb m tr : ~ panics (sign d k usb m) tr PUri.
Proof.
  intros H. destruct k as [bt|a x|e x]; [apply sign_panics in H; destruct H as [_ H]; inversion H|apply panics_panic_inv in H; destruct H as [_ H]; discriminate H|].
  cbn [sign] in H. destruct usb; [apply panics_panic_inv in H; destruct H as [_ H]; discriminate H|]. destruct (d_rsa_sign _ _ _); destruct (panics_ret_inv _ _ _ H).
Qed.

(** The call panics over the length only if the URL with the library's parameters, without the fragment, has more than 65534 octets ... *)
Theorem C103_panics d o tr : deps_ok d -> panics (build_signed_url d o) tr PUri ->
  (exists t pre t1 email ps text, url_time o t pre /\ tr = pre ++ t1 /\ url_valid d o t /\ authorized (o_signing_key o) t1 email /\ added o t email ps /\
    sent_url (d_path_caret d) (requested o) (o_query_parameters o ++ ps) text /\ (65534 < N.of_nat (length text))%N).
Proof.
  intros D H. apply url_start_panic in H. destruct H as (t & pre & rest & T & -> & H).
  destruct (build_cases d o t) as [(e' & V & E)|[(_ & _ & _ & _ & _ & O & E)|(V & verb & Ev & E)]].
  - rewrite E in H. destruct (panics_ret_inv _ _ _ H).
  - rewrite E in H. apply panics_panic_inv in H. destruct H as [_ H]. discriminate H.
  - apply (peq_panics _ _ _ _ E) in H. apply valid_panics in H; [|exact V|exact Ev].
    destruct H as [H|(t1 & t2 & em & -> & H1 & H2)]; [exfalso; exact (authorizer_no_uri _ _ _ H)|].
    unfold sign_step in H2. destruct (too_long _ _ _) eqn:L.
    + apply panics_panic_inv in H2. destruct H2 as [-> _]. exists t, pre, t1, em, (five d o (t / NS) (lifetime o t) (lowered o) em). eexists. rewrite app_nil_r.
      split; [exact T|]. split; [reflexivity|]. split; [exact V|]. split; [apply (authorizer_ok d); exact H1|]. assert (Y : in_years t) by apply V. assert (O : ordered o t) by apply V. split; [apply added_of; assumption|].
      split; [apply sent_url_iff; reflexivity|]. apply (long_iff d o t em D Y O _ _ (added_of d o t em D Y O)); [apply sent_url_iff; reflexivity|exact L].
    + exfalso. destruct (block_of d (lowered o)); [|destruct (panics_ret_inv _ _ _ H2)]. apply panics_bind_ok_inv in H2.
      destruct H2 as [H2|(a & x1 & x2 & _ & H2 & _)]; [|destruct (panics_ret_inv _ _ _ H2)]. exact (sign_no_uri _ _ _ _ _ H2).
Qed.

(** ... and it always does then, once the account is known. *)
Theorem C103_always d o t pre t1 email ps text : deps_ok d -> url_time o t pre -> url_valid d o t -> returns (authorizer d (o_signing_key o)) t1 (Ok email) ->
  added o t email ps -> sent_url (d_path_caret d) (requested o) (o_query_parameters o ++ ps) text -> (65534 < N.of_nat (length text))%N ->
  panics (build_signed_url d o) (pre ++ t1) PUri.
Proof.
  intros D T V A Ad S L. apply (url_at d o t pre t1 _ T). assert (Y : in_years t) by apply V. assert (O : ordered o t) by apply V.
  destruct (build_cases d o t) as [(e & W & _)|[(_ & _ & _ & _ & _ & W & _)|(_ & verb & _ & W)]].
  - exfalso. destruct V as (V1 & V2 & V3 & V4 & V5 & V6 & V7). destruct W; try contradiction;
     try (unfold headers_valid in V5; match goal with Z : o_headers o = _ |- _ => rewrite Z in V5 end; apply Forall_app in V5; destruct V5 as [_ V5]; inversion V5; subst; tauto). lia.
  - exfalso. destruct V as (V1 & V2 & V3 & V4 & V5 & V6 & V7). congruence.
  - apply (peq_panics _ _ _ _ W). unfold run_valid. apply (long_iff d o t email D Y O _ _ Ad S) in L.
    unfold bind_ok at 1. apply panics_bind_l. unfold bind_ok. rewrite <- (app_nil_r t1). eapply steps_bind_ret; [exact A|]. cbn beta iota. unfold sign_step. rewrite L. constructor.
Qed.

(** A URL that is returned had at most that many before it was signed. *)
Theorem C103_short d o tr url : deps_ok d -> returns (build_signed_url d o) tr (Ok url) ->
  exists t pre t1 t2 email, url_time o t pre /\ tr = pre ++ t1 ++ t2 /\ authorized (o_signing_key o) t1 email /\
    forall ps text, added o t email ps -> sent_url (d_path_caret d) (requested o) (o_query_parameters o ++ ps) text -> (N.of_nat (length text) <= 65534)%N.
Proof.
  intros D H. destruct (url_ok_inv _ _ _ _ H) as (t & pre & t1 & t2 & email & verb & block & s & T & -> & S). exists t, pre, t1, t2, email.
  split; [exact T|]. split; [reflexivity|]. split; [apply (authorizer_ok d), (sc_auth _ _ _ _ _ _ _ _ _ _ S)|]. intros ps text A X.
  assert (Y : in_years t) by apply (sc_valid _ _ _ _ _ _ _ _ _ _ S). assert (O : ordered o t) by apply (sc_valid _ _ _ _ _ _ _ _ _ _ S). pose proof (long_iff d o t email D Y O _ _ A X) as L. rewrite (sc_short _ _ _ _ _ _ _ _ _ _ S) in L.
  destruct (N.ltb_spec 65534 (N.of_nat (length text))) as [G|G]; [apply L in G; discriminate G|exact G].
Qed.

(** Dot segments, a query, a fragment, characters of each kind. *)
Definition odd_url : url_options := demo_url_with (B "bucket1") (B "x/../{a'}?q='1'#f{`} ") None [] [(B "k", B "a b/&~*"); (B "", B "=")] demo_account false.
Definition odd_text : str := B "https://storage.googleapis.com/bucket1/%7Ba'%7D?q=%271%27&k=a+b%2F%26%7E*&=%3D#f{%60}".
Example C103_text_case : request_url false (requested odd_url) (o_query_parameters odd_url) odd_text.
Proof. apply (C103_text demo_deps odd_url). vm_compute. reflexivity. Qed.

Example C103_path_case : exists url path query sig, deps_ok demo_deps /\ returns (build_signed_url demo_deps odd_url) [] (Ok url) /\ url_parts url path query sig /\ path = B "/bucket1/%7Ba'%7D".
Proof.
  destruct (demo_success odd_url) as [sig H]; try (vm_compute; reflexivity). do 4 eexists. split; [exact demo_deps_ok|]. split; [exact H|]. split; [apply url_parts_of|]. vm_compute. reflexivity.
Qed.

(** Object names of more than 65500 letters. *)
Example C103_too_long_case n : (65500 < N.of_nat n)%N -> returns (build_signed_url demo_deps (long_url n)) [] (Err UrlHttpRequest).
Proof.
  intros Hn. apply C103_too_long. exists demo_time, (target demo_deps (long_url n)). split; [constructor; reflexivity|]. split; [split; vm_compute; congruence|]. split; [split; vm_compute; congruence|].
  split; [vm_compute; tauto|]. split; [apply (C103_text demo_deps (long_url n)); reflexivity|].
  unfold target. rewrite long_path by lia. unfold append_pairs, url_rest. cbn [u_path u_query u_fragment o_query_parameters long_url demo_url_with fold_left unwrap_or].
  unfold requested, long_url, demo_url_with. cbn [o_bucket_name o_object_name]. rewrite !app_length. cbn [length]. rewrite !app_length, repeat_length. change (length origin) with 30%nat. change (length (B "b")) with 1%nat. change (length (B "/")) with 1%nat. lia.
Qed.

Example C103_always_case n : (65307 <= N.of_nat n <= 65500)%N -> exists ps text, url_time (long_url n) demo_time [] /\ url_valid demo_deps (long_url n) demo_time /\
  returns (authorizer demo_deps (o_signing_key (long_url n))) [] (Ok (B "sa@example.com")) /\ added (long_url n) demo_time (B "sa@example.com") ps /\
  sent_url (d_path_caret demo_deps) (requested (long_url n)) (o_query_parameters (long_url n) ++ ps) text /\ (65534 < N.of_nat (length text))%N.
Proof.
  intros Hn. destruct (C103_panics _ _ _ demo_deps_ok (C27_uri_panics n Hn)) as (t & pre & t1 & email & ps & text & T & E & V & A & Ad & S & L).
  exists ps, text. symmetry in E. apply app_eq_nil in E. destruct E as [-> ->]. assert (t = demo_time) as -> by (inversion T as [x X|x X]; injection X as <-; reflexivity).
  assert (email = B "sa@example.com") as -> by (inversion A; reflexivity). split; [exact T|]. split; [exact V|]. split; [constructor|]. auto.
Qed.

Example C103_short_case : exists url, deps_ok demo_deps /\ returns (build_signed_url demo_deps demo_url) [] (Ok url).
Proof. destruct demo_url_ok as [sig H]. eexists. split; [exact demo_deps_ok|exact H]. Qed.
