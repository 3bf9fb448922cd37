(** C96: exactly which options give URLs that a server accepts. *)
From Coq Require Import Sorted Permutation.
From Verif Require Import Base BaseFacts Utf8 FormUrl FormUrlFacts Sha256 SpecCodec CodecFacts SpecSha ShaFacts Time CalendarFacts TimeFacts SpecCalendar SpecPolicy SpecForm FormFacts
  Effects EffectsFacts Keys Scope Url SignedUrl UrlFacts SpecUrl UrlSpecFacts SpecToken SpecTrace SpecSign SignFacts SignedUrlFacts HeaderFacts
  HtmlForm Calls Demo UrlResult UrlQueryFacts Prop_Url Prop_UrlQuery Prop_UrlScope Prop_UrlHeaders Prop_UrlPath SpecServer Prop_Server SpecPath Prop_Path SpecName Prop_Name SpecParameter Prop_Parameter SpecExact.
Local Open Scope byte_scope.

(** * Texts *)

Lemma alike_encode sv : server_ok sv -> forall s, Forall (written_alike (sv_query sv)) s -> percent_encode s = pct_encode (escapes (sv_query sv)) s.
Proof.
  intros OK s H. unfold percent_encode, pct_encode. apply flat_map_in. intros c Hc. rewrite Forall_forall in H. destruct (H c Hc) as [_ H']. unfold escapes. destruct (reserved c) eqn:E.
  - apply reserved_iff in E. rewrite (proj1 (proj1 (proj2 OK) c (or_intror E))). reflexivity.
  - destruct H' as [H'| ->]; [apply reserved_iff in H'; congruence|reflexivity].
Qed.

Lemma alike_no_percent kept s : Forall (fun c => c = "/" \/ written_alike kept c) s -> ~ In "%" s.
Proof. intros F I. rewrite Forall_forall in F. destruct (F _ I) as [Z|[Z _]]; [discriminate Z|contradiction]. Qed.
Lemma alike_account kept s : Forall (written_alike kept) s -> Forall (fun c => c = "/" \/ written_alike kept c) s.
Proof. apply Forall_impl. auto. Qed.

Lemma alike_credential sv : server_ok sv -> forall s, Forall (fun c => c = "/" \/ written_alike (sv_query sv) c) s -> percent_encode (replace_slash s) = pct_encode (escapes (sv_query sv)) s.
Proof.
  intros OK s. induction 1 as [|c s Hc H IH]; [reflexivity|]. rewrite pct_encode_cons, <- IH. change (replace_slash (c :: s)) with ((if beq c "/" then B "%2F" else [c]) ++ replace_slash s).
  unfold percent_encode. rewrite pct_encode_app. f_equal. destruct (beq_spec c "/") as [->|Nc].
  - unfold escapes. replace (sv_query sv "/") with false by (symmetry; apply OK). reflexivity.
  - destruct Hc as [Hc|Hc]; [contradiction|]. assert (P : Forall (written_alike (sv_query sv)) [c]) by (constructor; [exact Hc|constructor]). apply (alike_encode sv OK) in P. unfold percent_encode in P. rewrite P, pct_encode_cons. apply app_nil_r.
Qed.

Lemma param_alike sv s : server_ok sv -> parameter_text s -> Forall (written_alike (sv_query sv)) s.
Proof.
  intros OK H. apply Forall_forall. intros c Hc. unfold parameter_text in H. rewrite Forall_forall in H. specialize (H c Hc). split.
  - intros ->. apply mem_iff in H. vm_compute in H. discriminate H.
  - apply in_app_or in H. destruct H as [H|H]; [right; apply OK; exact H|left; exact H].
Qed.

(** A text that is read as it was written has no escapes. *)
Lemma read_same kept s : read_alike kept s s -> Forall (written_alike kept) s.
Proof.
  intros H. assert (G : forall a b, read_alike kept a b -> (length b <= length a)%nat /\ (length a = length b -> Forall (written_alike kept) b)).
  { clear. induction 1 as [|b h l s t K H1 H2 A [L IH]|c s t N C A [L IH]]; cbn [length]; (split; [lia|]); [constructor|lia|]. intros E. constructor; [split; assumption|apply IH; lia]. }
  apply (proj2 (G _ _ H)). reflexivity.
Qed.

Lemma read_credential kept s : read_alike kept (replace_slash s) s -> Forall (fun c => c = "/" \/ written_alike kept c) s.
Proof.
  assert (G : forall n a b, (length a <= n)%nat -> read_alike kept (replace_slash a) b -> (length b <= length a)%nat /\ (length a = length b -> Forall (fun c => c = "/" \/ written_alike kept c) a)).
  { clear. induction n as [|n IH]; intros a b Ln H.
    - destruct a; [|cbn in Ln; lia]. inversion H; subst. split; [apply Nat.le_refl|constructor].
    - destruct a as [|c a]; [inversion H; subst; split; [apply Nat.le_refl|constructor]|]. cbn [length] in *. change (replace_slash (c :: a)) with ((if beq c "/" then B "%2F" else [c]) ++ replace_slash a) in H. destruct (beq_spec c "/") as [->|Nc].
      + change (B "%2F" ++ replace_slash a) with ("%" :: "2" :: "F" :: replace_slash a) in H. inversion H as [|b0 h l s t K H1 H2 A E1 E2|? ? ? N _ _]; subst; [|congruence].
        destruct (IH a t) as [L I]; [lia|exact A|]. cbn [length]. split; [lia|]. intros E. constructor; [left; reflexivity|apply I; lia].
      + cbn [app] in H. remember (c :: replace_slash a) as z eqn:Ez. destruct H as [|b0 h l s t K H1 H2 A|c' s t N C A]; [discriminate Ez| |].
        * injection Ez as <- E2. symmetry in E2. (* an escape in the text itself *) destruct a as [|x a]; [discriminate E2|]. change (replace_slash (x :: a)) with ((if beq x "/" then B "%2F" else [x]) ++ replace_slash a) in E2.
          destruct (beq_spec x "/") as [->|Nx]; [cbn [app B list_byte_of_string] in E2; injection E2 as E2 _; subst h; apply nth_error_In in H1; apply mem_iff in H1; vm_compute in H1; discriminate H1|].
          cbn [app] in E2. injection E2 as -> E2. destruct a as [|y a]; [discriminate E2|]. change (replace_slash (y :: a)) with ((if beq y "/" then B "%2F" else [y]) ++ replace_slash a) in E2.
          destruct (beq_spec y "/") as [->|Ny]; [cbn [app B list_byte_of_string] in E2; injection E2 as E2 _; subst l; apply nth_error_In in H2; apply mem_iff in H2; vm_compute in H2; discriminate H2|].
          cbn [app] in E2. injection E2 as -> E2. subst s. cbn [length] in *. destruct (IH a t) as [L I]; [lia|exact A|]. split; [lia|]. intros E. lia.
        * injection Ez as -> ->. destruct (IH a t) as [L I]; [lia|exact A|]. cbn [length]. split; [lia|]. intros E. constructor; [right; split; assumption|apply I; lia]. }
  intros H. apply (proj2 (G _ _ _ (Nat.le_refl _) H)). reflexivity.
Qed.


(** * What suffices *)

Lemma full_accepted d o t email block s headers own sv now read : deps_ok d -> url_valid d o t -> (0 <= lifetime o t)%Z -> Forall (fun n => utf8_valid n = true) (name_list d o) ->
  algorithm_str (key_algorithm (o_signing_key o)) = B "GOOG4-RSA-SHA256" -> header_block (o_headers o) (name_list d o) block ->
  own_parameters (requested o) own -> Forall valid_pair (own ++ o_query_parameters o) -> utf8_valid (region_of o) = true -> sends o headers -> server_ok sv -> utf8_valid email = true ->
  Forall (fun c => c = "/" \/ written_alike (sv_query sv) c) (email ++ region_of o) -> Forall (fun h => Forall (fun c => token_character c /\ written_alike (sv_query sv) c) (ascii_lower (fst h))) (o_headers o) -> Forall (fun h => trimmed (snd h)) (o_headers o) ->
  let query := sorted_query (pairs_of d o (t / NS)%Z (lifetime o t) (lowered o) email) in
  let message := message_of o (t / NS)%Z (join [x0a] [o_http_method o; percent_encode (path_of d o); query; block; []; names_of d (lowered o); B "UNSIGNED-PAYLOAD"]) in
  sv_verifies sv email message s -> server_path sv (path_of d o) (percent_encode (path_of d o)) -> parameters_agree (sv_query sv) (own ++ o_query_parameters o) read ->
  (t / 1000000000 <= now < t / 1000000000 + (o_expires o - t) / 1000000000)%Z ->
  accepts sv now (issued o (path_of d o) query (hex_encode s) headers) email message s.
Proof.
  intros D Vd L N Al Bk Own Vp Vr SE OK Ve Em Hq Ht query message Vf SP PA W. subst query message. apply Forall_app in Em. destruct Em as [Em Er]. assert (Y : in_years t) by apply Vd.
  pose proof (pairs_of_valid d o t email own Own Vp Vr Ve Y L N Al) as EL. rewrite app_assoc in EL. rewrite EL in *. clear EL.
  set (params := own ++ o_query_parameters o) in *.
  set (cred := email ++ B "/" ++ scope_of o (t / NS)%Z) in *.
  match goal with |- context [sorted_query ?l] => set (l0 := l) in * end.
  destruct (sorted_pieces l0) as (l' & Pl & El).
  assert (Kp : sv_query sv "%" = false) by (apply (proj1 (proj2 OK)); left; reflexivity). assert (Kr : forall c, In c reserved_characters -> sv_query sv c = false) by (intros c Hc; apply (proj1 (proj2 OK)); right; exact Hc).
  assert (Rd : Forall (fun kv => encoded_pair (sv_query sv) (decode2 kv) (percent_encode (fst kv), percent_encode (snd kv))) params /\ read = map decode2 params).
  { pose proof (pg_read _ _ _ PA) as F. clear - F Kp Kr. induction F as [|kv kv' l l' [A1 A2] F [I1 ->]]; [split; [constructor|reflexivity]|].
    apply read_to in A1, A2; try assumption. destruct A1 as [A1 B1], A2 as [A2 B2]. assert (kv' = decode2 kv) as -> by (destruct kv'; unfold decode2; cbn [fst snd] in *; congruence).
    split; [constructor; [|exact I1]|reflexivity]. unfold decode2 in *. cbn [fst snd] in *. split; cbn [fst snd]; apply Prop_Server.encoded_iff; assumption. }
  destruct Rd as [Re Rd].
  set (goal_pairs := read ++ required_parameters email (ut_to_iso8601 (t / NS)%Z) (scope_of o (t / NS)%Z) (dec (Z.to_N (lifetime o t))) (names_of d (lowered o))).
  assert (Sc : Forall (fun c => c = "/" \/ written_alike (sv_query sv) c) (scope_of o (t / NS)%Z)).
  { unfold scope_of. destruct (scope_spec o t Y) as (day & Dy & G). fold (scope_of o (t / NS)%Z). apply glued_iff in G. rewrite G. apply join_text; [constructor; [left; reflexivity|constructor]|].
    constructor; [apply alike_account; apply (param_alike sv _ OK); apply date_parameter; eapply date_bytes; exact Dy|]. constructor; [exact Er|].
    constructor; [apply alike_account; apply (param_alike sv _ OK); apply literal_text; reflexivity|]. constructor; [apply alike_account; apply (param_alike sv _ OK); apply literal_text; reflexivity|constructor]. }
  assert (Cr : Forall (fun c => c = "/" \/ written_alike (sv_query sv) c) cred). { apply Forall_app. split; [exact Em|]. constructor; [left; reflexivity|exact Sc]. }
  assert (Nt : Forall (written_alike (sv_query sv)) (names_of d (lowered o))).
  { rewrite names_text. apply join_text; [apply (param_alike sv _ OK); apply literal_text; reflexivity|]. apply Forall_forall. intros n Hn'. apply (C20_names _ _ (names_spec _ D o)) in Hn'.
    destruct Hn' as [->|(h & I & <-)]; [apply (param_alike sv _ OK); apply literal_text; reflexivity|]. rewrite Forall_forall in Hq. specialize (Hq h I). eapply Forall_impl; [|exact Hq]. cbv beta. tauto. }
  assert (Np : forall x, Forall (fun c => c = "/" \/ written_alike (sv_query sv) c) x -> pct_decode x = x) by (intros x Hx; apply pct_decode_no_triplet; apply plain_iff; apply plain_no_percent; eapply alike_no_percent; exact Hx).
  (* What the server reads and how it writes it. *)
  assert (Q : forall kv, In kv l0 -> encoded_pair (sv_query sv) (decode2 kv) (percent_encode (fst kv), percent_encode (snd kv)) /\ 
     In (fst (decode2 kv)) (map fst read ++ signed_names)).
  { assert (G : forall k v, Forall (written_alike (sv_query sv)) k -> Forall (written_alike (sv_query sv)) v -> encoded_pair (sv_query sv) (decode2 (k, v)) (percent_encode k, percent_encode v)).
    { intros k v Hk Hv. unfold decode2. cbn [fst snd]. rewrite (Np k), (Np v) by (apply alike_account; assumption). split; cbn [fst snd]; apply Prop_Server.encoded_iff; apply (alike_encode sv OK); assumption. }
    intros kv I. unfold l0 in I. apply in_app_or in I. destruct I as [I|I].
    - rewrite Forall_forall in Re. split; [apply Re; exact I|]. apply in_or_app. left. rewrite Rd, map_map. apply (in_map (fun x => fst (decode2 x))). exact I.
    - assert (K : forall s, forallb (fun c => mem c (unreserved_characters ++ reserved_characters)) s = true -> Forall (written_alike (sv_query sv)) s) by (intros; apply (param_alike sv _ OK); apply literal_text; assumption).
      destruct I as [<-|[<-|[<-|[<-|[<-|[]]]]]]; cbn [fst snd].
      + split; [apply G; apply K; reflexivity|]. apply in_or_app. right. cbn. tauto.
      + split; [|apply in_or_app; right; cbn; tauto]. unfold decode2. cbn [fst snd]. split; cbn [fst snd]; apply Prop_Server.encoded_iff.
        * rewrite (alike_encode sv OK) by (apply K; reflexivity). reflexivity.
        * rewrite replace_slash_decode, (Np cred Cr). apply (alike_credential sv OK). exact Cr.
      + split; [apply G; [apply K; reflexivity|apply (param_alike sv _ OK); apply date_parameter; apply iso_bytes; exact Y]|apply in_or_app; right; cbn; tauto].
      + split; [apply G; [apply K; reflexivity|apply (param_alike sv _ OK); apply decimal_parameter]|apply in_or_app; right; cbn; tauto].
      + split; [apply G; [apply K; reflexivity|exact Nt]|apply in_or_app; right; cbn; tauto]. }
  assert (Dp : map decode2 l0 = goal_pairs).
  { assert (G : forall k v, Forall (written_alike (sv_query sv)) k -> Forall (written_alike (sv_query sv)) v -> decode2 (k, v) = (k, v)).
    { intros k v Hk Hv. unfold decode2. cbn [fst snd]. rewrite (Np k), (Np v) by (apply alike_account; assumption). reflexivity. }
    unfold l0, goal_pairs. rewrite map_app. f_equal.
    - symmetry. exact Rd.
    - unfold required_parameters. cbn [map]. unfold decode2 at 2. cbn [fst snd]. rewrite replace_slash_decode.
      assert (K : forall s, forallb (fun c => mem c (unreserved_characters ++ reserved_characters)) s = true -> Forall (written_alike (sv_query sv)) s) by (intros; apply (param_alike sv _ OK); apply literal_text; assumption).
      rewrite !G; try (apply K; reflexivity); try exact Nt; try (apply (param_alike sv _ OK); first [apply decimal_parameter|apply date_parameter; apply iso_bytes; exact Y]).
      repeat f_equal. apply Np. exact Cr. }
  set (pairs := form_read (sorted_query l0 ++ B "&X-Goog-Signature=" ++ hex_encode s)).
  assert (Pp : Permutation pairs (goal_pairs ++ [(B "X-Goog-Signature", hex_encode s)])).
  { unfold pairs. eapply Permutation_trans; [apply query_read; apply hex_sig|]. rewrite map_app, Dp. apply Permutation_app_head. cbn [map]. unfold decode2. cbn [fst snd].
    rewrite (pct_decode_no_triplet (hex_encode s)) by (apply plain_iff; apply plain_hex; apply hex_sig). reflexivity. }
  assert (Nn : forall n, In n goog_names -> filter (fun kv => str_eqb (fst kv) n) read = []).
  { intros n Hn. apply filter_none. intros I. exact (pg_names _ _ _ PA n I Hn). }
  assert (Gv : forall n v, In n goog_names -> filter (fun kv => str_eqb (fst kv) n) (required_parameters email (ut_to_iso8601 (t / NS)%Z) (scope_of o (t / NS)%Z) (dec (Z.to_N (lifetime o t))) (names_of d (lowered o)) ++ [(B "X-Goog-Signature", hex_encode s)]) = [(n, v)] -> given pairs n v).
  { intros n v Hn Ef. eapply given_perm; [exact Pp|]. unfold goal_pairs. rewrite <- app_assoc, filter_app, Nn by exact Hn. exact Ef. }
  destruct SE as [SE1 SE2].
  destruct (received_exists headers) as [seen Fs].
  assert (Rv : forall n, values (o_headers o) n <> [] -> received_values seen n = values (o_headers o) n).
  { intros n Hn. rewrite (received_same _ _ n Fs); [apply SE2; exact Hn|]. rewrite SE2 by exact Hn. apply Forall_forall. intros v Hv. unfold values in Hv. apply in_app_or in Hv.
    destruct Hv as [Hv|Hv].
    - destruct (str_eqb n (B "host")); [|destruct Hv]. destruct Hv as [<-|[]]. split; [intros c x E; injection E as <- _; intros [Z|Z]; discriminate Z|].
      intros c x E. change (B "storage.googleapis.com") with (B "storage.googleapis.co" ++ B "m") in E. apply app_inj_tail in E. destruct E as [_ <-]. intros [Z|Z]; discriminate Z.
    - apply in_map_iff in Hv. destruct Hv as (h & <- & Hh). apply filter_In in Hh. destruct Hh as [Hh _]. rewrite Forall_forall in Ht. apply (Ht h Hh). }
  exists pairs, (t / NS)%Z, (region_of o), (ut_to_iso8601 (t / NS)%Z), (scope_of o (t / NS)%Z), (dec (Z.to_N (lifetime o t))), (Z.to_N (lifetime o t)), (name_list d o), (names_of d (lowered o)), (hex_encode s).
  eexists. split.
  { assert (V : In (o_http_method o) methods) by apply Vd. exact V. }
  split; [exact SE1|]. split; [apply form_query_iff; reflexivity|].
  split; [apply Gv; [cbn; tauto|reflexivity]|]. split; [apply Gv; [cbn; tauto|reflexivity]|]. split; [apply scope_spec; exact Y|].
  split; [apply Gv; [cbn; tauto|reflexivity]|]. split; [apply iso8601_spec; apply years_ts; exact Y|].
  split; [apply Gv; [cbn; tauto|reflexivity]|]. split; [apply decimal_dec|].
  split. { assert ((lifetime o t <= 604800)%Z) by apply Vd. lia. }
  split. { rewrite Z2N.id by exact L. exact W. }
  split; [apply Gv; [cbn; tauto|reflexivity]|]. split; [apply glued_iff; apply names_text|]. split; [apply (names_spec _ D o)|].
  split. { apply (proj2 (names_spec _ D o)). discriminate. }
  split.
  { apply Forall_forall. intros n Hn'. apply (C20_names _ _ (names_spec _ D o)) in Hn'. destruct Hn' as [->|(h & I & <-)]; [split; [discriminate|apply literal_text; reflexivity]|].
    split; [|rewrite Forall_forall in Hq; specialize (Hq h I); eapply Forall_impl; [|exact Hq]; cbv beta; tauto].
    assert (V : headers_valid d o) by apply Vd. unfold headers_valid in V. rewrite Forall_forall in V. destruct (V h I) as [[V1 _] _].
    intros Z. apply V1. destruct (fst h); [reflexivity|discriminate Z]. }
  split; [apply Gv; [cbn; tauto|reflexivity]|]. split; [apply hex_encode_spec|]. split; [|split; [apply message_spec; [exact Y|exact Al]|exact Vf]].
  exists (percent_encode (path_of d o)), (sorted_query l0), block, (names_of d (lowered o)). split; [|split; [|split; [|split]]].
  - exact SP.
  - exists (map decode2 l'), (map (fun kv => (percent_encode (fst kv), percent_encode (snd kv))) l'). split; [|split; [|split]].
    + eapply Permutation_trans; [exact Pp|]. apply Permutation_app_tail. rewrite <- Dp. apply Permutation_map. exact Pl.
    + assert (Q' : Forall (fun kv => encoded_pair (sv_query sv) (decode2 kv) (percent_encode (fst kv), percent_encode (snd kv))) l').
      { apply Forall_forall. intros kv I. apply Q. apply (Permutation_in _ (Permutation_sym Pl)). exact I. }
      clear - Q'. induction Q' as [|x l Hx F IH]; constructor; assumption.
    + assert (So : StronglySorted str_le (map enc_pair l')) by (rewrite <- El; apply sort_sorted).
      assert (Q' : forall kv, In kv l' -> percent_encode (fst kv) = pct_encode (escapes (sv_query sv)) (fst (decode2 kv)) /\ In (fst (decode2 kv)) (map fst read ++ signed_names)).
      { intros kv I. destruct (Q kv) as [[Q1 _] Q2]; [apply (Permutation_in _ (Permutation_sym Pl)); exact I|]. split; [apply Prop_Server.encoded_iff; exact Q1|exact Q2]. }
      clear - So Q' PA Kp Kr. induction l' as [|x l' IH]; [constructor|]. cbn [map] in *. inversion So as [|? ? S1 S2]; subst. constructor; [apply IH; [exact S1|intros kv I; apply Q'; right; exact I]|].
      apply Forall_forall. intros z Hz. apply in_map_iff in Hz. destruct Hz as (y & <- & Hy). destruct (Q' x (or_introl eq_refl)) as [X1 X2]. destruct (Q' y (or_intror Hy)) as [Y1 Y2].
      rewrite Forall_forall in S2. specialize (S2 (enc_pair y) (in_map _ _ _ Hy)). apply text_le_iff in S2. unfold enc_pair in S2.
      assert (L : text_le (percent_encode (fst x)) (percent_encode (fst y))).
      { eapply text_le_named; [apply percent_encode_avoids; reflexivity|apply percent_encode_avoids; reflexivity| |exact S2]. intros c r E Lt. apply (pg_order _ _ _ PA _ _ Y2 X2). apply overtakes_iff; [exact Kp|exact Kr|].
        exists c, r. rewrite <- X1, <- Y1. auto. }
      destruct L as [L|L]; [left; exact L|]. right. split; [exact L|]. cbn [fst snd]. rewrite L in S2. apply text_le_tail in S2. apply (text_le_tail (B "=")). exact S2.
    + apply glued_iff. unfold sorted_query. rewrite El, map_map. reflexivity.
  - destruct Bk as (lines & Fl & Gl). exists seen, lines. split; [exact Fs|]. split; [|exact Gl].
    assert (J : forall n, In n (name_list d o) -> values (o_headers o) n <> []) by (intros n; apply (proj2 (names_spec _ D o))).
    clear - Fl J Rv. induction Fl as [|n line ns ls (v & G & ->) F IH]; constructor.
    + exists v. rewrite Rv by (apply J; left; reflexivity). split; [apply J; left; reflexivity|]. split; [exact G|reflexivity].
    + apply IH. intros m Hm. apply J. right. exact Hm.
  - apply glued_iff. apply names_text.
  - apply glued_iff. reflexivity.
Qed.

(** * What is necessary *)

Lemma text_lt_asym a b : text_lt a b -> ~ text_lt b a.
Proof. induction 1 as [c s|x y s t L|c s t H IH]; intros G; inversion G; subst; try lia. contradiction. Qed.
Lemma ascending_unique l : forall l', strictly_ascending l -> strictly_ascending l' -> (forall x, In x l <-> In x l') -> l = l'.
Proof.
  induction l as [|x l IH]; intros [|y l'] S S' E.
  - reflexivity.
  - destruct (proj2 (E y) (or_introl eq_refl)).
  - destruct (proj1 (E x) (or_introl eq_refl)).
  - inversion S as [|? ? S1 F1]; subst. inversion S' as [|? ? S2 F2]; subst. rewrite Forall_forall in F1, F2.
    assert (x = y) as <-.
    { destruct (proj1 (E x) (or_introl eq_refl)) as [Z|Z]; [congruence|]. destruct (proj2 (E y) (or_introl eq_refl)) as [Z'|Z']; [congruence|]. destruct (text_lt_asym _ _ (F1 _ Z') (F2 _ Z)). }
    f_equal. apply IH; [exact S1|exact S2|]. assert (Ir : forall z, ~ text_lt z z) by (intros z G; exact (text_lt_asym _ _ G G)). intros z. split; intros I.
    + destruct (proj1 (E z) (or_intror I)) as [<-|Z]; [destruct (Ir _ (F1 _ I))|exact Z].
    + destruct (proj2 (E z) (or_intror I)) as [<-|Z]; [destruct (Ir _ (F2 _ I))|exact Z].
Qed.

Lemma given_pair (pairs l : list (str * str)) k v v' : Permutation pairs l -> given pairs k v' -> In (k, v) l -> v = v'.
Proof.
  intros Pm G I. apply Permutation_sym in Pm. apply (Permutation_in _ Pm) in I. assert (J : In (k, v) (filter (fun kv => str_eqb (fst kv) k) pairs)) by (apply filter_In; split; [exact I|apply str_eqb_refl]).
  unfold given in G. rewrite G in J. destruct J as [J|[]]. congruence.
Qed.

Lemma given_agree sv pairs params added sig : map (fun kv => fst (decode2 kv)) added = signed_names -> (forall n, In n goog_names -> exists v, given pairs n v) ->
  Permutation pairs (map decode2 (params ++ added) ++ [(B "X-Goog-Signature", sig)]) ->
  Forall (fun kv => read_alike (sv_query sv) (fst kv) (fst (decode2 kv)) /\ read_alike (sv_query sv) (snd kv) (snd (decode2 kv))) params ->
  (forall a b, In a (map (fun kv => fst (decode2 kv)) (params ++ added)) -> In b (map (fun kv => fst (decode2 kv)) (params ++ added)) -> ~ overtakes (sv_query sv) a b) ->
  parameters_agree (sv_query sv) params (map decode2 params).
Proof.
  intros Na Gn Pm Fa Or. constructor.
  - clear - Fa. induction Fa; constructor; assumption.
  - intros n I J. destruct (Gn n J) as [v G]. unfold given in G. apply (filter_perm (fun kv => str_eqb (fst kv) n)) in Pm. rewrite G in Pm. apply Permutation_length in Pm. rewrite map_app, !filter_app, !app_length in Pm. cbn [length] in Pm.
    assert (Q : forall l : list (str * str), In n (map fst l) -> (1 <= length (filter (fun kv : str * str => str_eqb (fst kv) n) l))%nat).
    { intros l Q. apply in_map_iff in Q. destruct Q as (kv & E1 & Q). assert (Q2 : In kv (filter (fun kv => str_eqb (fst kv) n) l)) by (apply filter_In; split; [exact Q|rewrite E1; apply str_eqb_refl]).
      destruct (filter (fun kv => str_eqb (fst kv) n) l); [destruct Q2|cbn [length]; lia]. }
    apply Q in I. assert (J' : In n signed_names \/ n = B "X-Goog-Signature") by (cbn in J |- *; intuition congruence). destruct J' as [J'|J'].
    + rewrite <- Na in J'. rewrite <- (map_map decode2 fst) in J'. apply Q in J'. lia.
    + assert (Z : In n (map fst [(B "X-Goog-Signature", sig)])) by (left; symmetry; exact J'). apply Q in Z. lia.
  - rewrite map_app, Na in Or. rewrite map_map. exact Or.
Qed.

(** * C96 *)

Theorem C96_exactly d o tr url path query sig headers own segs out : deps_ok d ->
  returns (build_signed_url d o) tr (Ok url) -> url_parts url path query sig ->
  own_parameters (requested o) own -> Forall valid_pair (own ++ o_query_parameters o) -> utf8_valid (region_of o) = true -> sends o headers -> named_segments (requested o) segs -> path_segments segs out ->
  exists t t1 t2 t3 email canonical message s, url_time o t t1 /\ tr = t1 ++ t2 ++ t3 /\ authorized (o_signing_key o) t2 email /\
    signed d (o_signing_key o) (o_use_sign_blob o) message t3 s /\
    canonical_text (o_http_method o) path query (o_headers o) canonical /\ message_text (t / 1000000000)%Z (region_of o) canonical message /\
    (utf8_valid email = true -> forall sv now, server_ok sv ->
      let fits := acceptable sv (d_path_caret d) o own out email /\ (t / 1000000000 <= now < t / 1000000000 + (o_expires o - t) / 1000000000)%Z /\ sv_verifies sv email message s in
      (fits -> accepts sv now (issued o path query sig headers) email message s) /\
      (accepts sv now (issued o path query sig headers) email message s -> fits \/ collision canonical)).
Proof.
  intros D H P Own Vp Vr SE Ns Ps. destruct (url_facts_valid _ _ _ _ _ _ _ D H P) as (t & pre & t1 & t2 & email & block & s & T & -> & A & Vd & L & N & Al & Bk & -> & -> & -> & Sg). assert (Y : in_years t) by apply Vd.
  exists t, pre, t1, t2, email. do 2 eexists. exists s. split; [exact T|]. split; [reflexivity|]. split; [exact A|]. split; [exact Sg|].
  match type of Sg with signed _ _ _ (message_of _ _ ?c) _ _ => set (canonical := c) in * end.
  assert (Ct : canonical_text (o_http_method o) (path_of d o) (sorted_query (pairs_of d o (t / NS)%Z (lifetime o t) (lowered o) email)) (o_headers o) canonical).
  { exists (name_list d o), (names_of d (lowered o)), block, (percent_encode (path_of d o)). split; [apply names_spec; exact D|]. split; [apply glued_iff; apply names_text|]. split; [exact Bk|].
    split; [apply escaped_iff; reflexivity|]. apply glued_iff. reflexivity. }
  assert (M0 : message_text (t / NS)%Z (region_of o) canonical (message_of o (t / NS)%Z canonical)) by (apply message_spec; assumption).
  split; [exact Ct|]. split; [exact M0|]. intros Ve sv now OK fits. split.
  - intros ([Ap [read Pa] Ac An Av] & W & Vf). apply (full_accepted d o t email block s headers own sv now read); try assumption. apply (path_criterion d o segs out Ns Ps sv OK). exact Ap.
  - set (r := issued o (path_of d o) (sorted_query (pairs_of d o (t / NS)%Z (lifetime o t) (lowered o) email)) (hex_encode s) headers). intros Acc.
    pose proof Acc as (pairs & secs & region & date & scope & expires & life & names & nt & sig' & canonical' & Hv & Hh & Fq & Ga & Gc & Sp & Gd & _ & Ge & Dl & _ & W & Gh & Gn & As & Hn & Tn & Gs & Hx & Sc & M & Vf).
    destruct (message_binds _ _ _ _ _ _ _ M0 M) as ((dt & Dt & Dt') & _ & R & sum & S1 & S2).
    assert (secs = (t / NS)%Z) as -> by (eapply utc_basic_inj; eassumption).
    destruct (str_eqb_spec canonical' canonical) as [E|Nq]; [left|right; exists canonical', sum; auto].
    destruct (accepted_same sv r pairs sig' names canonical' o (path_of d o) (sorted_query (pairs_of d o (t / NS) (lifetime o t) (lowered o) email)) canonical OK (accepted_clean _ _ _ _ D H))
      as (_ & [_ SP] & _ & Sq & HN & seen & Fs & Sm); try assumption; [|congruence|].
    { pose proof (path_ok_bytes _ _ (path_of_ok d o)) as F. revert F. apply forallb_not_in. destruct (d_path_caret d); reflexivity. }
    rewrite (pairs_of_valid d o t email own Own Vp Vr Ve Y L N Al) in Sq. rewrite app_assoc in Sq. set (params := own ++ o_query_parameters o) in *.
    match type of Sq with server_query _ _ _ (sorted_query (_ ++ ?five)) => set (added := five) in * end.
    apply query_criterion in Sq; [|exact OK|intros Z; apply app_eq_nil in Z; destruct Z as [_ Z]; discriminate Z]. destruct Sq as (Pm & Fa & Or).
    apply Forall_app in Fa. destruct Fa as [Fp Fa]. rewrite Forall_forall in Fa.
    assert (Rd : forall k v v', In (k, v) added -> pct_decode k = k -> given pairs k v' -> read_alike (sv_query sv) v v').
    { intros k v v' I Ek G. pose proof (proj2 (Fa _ I)) as Q. cbn [decode2 fst snd] in Q. replace v' with (pct_decode v); [exact Q|]. apply (given_pair _ _ k _ _ Pm G). apply in_or_app. left. apply in_map_iff.
      exists (k, v). split; [unfold decode2; cbn [fst snd]; rewrite Ek; reflexivity|apply in_or_app; right; exact I]. }
    assert (names = name_list d o) as -> by (apply ascending_unique; [exact As|apply (names_spec _ D o)|intros n; rewrite (proj2 HN n); symmetry; apply (proj2 (names_spec _ D o))]).
    apply glued_iff in Gn. rewrite <- (names_text d o) in Gn. subst nt region.
    assert (Es : scope = scope_of o (t / NS)%Z).
    { destruct Sp as (day & Dy & G), (scope_spec o t Y) as (day' & Dy' & G'). apply glued_iff in G, G'. rewrite G, G'. rewrite (utc_date_text_unique _ _ _ Dy Dy'). reflexivity. }
    subst scope.
    pose proof (Rd (B "X-Goog-Credential") _ _ (or_intror (or_introl eq_refl)) eq_refl Gc) as Rc. apply read_credential in Rc.
    pose proof (Rd (B "X-Goog-Expires") _ _ (or_intror (or_intror (or_intror (or_introl eq_refl)))) eq_refl Ge) as Re.
    pose proof (Rd (B "X-Goog-SignedHeaders") _ _ (or_intror (or_intror (or_intror (or_intror (or_introl eq_refl))))) eq_refl Gh) as Rh. apply read_same in Rh.
    split; [constructor|split; [|exact Vf]].
    + apply (path_criterion d o segs out Ns Ps sv OK). exact SP.
    + exists (map decode2 params). apply (given_agree sv pairs params added sig'); [reflexivity| |exact Pm|exact Fp|exact Or].
      intros n J. cbn in J. destruct J as [<-|[<-|[<-|[<-|[<-|[<-|[]]]]]]]; eexists; eassumption.
    + apply Forall_app in Rc. destruct Rc as [Rc1 Rc2]. apply Forall_app. split; [exact Rc1|]. apply Forall_app in Rc2. destruct Rc2 as [_ Rc2].
      destruct (scope_spec o t Y) as (day & Dy & G). apply glued_iff in G. rewrite G in Rc2. cbn [join] in Rc2. rewrite !Forall_app in Rc2. apply Rc2.
    + apply Forall_forall. intros h Ih. assert (In (ascii_lower (fst h)) (name_list d o)) as I by (apply (C20_names _ _ (names_spec _ D o)); right; exists h; auto).
      rewrite Forall_forall in Tn. pose proof (proj2 (Tn _ I)) as Tk. assert (Wr : Forall (written_alike (sv_query sv)) (ascii_lower (fst h))).
      { rewrite names_text in Rh. revert I Rh. generalize (ascii_lower (fst h)) (name_list d o). clear. intros n l I F. apply Forall_forall. intros c Hc. rewrite Forall_forall in F. apply F. clear - I Hc. revert I. induction l as [|x l IH]; intros []; destruct l as [|y l]; cbn [join]; subst; try (destruct H; fail); try exact Hc; rewrite !in_app_iff; [left; exact Hc|right; right; apply IH; assumption]. }
      rewrite Forall_forall in *. intros c Hc. split; auto.
    + apply Forall_forall. intros h Ih. set (n := ascii_lower (fst h)).
      assert (In n (name_list d o)) as Inn by (apply (C20_names _ _ HN); right; exists h; auto).
      assert (Iv : In (snd h) (values (o_headers o) n)).
      { unfold values. apply in_or_app. right. apply in_map. apply filter_In. split; [exact Ih|]. apply str_eqb_refl. }
      destruct (Sm n Inn) as (v & G1 & G2). rewrite <- (proj2 SE n) in G2, Iv by (intros Z; rewrite Z in Iv; destruct Iv). change headers with (rq_headers r) in G2, Iv.
      assert (Fr : Forall2 (fun x y : str => exists a b : str, x = a ++ y ++ b) (map snd (filter (fun h => str_eqb (ascii_lower (fst h)) n) (rq_headers r))) (received_values seen n) /\ Forall trimmed (received_values seen n)).
      { clear - Fs. unfold received_values. induction Fs as [|x y l l' (E1 & E2 & a & b & E3 & _) F [IH1 IH2]]; [split; constructor|]. cbn [filter]. rewrite E1. destruct (str_eqb (ascii_lower (fst x)) n); [|split; assumption].
        cbn [map]. split; constructor; try assumption. exists a, b. exact E3. }
      destruct Fr as [Fr Ft]. pose proof (glued_length _ _ _ _ Fr G2 G1) as Eq. rewrite Eq in Iv. rewrite Forall_forall in Ft. exact (Ft _ Iv).
    + assert (Kp : sv_query sv "%" = false) by (apply (proj1 (proj2 OK)); left; reflexivity). assert (Kr : forall c, In c reserved_characters -> sv_query sv c = false) by (intros c Hc; apply (proj1 (proj2 OK)); right; exact Hc).
      apply read_to in Re; try assumption. destruct Re as [Re _]. rewrite (pct_decode_no_triplet (dec _)) in Re by (apply plain_iff; apply plain_no_percent; apply parameter_no_percent; apply decimal_parameter).
      apply decimal_iff in Dl. rewrite Re in Dl. apply (f_equal undec) in Dl. rewrite !undec_dec in Dl. injection Dl as Dl. rewrite <- Dl, Z2N.id in W by exact L. exact W.
Qed.

(** ** Cases *)

Definition alike_b (c : byte) : bool := negb (beq c "%") && (mem c reserved_characters || mem c unreserved_characters).
Lemma alike_b_ok c : alike_b c = true <-> written_alike (sv_query strict_server) c.
Proof.
  unfold alike_b, written_alike. rewrite andb_true_iff, orb_true_iff, negb_true_iff, mem_iff. cbn [sv_query strict_server]. split; intros [A C]; (split; [|exact C]).
  - intros ->. discriminate A.
  - destruct (beq_spec c "%"); [contradiction|reflexivity].
Qed.
Lemma alike_text s : forallb alike_b s = true -> Forall (fun c => c = "/" \/ written_alike (sv_query strict_server) c) s.
Proof. intros H. apply Forall_forall. intros c Hc. rewrite forallb_forall in H. right. apply alike_b_ok. apply H. exact Hc. Qed.

Definition demo_headed (name value : str) : url_options := demo_url_with (B "bucket1") (B "a") None [(name, value)] demo_content demo_account false.
Definition demo_headed_request (name value : str) : list (str * str) := [(B "Host", B "storage.googleapis.com"); (name, value)].

(** A header and two parameters, one of them with a slash escaped by the caller. *)
Example C96_case : let o := demo_headed (B "X-Goog-Meta-A") (B "1 2") in
  deps_ok demo_deps /\ (exists url path query sig, returns (build_signed_url demo_deps o) [] (Ok url) /\ url_parts url path query sig) /\
  own_parameters (requested o) [] /\ Forall valid_pair ([] ++ o_query_parameters o) /\ utf8_valid (region_of o) = true /\ sends o (demo_headed_request (B "X-Goog-Meta-A") (B "1 2")) /\
  named_segments (requested o) [B "bucket1"; B "a"] /\ path_segments [B "bucket1"; B "a"] [B "bucket1"; B "a"] /\
  server_ok strict_server /\ acceptable strict_server (d_path_caret demo_deps) o [] [B "bucket1"; B "a"] (B "sa@example.com").
Proof.
  intros o. destruct C91_case as (D & _ & _ & Vp & _ & _ & _ & Ps & OK & Ag & Pa).
  split; [exact D|]. split. { destruct (demo_success o eq_refl eq_refl eq_refl) as [sg R]; [vm_compute; reflexivity|]. do 4 eexists. split; [exact R|apply url_parts_of]. }
  split; [apply op_none; apply not_in_b_ok; vm_compute; reflexivity|]. split; [exact Vp|]. split; [reflexivity|]. split.
  { split.
    - constructor; [exact (Forall_inv (proj1 (demo_request_ok (B "a"))))|]. constructor; [|constructor]. split; [apply literal_text; reflexivity|]. apply Forall_forall. intros c Hc. cbn in Hc.
      repeat destruct Hc as [<-|Hc]; try contradiction Hc; left; vm_compute; split; congruence.
    - intros n Hn. assert (I : n = B "host" \/ n = B "x-goog-meta-a").
      { destruct (str_eqb_spec n (B "host")) as [E|E]; [left; exact E|]. right. destruct (str_eqb_spec n (B "x-goog-meta-a")) as [E'|E']; [exact E'|]. exfalso. apply Hn. unfold values.
        destruct (str_eqb_spec n (B "host")); [contradiction|]. cbn [app o demo_headed demo_url_with o_headers filter fst]. change (ascii_lower (B "X-Goog-Meta-A")) with (B "x-goog-meta-a").
        destruct (str_eqb_spec (B "x-goog-meta-a") n) as [Z|_]; [congruence|reflexivity]. }
      destruct I as [-> | ->]; vm_compute; reflexivity. }
  split; [apply named_by; vm_compute; reflexivity|]. split; [exact Ps|]. split; [exact OK|]. constructor.
  - exact Ag.
  - eexists. exact Pa.
  - apply alike_text. vm_compute. reflexivity.
  - constructor; [|constructor]. cbn [fst]. apply Forall_forall. intros c Hc. split.
    + assert (F : Forall token_character (ascii_lower (B "X-Goog-Meta-A"))) by (apply literal_text; reflexivity). rewrite Forall_forall in F. apply F. exact Hc.
    + assert (G : forallb alike_b (ascii_lower (B "X-Goog-Meta-A")) = true) by (vm_compute; reflexivity). rewrite forallb_forall in G. apply alike_b_ok. apply G. exact Hc.
  - constructor; [|constructor]. cbn [snd]. split.
    + intros c r E. injection E as <- _. intros [Z|Z]; discriminate Z.
    + intros c r E. change (B "1 2") with (["1"; " "] ++ ["2"]) in E. apply app_inj_tail in E. destruct E as [_ <-]. intros [Z|Z]; discriminate Z.
Qed.

(** Neither direction is empty: the window and the signature of this URL can be met, and other options are refused. *)
Example C96_refused_case : forall caret out account,
  ~ acceptable strict_server caret (demo_headed (B "x-goog-meta-a|b") (B "1")) [] out account /\ ~ acceptable strict_server caret (demo_headed (B "x-goog-meta-a%41") (B "1")) [] out account /\
  ~ acceptable strict_server caret (demo_headed (B "x-goog-meta-a") (B "1 ")) [] out account /\
  ~ acceptable strict_server caret (demo_url_with (B "bucket1") (B "a") (Some (B "us%20")) [] [] demo_account false) [] out account /\
  ~ acceptable strict_server caret (demo_url_with (B "bucket1") (B "a") None [] [] demo_account false) [] out (B "sa%40example.com").
Proof.
  intros caret out account.
  assert (G : forall s, existsb (fun c => negb (alike_b c || beq c "/")) s = true -> ~ Forall (fun c => c = "/" \/ written_alike (sv_query strict_server) c) s).
  { intros s H F. apply existsb_exists in H. destruct H as (c & I & H). rewrite Forall_forall in F. apply negb_true_iff, orb_false_iff in H. destruct H as [H1 H2]. destruct (F c I) as [->|A]; [discriminate H2|]. apply alike_b_ok in A. congruence. }
  assert (N : forall name, existsb (fun c => negb (alike_b c || beq c "/")) (ascii_lower name) = true -> ~ acceptable strict_server caret (demo_headed name (B "1")) [] out account).
  { intros name H A. apply (G _ H). pose proof (Forall_inv (ac_names _ _ _ _ _ _ A)) as F. cbn [fst] in F. eapply Forall_impl; [|exact F]. cbv beta. tauto. }
  split; [apply N; vm_compute; reflexivity|]. split; [apply N; vm_compute; reflexivity|]. split.
  { intros A. destruct (Forall_inv (ac_values _ _ _ _ _ _ A)) as [_ T]. apply (T " " (B "1")); [reflexivity|left; reflexivity]. }
  split; intros A; pose proof (ac_account _ _ _ _ _ _ A) as F; [apply Forall_app in F; destruct F as [_ F]|apply Forall_app in F; destruct F as [F _]]; revert F; apply G; vm_compute; reflexivity.
Qed.
