(** C91: which query parameters give URLs that servers accept. *)
From Coq Require Import Sorted Permutation.
From Verif Require Import Base BaseFacts Utf8 FormUrl FormUrlFacts Sha256 SpecCodec CodecFacts SpecSha ShaFacts Time CalendarFacts TimeFacts SpecCalendar SpecPolicy SpecForm FormFacts
  Effects EffectsFacts Keys Scope Url SignedUrl UrlFacts SpecUrl UrlSpecFacts SpecToken SpecTrace SpecSign SignFacts SignedUrlFacts HeaderFacts
  HtmlForm Calls Demo UrlResult UrlQueryFacts Prop_Url Prop_UrlQuery Prop_UrlScope Prop_UrlHeaders Prop_UrlPath SpecServer Prop_Server SpecPath Prop_Path SpecName Prop_Name SpecParameter.
Local Open Scope byte_scope.

(** * Texts *)

Section Server.
Context (kept : byte -> bool) (Kp : kept "%" = false) (Kr : forall c, In c reserved_characters -> kept c = false).
Notation theirs s := (pct_encode (escapes kept) s).

Lemma hex_clear c : unhexd c <> None -> reserved c = false.
Proof.
  intros H. pose proof (byte_sweep (fun c => implb (match unhexd c with Some _ => true | None => false end) (negb (reserved c))) eq_refl c) as G.
  cbv beta in G. destruct (unhexd c); [|congruence]. cbn [implb] in G. apply negb_true_iff in G. exact G.
Qed.

Lemma percent_first c s : exists r, percent_encode (c :: s) = c :: r \/ percent_encode (c :: s) = "%" :: r.
Proof. unfold percent_encode. rewrite pct_encode_cons. destruct (reserved c); [exists (HEXD (bN c / 16) :: HEXD (bN c mod 16) :: pct_encode reserved s); right|exists (pct_encode reserved s); left]; reflexivity. Qed.

Lemma read_to s t : read_alike kept s t -> t = pct_decode s /\ percent_encode s = theirs t.
Proof.
  induction 1 as [|b h l s t K H1 H2 A [-> IH]|c s t N C A [-> IH]]; [split; reflexivity| |].
  - pose proof (bN_lt b) as R. assert ((bN b / 16 < 16)%N) as R1 by (apply N.div_lt_upper_bound; lia). assert ((bN b mod 16 < 16)%N) as R2 by (apply N.mod_lt; lia).
    rewrite hex_upper in H1, H2 by assumption. injection H1 as <-. injection H2 as <-. set (h := HEXD (bN b / 16)) in *. set (l := HEXD (bN b mod 16)) in *.
    assert (Eh : unhexd h = Some (bN b / 16)%N) by (apply unhexd_HEXD; exact R1). assert (El : unhexd l = Some (bN b mod 16)%N) by (apply unhexd_HEXD; exact R2).
    assert (D : pct_decode ("%" :: h :: l :: s) = b :: pct_decode s).
    { change (pct_decode ("%" :: h :: l :: s)) with (match unhexd h, unhexd l with Some a, Some c => nb (16 * a + c) :: pct_decode s | _, _ => "%" :: pct_decode (h :: l :: s) end).
      rewrite Eh, El. rewrite <- (N.div_mod (bN b) 16) by discriminate. rewrite nb_bN. reflexivity. }
    split; [symmetry; exact D|]. unfold percent_encode in *. rewrite (pct_encode_cons reserved "%"), (pct_encode_cons reserved h), (pct_encode_cons reserved l), (pct_encode_cons (escapes kept) b), IH.
    rewrite (hex_clear h), (hex_clear l) by congruence. unfold escapes at 2. rewrite K. reflexivity.
  - assert (D : pct_decode (c :: s) = c :: pct_decode s) by (apply pct_decode_cons_no; unfold is_triplet; destruct (beq_spec c "%"); [contradiction|destruct s as [|? [|? ?]]; reflexivity]).
    split; [symmetry; exact D|]. unfold percent_encode in *. rewrite (pct_encode_cons reserved c), (pct_encode_cons (escapes kept) c), IH. f_equal. unfold escapes. destruct (reserved c) eqn:E.
    + apply reserved_iff in E. rewrite (Kr _ E). reflexivity.
    + destruct C as [C| ->]; [apply reserved_iff in C; congruence|reflexivity].
Qed.

Lemma read_from n : forall s, (length s <= n)%nat -> percent_encode s = theirs (pct_decode s) -> read_alike kept s (pct_decode s).
Proof.
  induction n as [|n IH]; intros s Ln E.
  - destruct s; [constructor|cbn in Ln; lia].
  - destruct s as [|c s]; [constructor|]. cbn [length] in Ln. destruct (is_triplet (c :: s)) eqn:T.
    + apply pct_decode_triplet in T. destruct T as (h & l & r & a & b & Es & Ha & Hb & D). rewrite D in *. assert (Ln2 : (length ("%" :: h :: l :: r) <= S n)%nat) by (rewrite <- Es; cbn [length]; lia). rewrite Es in *. clear D Es Ln c s. rename Ln2 into Ln.
      pose proof (unhexd_range _ _ Ha) as Ra. pose proof (unhexd_range _ _ Hb) as Rb. set (x := nb (16 * a + b)) in *.
      assert (Bx : bN x = (16 * a + b)%N) by (apply bN_nb; lia). assert (Dx : (bN x / 16 = a)%N) by (symmetry; apply (N.div_unique _ 16 a b); lia). assert (Mx : (bN x mod 16 = b)%N) by (symmetry; apply (N.mod_unique _ 16 a b); lia).
      clearbody x. cbn [length] in Ln. unfold percent_encode in E. rewrite (pct_encode_cons reserved "%"), (pct_encode_cons reserved h), (pct_encode_cons reserved l), (hex_clear h), (hex_clear l), (pct_encode_cons (escapes kept) x) in E by congruence.
      change (reserved "%") with false in E. unfold escapes at 1 in E. destruct (kept x) eqn:K; cbn [negb] in E; cbn [app] in E.
      * exfalso. injection E as E _. subst x. congruence.
      * unfold pct in E. rewrite Dx, Mx in E. cbn [app] in E. injection E as -> -> E. apply ra_escape; [exact K|rewrite Dx; apply hex_upper; exact Ra|rewrite Mx; apply hex_upper; exact Rb|]. apply IH; [lia|exact E].
    + rewrite pct_decode_cons_no in * by exact T. unfold percent_encode in E. rewrite (pct_encode_cons reserved c), (pct_encode_cons (escapes kept) c) in E. destruct (beq_spec c "%") as [->|Nc].
      * exfalso. change (reserved "%") with false in E. unfold escapes at 1 in E. rewrite Kp in E. cbn [negb] in E. change (pct "%") with (B "%25") in E. cbn [app] in E. injection E as E.
        destruct s as [|h s]; [discriminate E|]. destruct (percent_first h s) as [r [Eh|Eh]]; unfold percent_encode in Eh; rewrite Eh in E; [|discriminate E].
        injection E as -> E. rewrite pct_encode_cons in Eh. change (reserved "2") with false in Eh. cbn [app] in Eh. injection Eh as Eh. rewrite <- Eh in E.
        destruct s as [|l s]; [discriminate E|]. destruct (percent_first l s) as [r' [El|El]]; unfold percent_encode in El; rewrite El in E; [|discriminate E]. injection E as -> E. discriminate T.
      * destruct (reserved c) eqn:Er.
        -- pose proof Er as Ir. apply reserved_iff in Ir. unfold escapes at 1 in E. rewrite (Kr _ Ir) in E. cbn [negb] in E. apply app_inv_head in E. apply ra_same; [exact Nc|left; exact Ir|]. apply IH; [lia|exact E].
        -- unfold escapes at 1 in E. destruct (kept c) eqn:K; cbn [negb] in E.
           ++ apply app_inv_head in E. apply ra_same; [exact Nc|right; exact K|]. apply IH; [lia|exact E].
           ++ exfalso. apply Nc. unfold pct in E. cbn [app] in E. injection E. auto.
Qed.

Lemma read_iff s t : read_alike kept s t <-> t = pct_decode s /\ percent_encode s = theirs t.
Proof. split; [apply read_to|]. intros [-> E]. apply (read_from (length s)); [apply Nat.le_refl|exact E]. Qed.

(** Whatever the server reads, it reads the unescaped text. *)
Lemma encoded_read s t : encoded kept t (percent_encode s) -> read_alike kept s t.
Proof.
  intros E. apply read_iff. split; [|apply Prop_Server.encoded_iff; exact E]. apply encoded_unescaped in E; [|exact Kp]. apply unescaped_iff in E. unfold percent_encode in E. rewrite pct_decode_encode in E by reflexivity. exact E.
Qed.

(** * Order *)

Lemma theirs_prefix a : forall b c' r', theirs b = theirs a ++ c' :: r' -> exists c r, b = a ++ c :: r /\ c' = (if kept c then c else "%").
Proof.
  induction a as [|x a IH]; intros b c' r' E.
  - destruct b as [|y b]; [discriminate E|]. exists y, b. split; [reflexivity|]. rewrite pct_encode_cons in E. change (escapes kept y) with (negb (kept y)) in E. destruct (kept y); cbn in E; injection E; auto.
  - destruct b as [|y b]; [rewrite pct_encode_cons in E; change (escapes kept x) with (negb (kept x)) in E; destruct (kept x); discriminate E|].
    assert (H : x = y /\ theirs b = theirs a ++ c' :: r').
    { rewrite !pct_encode_cons in E. change (escapes kept x) with (negb (kept x)) in E. change (escapes kept y) with (negb (kept y)) in E. destruct (kept x) eqn:Kx, (kept y) eqn:Ky; cbn [negb] in E; unfold pct in E; cbn [app] in E.
      - injection E as -> E. auto.
      - injection E as <- _. congruence.
      - injection E as -> _. congruence.
      - injection E as E1 E2 E. split; [|exact E]. pose proof (bN_lt x). pose proof (bN_lt y). apply bN_inj.
        assert (I : forall n m, (n < 16)%N -> (m < 16)%N -> HEXD n = HEXD m -> n = m) by (intros n m Hn Hm Q; apply (f_equal unhexd) in Q; rewrite !unhexd_HEXD in Q by assumption; congruence).
        apply I in E1; [|apply N.div_lt_upper_bound; lia..]. apply I in E2; [|apply N.mod_lt; lia..]. rewrite (N.div_mod (bN x) 16), (N.div_mod (bN y) 16) by discriminate. congruence. }
    destruct H as [-> H]. apply IH in H. destruct H as (c & r & -> & C). exists c, r. auto.
Qed.

Lemma overtakes_iff a b : overtakes kept a b <-> exists c r, theirs b = theirs a ++ c :: r /\ (bN c < 61)%N.
Proof.
  split.
  - intros (c & r & -> & H). rewrite pct_encode_app, (pct_encode_cons _ c). change (escapes kept c) with (negb (kept c)). destruct (kept c) eqn:K; cbn [negb].
    + exists c, (theirs r). split; [reflexivity|]. destruct H; [congruence|assumption].
    + eexists "%", _. split; [unfold pct; cbn [app]; reflexivity|reflexivity].
  - intros (c' & r' & E & H). apply theirs_prefix in E. destruct E as (c & r & -> & ->). exists c, r. split; [reflexivity|]. destruct (kept c); auto.
Qed.
End Server.

Lemma text_le_named k v k' v' : ~ In "=" k -> ~ In "=" k' -> (forall c r, k = k' ++ c :: r -> ~ (bN c < 61)%N) -> text_le (k ++ B "=" ++ v) (k' ++ B "=" ++ v') -> text_le k k'.
Proof.
  revert k'. induction k as [|x k IH]; intros k' N N' P H.
  - destruct k' as [|y k']; [right; reflexivity|left; constructor].
  - destruct k' as [|y k'].
    + exfalso. destruct H as [H|H].
      * cbn [app] in H. change (B "=" ++ v') with ("=" :: v') in H. inversion H; subst; [apply (P x k eq_refl); assumption|apply N; left; reflexivity].
      * injection H as -> _. apply N. left. reflexivity.
    + cbn [app] in H. assert (C : (bN x < bN y)%N \/ x = y /\ text_le (k ++ B "=" ++ v) (k' ++ B "=" ++ v')).
      { destruct H as [H|H]; [inversion H; subst; [left; assumption|right; split; [reflexivity|left; assumption]]|]. injection H as -> H. right. split; [reflexivity|right; exact H]. }
      destruct C as [C|[-> C]]; [left; constructor; exact C|]. destruct (IH k') as [L| ->]; try exact C.
      * intros I. apply N. right. exact I.
      * intros I. apply N'. right. exact I.
      * intros c r E. apply (P c r). rewrite E. reflexivity.
      * left. apply tl_later. exact L.
      * right. reflexivity.
Qed.

Lemma text_le_back a x : text_le (a ++ x) a -> x = [].
Proof.
  induction a as [|c a IH]; intros H.
  - destruct H as [H|H]; [inversion H|exact H].
  - apply IH. destruct H as [H|H]; [inversion H; subst; [lia|left; assumption]|injection H as H; right; exact H].
Qed.

Lemma sorted_either {A} (R : A -> A -> Prop) l p q : StronglySorted R l -> In p l -> In q l -> p = q \/ R p q \/ R q p.
Proof.
  induction 1 as [|x l S IH F]; intros Hp Hq; [destruct Hp|]. rewrite Forall_forall in F. destruct Hp as [<-|Hp], Hq as [<-|Hq]; auto.
Qed.

Lemma sorted_both {A C D} (f : A -> C) (g : A -> D) (R : C -> C -> Prop) (S : D -> D -> Prop) l : StronglySorted R (map f l) -> StronglySorted S (map g l) -> StronglySorted (fun x y => R (f x) (f y) /\ S (g x) (g y)) l.
Proof.
  induction l as [|x l IH]; intros H1 H2; [constructor|]. cbn [map] in *. inversion H1 as [|? ? S1 F1]; subst. inversion H2 as [|? ? S2 F2]; subst. constructor; [auto|].
  apply Forall_forall. intros y Hy. rewrite Forall_forall in F1, F2. split; [apply F1|apply F2]; apply in_map; exact Hy.
Qed.

Lemma accepted_wide d o tr url path query sig headers own : deps_ok d ->
  returns (build_signed_url d o) tr (Ok url) -> url_parts url path query sig -> own_parameters (requested o) own -> Forall valid_pair (own ++ o_query_parameters o) -> plain_rest o -> sends o headers ->
  exists t t1 t2 t3 email message s, url_time o t t1 /\ tr = t1 ++ t2 ++ t3 /\ authorized (o_signing_key o) t2 email /\
    signed d (o_signing_key o) (o_use_sign_blob o) message t3 s /\
    forall sv now read, server_ok sv -> account_text email -> sv_verifies sv email message s -> server_path sv path (percent_encode path) -> parameters_agree (sv_query sv) (own ++ o_query_parameters o) read ->
      (t / 1000000000 <= now < t / 1000000000 + (o_expires o - t) / 1000000000)%Z ->
      accepts sv now (issued o path query sig headers) email message s.
Proof.
  intros D H P Own Vp PO SE. destruct (url_facts_valid _ _ _ _ _ _ _ D H P) as (t & pre & t1 & t2 & email & block & s & T & -> & A & Vd & L & N & Al & Bk & -> & -> & -> & Sg). assert (Y : in_years t) by apply Vd.
  exists t, pre, t1, t2, email, (message_of o (t / NS)%Z (join [x0a] [o_http_method o; percent_encode (path_of d o); sorted_query (pairs_of d o (t / NS)%Z (lifetime o t) (lowered o) email); block; []; names_of d (lowered o); B "UNSIGNED-PAYLOAD"])), s.
  split; [exact T|]. split; [reflexivity|]. split; [exact A|]. split; [exact Sg|]. intros sv now read OK Em Vf SP PA W.
  pose proof (pairs_of_valid d o t email own Own Vp (account_valid _ (pr_region o PO)) (account_valid _ Em) Y L N Al) as EL. rewrite app_assoc in EL. rewrite EL in *. clear EL.
  set (params := own ++ o_query_parameters o) in *.
  set (cred := email ++ B "/" ++ scope_of o (t / NS)%Z) in *.
  match goal with |- context [sorted_query ?l] => set (l0 := l) in * end.
  destruct (sorted_pieces l0) as (l' & Pl & El).
  assert (Kp : sv_query sv "%" = false) by (apply (proj1 (proj2 OK)); left; reflexivity). assert (Kr : forall c, In c reserved_characters -> sv_query sv c = false) by (intros c Hc; apply (proj1 (proj2 OK)); right; exact Hc).
  assert (Rd : Forall (fun kv => encoded_pair (sv_query sv) (decode2 kv) (percent_encode (fst kv), percent_encode (snd kv))) params /\ read = map decode2 params).
  { pose proof (pg_read _ _ _ PA) as F. clear - F Kp Kr. induction F as [|kv kv' l l' [A1 A2] F [I1 ->]]; [split; [constructor|reflexivity]|].
    apply read_to in A1, A2; try assumption. destruct A1 as [A1 B1], A2 as [A2 B2]. assert (kv' = decode2 kv) as -> by (destruct kv'; unfold decode2; cbn [fst snd] in *; congruence).
    split; [constructor; [|exact I1]|reflexivity]. unfold decode2 in *. cbn [fst snd] in *. split; cbn [fst snd]; apply Prop_Server.encoded_iff; assumption. }
  destruct Rd as [Re Rd].
  set (goal_pairs := read ++ required_parameters email (ut_to_iso8601 (t / NS)%Z) (scope_of o (t / NS)%Z) (dec (Z.to_N (lifetime o t))) (names_of d (lowered o))).
  assert (Sc : account_text (scope_of o (t / NS)%Z)).
  { unfold scope_of. destruct (scope_spec o t Y) as (day & Dy & G). fold (scope_of o (t / NS)%Z). apply glued_iff in G. rewrite G. apply join_text; [repeat constructor|].
    constructor; [apply parameter_account; apply date_parameter; eapply date_bytes; exact Dy|]. constructor; [exact (pr_region o PO)|].
    constructor; [apply literal_text; reflexivity|]. constructor; [apply literal_text; reflexivity|constructor]. }
  assert (Cr : account_text cred). { apply Forall_app. split; [exact Em|]. constructor; [left; reflexivity|exact Sc]. }
  assert (Nt : parameter_text (names_of d (lowered o))).
  { rewrite names_text. apply join_text; [apply literal_text; reflexivity|]. apply Forall_forall. intros n Hn. apply (C20_names _ _ (names_spec _ D o)) in Hn.
    destruct Hn as [->|(h & I & <-)]; [apply literal_text; reflexivity|]. apply lower_parameter. pose proof (pr_headers o PO) as F. rewrite Forall_forall in F. apply (F h I). }
  (* What the server reads and how it writes it. *)
  assert (Q : forall kv, In kv l0 -> encoded_pair (sv_query sv) (decode2 kv) (percent_encode (fst kv), percent_encode (snd kv)) /\ 
     In (fst (decode2 kv)) (map fst read ++ signed_names)).
  { assert (G : forall k v, parameter_text k -> parameter_text v -> encoded_pair (sv_query sv) (decode2 (k, v)) (percent_encode k, percent_encode v)).
    { intros k v Hk Hv. unfold decode2. cbn [fst snd]. split; cbn [fst snd]; apply Prop_Server.encoded_iff; rewrite (param_encode sv OK) by (rewrite ?(pct_decode_no_triplet _) by (apply plain_iff; apply plain_no_percent; apply parameter_no_percent; assumption); assumption);
        rewrite pct_decode_no_triplet by (apply plain_iff; apply plain_no_percent; apply parameter_no_percent; assumption); reflexivity. }
    intros kv I. unfold l0 in I. apply in_app_or in I. destruct I as [I|I].
    - rewrite Forall_forall in Re. split; [apply Re; exact I|]. apply in_or_app. left. rewrite Rd, map_map. apply (in_map (fun x => fst (decode2 x))). exact I.
    - assert (K : forall s, forallb (fun c => mem c (unreserved_characters ++ reserved_characters)) s = true -> parameter_text s) by (intros; apply literal_text; assumption).
      destruct I as [<-|[<-|[<-|[<-|[<-|[]]]]]]; cbn [fst snd].
      + split; [apply G; apply K; reflexivity|]. apply in_or_app. right. cbn. tauto.
      + split; [|apply in_or_app; right; cbn; tauto]. unfold decode2. cbn [fst snd]. split; cbn [fst snd]; apply Prop_Server.encoded_iff.
        * rewrite (param_encode sv OK) by (apply K; reflexivity). reflexivity.
        * rewrite replace_slash_decode. rewrite (account_encode sv OK) by exact Cr. rewrite pct_decode_no_triplet; [reflexivity|].
          apply plain_iff. apply plain_no_percent. apply account_no_percent. exact Cr.
      + split; [apply G; [apply K; reflexivity|apply date_parameter; apply iso_bytes; exact Y]|apply in_or_app; right; cbn; tauto].
      + split; [apply G; [apply K; reflexivity|apply decimal_parameter]|apply in_or_app; right; cbn; tauto].
      + split; [apply G; [apply K; reflexivity|exact Nt]|apply in_or_app; right; cbn; tauto]. }
  assert (Dp : map decode2 l0 = goal_pairs).
  { assert (G : forall k v, account_text k -> account_text v -> decode2 (k, v) = (k, v)).
    { intros k v Hk Hv. unfold decode2. cbn [fst snd]. rewrite !pct_decode_no_triplet by (apply plain_iff; apply plain_no_percent; apply account_no_percent; assumption). reflexivity. }
    unfold l0, goal_pairs. rewrite map_app. f_equal.
    - symmetry. exact Rd.
    - unfold required_parameters. cbn [map]. unfold decode2 at 2. cbn [fst snd]. rewrite replace_slash_decode.
      assert (K : forall s, forallb (fun c => mem c ("/" :: unreserved_characters ++ reserved_characters)) s = true -> account_text s) by (intros; apply literal_text; assumption).
      rewrite !G; try (apply K; reflexivity); try (apply parameter_account; first [apply decimal_parameter|exact Nt|apply date_parameter; apply iso_bytes; exact Y]).
      repeat f_equal. apply pct_decode_no_triplet. apply plain_iff. apply plain_no_percent. apply account_no_percent. exact Cr. }
  set (pairs := form_read (sorted_query l0 ++ B "&X-Goog-Signature=" ++ hex_encode s)).
  assert (Pp : Permutation pairs (goal_pairs ++ [(B "X-Goog-Signature", hex_encode s)])).
  { unfold pairs. eapply Permutation_trans; [apply query_read; apply hex_sig|]. rewrite map_app, Dp. apply Permutation_app_head. cbn [map]. unfold decode2. cbn [fst snd].
    rewrite (pct_decode_no_triplet (hex_encode s)) by (apply plain_iff; apply plain_hex; apply hex_sig). reflexivity. }
  assert (Nn : forall n, In n goog_names -> filter (fun kv => str_eqb (fst kv) n) read = []).
  { intros n Hn. apply filter_none. intros I. exact (pg_names _ _ _ PA n I Hn). }
  assert (Gv : forall n v, In n goog_names -> filter (fun kv => str_eqb (fst kv) n) (required_parameters email (ut_to_iso8601 (t / NS)%Z) (scope_of o (t / NS)%Z) (dec (Z.to_N (lifetime o t))) (names_of d (lowered o)) ++ [(B "X-Goog-Signature", hex_encode s)]) = [(n, v)] -> given pairs n v).
  { intros n v Hn Ef. eapply given_perm; [exact Pp|]. unfold goal_pairs. rewrite <- app_assoc, filter_app, Nn by exact Hn. exact Ef. }
  destruct SE as [SE1 SE2].
  destruct (received_exists headers) as [seen Fs].
  assert (Rv : forall n, values (o_headers o) n <> [] -> received_values seen n = values (o_headers o) n).
  { intros n Hn. rewrite (received_same _ _ n Fs); [apply SE2; exact Hn|]. rewrite SE2 by exact Hn. apply Forall_forall. intros v Hv. unfold values in Hv. apply in_app_or in Hv.
    destruct Hv as [Hv|Hv].
    - destruct (str_eqb n (B "host")); [|destruct Hv]. destruct Hv as [<-|[]]. split; [intros c x E; injection E as <- _; intros [Z|Z]; discriminate Z|].
      intros c x E. change (B "storage.googleapis.com") with (B "storage.googleapis.co" ++ B "m") in E. apply app_inj_tail in E. destruct E as [_ <-]. intros [Z|Z]; discriminate Z.
    - apply in_map_iff in Hv. destruct Hv as (h & <- & Hh). apply filter_In in Hh. destruct Hh as [Hh _]. pose proof (pr_headers o PO) as F. rewrite Forall_forall in F. apply (F h Hh). }
  exists pairs, (t / NS)%Z, (region_of o), (ut_to_iso8601 (t / NS)%Z), (scope_of o (t / NS)%Z), (dec (Z.to_N (lifetime o t))), (Z.to_N (lifetime o t)), (name_list d o), (names_of d (lowered o)), (hex_encode s).
  eexists. split.
  { assert (V : In (o_http_method o) methods) by apply Vd. exact V. }
  split; [exact SE1|]. split; [apply form_query_iff; reflexivity|].
  split; [apply Gv; [cbn; tauto|reflexivity]|]. split; [apply Gv; [cbn; tauto|reflexivity]|]. split; [apply scope_spec; exact Y|].
  split; [apply Gv; [cbn; tauto|reflexivity]|]. split; [apply iso8601_spec; apply years_ts; exact Y|].
  split; [apply Gv; [cbn; tauto|reflexivity]|]. split; [apply decimal_dec|].
  split. { assert ((lifetime o t <= 604800)%Z) by apply Vd. lia. }
  split. { rewrite Z2N.id by exact L. exact W. }
  split; [apply Gv; [cbn; tauto|reflexivity]|]. split; [apply glued_iff; apply names_text|]. split; [apply (names_spec _ D o)|].
  split. { apply (proj2 (names_spec _ D o)). discriminate. }
  split.
  { apply Forall_forall. intros n Hn. apply (C20_names _ _ (names_spec _ D o)) in Hn. destruct Hn as [->|(h & I & <-)]; [split; [discriminate|apply literal_text; reflexivity]|].
    pose proof (pr_headers o PO) as F. rewrite Forall_forall in F. split; [|apply lower_token; apply (F h I)].
    assert (V : headers_valid d o) by apply Vd. unfold headers_valid in V. rewrite Forall_forall in V. destruct (V h I) as [[V1 _] _].
    intros Z. apply V1. destruct (fst h); [reflexivity|discriminate Z]. }
  split; [apply Gv; [cbn; tauto|reflexivity]|]. split; [apply hex_encode_spec|]. split; [|split; [apply message_spec; [exact Y|exact Al]|exact Vf]].
  exists (percent_encode (path_of d o)), (sorted_query l0), block, (names_of d (lowered o)). split; [|split; [|split; [|split]]].
  - exact SP.
  - exists (map decode2 l'), (map (fun kv => (percent_encode (fst kv), percent_encode (snd kv))) l'). split; [|split; [|split]].
    + eapply Permutation_trans; [exact Pp|]. apply Permutation_app_tail. rewrite <- Dp. apply Permutation_map. exact Pl.
    + assert (Q' : Forall (fun kv => encoded_pair (sv_query sv) (decode2 kv) (percent_encode (fst kv), percent_encode (snd kv))) l').
      { apply Forall_forall. intros kv I. apply Q. apply (Permutation_in _ (Permutation_sym Pl)). exact I. }
      clear - Q'. induction Q' as [|x l Hx F IH]; constructor; assumption.
    + assert (So : StronglySorted str_le (map enc_pair l')) by (rewrite <- El; apply sort_sorted).
      assert (Q' : forall kv, In kv l' -> percent_encode (fst kv) = pct_encode (escapes (sv_query sv)) (fst (decode2 kv)) /\ In (fst (decode2 kv)) (map fst read ++ signed_names)).
      { intros kv I. destruct (Q kv) as [[Q1 _] Q2]; [apply (Permutation_in _ (Permutation_sym Pl)); exact I|]. split; [apply Prop_Server.encoded_iff; exact Q1|exact Q2]. }
      clear - So Q' PA Kp Kr. induction l' as [|x l' IH]; [constructor|]. cbn [map] in *. inversion So as [|? ? S1 S2]; subst. constructor; [apply IH; [exact S1|intros kv I; apply Q'; right; exact I]|].
      apply Forall_forall. intros z Hz. apply in_map_iff in Hz. destruct Hz as (y & <- & Hy). destruct (Q' x (or_introl eq_refl)) as [X1 X2]. destruct (Q' y (or_intror Hy)) as [Y1 Y2].
      rewrite Forall_forall in S2. specialize (S2 (enc_pair y) (in_map _ _ _ Hy)). apply text_le_iff in S2. unfold enc_pair in S2.
      assert (L : text_le (percent_encode (fst x)) (percent_encode (fst y))).
      { eapply text_le_named; [apply percent_encode_avoids; reflexivity|apply percent_encode_avoids; reflexivity| |exact S2]. intros c r E Lt. apply (pg_order _ _ _ PA _ _ Y2 X2). apply overtakes_iff; [exact Kp|exact Kr|].
        exists c, r. rewrite <- X1, <- Y1. auto. }
      destruct L as [L|L]; [left; exact L|]. right. split; [exact L|]. cbn [fst snd]. rewrite L in S2. apply text_le_tail in S2. apply (text_le_tail (B "=")). exact S2.
    + apply glued_iff. unfold sorted_query. rewrite El, map_map. reflexivity.
  - destruct Bk as (lines & Fl & Gl). exists seen, lines. split; [exact Fs|]. split; [|exact Gl].
    assert (J : forall n, In n (name_list d o) -> values (o_headers o) n <> []) by (intros n; apply (proj2 (names_spec _ D o))).
    clear - Fl J Rv. induction Fl as [|n line ns ls (v & G & ->) F IH]; constructor.
    + exists v. rewrite Rv by (apply J; left; reflexivity). split; [apply J; left; reflexivity|]. split; [exact G|reflexivity].
    + apply IH. intros m Hm. apply J. right. exact Hm.
  - apply glued_iff. apply names_text.
  - apply glued_iff. reflexivity.
Qed.


(** * C91 *)

Theorem C91_accepted d o tr url path query sig headers own segs out : deps_ok d ->
  returns (build_signed_url d o) tr (Ok url) -> url_parts url path query sig ->
  own_parameters (requested o) own -> Forall valid_pair (own ++ o_query_parameters o) -> plain_rest o -> sends o headers -> named_segments (requested o) segs -> path_segments segs out ->
  exists t t1 t2 t3 email message s, url_time o t t1 /\ tr = t1 ++ t2 ++ t3 /\ authorized (o_signing_key o) t2 email /\
    signed d (o_signing_key o) (o_use_sign_blob o) message t3 s /\
    forall sv now read, server_ok sv -> account_text email -> sv_verifies sv email message s -> Forall (agrees (sv_path sv) (d_path_caret d)) out ->
      parameters_agree (sv_query sv) (own ++ o_query_parameters o) read ->
      (t / 1000000000 <= now < t / 1000000000 + (o_expires o - t) / 1000000000)%Z ->
      accepts sv now (issued o path query sig headers) email message s.
Proof.
  intros D H P Own Vp PR SE Ns Ps. destruct (accepted_wide _ _ _ _ _ _ _ _ _ D H P Own Vp PR SE) as (t & t1 & t2 & t3 & email & message & s & T & E & A & Sg & G).
  exists t, t1, t2, t3, email, message, s. split; [exact T|]. split; [exact E|]. split; [exact A|]. split; [exact Sg|]. intros sv now read OK Em Vf Ag PA W. eapply G; try eassumption.
  destruct (url_facts_valid _ _ _ _ _ _ _ D H P) as (_ & _ & _ & _ & _ & _ & _ & _ & _ & _ & _ & _ & _ & _ & _ & -> & _).
  apply (path_criterion d o segs out Ns Ps sv OK). exact Ag.
Qed.

Lemma cut_unique (c : byte) a b x y : ~ In c a -> ~ In c b -> a ++ c :: x = b ++ c :: y -> a = b /\ x = y.
Proof.
  revert b. induction a as [|z a IH]; intros [|w b] Na Nb E; cbn [app] in E.
  - injection E as E. auto.
  - injection E as E1 E2. exfalso. apply Nb. left. symmetry. exact E1.
  - injection E as E1 E2. exfalso. apply Na. left. exact E1.
  - injection E as E1 E2. subst w. destruct (IH b) as [-> ->]; [intros I; apply Na; right; exact I|intros I; apply Nb; right; exact I|exact E2|auto].
Qed.

(** What a server must have read if it writes the query that the library signed. *)
Lemma query_criterion sv l0 pairs sig : server_ok sv -> l0 <> [] -> server_query sv pairs sig (sorted_query l0) ->
  Permutation pairs (map decode2 l0 ++ [(B "X-Goog-Signature", sig)]) /\
  Forall (fun kv => read_alike (sv_query sv) (fst kv) (fst (decode2 kv)) /\ read_alike (sv_query sv) (snd kv) (snd (decode2 kv))) l0 /\
  forall a b, In a (map (fun kv => fst (decode2 kv)) l0) -> In b (map (fun kv => fst (decode2 kv)) l0) -> ~ overtakes (sv_query sv) a b.
Proof.
  intros OK Ne (rest & texts & Pm & Fr & So & G). destruct (sorted_pieces l0) as (l' & Pl & El).
  assert (Kp : sv_query sv "%" = false) by (apply (proj1 (proj2 OK)); left; reflexivity). assert (Kr : forall c, In c reserved_characters -> sv_query sv c = false) by (intros c Hc; apply (proj1 (proj2 OK)); right; exact Hc).
  set (penc := fun kv : str * str => (percent_encode (fst kv), percent_encode (snd kv))).
  assert (Et : texts = map penc l').
  { apply glued_iff in G. unfold sorted_query in G. rewrite El in G.
    assert (Cl : Forall (fun kv' => ~ In "=" (fst kv') /\ ~ In "&" (fst kv') /\ ~ In "&" (snd kv')) texts).
    { clear - Fr Kr. induction Fr as [|kv kv' l l2 [A1 A2] F IH]; constructor; [|exact IH].
      split; [|split]; (eapply encoded_avoids; [apply Kr|apply in_or_app; left|eassumption]); cbn; tauto. }
    assert (Ne1 : l' <> []) by (intros ->; apply Permutation_sym, Permutation_nil in Pl; contradiction).
    assert (Ne2 : texts <> []).
    { intros ->. cbn in G. destruct l' as [|x l']; [contradiction|]. cbn [map] in G. unfold enc_pair in G at 1.
      assert (J : forall (s : str) (r : list str), In "=" s -> join (B "&") (s :: r) <> []) by (intros s [|y r] I E; cbn [join] in E; [subst; destruct I|apply app_eq_nil in E; destruct E as [-> _]; destruct I]).
      refine (J _ _ _ G). rewrite !in_app_iff. right. left. left. reflexivity. }
    symmetry in G. apply (f_equal (split_on "&")) in G. change (B "&") with ["&"] in G. rewrite !split_on_join in G.
    - clear - G Cl. revert l' G. induction Cl as [|[k v] texts (N1 & _) F IH]; intros [|x l'] E; try discriminate E; [reflexivity|]. cbn [map] in *. injection E as E1 E2. f_equal; [|apply IH; exact E2].
      unfold enc_pair in E1. cbn [fst snd] in *. change (B "=" ++ v) with ("=" :: v) in E1. change (B "=" ++ percent_encode (snd x)) with ("=" :: percent_encode (snd x)) in E1.
      assert (N2 : ~ In "=" (percent_encode (fst x))) by (apply percent_encode_avoids; reflexivity).
      apply (cut_unique "=") in E1; [|assumption|assumption]. destruct E1 as [-> ->]. reflexivity.
    - intros E. apply map_eq_nil in E. contradiction.
    - apply Forall_forall. intros x Hx. apply in_map_iff in Hx. destruct Hx as (y & <- & _). unfold enc_pair. rewrite !in_app_iff. intros [I|[I|I]]; [revert I; apply percent_encode_avoids; reflexivity|destruct I as [I|[]]; discriminate I|revert I; apply percent_encode_avoids; reflexivity].
    - intros E. apply map_eq_nil in E. contradiction.
    - apply Forall_forall. intros x Hx. apply in_map_iff in Hx. destruct Hx as (y & <- & Hy). rewrite Forall_forall in Cl. destruct (Cl _ Hy) as (_ & C1 & C2). rewrite !in_app_iff. intros [I|[I|I]]; [contradiction|destruct I as [I|[]]; discriminate I|contradiction]. }
  subst texts.
  assert (Rd : rest = map decode2 l' /\ Forall (fun kv => read_alike (sv_query sv) (fst kv) (fst (decode2 kv)) /\ read_alike (sv_query sv) (snd kv) (snd (decode2 kv))) l').
  { clear - Fr Kp Kr. revert rest Fr. induction l' as [|x l' IH]; intros rest Fr; cbn [map] in Fr; inversion Fr as [|kv ? l ? [A1 A2] F]; subst; [split; [reflexivity|constructor]|].
    destruct (IH _ F) as [-> I2]. cbn [penc fst snd] in A1, A2. apply encoded_read in A1, A2; try assumption. pose proof A1 as B1. pose proof A2 as B2. apply read_to in B1, B2; try assumption.
    assert (kv = decode2 x) as -> by (destruct kv; unfold decode2; cbn [fst snd] in *; f_equal; [apply B1|apply B2]). split; [reflexivity|]. constructor; [split; assumption|exact I2]. }
  destruct Rd as [-> Rd]. split; [|split].
  - eapply Permutation_trans; [exact Pm|]. apply Permutation_app_tail. apply Permutation_map. apply Permutation_sym. exact Pl.
  - rewrite Forall_forall in *. intros kv I. apply Rd. apply (Permutation_in _ Pl). exact I.
  - intros a b Ha Hb O. apply in_map_iff in Ha, Hb. destruct Ha as (x & <- & Hx), Hb as (y & <- & Hy). apply (Permutation_in _ Pl) in Hx, Hy. rewrite Forall_forall in Rd. pose proof (proj1 (Rd _ Hx)) as Rx. pose proof (proj1 (Rd _ Hy)) as Ry.
    apply read_to in Rx, Ry; try assumption. apply overtakes_iff in O; try assumption. destruct O as (c & r & E & Lt). rewrite <- (proj2 Rx), <- (proj2 Ry) in E.
    assert (Sl : StronglySorted str_le (map enc_pair l')) by (rewrite <- El; apply sort_sorted).
    pose proof (sorted_both enc_pair penc _ _ l' Sl So) as Sb. destruct (sorted_either _ _ _ _ Sb Hx Hy) as [<-|[[L _]|[_ L]]].
    + apply (f_equal (@length byte)) in E. rewrite app_length in E. cbn [length] in E. lia.
    + apply text_le_iff in L. unfold enc_pair in L. rewrite E, <- app_assoc in L. apply text_le_tail in L. change (B "=" ++ percent_encode (snd x)) with ("=" :: percent_encode (snd x)) in L. cbn [app] in L. change (bN "=") with 61%N in *.
      destruct L as [L|L]; [inversion L as [| ? ? ? ? Lt'|]; subst; [change (bN "=") with 61%N in Lt'; lia|vm_compute in Lt; discriminate Lt]|injection L as <- _; vm_compute in Lt; discriminate Lt].
    + unfold pair_le in L. cbn [penc fst snd] in L. rewrite E in L. destruct L as [L|[L _]]; [apply or_introl with (B := percent_encode (fst x) ++ c :: r = percent_encode (fst x)) in L; apply text_le_back in L; discriminate L|].
      rewrite <- (app_nil_r (percent_encode (fst x))) in L at 2. apply app_inv_head in L. discriminate L.
Qed.

Theorem C91_refused d o tr url path query sig own : deps_ok d ->
  returns (build_signed_url d o) tr (Ok url) -> url_parts url path query sig ->
  own_parameters (requested o) own -> Forall valid_pair (own ++ o_query_parameters o) -> utf8_valid (region_of o) = true ->
  exists t t1 t2 t3 email canonical message s, url_time o t t1 /\ tr = t1 ++ t2 ++ t3 /\ authorized (o_signing_key o) t2 email /\
    signed d (o_signing_key o) (o_use_sign_blob o) message t3 s /\
    canonical_text (o_http_method o) path query (o_headers o) canonical /\ message_text (t / 1000000000)%Z (region_of o) canonical message /\
    (utf8_valid email = true -> forall sv now r account s', server_ok sv -> accepts sv now r account message s' ->
      collision canonical \/ exists read, parameters_agree (sv_query sv) (own ++ o_query_parameters o) read).
Proof.
  intros D H P Own Vp Vr. destruct (url_ok_inv _ _ _ _ H) as (t & pre & t1 & t2 & email & verb & block & s & T & -> & S).
  destruct (success_parts _ _ _ _ _ _ _ _ _ _ _ _ _ S P) as (-> & -> & ->). destruct S as [V Ev A _ Eb Hs _].
  exists t, pre, t1, t2, email. do 2 eexists. exists s. split; [exact T|]. split; [reflexivity|]. split; [apply (authorizer_ok d); exact A|]. split; [apply sign_ok; exact Hs|].
  assert (Ct := canonical_spec d o verb (sorted_query (pairs_of d o (t / NS) (lifetime o t) (lowered o) email)) block D Eb). rewrite Ev in Ct.
  split; [exact Ct|]. split; [apply message_spec; [apply V|eapply sign_ok_rsa; exact Hs]|].
  match goal with |- context [collision ?c] => set (canonical := c) in * end.
  intros Ve sv now r account s' OK (pairs & secs & region & date & scope & expires & life & names & names_text & sig' & canonical' & Hv & Hh & Fq & Ga & Gc & Sp & Gd & _ & Ge & Dl & _ & W & Gh & _ & _ & Hn & Tn & Gs & Hx & Sc & M & _).
  assert (M0 : message_text (t / NS)%Z (region_of o) canonical (message_of o (t / NS)%Z canonical)) by (apply message_spec; [apply V|eapply sign_ok_rsa; exact Hs]).
  destruct (message_binds _ _ _ _ _ _ _ M0 M) as (_ & _ & _ & sum & S1 & S2).
  destruct (str_eqb_spec canonical' canonical) as [E|N]; [right|left; exists canonical', sum; auto].
  destruct (accepted_same sv r pairs sig' names canonical' o (path_of d o) (sorted_query (pairs_of d o (t / NS) (lifetime o t) (lowered o) email)) canonical OK (accepted_clean _ _ _ _ D H))
    as (_ & _ & _ & Sq & _); try assumption; [apply V| |congruence|].
  { pose proof (path_ok_bytes _ _ (path_of_ok d o)) as F. revert F. apply forallb_not_in. destruct (d_path_caret d); reflexivity. }
  assert (L : (0 <= lifetime o t)%Z) by (destruct V as (_ & [Ho _] & _); unfold lifetime; apply Z.div_pos; lia).
  rewrite (pairs_of_valid d o t email own Own Vp Vr Ve) in Sq; [|apply V|exact L|apply names_valid; [exact D|apply V]|eapply sign_ok_rsa; exact Hs].
  rewrite app_assoc in Sq. set (params := own ++ o_query_parameters o) in *.
  match type of Sq with server_query _ _ _ (sorted_query (_ ++ ?five)) => set (added := five) in * end.
  assert (Na : map (fun kv => fst (decode2 kv)) added = signed_names) by reflexivity.
  apply query_criterion in Sq; [|exact OK|intros Z; apply app_eq_nil in Z; destruct Z as [_ Z]; discriminate Z]. destruct Sq as (Pm & Fa & Or).
  exists (map decode2 params). constructor.
  - apply Forall_app in Fa. destruct Fa as [Fa _]. clear - Fa. induction Fa; constructor; assumption.
  - intros n I J. assert (G : exists v, given pairs n v).
    { cbn in J. destruct J as [<-|[<-|[<-|[<-|[<-|[<-|[]]]]]]]; eexists; eassumption. }
    destruct G as [v G]. unfold given in G. apply (filter_perm (fun kv => str_eqb (fst kv) n)) in Pm. rewrite G in Pm. apply Permutation_length in Pm. rewrite map_app, !filter_app, !app_length in Pm. cbn [length] in Pm.
    assert (C1 : (1 <= length (filter (fun kv : str * str => str_eqb (fst kv) n) (map decode2 params)))%nat).
    { apply in_map_iff in I. destruct I as (kv & E1 & I). assert (Q : In kv (filter (fun kv => str_eqb (fst kv) n) (map decode2 params))) by (apply filter_In; split; [exact I|rewrite E1; apply str_eqb_refl]).
      destruct (filter (fun kv => str_eqb (fst kv) n) (map decode2 params)); [destruct Q|cbn [length]; lia]. }
    assert (C2 : (1 <= length (filter (fun kv : str * str => str_eqb (fst kv) n) (map decode2 added)) + length (filter (fun kv : str * str => str_eqb (fst kv) n) [(B "X-Goog-Signature", sig')]))%nat).
    { assert (Q : forall l, In n (map fst l) -> (1 <= length (filter (fun kv : str * str => str_eqb (fst kv) n) l))%nat).
      { intros l Q. apply in_map_iff in Q. destruct Q as (kv & E1 & Q). assert (Q2 : In kv (filter (fun kv => str_eqb (fst kv) n) l)) by (apply filter_In; split; [exact Q|rewrite E1; apply str_eqb_refl]).
        destruct (filter (fun kv => str_eqb (fst kv) n) l); [destruct Q2|cbn [length]; lia]. }
      assert (J' : In n signed_names \/ n = B "X-Goog-Signature") by (cbn in J |- *; intuition congruence). destruct J' as [J'|J'].
      - rewrite <- Na in J'. rewrite <- (map_map decode2 fst) in J'. apply Q in J'. lia.
      - assert (Z : In n (map fst [(B "X-Goog-Signature", sig')])) by (left; symmetry; exact J'). apply Q in Z. lia. }
    lia.
  - rewrite map_app, Na in Or. rewrite map_map. exact Or.
Qed.

(** Reserved characters and those that the server copies are no obstacle; others, and percent signs that start no escape, are. *)
Theorem C91_plain kept s : Forall (fun c => c <> "%" /\ (In c reserved_characters \/ kept c = true)) s -> read_alike kept s s.
Proof. induction 1 as [|c s [N C] F IH]; [constructor|]. apply ra_same; assumption. Qed.

Theorem C91_stray sv c s t : server_ok sv -> sv_query sv c = false -> ~ In c ("%" :: reserved_characters) -> In c s -> ~ read_alike (sv_query sv) s t.
Proof.
  intros OK K N I H. assert (X : forall x n, nth_error upper_hex n = Some x -> x <> c).
  { assert (Hu : Forall (fun x => mem x unreserved_characters = true) upper_hex) by (repeat constructor). rewrite Forall_forall in Hu.
    intros x n E ->. apply nth_error_In in E. apply Hu in E. apply mem_iff in E. apply (proj1 OK) in E. destruct E as [E _]. congruence. }
  induction H as [|b h l s t Kb H1 H2 A IH|c' s t N' C A IH]; [destruct I| |].
  - destruct I as [<-|[I|[I|I]]]; [apply N; left; reflexivity|exact (X _ _ H1 I)|exact (X _ _ H2 I)|exact (IH I)].
  - destruct I as [<-|I]; [|exact (IH I)]. destruct C as [C|C]; [apply N; right; exact C|congruence].
Qed.

(** So a parameter with a slash, as in text/plain, makes a URL that no server accepts. *)
Theorem C91_slash d o tr url path query sig own kv : deps_ok d ->
  returns (build_signed_url d o) tr (Ok url) -> url_parts url path query sig ->
  own_parameters (requested o) own -> Forall valid_pair (own ++ o_query_parameters o) -> utf8_valid (region_of o) = true ->
  In kv (own ++ o_query_parameters o) -> In "/" (fst kv) \/ In "/" (snd kv) ->
  exists t t1 t2 t3 email canonical message s, url_time o t t1 /\ tr = t1 ++ t2 ++ t3 /\ authorized (o_signing_key o) t2 email /\
    signed d (o_signing_key o) (o_use_sign_blob o) message t3 s /\
    canonical_text (o_http_method o) path query (o_headers o) canonical /\ message_text (t / 1000000000)%Z (region_of o) canonical message /\
    (utf8_valid email = true -> forall sv now r account s', server_ok sv -> accepts sv now r account message s' -> collision canonical).
Proof.
  intros D H P Own Vp Vr I Sl. destruct (C91_refused _ _ _ _ _ _ _ _ D H P Own Vp Vr) as (t & t1 & t2 & t3 & email & canonical & message & s & T & E & A & Sg & C & M & G).
  exists t, t1, t2, t3, email, canonical, message, s. do 6 (split; [assumption|]). intros Ve sv now r account s' OK Acc. destruct (G Ve sv now r account s' OK Acc) as [Co|[read PA]]; [exact Co|exfalso].
  assert (K : sv_query sv "/" = false) by apply OK. assert (N : ~ In "/" ("%" :: reserved_characters)) by (intros X; apply mem_iff in X; vm_compute in X; discriminate X).
  pose proof (pg_read _ _ _ PA) as F. revert F I. generalize (own ++ o_query_parameters o). clear PA. intros l F I. induction F as [|x y l l' [F1 F2] F IH]; [destruct I|]. destruct I as [I|I]; [subst x|apply IH; exact I].
  destruct Sl as [Sl|Sl]; [exact (C91_stray sv "/" _ _ OK K N Sl F1)|exact (C91_stray sv "/" _ _ OK K N Sl F2)].
Qed.

(** Header values with blanks at either end are refused if they are sent as they were given. *)
Lemma glued_length (sep : str) (l l' : list str) v : Forall2 (fun x y : str => exists a b : str, x = a ++ y ++ b) l l' -> glued sep l v -> glued sep l' v -> l = l'.
Proof.
  intros F G G'. apply glued_iff in G, G'. subst v.
  assert (Le : forall l l' : list str, Forall2 (fun x y : str => exists a b : str, x = a ++ y ++ b) l l' -> (length (join sep l') <= length (join sep l))%nat /\ (length (join sep l) = length (join sep l') -> l = l')).
  { clear. induction 1 as [|x y l l' (a & b & ->) F [IH1 IH2]]; [split; [apply Nat.le_refl|reflexivity]|].
    assert (Hd : length (a ++ y ++ b) = length y -> a ++ y ++ b = y) by (rewrite !app_length; intros E; destruct a; [|cbn in E; lia]; destruct b; [apply app_nil_r|cbn in E; lia]).
    destruct F as [|x2 y2 l l' F2 F].
    - cbn [join]. split; [rewrite !app_length; lia|]. intros E. f_equal. apply Hd. exact E.
    - rewrite !join_cons2, !app_length. rewrite !app_length in Hd. unfold str in *. split; [lia|]. intros E. f_equal; [apply Hd; lia|apply IH2; lia]. }
  destruct (Le _ _ F) as [_ E]. apply E. f_equal. congruence.
Qed.

Theorem C91_blanks d o tr url path query sig : deps_ok d ->
  returns (build_signed_url d o) tr (Ok url) -> url_parts url path query sig ->
  exists t t1 t2 t3 email canonical message s, url_time o t t1 /\ tr = t1 ++ t2 ++ t3 /\ authorized (o_signing_key o) t2 email /\
    signed d (o_signing_key o) (o_use_sign_blob o) message t3 s /\
    canonical_text (o_http_method o) path query (o_headers o) canonical /\ message_text (t / 1000000000)%Z (region_of o) canonical message /\
    forall sv now r account s', server_ok sv -> sends o (rq_headers r) -> accepts sv now r account message s' -> collision canonical \/ Forall (fun h => trimmed (snd h)) (o_headers o).
Proof.
  intros D H P. destruct (url_ok_inv _ _ _ _ H) as (t & pre & t1 & t2 & email & verb & block & s & T & -> & S).
  destruct (success_parts _ _ _ _ _ _ _ _ _ _ _ _ _ S P) as (-> & -> & ->). destruct S as [V Ev A _ Eb Hs _].
  exists t, pre, t1, t2, email. do 2 eexists. exists s. split; [exact T|]. split; [reflexivity|]. split; [apply (authorizer_ok d); exact A|]. split; [apply sign_ok; exact Hs|].
  assert (Ct := canonical_spec d o verb (sorted_query (pairs_of d o (t / NS) (lifetime o t) (lowered o) email)) block D Eb). rewrite Ev in Ct.
  split; [exact Ct|]. split; [apply message_spec; [apply V|eapply sign_ok_rsa; exact Hs]|].
  match goal with |- context [collision ?c] => set (canonical := c) in * end.
  intros sv now r account s' OK [_ SE] (pairs & secs & region & date & scope & expires & life & names & names_text & sig' & canonical' & Hv & Hh & Fq & Ga & Gc & Sp & Gd & _ & Ge & Dl & _ & W & Gh & _ & _ & Hn & Tn & Gs & Hx & Sc & M & _).
  assert (M0 : message_text (t / NS)%Z (region_of o) canonical (message_of o (t / NS)%Z canonical)) by (apply message_spec; [apply V|eapply sign_ok_rsa; exact Hs]).
  destruct (message_binds _ _ _ _ _ _ _ M0 M) as (_ & _ & _ & sum & S1 & S2).
  destruct (str_eqb_spec canonical' canonical) as [E|N]; [right|left; exists canonical', sum; auto].
  destruct (accepted_same sv r pairs sig' names canonical' o (path_of d o) (sorted_query (pairs_of d o (t / NS) (lifetime o t) (lowered o) email)) canonical OK (accepted_clean _ _ _ _ D H))
    as (_ & _ & _ & _ & HN & seen & Fs & Sm); try assumption; [apply V| |congruence|].
  { pose proof (path_ok_bytes _ _ (path_of_ok d o)) as F. revert F. apply forallb_not_in. destruct (d_path_caret d); reflexivity. }
  apply Forall_forall. intros h Ih. set (n := ascii_lower (fst h)).
  assert (In n names) as Inn by (apply (C20_names _ _ HN); right; exists h; auto).
  assert (Iv : In (snd h) (values (o_headers o) n)).
  { unfold values. apply in_or_app. right. apply in_map. apply filter_In. split; [exact Ih|]. apply str_eqb_refl. }
  destruct (Sm n Inn) as (v & G1 & G2). rewrite <- (SE n) in G2, Iv by (intros Z; rewrite Z in Iv; destruct Iv).
  assert (Fr : Forall2 (fun x y : str => exists a b : str, x = a ++ y ++ b) (map snd (filter (fun h => str_eqb (ascii_lower (fst h)) n) (rq_headers r))) (received_values seen n) /\ Forall trimmed (received_values seen n)).
  { clear - Fs. unfold received_values. induction Fs as [|x y l l' (E1 & E2 & a & b & E3 & _) F [IH1 IH2]]; [split; constructor|]. cbn [filter]. rewrite E1. destruct (str_eqb (ascii_lower (fst x)) n); [|split; assumption].
    cbn [map]. split; constructor; try assumption. exists a, b. exact E3. }
  destruct Fr as [Fr Ft]. pose proof (glued_length _ _ _ _ Fr G2 G1) as Eq. rewrite Eq in Iv. rewrite Forall_forall in Ft. exact (Ft _ Iv).
Qed.

(** ** Cases *)

Definition demo_params (params : list (str * str)) : url_options := demo_url_with (B "bucket1") (B "a") None [] params demo_account false.
Lemma demo_params_sent params : sends (demo_params params) demo_request.
Proof. exact (demo_request_ok (B "a")). Qed.
Definition demo_content : list (str * str) := [(B "response-content-type", B "text%2Fplain"); (B "response-content-disposition", B "attachment;filename*=utf-8''a.txt")].

Definition overtakes_b (kept : byte -> bool) (a b : str) : bool :=
  str_eqb (firstn (length a) b) a && match skipn (length a) b with c :: _ => negb (kept c) || N.ltb (bN c) 61 | [] => false end.
Lemma overtakes_b_ok kept a b : overtakes_b kept a b = false -> ~ overtakes kept a b.
Proof.
  unfold overtakes_b. intros H (c & r & -> & C). rewrite firstn_app, skipn_app, Nat.sub_diag, firstn_all, skipn_all, app_nil_r, str_eqb_refl in H. cbn in H.
  apply orb_false_iff in H. destruct H as [H1 H2]. apply negb_false_iff in H1. apply N.ltb_ge in H2. destruct C; [congruence|lia].
Qed.

(** The slash of the content type, written as %2F by the caller, is read as a slash; all else is as given. *)
Example C91_case : let o := demo_params demo_content in let read := [(B "response-content-type", B "text/plain"); (B "response-content-disposition", B "attachment;filename*=utf-8''a.txt")] in
  deps_ok demo_deps /\ (exists url path query sig, returns (build_signed_url demo_deps o) [] (Ok url) /\ url_parts url path query sig) /\
  own_parameters (requested o) [] /\ Forall valid_pair ([] ++ o_query_parameters o) /\ plain_rest o /\ sends o demo_request /\
  named_segments (requested o) [B "bucket1"; B "a"] /\ path_segments [B "bucket1"; B "a"] [B "bucket1"; B "a"] /\
  server_ok strict_server /\ Forall (agrees (sv_path strict_server) (d_path_caret demo_deps)) [B "bucket1"; B "a"] /\ parameters_agree (sv_query strict_server) ([] ++ o_query_parameters o) read.
Proof.
  intros o read. split; [exact demo_deps_ok|]. split.
  { destruct (demo_success o eq_refl eq_refl eq_refl) as [sg R]; [vm_compute; reflexivity|]. do 4 eexists. split; [exact R|apply url_parts_of]. }
  split; [apply op_none; apply not_in_b_ok; vm_compute; reflexivity|]. split; [repeat constructor|]. split; [constructor; [apply literal_text; reflexivity|constructor]|]. split; [apply demo_params_sent|].
  split; [apply named_by; vm_compute; reflexivity|]. split; [apply (pa_last [B "bucket1"] (B "a") [B "bucket1"]); [enter; constructor|dots|dots]|].
  split; [exact strict_ok|]. split; [apply Forall_forall; intros x I; apply C90_undisputed; apply Forall_forall; intros c J; cbn in I; destruct I as [<-|[<-|[]]]; cbn in J |- *; intuition congruence|].
  assert (Pl : forall s, forallb (fun c => negb (beq c "%") && (mem c reserved_characters || mem c unreserved_characters))%bool s = true -> read_alike (sv_query strict_server) s s).
  { intros s H. apply C91_plain. apply Forall_forall. intros c Hc. rewrite forallb_forall in H. apply H in Hc. apply andb_true_iff in Hc. destruct Hc as [H1 H2]. split; [intros ->; discriminate H1|].
    apply orb_true_iff in H2. destruct H2 as [H2|H2]; [left; apply mem_iff; exact H2|right; exact H2]. }
  constructor.
  - constructor; [split; cbn [fst snd]|constructor; [split; cbn [fst snd]|constructor]]; try (apply Pl; vm_compute; reflexivity).
    do 4 (apply ra_same; [discriminate|right; reflexivity|]). apply ra_escape; [reflexivity|reflexivity|reflexivity|]. apply Pl. vm_compute. reflexivity.
  - intros n I J. assert (G : existsb (fun n => existsb (str_eqb n) goog_names) (map fst read) = false) by (vm_compute; reflexivity).
    assert (G' : existsb (fun n => existsb (str_eqb n) goog_names) (map fst read) = true) by (apply existsb_exists; exists n; split; [exact I|apply existsb_exists; exists n; split; [exact J|apply str_eqb_refl]]). congruence.
  - assert (G : forallb (fun a => forallb (fun b => negb (overtakes_b (sv_query strict_server) a b)) (map fst read ++ signed_names)) (map fst read ++ signed_names) = true) by (vm_compute; reflexivity).
    intros a b Ha Hb. apply overtakes_b_ok. rewrite forallb_forall in G. specialize (G a Ha). rewrite forallb_forall in G. specialize (G b Hb). apply negb_true_iff in G. exact G.
Qed.

Example C91_slash_case : let o := demo_params [(B "response-content-type", B "text/plain")] in
  (exists url path query sig, returns (build_signed_url demo_deps o) [] (Ok url) /\ url_parts url path query sig) /\
  own_parameters (requested o) [] /\ Forall valid_pair ([] ++ o_query_parameters o) /\ utf8_valid (region_of o) = true /\
  In (B "response-content-type", B "text/plain") ([] ++ o_query_parameters o) /\ In "/" (B "text/plain").
Proof.
  intros o. split. { destruct (demo_success o eq_refl eq_refl eq_refl) as [sg R]; [vm_compute; reflexivity|]. do 4 eexists. split; [exact R|apply url_parts_of]. }
  split; [apply op_none; apply not_in_b_ok; vm_compute; reflexivity|]. split; [repeat constructor|]. split; [reflexivity|]. split; [left; reflexivity|apply mem_iff; vm_compute; reflexivity].
Qed.

(** The same with two parameters in the wrong order, and with a second expiration time. *)
Example C91_order_case : forall kept, kept "." = true -> overtakes kept (B "a") (B "a.b").
Proof. intros kept _. exists ".", (B "b"). split; [reflexivity|right; reflexivity]. Qed.
Example C91_refused_case : forall read, ~ parameters_agree (sv_query strict_server) [(B "a", B "1"); (B "a.b", B "2")] read /\ ~ parameters_agree (sv_query strict_server) [(B "X-Goog-Expires", B "604800")] read.
Proof.
  assert (Id : forall s t, ~ In "%" s -> read_alike (sv_query strict_server) s t -> t = s).
  { intros s t N H. induction H as [|b h l s t K H1 H2 A IH|c s t N' C A IH]; [reflexivity|destruct N; left; reflexivity|]. f_equal. apply IH. intros I. apply N. right. exact I. }
  intros read. split; intros PA; pose proof (pg_read _ _ _ PA) as F.
  - inversion F as [|? [k1 v1] ? ? [A1 _] F']; subst. inversion F' as [|? [k2 v2] ? ? [A2 _] _]; subst. cbn [fst] in A1, A2. apply Id in A1, A2; try (intros I; apply mem_iff in I; vm_compute in I; discriminate I). subst k1 k2.
    apply (pg_order _ _ _ PA (B "a") (B "a.b")); [left; reflexivity|right; left; reflexivity|]. exists ".", (B "b"). split; [reflexivity|right; reflexivity].
  - inversion F as [|? [k1 v1] ? ? [A1 _] _]; subst. cbn [fst] in A1. apply Id in A1; [|intros I; apply mem_iff in I; vm_compute in I; discriminate I]. subst k1. apply (pg_names _ _ _ PA (B "X-Goog-Expires")); cbn; tauto.
Qed.
Example C91_blanks_case : let o := demo_url_with (B "bucket1") (B "a") None [(B "x-goog-meta-a", B " 1")] [] demo_account false in
  (exists url path query sig, returns (build_signed_url demo_deps o) [] (Ok url) /\ url_parts url path query sig) /\ ~ Forall (fun h => trimmed (snd h)) (o_headers o).
Proof.
  intros o. split. { destruct (demo_success o eq_refl eq_refl eq_refl) as [sg R]; [vm_compute; reflexivity|]. do 4 eexists. split; [exact R|apply url_parts_of]. }
  intros F. apply Forall_inv in F. cbn [snd] in F. destruct F as [F _]. apply (F " " (B "1") eq_refl). left. reflexivity.
Qed.
