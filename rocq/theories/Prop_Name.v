(** C90: which bucket and object names give URLs that servers accept. *)
From Verif Require Import Base BaseFacts Utf8 FormUrl FormUrlFacts SpecCodec CodecFacts Time TimeFacts SpecCalendar SpecPolicy
  Effects EffectsFacts Keys Url SignedUrl UrlFacts SpecUrl UrlSpecFacts SpecToken SpecTrace SpecSign SignFacts SignedUrlFacts HeaderFacts
  Demo UrlResult UrlQueryFacts Prop_Url Prop_UrlPath Prop_UrlScope Prop_UrlHeaders SpecServer Prop_Server SpecPath Prop_Path SpecName.
Local Open Scope byte_scope.

Lemma hex_upper n : (n < 16)%N -> nth_error upper_hex (N.to_nat n) = Some (HEXD n).
Proof. intros H. assert (In n (map N.of_nat (seq 0 16))) as I by (apply in_map_iff; exists (N.to_nat n); split; [lia|apply in_seq; lia]). cbn in I. repeat (destruct I as [<-|I]; [reflexivity|]). destruct I. Qed.
Lemma unhexd_HEXD n : (n < 16)%N -> unhexd (HEXD n) = Some n.
Proof. intros H. assert (In n (map N.of_nat (seq 0 16))) as I by (apply in_map_iff; exists (N.to_nat n); split; [lia|apply in_seq; lia]). cbn in I. repeat (destruct I as [<-|I]; [reflexivity|]). destruct I. Qed.

Section Server.
Context (sv : server) (OK : server_ok sv) (caret : bool).
Notation ours s := (percent_encode (pct_encode (set_path caret) s)).
Notation theirs s := (pct_encode (escapes (sv_path sv)) s).

Lemma ours_cons c s : ours (c :: s) = ours [c] ++ ours s.
Proof. rewrite (pct_encode_cons _ c s), (pct_encode_cons _ c []). unfold percent_encode. rewrite !pct_encode_app, <- app_assoc. reflexivity. Qed.

Lemma ours_hex c : unhexd c <> None -> ours [c] = [c].
Proof.
  intros H. pose proof (byte_sweep (fun c => implb (match unhexd c with Some _ => true | None => false end) (str_eqb (percent_encode (pct_encode (set_path true) [c])) [c] && str_eqb (percent_encode (pct_encode (set_path false) [c])) [c])) eq_refl c) as G.
  cbv beta in G. destruct (unhexd c); [|congruence]. cbn [implb] in G. apply andb_true_iff in G. destruct G as [G1 G2]. apply str_eqb_eq in G1, G2. destruct caret; assumption.
Qed.

Lemma ours_first c : exists r, ours [c] = c :: r \/ ours [c] = "%" :: r.
Proof.
  pose proof (byte_sweep (fun c => match percent_encode (pct_encode (set_path true) [c]), percent_encode (pct_encode (set_path false) [c]) with x :: _, y :: _ => (beq x c || beq x "%") && (beq y c || beq y "%") | _, _ => false end) eq_refl c) as G.
  cbv beta in G. destruct (percent_encode (pct_encode (set_path true) [c])) as [|x l] eqn:E1; [discriminate G|]. destruct (percent_encode (pct_encode (set_path false) [c])) as [|y m] eqn:E2; [discriminate G|].
  apply andb_true_iff in G. destruct G as [G1 G2]. apply orb_true_iff in G1, G2. destruct caret; [exists l; rewrite E1|exists m; rewrite E2]; [destruct G1 as [G|G]|destruct G2 as [G|G]]; apply beq_eq in G; subst; auto.
Qed.

(** A single character, other than the percent sign. *)
Lemma alike_other c : ~ In c (B "?#%\") -> (ours [c] = theirs [c] <-> ((c = "|" -> sv_path sv c = true) /\ (c = "^" -> sv_path sv c = negb caret))).
Proof.
  intros N. destruct (beq_spec c "|") as [->|N1].
  - assert (ours ["|"] = ["|"]) as -> by (destruct caret; reflexivity). unfold escapes. cbn [pct_encode flat_map]. destruct (sv_path sv "|"); cbn [negb app].
    + split; [intros _; split; [reflexivity|discriminate]|reflexivity].
    + split; [discriminate|]. intros [H _]. specialize (H eq_refl). discriminate H.
  - destruct (beq_spec c "^") as [->|N2].
    + unfold escapes. cbn [pct_encode flat_map]. destruct caret, (sv_path sv "^"); cbn; (split; [|tauto || (intros [_ H]; specialize (H eq_refl); discriminate H)]); intros H; try discriminate H; split; discriminate || reflexivity.
    + split; [intros _; split; intros; contradiction|]. intros _. apply (path_encode sv OK). constructor; [|constructor]. cbn in *. intuition congruence.
Qed.

Lemma not_kept_percent : sv_path sv "%" = false.
Proof. apply (sv_reserved sv OK). left. reflexivity. Qed.

(** If a character alone is written differently, so is every text that starts with it. *)
Lemma differs_at_once c s t : c <> "%" -> ours [c] ++ s = theirs [c] ++ t -> ours [c] = theirs [c] /\ s = t.
Proof.
  intros N E. unfold escapes in *. cbn [pct_encode flat_map] in *. rewrite app_nil_r in *.
  assert (F : percent_encode ((if set_path caret c then pct c else [c]) ++ []) = [c] \/ percent_encode ((if set_path caret c then pct c else [c]) ++ []) = pct c).
  { pose proof (byte_sweep (fun c => let f k := percent_encode ((if set_path k c then pct c else [c]) ++ []) in (str_eqb (f true) [c] || str_eqb (f true) (pct c)) && (str_eqb (f false) [c] || str_eqb (f false) (pct c))) eq_refl c) as G. cbv beta zeta in G.
    apply andb_true_iff in G. destruct G as [G1 G2]. apply orb_true_iff in G1, G2. destruct caret; [destruct G1 as [G|G]|destruct G2 as [G|G]]; apply str_eqb_eq in G; auto. }
  rewrite app_nil_r in *. destruct F as [F|F]; rewrite F in *; destruct (sv_path sv c); cbn [negb] in *.
  - split; [reflexivity|]. apply app_inv_head in E. exact E.
  - exfalso. apply N. injection E. auto.
  - exfalso. apply N. injection E. auto.
  - split; [reflexivity|]. apply app_inv_head in E. exact E.
Qed.

Lemma alike_iff n : forall s, (length s <= n)%nat -> Forall (fun c => ~ In c (B "?#\")) s -> (ours s = theirs (pct_decode s) <-> agrees (sv_path sv) caret s).
Proof.
  induction n as [|n IH]; intros s Ln F.
  - destruct s; [|cbn in Ln; lia]. split; [constructor|reflexivity].
  - destruct s as [|c s]; [split; [constructor|reflexivity]|]. cbn [length] in Ln. destruct (is_triplet (c :: s)) eqn:T.
    + apply pct_decode_triplet in T. destruct T as (h & l & r & a & b & Es & Ha & Hb & D). rewrite D. assert (Ln2 : (length ("%" :: h :: l :: r) <= S n)%nat) by (rewrite <- Es; cbn [length]; lia). rewrite Es in *. clear D Es Ln c s. rename Ln2 into Ln.
      pose proof (unhexd_range _ _ Ha) as Ra. pose proof (unhexd_range _ _ Hb) as Rb. set (x := nb (16 * a + b)).
      assert (Bx : bN x = (16 * a + b)%N) by (apply bN_nb; lia). assert (Dx : (bN x / 16 = a)%N) by (symmetry; apply (N.div_unique _ 16 a b); lia). assert (Mx : (bN x mod 16 = b)%N) by (symmetry; apply (N.mod_unique _ 16 a b); lia).
      clearbody x. pose proof (Forall_inv_tail (Forall_inv_tail (Forall_inv_tail F))) as F3. cbn [length] in Ln.
      specialize (IH r ltac:(lia) F3). rewrite (ours_cons "%"), (ours_cons h), (ours_cons l), (ours_hex h), (ours_hex l) by congruence. rewrite (pct_encode_cons (escapes (sv_path sv)) x). replace (ours ["%"]) with ["%"] by (destruct caret; reflexivity).
      unfold escapes at 1. destruct (sv_path sv x) eqn:K; cbn [negb].
      * split.
        -- intros E. exfalso. injection E as E _. rewrite <- E in K. rewrite not_kept_percent in K. discriminate K.
        -- intros A. exfalso. inversion A as [|y h' l' s' K' H1 H2 A'|c s' N]; [|congruence]. subst h' l' s'.
           assert (y = x) as ->; [|congruence]. apply bN_inj. pose proof (bN_lt y) as Ry. assert ((bN y / 16 < 16)%N) as R1 by (apply N.div_lt_upper_bound; lia). assert ((bN y mod 16 < 16)%N) as R2 by (apply N.mod_lt; lia).
           rewrite hex_upper in H1, H2 by assumption. injection H1 as <-. injection H2 as <-. rewrite unhexd_HEXD in Ha, Hb by assumption. injection Ha as <-. injection Hb as <-. rewrite Bx. rewrite (N.div_mod (bN y) 16) at 1 by discriminate. reflexivity.
      * unfold pct. rewrite Dx, Mx. split.
        -- intros E. injection E as -> -> E. apply (ag_escape _ _ x); [exact K|rewrite Dx; apply hex_upper; exact Ra|rewrite Mx; apply hex_upper; exact Rb|]. apply IH. exact E.
        -- intros A. inversion A as [|y h' l' s' K' H1 H2 A'|c s' N]; [|congruence]. subst h' l' s'.
           pose proof (bN_lt y) as Ry. assert ((bN y / 16 < 16)%N) as R1 by (apply N.div_lt_upper_bound; lia). assert ((bN y mod 16 < 16)%N) as R2 by (apply N.mod_lt; lia).
           rewrite hex_upper in H1, H2 by assumption. injection H1 as <-. injection H2 as <-. rewrite unhexd_HEXD in Ha, Hb by assumption. injection Ha as <-. injection Hb as <-. cbn [app]. do 3 f_equal. apply IH. exact A'.
    + rewrite pct_decode_cons_no by exact T. inversion F as [|? ? Fc F']; subst. specialize (IH s ltac:(lia) F'). destruct (beq_spec c "%") as [->|Nc].
      * rewrite (ours_cons "%"), (pct_encode_cons (escapes (sv_path sv)) "%"). replace (ours ["%"]) with ["%"] by (destruct caret; reflexivity). change (escapes (sv_path sv) "%") with (negb (sv_path sv "%")). rewrite not_kept_percent. cbn [negb].
        assert (No : forall h l r, s = h :: l :: r -> unhexd h <> None -> unhexd l <> None -> False).
        { intros h l r -> Hh Hl. unfold is_triplet in T. cbn in T. destruct (unhexd h), (unhexd l); congruence || discriminate. }
        split.
        -- intros E. exfalso. change (pct "%") with (B "%25") in E. cbn [app] in E. injection E as E. destruct s as [|h s]; [discriminate E|]. rewrite ours_cons in E. destruct (ours_first h) as [r [Eh|Eh]]; rewrite Eh in E; cbn [app] in E; [|discriminate E].
           injection E as -> E. rewrite (ours_hex "2") in Eh by discriminate. injection Eh as <-. cbn [app] in E. destruct s as [|l s]; [discriminate E|]. rewrite ours_cons in E. destruct (ours_first l) as [r [El|El]]; rewrite El in E; cbn [app] in E; [|discriminate E].
           injection E as -> E. eapply No; [reflexivity|discriminate|discriminate].
        -- intros A. exfalso. inversion A as [|y h' l' s' K' H1 H2 A'|c' s' N]; [|congruence]. pose proof (bN_lt y) as Ry. assert ((bN y / 16 < 16)%N) as R1 by (apply N.div_lt_upper_bound; lia). assert ((bN y mod 16 < 16)%N) as R2 by (apply N.mod_lt; lia).
           rewrite hex_upper in H1, H2 by assumption. injection H1 as <-. injection H2 as <-. eapply No; [symmetry; eassumption|rewrite unhexd_HEXD by assumption; discriminate..].
      * assert (Nc' : ~ In c (B "?#%\")) by (cbn in *; intuition congruence). pose proof (alike_other c Nc') as A. rewrite ours_cons. assert (Th : theirs (c :: pct_decode s) = theirs [c] ++ theirs (pct_decode s)) by (rewrite <- pct_encode_app; reflexivity). rewrite Th. clear Th. split.
        -- intros E. apply differs_at_once in E; [|exact Nc]. destruct E as [E1 E2]. apply A in E1. apply ag_other; [exact Nc|apply E1|apply E1|]. apply IH. exact E2.
        -- intros G. inversion G as [|y h' l' s' K' H1 H2 A' Z|c' s' N H1 H2 G']; [congruence|]. subst c' s'. f_equal; [apply A; auto|apply IH; exact G'].
Qed.
End Server.

(** * Segments *)

Lemma hex_not_slash n : nth_error upper_hex n <> Some "/".
Proof. intros H. apply nth_error_In in H. apply mem_iff in H. vm_compute in H. discriminate H. Qed.

Lemma agrees_split kept caret n : forall s r, (length s <= n)%nat -> (agrees kept caret (s ++ "/" :: r) <-> agrees kept caret s /\ agrees kept caret r).
Proof.
  induction n as [|n IH]; intros s r L.
  - destruct s; [|cbn in L; lia]. cbn [app]. split; [|intros [_ A]; apply ag_other; [discriminate|discriminate|discriminate|exact A]].
    intros A. split; [constructor|]. inversion A; subst; assumption.
  - destruct s as [|c s]; [apply (IH []); cbn; lia|]. cbn [length app] in *. split.
    + intros A. inversion A as [|b h l s' K H1 H2 A' E|c' s' N N1 N2 A' E].
      * destruct s as [|h' s]; [cbn in H; injection H as ->; destruct (hex_not_slash _ H1)|]. destruct s as [|l' s]; [cbn in H; injection H as -> ->; destruct (hex_not_slash _ H2)|].
        cbn [app] in H. injection H as -> -> ->. cbn [length] in L. apply IH in A'; [|lia]. destruct A' as [A1 A2]. split; [apply (ag_escape _ _ b); assumption|exact A2].
      * subst c' s'. apply IH in A'; [|lia]. destruct A' as [A1 A2]. split; [apply ag_other; assumption|exact A2].
    + intros [A Ar]. inversion A as [|b h l s' K H1 H2 A' E|c' s' N N1 N2 A' E].
      * cbn [app]. apply (ag_escape _ _ b); try assumption. apply IH; [subst s; cbn [length] in L; lia|auto].
      * subst c' s'. apply ag_other; try assumption. apply IH; [lia|auto].
Qed.

Lemma agrees_join kept caret l : agrees kept caret (join (B "/") l) <-> Forall (agrees kept caret) l.
Proof.
  induction l as [|s l IH]; [split; constructor|]. destruct l as [|s2 l].
  - cbn [join]. split; [intros A; repeat constructor; exact A|intros F; inversion F; assumption].
  - rewrite join_cons2. change (s ++ B "/" ++ join (B "/") (s2 :: l)) with (s ++ "/" :: join (B "/") (s2 :: l)). rewrite agrees_split by apply Nat.le_refl. rewrite IH.
    split; [intros [A F]; constructor; assumption|intros F; inversion F; auto].
Qed.

Lemma separated_from p l : separated p l -> Forall (fun s => ~ In "\" s /\ incl s p) l.
Proof.
  induction 1 as [s N1 N2|s c r l N1 N2 C H IH]; constructor; [split; [exact N2|apply incl_refl]|constructor|split; [exact N2|apply incl_appl, incl_refl]|].
  eapply Forall_impl; [|exact IH]. intros x [X1 X2]. split; [exact X1|]. apply incl_appr. apply incl_tl. exact X2.
Qed.

Lemma segments_clean name segs out : named_segments name segs -> path_segments segs out -> Forall (fun c => ~ In c (B "?#\")) (join (B "/") out).
Proof.
  intros (u & v & p & _ & _ & (N1 & N2 & _) & S) P. apply separated_from in S. rewrite Forall_forall in S.
  assert (O : forall s, In s out -> s = [] \/ In s segs).
  { intros s I. destruct P as [l x st R N M|l x st R C]; apply in_app_or in I; destruct I as [I|[<-|[]]].
    - right. apply in_or_app. left. exact (reached_from _ _ R _ I).
    - right. apply in_or_app. right. left. reflexivity.
    - right. exact (reached_from _ _ R _ I).
    - left. reflexivity. }
  apply Forall_forall. intros c I. apply in_glue in I. destruct I as [->|(s & Hs & I)]; [intros X; cbn in X; intuition discriminate|].
  apply O in Hs. destruct Hs as [->|Hs]; [destruct I|]. destruct (S _ Hs) as [S1 S2]. specialize (S2 _ I). intros X. cbn in X. destruct X as [<-|[<-|[<-|[]]]]; contradiction.
Qed.

(** The library and the server agree on the path exactly if they do on its segments. *)
Lemma path_criterion d o segs out : named_segments (requested o) segs -> path_segments segs out -> forall sv, server_ok sv ->
  (server_path sv (path_of d o) (percent_encode (path_of d o)) <-> Forall (agrees (sv_path sv) (d_path_caret d)) out).
Proof.
  intros Ns Ps sv OK. unfold path_of. destruct (parsed_path d (requested o)) as (segs' & out' & Ns' & Ps' & ->).
  pose proof (named_segments_unique _ _ _ Ns Ns') as <-. pose proof (path_segments_unique _ _ _ Ps Ps') as <-. rewrite encode_join, <- agrees_join.
  set (body := join (B "/") out) in *. assert (F : Forall (fun c => ~ In c (B "?#\")) body) by (eapply segments_clean; eassumption).
  rewrite <- (alike_iff sv OK (d_path_caret d) _ body (Nat.le_refl _) F).
  replace ("/" :: pct_encode (set_path (d_path_caret d)) body) with (pct_encode (set_path (d_path_caret d)) ("/" :: body)) by (destruct (d_path_caret d); reflexivity).
  assert (Dp : forall t, unescaped (pct_encode (set_path (d_path_caret d)) ("/" :: body)) t <-> t = "/" :: pct_decode body).
  { intros t. rewrite unescaped_iff, pct_decode_encode by apply path_set_ok. rewrite pct_decode_cons_no by (destruct body as [|? [|? ?]]; reflexivity). reflexivity. }
  assert (K : pct_encode (escapes (sv_path sv)) ("/" :: pct_decode body) = "/" :: pct_encode (escapes (sv_path sv)) (pct_decode body)).
  { rewrite pct_encode_cons. unfold escapes at 1. replace (sv_path sv "/") with true by (symmetry; apply OK). reflexivity. }
  assert (O : percent_encode (pct_encode (set_path (d_path_caret d)) ("/" :: body)) = "/" :: percent_encode (pct_encode (set_path (d_path_caret d)) body)) by (destruct (d_path_caret d); reflexivity).
  split.
  - intros (t & U & E). apply Dp in U. subst t. apply Prop_Server.encoded_iff in E. rewrite K, O in E. injection E as E. exact E.
  - intros E. exists ("/" :: pct_decode body). split; [apply Dp; reflexivity|]. apply Prop_Server.encoded_iff. rewrite K, O, E. reflexivity.
Qed.

(** * C90 *)

(** Whatever the names are: if server and library agree on the segments, the request is accepted. *)
Theorem C90_accepted d o tr url path query sig headers own segs out : deps_ok d ->
  returns (build_signed_url d o) tr (Ok url) -> url_parts url path query sig ->
  own_parameters (requested o) own -> sendable own o -> sends o headers -> named_segments (requested o) segs -> path_segments segs out ->
  exists t t1 t2 t3 email message s, url_time o t t1 /\ tr = t1 ++ t2 ++ t3 /\ authorized (o_signing_key o) t2 email /\
    signed d (o_signing_key o) (o_use_sign_blob o) message t3 s /\
    forall sv now, server_ok sv -> account_text email -> sv_verifies sv email message s -> Forall (agrees (sv_path sv) (d_path_caret d)) out ->
      (t / 1000000000 <= now < t / 1000000000 + (o_expires o - t) / 1000000000)%Z ->
      accepts sv now (issued o path query sig headers) email message s.
Proof.
  intros D H P Own SD SE Ns Ps. destruct (accepted_general _ _ _ _ _ _ _ _ _ D H P Own SD SE) as (t & t1 & t2 & t3 & email & message & s & T & E & A & Sg & G).
  exists t, t1, t2, t3, email, message, s. split; [exact T|]. split; [exact E|]. split; [exact A|]. split; [exact Sg|]. intros sv now OK Em Vf Ag. apply G; try assumption.
  destruct (url_facts_valid _ _ _ _ _ _ _ D H P) as (_ & _ & _ & _ & _ & _ & _ & _ & _ & _ & _ & _ & _ & _ & _ & -> & _).
  apply (path_criterion d o segs out Ns Ps sv OK). exact Ag.
Qed.

(** If they do not, no request is ever accepted with this signature, unless the digest has a collision. *)
Theorem C90_refused d o tr url path query sig segs out : deps_ok d ->
  returns (build_signed_url d o) tr (Ok url) -> url_parts url path query sig -> named_segments (requested o) segs -> path_segments segs out ->
  exists t t1 t2 t3 email canonical message s, url_time o t t1 /\ tr = t1 ++ t2 ++ t3 /\ authorized (o_signing_key o) t2 email /\
    signed d (o_signing_key o) (o_use_sign_blob o) message t3 s /\
    canonical_text (o_http_method o) path query (o_headers o) canonical /\ message_text (t / 1000000000)%Z (region_of o) canonical message /\
    forall sv now r account s', server_ok sv -> ~ Forall (agrees (sv_path sv) (d_path_caret d)) out -> accepts sv now r account message s' -> collision canonical.
Proof.
  intros D H P Ns Ps. destruct (url_ok_inv _ _ _ _ H) as (t & pre & t1 & t2 & email & verb & block & s & T & -> & S).
  destruct (success_parts _ _ _ _ _ _ _ _ _ _ _ _ _ S P) as (-> & -> & ->). destruct S as [V Ev A _ Eb Hs _].
  exists t, pre, t1, t2, email. do 2 eexists. exists s. split; [exact T|]. split; [reflexivity|]. split; [apply (authorizer_ok d); exact A|]. split; [apply sign_ok; exact Hs|].
  assert (Ct := canonical_spec d o verb (sorted_query (pairs_of d o (t / NS) (lifetime o t) (lowered o) email)) block D Eb). rewrite Ev in Ct.
  split; [exact Ct|]. split; [apply message_spec; [apply V|eapply sign_ok_rsa; exact Hs]|].
  match goal with |- context [collision ?c] => set (canonical := c) in * end.
  intros sv now r account s' OK Na (pairs & secs & region & date & scope & expires & life & names & names_text & sig' & canonical' & Hv & Hh & Fq & _ & Gc & Sp & _ & _ & Ge & Dl & _ & W & _ & _ & _ & Hn & Tn & _ & Hx & Sc & M & _).
  assert (M0 : message_text (t / NS)%Z (region_of o) canonical (message_of o (t / NS)%Z canonical)) by (apply message_spec; [apply V|eapply sign_ok_rsa; exact Hs]).
  destruct (message_binds _ _ _ _ _ _ _ M0 M) as (_ & _ & _ & sum & S1 & S2).
  destruct (str_eqb_spec canonical' canonical) as [E|N]; [exfalso|exists canonical', sum; auto].
  destruct (accepted_same sv r pairs sig' names canonical' o (path_of d o) (sorted_query (pairs_of d o (t / NS) (lifetime o t) (lowered o) email)) canonical OK (accepted_clean _ _ _ _ D H))
    as (_ & [_ Sv] & _); try assumption; [apply V| |congruence|].
  { pose proof (path_ok_bytes _ _ (path_of_ok d o)) as F. revert F. apply forallb_not_in. destruct (d_path_caret d); reflexivity. }
  apply Na. apply (path_criterion d o segs out Ns Ps sv OK). exact Sv.
Qed.

(** Segments without percent sign, bar and caret are never in dispute; a percent sign that does not start an escape always is. *)
Theorem C90_undisputed kept caret s : Forall (fun c => ~ In c (B "%|^")) s -> agrees kept caret s.
Proof.
  induction 1 as [|c s N F IH]; [constructor|]. cbn in N. apply ag_other; [|intros ->|intros ->|exact IH]; tauto || (intros ->; tauto).
Qed.
Theorem C90_disputed kept caret p r : (forall b h l t, r = h :: l :: t -> nth_error upper_hex (N.to_nat (bN b / 16)) = Some h -> nth_error upper_hex (N.to_nat (bN b mod 16)) = Some l -> kept b = true) ->
  ~ agrees kept caret (p ++ "%" :: r).
Proof.
  intros Nr. assert (G : forall n p, (length p <= n)%nat -> ~ agrees kept caret (p ++ "%" :: r)); [|apply (G (length p)); apply Nat.le_refl].
  assert (Hex : forall n, nth_error upper_hex n <> Some "%") by (intros n H; apply nth_error_In in H; apply mem_iff in H; vm_compute in H; discriminate H).
  clear p. induction n as [|n IH]; intros p L A.
  - destruct p; [|cbn in L; lia]. cbn [app] in A. inversion A as [|b h l s' K H1 H2 A' E|c' s' N N1 N2 A' E]; [|congruence]. subst r. rewrite (Nr b h l s' eq_refl H1 H2) in K. discriminate K.
  - destruct p as [|c p]; [exact (IH [] (Nat.le_0_l _) A)|]. cbn [length app] in *. inversion A as [|b h l s' K H1 H2 A' E|c' s' N N1 N2 A' E].
    + destruct p as [|h' p]; [cbn in H; injection H as -> _; exact (Hex _ H1)|]. destruct p as [|l' p]; [cbn in H; injection H as _ -> _; exact (Hex _ H2)|].
      cbn [app] in H. injection H as -> -> ->. cbn [length] in L. apply (IH p); [lia|exact A'].
    + apply (IH p); [lia|exact A'].
Qed.

(** With "../" in front, a request for another bucket is signed and accepted. *)
Theorem C90_other_bucket d o tr url path query sig headers target : deps_ok d ->
  returns (build_signed_url d o) tr (Ok url) -> url_parts url path query sig -> sendable [] o -> sends o headers ->
  (forall x, In x (B "/\?#" ++ [x09; x0a; x0d]) -> ~ In x (o_bucket_name o)) -> ~ stays (o_bucket_name o) -> ~ ups (o_bucket_name o) -> ~ drive (o_bucket_name o) ->
  o_object_name o = B "../" ++ target -> Forall (fun c => ~ In c (B "?#%\^|")) target -> tidy target -> (forall seg, segment target seg -> seg <> B "." /\ seg <> B "..") ->
  unescaped path ("/" :: target) /\
  exists t t1 t2 t3 email message s, url_time o t t1 /\ tr = t1 ++ t2 ++ t3 /\ authorized (o_signing_key o) t2 email /\
    signed d (o_signing_key o) (o_use_sign_blob o) message t3 s /\
    forall sv now, server_ok sv -> account_text email -> sv_verifies sv email message s ->
      (t / 1000000000 <= now < t / 1000000000 + (o_expires o - t) / 1000000000)%Z ->
      accepts sv now (issued o path query sig headers) email message s.
Proof.
  intros D H P SD SE Nb N1 N2 N3 Eo F Td Dots. assert (Np : ~ In "%" target) by (intros I; rewrite Forall_forall in F; apply (F _ I); cbn; tauto).
  assert (N : forall c, In c (B "?#%\^|") -> ~ In c target) by (rewrite Forall_forall in F; intros c Hc I; exact (F c I Hc)).
  assert (E : path = pct_encode (set_path (d_path_caret d)) ("/" :: target)).
  { destruct (url_facts_valid _ _ _ _ _ _ _ D H P) as (_ & _ & _ & _ & _ & _ & _ & _ & _ & _ & _ & _ & _ & _ & _ & -> & _). unfold path_of, requested. rewrite Eo, escape_parse by assumption.
    apply (path_cut d _ target []); try (apply N; cbn; tauto); [exact Td|rewrite app_nil_r; reflexivity|left; reflexivity|].
    intros seg t Hs U. assert (seg = t) as <-; [|apply Dots; exact Hs]. destruct Hs as (l & G & _ & I). apply unescaped_iff in U. rewrite U. symmetry.
    apply pct_decode_no_triplet. apply plain_iff. apply plain_no_percent. intros Hp. apply Np. apply glued_iff in G. rewrite G. clear - I Hp.
    revert seg I Hp. induction l as [|a l IH]; intros seg []; [subst|]; intros Hp; destruct l as [|b l]; try (destruct H; fail); cbn [join]; try exact Hp;
      rewrite !in_app_iff; [left; exact Hp|right; right; apply (IH seg); assumption]. }
  assert (U : unescaped path ("/" :: target)).
  { rewrite E. apply unescaped_iff. rewrite pct_decode_encode by apply path_set_ok. symmetry. apply pct_decode_no_triplet. apply plain_iff. apply plain_no_percent. intros [Z|I]; [discriminate Z|contradiction]. }
  split; [exact U|]. assert (Own : own_parameters (requested o) []).
  { apply op_none. unfold requested. rewrite Eo. intros I. apply in_app_or in I. destruct I as [I|I]; [revert I; apply Nb; cbn; tauto|]. cbn in I. destruct I as [I|[I|[I|[I|I]]]]; try discriminate I. revert I. apply N. cbn. tauto. }
  destruct (accepted_general _ _ _ _ _ _ _ _ _ D H P Own SD SE) as (t & t1 & t2 & t3 & email & message & s & T & Et & A & Sg & G).
  exists t, t1, t2, t3, email, message, s. split; [exact T|]. split; [exact Et|]. split; [exact A|]. split; [exact Sg|]. intros sv now OK Em Vf. apply G; try assumption.
  exists ("/" :: target). split; [exact U|]. rewrite E. apply Prop_Server.encoded_iff. apply (path_encode sv OK). constructor; [intros I; apply mem_iff in I; vm_compute in I; discriminate I|exact F].
Qed.

(** ** Cases *)

Definition demo_request : list (str * str) := [(B "Host", B "storage.googleapis.com")].
Lemma demo_request_ok object : sends (demo_named object) demo_request.
Proof.
  split.
  - constructor; [|constructor]. split; [apply literal_text; reflexivity|]. apply Forall_forall. intros c Hc.
    assert (G : forallb (fun c => (N.leb 32 (bN c) && N.ltb (bN c) 127)%bool) (B "storage.googleapis.com") = true) by (vm_compute; reflexivity). rewrite forallb_forall in G. apply G in Hc.
    apply andb_true_iff in Hc. destruct Hc as [H1 H2]. apply N.leb_le in H1. apply N.ltb_lt in H2. left. lia.
  - intros n Hn. assert (I : n = B "host") by (unfold values in Hn; destruct (str_eqb_spec n (B "host")) as [E|_]; [exact E|exfalso; apply Hn; reflexivity]). rewrite I. vm_compute. reflexivity.
Qed.
Lemma demo_sendable object : sendable [] (demo_named object).
Proof.
  constructor.
  - constructor.
  - intros n [].
  - assert (G : forallb (fun a => forallb (fun b => negb (str_eqb a (firstn (length a) b) && Nat.ltb (length a) (length b))) goog_names) goog_names = true) by (vm_compute; reflexivity).
    intros a b Ha Hb (c & r & ->). rewrite forallb_forall in G. specialize (G a Ha). rewrite forallb_forall in G. specialize (G _ Hb).
    rewrite firstn_app, Nat.sub_diag, firstn_all, app_nil_r, str_eqb_refl, app_length in G. cbn [length] in G. destruct (Nat.ltb_spec (length a) (length a + S (length r))); [discriminate G|lia].
  - apply literal_text. reflexivity.
  - constructor.
Qed.

(** An object whose name has a percent sign, written as %25, in a name with dots. *)
Example C90_case : let o := demo_named (B "a/../100%25.txt#x") in
  deps_ok demo_deps /\ own_parameters (requested o) [] /\ sendable [] o /\ sends o demo_request /\
  (exists url path query sig, returns (build_signed_url demo_deps o) [] (Ok url) /\ url_parts url path query sig /\ path = B "/bucket1/100%25.txt") /\
  named_segments (requested o) [B "bucket1"; B "a"; B ".."; B "100%25.txt"] /\ path_segments [B "bucket1"; B "a"; B ".."; B "100%25.txt"] [B "bucket1"; B "100%25.txt"] /\
  server_ok strict_server /\ Forall (agrees (sv_path strict_server) (d_path_caret demo_deps)) [B "bucket1"; B "100%25.txt"].
Proof.
  intros o. split; [exact demo_deps_ok|]. split; [apply (op_fragment _ (B "bucket1/a/../100%25.txt") (B "x")); [reflexivity|apply not_in_b_ok; vm_compute; reflexivity]|].
  split; [apply demo_sendable|]. split; [apply demo_request_ok|]. split.
  { destruct (demo_named_ok (B "a/../100%25.txt#x")) as (url & path & q & s & R & P & E); [vm_compute; reflexivity|]. exists url, path, q, s. split; [exact R|]. split; [exact P|]. rewrite E. vm_compute. reflexivity. }
  split; [apply named_by; vm_compute; reflexivity|]. split.
  { apply (pa_last [B "bucket1"; B "a"; B ".."] (B "100%25.txt") [B "bucket1"]); [|dots|dots]. up (B "a"). enter. enter. constructor. }
  split; [exact strict_ok|]. constructor; [apply C90_undisputed; apply Forall_forall; intros c I; cbn in I |- *; intuition congruence|]. constructor; [|constructor].
  do 3 (apply ag_other; [discriminate|discriminate|discriminate|]). apply (ag_escape _ _ "%" "2" "5"); [apply (proj1 (proj2 strict_ok)); left; reflexivity|reflexivity|reflexivity|].
  apply C90_undisputed; apply Forall_forall; intros c I; cbn in I |- *; intuition congruence.
Qed.

(** The same object, with the percent sign as it is, or an escaped slash: no server accepts the URL. *)
Example C90_refused_case : forall sv, server_ok sv -> forall caret, ~ agrees (sv_path sv) caret (B "100%") /\ ~ agrees (sv_path sv) caret (B "a%2Fb") /\ ~ agrees (sv_path sv) caret (B "%c3%a9").
Proof.
  intros sv OK caret. split; [|split].
  - apply (C90_disputed _ _ (B "100") []). intros b h l t E. discriminate E.
  - apply (C90_disputed _ _ (B "a") (B "2Fb")). intros b h l t E H1 H2. injection E as <- <- _. assert (b = "/") as ->; [|apply OK].
    apply bN_inj. pose proof (bN_lt b) as R. assert ((bN b / 16 < 16)%N) as R1 by (apply N.div_lt_upper_bound; lia). assert ((bN b mod 16 < 16)%N) as R2 by (apply N.mod_lt; lia).
    rewrite hex_upper in H1, H2 by assumption. injection H1 as H1. injection H2 as H2. apply (f_equal unhexd) in H1, H2. rewrite unhexd_HEXD in H1, H2 by assumption. cbn in H1, H2. injection H1 as H1. injection H2 as H2.
    rewrite (N.div_mod (bN b) 16) by discriminate. rewrite H1, H2. reflexivity.
  - apply (C90_disputed _ _ [] (B "c3%a9")). intros b h l t E H1 _. injection E as <- _ _. apply nth_error_In in H1. apply mem_iff in H1. vm_compute in H1. discriminate H1.
Qed.
Example C90_other_case : let o := demo_named (B "../bucket2/secret") in
  (exists url path query sig, returns (build_signed_url demo_deps o) [] (Ok url) /\ url_parts url path query sig /\ path = B "/bucket2/secret") /\ sendable [] o /\ sends o demo_request /\
  (forall x, In x (B "/\?#" ++ [x09; x0a; x0d]) -> ~ In x (o_bucket_name o)) /\ ~ stays (o_bucket_name o) /\ ~ ups (o_bucket_name o) /\ ~ drive (o_bucket_name o) /\
  o_object_name o = B "../" ++ B "bucket2/secret" /\ Forall (fun c => ~ In c (B "?#%\^|")) (B "bucket2/secret") /\ tidy (B "bucket2/secret") /\
  (forall seg, segment (B "bucket2/secret") seg -> seg <> B "." /\ seg <> B "..").
Proof.
  intros o. split.
  { destruct (demo_named_ok (B "../bucket2/secret")) as (url & path & q & s & R & P & E); [vm_compute; reflexivity|]. exists url, path, q, s. split; [exact R|]. split; [exact P|]. rewrite E. vm_compute. reflexivity. }
  split; [apply demo_sendable|]. split; [apply demo_request_ok|]. split; [intros x I J; cbn in I, J; intuition congruence|]. split; [dots|]. split; [dots|]. split; [dots|]. split; [reflexivity|].
  split; [apply Forall_forall; intros c I; cbn in I |- *; intuition congruence|]. split; [apply tidy_b_ok; vm_compute; reflexivity|]. apply segments_b_ok; [vm_compute; reflexivity|discriminate].
Qed.
