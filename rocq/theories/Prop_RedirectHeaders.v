(** C78, continued: the headers of redirected messages, and where the first one goes. *)
From Verif Require Import Base BaseFacts Effects Keys Url SignedUrl Target SpecTarget Prop_Target Redirect SpecRedirect Prop_Redirect.
Local Open Scope byte_scope.

Lemma undec_valued s : forall done n m, valued done n -> undec_acc n s = Some m -> valued (done ++ s) m.
Proof.
  induction s as [|c s IH]; intros done n m V H; cbn [undec_acc] in H.
  - injection H as <-. rewrite app_nil_r. exact V.
  - destruct (is_digit c) eqn:D; [|discriminate H]. replace (done ++ c :: s) with ((done ++ [c]) ++ s) by (rewrite <- app_assoc; reflexivity).
    eapply IH; [|exact H]. constructor; [exact V|]. unfold is_digit, in_range in D. apply andb_true_iff in D. rewrite !N.leb_le in D. exact D.
Qed.

Lemma dec_valued n : valued (dec n) n.
Proof.
  pose proof (undec_dec n) as H. unfold undec in H. destruct (dec n) as [|c s] eqn:E; [discriminate H|]. exact (undec_valued (c :: s) [] 0 n va_nil H).
Qed.

Lemma place_address p usual : usual_port (pl_scheme p) usual -> address_text p usual (place_text p).
Proof.
  intros U. apply usual_default in U. unfold address_text, place_text. rewrite U. destruct (N.eqb_spec (pl_port p) usual) as [E|E].
  - split; [intros _; reflexivity|intros N; contradiction].
  - split; [intros N; contradiction|]. intros _. exists (dec (pl_port p)). split; [apply dec_valued|]. split; [apply dec_nonempty|]. split; [|reflexivity].
    intros H. destruct (N.eq_dec (pl_port p) 0) as [Z|Z]; [rewrite Z; apply dec_zero|]. destruct (dec_head (pl_port p)) as (c & r & Q & C); [lia|].
    rewrite Q in H. cbn in H. contradiction.
Qed.

(** Every header of every message is one of the request's, or a referer with the address of an earlier message. *)
Theorem C78_headers remembers net t r before m after name v : fst (execute remembers net t r) = before ++ m :: after -> In (name, v) (ms_headers m) ->
  In (name, v) (rq_headers r) \/
  name = B "referer" /\ exists earlier, In earlier before /\ forall usual, usual_port (pl_scheme (ms_place earlier)) usual -> address_text (ms_place earlier) usual v.
Proof.
  intros E I.
  set (good := fun (sent : list message) (kv : str * str) => In kv (rq_headers r) \/ fst kv = B "referer" /\ exists earlier, In earlier sent /\ snd kv = place_text (ms_place earlier)).
  destruct (execute_invariant remembers net t r (fun sent h x => (forall kv, In kv h -> good sent kv) /\ (forall kv, In kv (ms_headers x) -> good sent kv))) as [H _].
  - intros sent h x h' x' [P1 _] [status body method content h1 p out N R O]. cbn [ms_headers].
    assert (G1 : forall kv, In kv h1 -> good (sent ++ [x]) kv).
    { intros kv J. destruct (P1 kv (redirected_headers _ _ _ _ _ _ _ _ R J)) as [G|[G (e & Ie & Ge)]]; [left; exact G|]. right. split; [exact G|]. exists e.
      split; [apply in_or_app; left; exact Ie|exact Ge]. }
    assert (G2 : forall kv, In kv out -> good (sent ++ [x]) kv).
    { intros kv J. subst out. apply referer_in in J. destruct J as [J| ->].
      - apply G1. destruct (same_server p (ms_place x)); [exact J|exact (without_in _ _ _ J)].
      - right. split; [reflexivity|]. exists x. split; [apply in_or_app; right; left; reflexivity|reflexivity]. }
    split; [|exact G2]. destruct remembers; [exact G2|exact G1].
  - split; intros kv J; left; exact J.
  - destruct (H _ _ _ E) as (hx & _ & P). destruct (P _ I) as [G|[G (e & Ie & Ge)]]; [left; exact G|]. right. split; [exact G|]. exists e. split; [exact Ie|].
    intros usual U. cbn [snd] in Ge. subst v. apply place_address. exact U.
Qed.

Lemma payload_gone name v h : In name content_headers -> ~ In (name, v) (without payload_names h).
Proof.
  intros N I. apply filter_In in I. destruct I as [_ I]. cbn [content_headers map In] in N. repeat destruct N as [<-|N]; try discriminate I. destruct N.
Qed.

(** A message of a POST request is either the request with its method and content, or a GET without content and without the headers
    that describe one; and once the content is dropped it does not come back. *)
Theorem C78_content remembers net t r before m after : rq_method r = B "POST" -> fst (execute remembers net t r) = before ++ m :: after ->
  (ms_method m = B "POST" /\ ms_body m = rq_body r /\ forall name v, In name content_headers -> In (name, v) (ms_headers m) <-> In (name, v) (rq_headers r)) \/
  (ms_method m = B "GET" /\ contentless m /\ Forall (fun later => ms_method later = B "GET" /\ contentless later) after).
Proof.
  intros PM E.
  set (bare := fun h : list (str * str) => forall name v, In name content_headers -> ~ In (name, v) h).
  set (full := fun h : list (str * str) => forall name v, In name content_headers -> In (name, v) h <-> In (name, v) (rq_headers r)).
  assert (Cut : forall name h v names, In name content_headers -> ~ In name names -> In (name, v) (without names h) <-> In (name, v) h).
  { intros name h v names C N. split; [apply without_in|]. intros J. apply filter_In. split; [exact J|]. cbn [fst].
    replace (lower_str name) with name by (cbn [content_headers map In] in C; repeat destruct C as [<-|C]; try reflexivity; destruct C).
    destruct (existsb _ names) eqn:X; [|reflexivity]. apply existsb_exists in X. destruct X as (z & Z & X). apply str_eqb_eq in X. subst z. contradiction. }
  assert (Ref : forall name v a b h, In name content_headers -> In (name, v) (with_referer a b h) <-> In (name, v) h).
  { intros name v a b h C. unfold with_referer. destruct (_ && _)%bool; [reflexivity|]. rewrite in_app_iff.
    rewrite Cut; [|exact C|]. 2:{ cbn [content_headers map In] in C. intros [X|[]]. subst name. repeat destruct C as [C|C]; discriminate C || destruct C. }
    split; [|auto]. intros [J|[J|[]]]; [exact J|]. injection J as <- _. cbn [content_headers map In] in C. repeat destruct C as [C|C]; discriminate C || destruct C. }
  assert (Sen : forall name v h, In name content_headers -> In (name, v) (without sensitive_names h) <-> In (name, v) h).
  { intros name v h C. apply Cut; [exact C|]. intros S. assert (X : forallb (fun n => negb (existsb (str_eqb n) sensitive_names)) content_headers = true) by reflexivity.
    rewrite forallb_forall in X. apply X in C. apply negb_true_iff in C. enough (existsb (str_eqb name) sensitive_names = true) by congruence.
    apply existsb_exists. exists name. split; [exact S|]. apply str_eqb_eq. reflexivity. }
  set (P := fun (_ : list message) (h : list (str * str)) (x : message) =>
    (ms_method x = B "POST" /\ ms_body x = rq_body r /\ full h /\ full (ms_headers x)) \/ (ms_method x = B "GET" /\ ms_body x = None /\ bare h /\ bare (ms_headers x))).
  assert (Step : forall sent h x h' x', P sent h x -> moves remembers net sent h x h' x' -> P (sent ++ [x]) h' x' /\ (ms_method x = B "GET" -> ms_method x' = B "GET")).
  { intros sent h x h' x' HP [status body method content h1 p out N R O].
    assert (Out : forall name v, In name content_headers -> In (name, v) out <-> In (name, v) h1).
    { intros name v C. subst out. rewrite Ref by exact C. destruct (same_server p (ms_place x)); [reflexivity|apply Sen; exact C]. }
    assert (Q : (method = B "POST" /\ content = rq_body r /\ full h1 /\ ms_method x = B "POST") \/ (method = B "GET" /\ content = None /\ bare h1)).
    { unfold redirected in R. destruct HP as [(P1 & P2 & P3 & _)|(P1 & P2 & P3 & _)]; rewrite P1, P2 in R.
      - change (str_eqb (B "POST") (B "POST")) with true in R. change (str_eqb (B "POST") (B "HEAD")) with false in R.
        destruct (_ || _)%bool; [injection R as <- <- <-; right; split; [reflexivity|]; split; [reflexivity|]; intros n v C; apply payload_gone; exact C|].
        destruct (status =? 303)%N; [injection R as <- <- <-; right; split; [reflexivity|]; split; [reflexivity|]; intros n v C; apply payload_gone; exact C|].
        destruct (_ || _)%bool; [injection R as <- <- <-; left; auto|discriminate R].
      - change (str_eqb (B "GET") (B "POST")) with false in R. change (str_eqb (B "GET") (B "HEAD")) with false in R.
        destruct (_ || _)%bool; [injection R as <- <- <-; right; auto|].
        destruct (status =? 303)%N; [injection R as <- <- <-; right; split; [reflexivity|]; split; [reflexivity|]; intros n v C; apply payload_gone; exact C|].
        destruct (_ || _)%bool; [injection R as <- <- <-; right; auto|discriminate R]. }
    split.
    - unfold P. cbn [ms_method ms_body ms_headers]. destruct Q as [(-> & -> & F & _)|(-> & -> & F)].
      + left. split; [reflexivity|]. split; [reflexivity|]. assert (G : full out) by (intros n v C; rewrite Out by exact C; apply F; exact C).
        split; [destruct remembers; assumption|exact G].
      + right. split; [reflexivity|]. split; [reflexivity|]. assert (G : bare out) by (intros n v C; rewrite Out by exact C; apply F; exact C).
        split; [destruct remembers; assumption|exact G].
    - intros G. cbn [ms_method]. destruct Q as [(_ & _ & _ & Q)|(Q & _)]; [rewrite G in Q; discriminate Q|exact Q]. }
  destruct (execute_invariant remembers net t r P) as [H1 H2].
  - intros sent h x h' x' HP M. apply (Step _ _ _ _ _ HP M).
  - left. cbn [first_message ms_method ms_body ms_headers]. split; [exact PM|]. split; [reflexivity|]. split; intros n v C; reflexivity.
  - destruct (H1 _ _ _ E) as (hx & [(A1 & A2 & _ & A3)|(A1 & A2 & _ & A3)]); [left; auto|]. right. split; [exact A1|]. split; [split; assumption|].
    clear A2 A3 hx. revert before m E A1. induction after as [|x after IH]; intros before m E A1; constructor.
    + destruct (H2 _ _ _ _ E) as (hx & hy & Hx & M). destruct (Step _ _ _ _ _ Hx M) as [Hy K]. specialize (K A1).
      destruct Hy as [(B1 & _)|(B1 & B2 & _ & B3)]; [rewrite B1 in K; discriminate K|]. split; [exact B1|split; assumption].
    + apply (IH (before ++ [m]) x); [rewrite <- app_assoc; exact E|]. destruct (H2 _ _ _ _ E) as (hx & hy & Hx & M). destruct (Step _ _ _ _ _ Hx M) as [_ K]. exact (K A1).
Qed.

(** The first message is the request, sent to the path of its address, with the query if there is one. *)
Theorem C78_start t r path : let m := first_message t r in
  ms_method m = rq_method r /\ ms_headers m = rq_headers r /\ ms_body m = rq_body r /\ pl_scheme (ms_place m) = tg_scheme t /\
  (asks_for t path -> pl_path (ms_place m) = path) /\
  (forall query, u_path (tg_url t) = path -> u_query (tg_url t) = Some query -> pl_path (ms_place m) = path ++ B "?" ++ query).
Proof.
  cbv zeta. unfold first_message, place_of. destruct (host_port (tg_scheme t) (tg_authority t)) as [h p]. cbn [ms_method ms_headers ms_body ms_place pl_scheme pl_path].
  repeat (split; [reflexivity|]). split.
  - intros (-> & -> & _). apply app_nil_r.
  - intros query -> ->. reflexivity.
Qed.

(** So a text to sign for an account is first sent to the service's method for that account. *)
Theorem C78_sign d account token message : account_name account -> exists t, target_of d (rq_url (sign_blob_request account token message)) = Some t /\
  forall remembers net, exists m, sent_first (fst (execute remembers net t (sign_blob_request account token message))) m /\
    pl_scheme (ms_place m) = B "https" /\ reaches m (B "iamcredentials.googleapis.com") 443 /\ pl_path (ms_place m) = sign_blob_path account /\ ms_method m = B "POST".
Proof.
  intros A. destruct (C72_name d account token message A) as (t & T & F). exists t. split; [exact T|]. intros remembers net.
  exists (first_message t (sign_blob_request account token message)). split; [apply C78_count|].
  pose proof T as T'. unfold sign_blob_request in T'. cbn [rq_url] in T'. rewrite blob_target in T'. injection T' as <-.
  split; [reflexivity|]. split; [split; reflexivity|]. split; [|reflexivity]. apply C78_start. exact F.
Qed.

(** A redirect with 303, then one with 307: content and its type are gone for good, the referers are the addresses. *)
Example C78_content_case : let other := {| pl_scheme := B "https"; pl_host := B "other.example"; pl_port := 8443; pl_path := B "/a?b" |} in
  let net (l : list message) := match length l with 1%nat => Reply 303 (Some (LAt other)) None | 2%nat => Reply 307 (Some (LAt other)) None | _ => Reply 200 None (Some []) end in
  let r := sign_blob_request (B "sa@example.com") (B "token") (B "message") in
  rq_method r = B "POST" /\ exists first second third, fst (execute true net blob_place r) = [first; second; third] /\ ms_body first <> None /\
    ms_headers second = [(B "referer", B "https://iamcredentials.googleapis.com/v1/projects/-/serviceAccounts/sa@example.com:signBlob")] /\
    ms_headers third = [(B "referer", B "https://other.example:8443/a?b")] /\ ms_method third = B "GET" /\ ms_body third = None.
Proof. cbv zeta. split; [reflexivity|]. do 3 eexists. split; [vm_compute; reflexivity|]. split; [discriminate|]. repeat split. Qed.

Example C78_start_case : asks_for blob_place (sign_blob_path (B "sa@example.com")) /\ account_name (B "sa@example.com").
Proof.
  split; [repeat split; vm_compute; reflexivity|]. apply Forall_forall. intros c I.
  assert (X : forallb (fun c => existsb (beq c) (B "ABCDEFGHIJKLMNOPQRSTUVWXYZabcdefghijklmnopqrstuvwxyz0123456789@.-_+")) (B "sa@example.com") = true) by reflexivity.
  rewrite forallb_forall in X. apply X in I. apply existsb_exists in I. destruct I as (x & J & E). destruct (beq_spec c x); [subst; exact J|discriminate E].
Qed.

(** * Redirects are followed *)

Lemma redirected_redirects status method body h method' dropped : redirects status method method' dropped ->
  redirected status method body h = Some (method', if dropped then None else body, if dropped then without payload_names h else h).
Proof.
  intros [m N| |s I|s m I N|s m I]; unfold redirected, repeats in *; cbn [In] in *.
  - change (303 =? 301)%N with false. change (303 =? 302)%N with false. change (303 =? 303)%N with true. cbn [orb].
    destruct (str_eqb m (B "HEAD")) eqn:E; [apply str_eqb_eq in E; contradiction|reflexivity].
  - reflexivity.
  - destruct I as [<-|[<-|[]]]; reflexivity.
  - destruct (str_eqb m (B "POST")) eqn:E; [apply str_eqb_eq in E; contradiction|]. destruct I as [<-|[<-|[]]]; reflexivity.
  - destruct I as [<-|[<-|[]]]; reflexivity.
Qed.

Lemma redirects_total status method : sends_on status -> exists method' dropped, redirects status method method' dropped.
Proof.
  intros I. unfold sends_on in I. cbn [In] in I.
  assert (M : In status [301; 302]%N -> exists method' dropped, redirects status method method' dropped).
  { intros J. destruct (str_eqb method (B "POST")) eqn:E; [apply str_eqb_eq in E; subst; do 2 eexists; apply rd_post; exact J|].
    do 2 eexists. apply rd_moved; [exact J|]. intros ->. discriminate E. }
  assert (R : repeats status -> exists method' dropped, redirects status method method' dropped) by (intros J; do 2 eexists; apply rd_repeat; exact J).
  destruct I as [<-|[<-|[<-|[<-|[<-|[]]]]]].
  - apply M. left. reflexivity.
  - apply M. right. left. reflexivity.
  - destruct (str_eqb method (B "HEAD")) eqn:E; [apply str_eqb_eq in E; subst; do 2 eexists; apply rd_see_head|]. do 2 eexists. apply rd_see. intros ->. discriminate E.
  - apply R. left. reflexivity.
  - apply R. right. left. reflexivity.
Qed.

Lemma follow_next remembers net n : forall sent h m before x after, fst (follow remembers net n sent h m) = before ++ x :: after -> (length sent <= length before)%nat ->
  forall status l body, net (before ++ [x]) = Reply status (Some l) body -> sends_on status ->
  (forall p, l = LAt p -> (length before < length sent + n)%nat -> exists next after', after = next :: after' /\ ms_place next = p /\
     forall method dropped, redirects status (ms_method x) method dropped -> ms_method next = method /\ ms_body next = if dropped then None else ms_body x) /\
  (l = LForeign \/ length before = (length sent + n)%nat -> after = [] /\ snd (follow remembers net n sent h m) = HttpFailed).
Proof.
  induction n as [n IH] using (well_founded_induction Wf_nat.lt_wf). intros sent h m before x after E L status l body N S.
  destruct (Nat.eq_dec (length sent) (length before)) as [Q|Q].
  - destruct (chain_begins _ _ _ _ _ _ _ (follow_chain remembers net n sent h m)) as (rest & F & _). pose proof E as E'. rewrite F in E'.
    apply app_same in E'; [|exact Q]. destruct E' as [<- E']. injection E' as <- ->.
    destruct (redirects_total status (ms_method m) S) as (method & dropped & R). pose proof (redirected_redirects _ _ (ms_body m) h _ _ R) as R'.
    destruct l as [p|].
    + destruct n as [|n].
      * cbn [follow] in E |- *. rewrite N, R' in E |- *. cbn [fst snd] in *. apply app_inv_head in E. injection E as <-. split; [intros p' _ X; lia|auto].
      * split; [|intros [X|X]; [discriminate X|lia]]. intros p' X _. injection X as <-. cbn [follow] in E. rewrite N, R' in E.
        match type of E with fst (follow _ _ _ _ ?h' ?m') = _ => destruct (chain_begins _ _ _ _ _ _ _ (follow_chain remembers net n (sent ++ [m]) h' m')) as (rest' & F' & _) end.
        rewrite F', <- app_assoc in E. apply app_inv_head in E. injection E as <-. do 2 eexists. split; [reflexivity|]. split; [reflexivity|].
        intros method' dropped' R2. pose proof (redirected_redirects _ _ (ms_body m) h _ _ R2) as R3. rewrite R' in R3. injection R3 as <- R3 _. cbn [ms_method ms_body]. auto.
    + split; [discriminate|]. intros _. destruct n as [|n]; cbn [follow] in E |- *; rewrite N, R' in E |- *; cbn [fst snd] in *; apply app_inv_head in E; injection E as <-; auto.
  - destruct (follow_cases remembers net n sent h m) as [(o & F & _)|(n' & h' & m' & -> & M & F)].
    + rewrite F in E. cbn [fst] in E. apply (f_equal (@length message)) in E. rewrite !app_length in E. cbn in E. lia.
    + rewrite F in E |- *. destruct (IH n' ltac:(lia) _ _ _ _ _ _ E ltac:(rewrite app_length; cbn; lia) _ _ _ N S) as [H1 H2].
      rewrite app_length in H1, H2. cbn [length] in H1, H2. split; [intros p X Y; apply (H1 p X); lia|]. intros [X|X]; apply H2; [left; exact X|right; lia].
Qed.

(** A message answered with a redirect to a place of the web is followed by one to that place, with the method and content the status calls
    for, if it is not the eleventh; the eleventh, and one sent to any other scheme, is the last and the call fails. *)
Theorem C78_followed remembers net t r before m after status l body : fst (execute remembers net t r) = before ++ m :: after ->
  net (before ++ [m]) = Reply status (Some l) body -> sends_on status ->
  (forall p, l = LAt p -> (length before < 10)%nat -> exists next after', after = next :: after' /\ ms_place next = p /\
     forall method dropped, redirects status (ms_method m) method dropped -> ms_method next = method /\ ms_body next = if dropped then None else ms_body m) /\
  (l = LForeign \/ length before = 10%nat -> after = [] /\ snd (execute remembers net t r) = HttpFailed).
Proof. intros E N S. exact (follow_next remembers net 10 [] _ _ _ _ _ E (Nat.le_0_l _) _ _ _ N S). Qed.

(** A client that keeps removed headers removed: of two neighbours the second has the headers of the first, except those of a dropped content
    and, at another server, those that are private; only the referer is new. *)
Theorem C78_kept net t r before m next after status body method dropped name v : fst (execute true net t r) = before ++ m :: next :: after ->
  net (before ++ [m]) = Reply status (Some (LAt (ms_place next))) body -> redirects status (ms_method m) method dropped -> lower_str name <> B "referer" ->
  (In (name, v) (ms_headers next) <->
   In (name, v) (ms_headers m) /\ (dropped = true -> ~ In (lower_str name) content_headers) /\ (~ same_end next m -> ~ In (lower_str name) private_headers)).
Proof.
  intros E N R F. destruct (execute_invariant true net t r (fun _ h x => ms_headers x = h)) as [_ H].
  { intros sent h x h' x' _ [s b mt c h1 p out N' R' O]. reflexivity. }
  { reflexivity. }
  destruct (H _ _ _ _ E) as (hx & hy & Hx & M). destruct M as [s b mt c h1 p out N' R' O]. cbn [ms_place ms_headers] in *.
  rewrite N in N'. injection N' as <- <-. rewrite (redirected_redirects _ _ (ms_body m) hx _ _ R) in R'. injection R' as _ _ <-. subst hx.
  assert (W : forall names h, In (name, v) (without names h) <-> In (name, v) h /\ ~ In (lower_str name) names).
  { intros names h. unfold without. rewrite filter_In. cbn [fst]. rewrite negb_true_iff. split; intros [A C]; (split; [exact A|]).
    - intros I. enough (existsb (str_eqb (lower_str name)) names = true) by congruence. apply existsb_exists. exists (lower_str name). split; [exact I|]. apply str_eqb_eq. reflexivity.
    - destruct (existsb _ names) eqn:X; [|reflexivity]. apply existsb_exists in X. destruct X as (z & Z & X). apply str_eqb_eq in X. subst z. contradiction. }
  assert (Ref : forall a b h, In (name, v) (with_referer a b h) <-> In (name, v) h).
  { intros a b' h. unfold with_referer. destruct (_ && _)%bool; [reflexivity|]. rewrite in_app_iff, W. split.
    - intros [[A _]|[A|[]]]; [exact A|]. injection A as <- _. destruct F. reflexivity.
    - intros A. left. split; [exact A|]. intros [X|[]]. congruence. }
  assert (D : In (name, v) (if dropped then without payload_names (ms_headers m) else ms_headers m) <-> In (name, v) (ms_headers m) /\ (dropped = true -> ~ In (lower_str name) content_headers)).
  { destruct dropped; [rewrite W|]; split; [intros [A C]; split; [exact A|intros _; exact C]|intros [A C]; split; [exact A|exact (C eq_refl)]|intros A; split; [exact A|discriminate]|tauto]. }
  subst out. rewrite Ref. unfold same_end, reaches. cbn [ms_place]. destruct (same_server p (ms_place m)) eqn:S.
  - rewrite D. apply same_server_true in S. tauto.
  - rewrite W, D. assert (NS : ~ (pl_host p = pl_host (ms_place m) /\ pl_port p = pl_port (ms_place m))).
    { intros [A C]. unfold same_server in S. rewrite A, C, N.eqb_refl in S. rewrite (proj2 (str_eqb_eq _ _) eq_refl) in S. discriminate S. }
    change sensitive_names with private_headers. tauto.
Qed.

Example C78_followed_case : let other := {| pl_scheme := B "https"; pl_host := B "other.example"; pl_port := 443; pl_path := B "/" |} in
  let net (_ : list message) := Reply 302 (Some (LAt other)) None in
  let r := sign_blob_request (B "sa@example.com") (B "token") (B "message") in
  length (fst (execute true net blob_place r)) = 11%nat /\ snd (execute true net blob_place r) = HttpFailed /\
  redirects 302 (B "POST") (B "GET") true /\ map ms_method (fst (execute true net blob_place r)) = B "POST" :: repeat (B "GET") 10.
Proof. cbv zeta. split; [vm_compute; reflexivity|]. split; [vm_compute; reflexivity|]. split; [|vm_compute; reflexivity]. apply rd_post. right. left. reflexivity. Qed.
