(** C78: what the requests of a bound-token key become when servers answer with redirects. *)
From Verif Require Import Base BaseFacts Effects EffectsFacts Keys Url SignedUrl HtmlForm Calls Target SpecTarget SpecTrace SpecRequests Prop_Requests Prop_Target
  Redirect SpecRedirect Demo.
Local Open Scope byte_scope.

Lemma without_in names kv h : In kv (without names h) -> In kv h.
Proof. intros I. apply filter_In in I. apply I. Qed.

Lemma referer_in next previous kv h : In kv (with_referer next previous h) -> In kv h \/ kv = (B "referer", place_text previous).
Proof.
  unfold with_referer. destruct (_ && _)%bool; [auto|]. intros I. apply in_app_or in I. destruct I as [I|[<-|[]]]; [left; exact (without_in _ _ _ I)|auto].
Qed.

Lemma redirected_status status method body h x : redirected status method body h = Some x -> sends_on status.
Proof.
  unfold redirected, sends_on. cbn [In].
  destruct (N.eqb_spec status 301); [auto|]. destruct (N.eqb_spec status 302); [auto|]. destruct (N.eqb_spec status 303); [auto|].
  destruct (N.eqb_spec status 307); [auto|]. destruct (N.eqb_spec status 308); [auto 6|]. discriminate.
Qed.

Lemma redirected_none status method body h : redirected status method body h = None -> ~ sends_on status.
Proof.
  unfold redirected, sends_on. cbn [In].
  destruct (N.eqb_spec status 301); [cbn; destruct (str_eqb _ _); discriminate|]. destruct (N.eqb_spec status 302); [cbn; destruct (str_eqb _ _); discriminate|].
  destruct (N.eqb_spec status 303); [discriminate|]. destruct (N.eqb_spec status 307); [discriminate|]. destruct (N.eqb_spec status 308); [discriminate|].
  intros _ H. repeat destruct H as [H|H]; congruence.
Qed.

Lemma redirected_headers status method body h method' body' h' kv :
  redirected status method body h = Some (method', body', h') -> In kv h' -> In kv h.
Proof.
  unfold redirected. destruct (_ || _)%bool.
  - destruct (str_eqb _ _); intros E; injection E as _ _ <-; [apply without_in|auto].
  - destruct (status =? 303)%N; [intros E; injection E as _ _ <-; apply without_in|]. destruct (_ || _)%bool; [|discriminate].
    intros E; injection E as _ _ <-. auto.
Qed.

Lemma same_server_true a b : same_server a b = true -> pl_host a = pl_host b /\ pl_port a = pl_port b.
Proof. unfold same_server. intros H. apply andb_true_iff in H. destruct H as [H1 H2]. split; [apply str_eqb_eq; exact H1|apply N.eqb_eq; exact H2]. Qed.

Lemma no_authorization v h : ~ In (B "authorization", v) (without sensitive_names h).
Proof. intros I. apply filter_In in I. destruct I as [_ I]. discriminate I. Qed.

(** One step of [follow]. *)
Inductive moves (remembers : bool) (net : list message -> reply) (sent : list message) (h : list (str * str)) (m : message) :
  list (str * str) -> message -> Prop :=
| moves_intro status body method content h' p out :
    net (sent ++ [m]) = Reply status (Some (LAt p)) body ->
    redirected status (ms_method m) (ms_body m) h = Some (method, content, h') ->
    out = with_referer p (ms_place m) (if same_server p (ms_place m) then h' else without sensitive_names h') ->
    moves remembers net sent h m (if remembers then out else h') {| ms_method := method; ms_place := p; ms_headers := out; ms_body := content |}.

Lemma follow_cases remembers net more sent h m :
  (exists o, follow remembers net more sent h m = (sent ++ [m], o) /\
     (o = HttpFailed \/ exists status l body, net (sent ++ [m]) = Reply status l body /\ o = HttpResponse status body) /\
     (net (sent ++ [m]) = NoReply -> o = HttpFailed) /\
     (forall status l body, net (sent ++ [m]) = Reply status l body -> ~ sends_on status \/ l = None -> o = HttpResponse status body)) \/
  (exists more' h' m', more = S more' /\ moves remembers net sent h m h' m' /\
     follow remembers net more sent h m = follow remembers net more' (sent ++ [m]) h' m').
Proof.
  destruct (net (sent ++ [m])) as [|status l body] eqn:E.
  - left. exists HttpFailed. split; [destruct more; cbn [follow]; rewrite E; reflexivity|]. split; [auto|]. split; [auto|discriminate].
  - destruct (redirected status (ms_method m) (ms_body m) h) as [[[method content] h']|] eqn:R.
    + destruct l as [[p|]|].
      * destruct more as [|more'].
        -- left. exists HttpFailed. split; [cbn [follow]; rewrite E, R; reflexivity|]. split; [auto|]. split; [discriminate|].
           intros s l b X [N|N]; injection X as <- <- <-; [apply redirected_status in R; contradiction|discriminate N].
        -- right. do 3 eexists. split; [reflexivity|]. split; [econstructor; [exact E|exact R|reflexivity]|]. cbn [follow]. rewrite E, R. reflexivity.
      * left. exists HttpFailed. split; [destruct more; cbn [follow]; rewrite E, R; reflexivity|]. split; [auto|]. split; [discriminate|].
        intros s l b X [N|N]; injection X as <- <- <-; [apply redirected_status in R; contradiction|discriminate N].
      * left. exists (HttpResponse status body). split; [destruct more; cbn [follow]; rewrite E, R; reflexivity|]. split; [right; do 3 eexists; eauto|].
        split; [discriminate|]. intros s l b X _. injection X as <- <- <-. reflexivity.
    + left. exists (HttpResponse status body). split; [destruct more; cbn [follow]; rewrite E, R; reflexivity|]. split; [right; do 3 eexists; eauto|].
      split; [discriminate|]. intros s l' b X _. injection X as <- <- <-. reflexivity.
Qed.

(** The messages of one request as a chain of such steps. *)
Inductive chain (remembers : bool) (net : list message -> reply) : nat -> list message -> list (str * str) -> message -> list message -> Prop :=
| chain_end n sent h m : chain remembers net n sent h m (sent ++ [m])
| chain_next n sent h m h' m' l : moves remembers net sent h m h' m' -> chain remembers net n (sent ++ [m]) h' m' l ->
    chain remembers net (S n) sent h m l.

Lemma follow_chain remembers net n : forall sent h m, chain remembers net n sent h m (fst (follow remembers net n sent h m)).
Proof.
  induction n as [|n IH]; intros sent h m; match goal with |- chain _ _ ?k _ _ _ _ => destruct (follow_cases remembers net k sent h m) as [(o & F & _)|(n' & h' & m' & E & M & F)] end;
    rewrite F; [apply chain_end|discriminate E|apply chain_end|]. injection E as <-. eapply chain_next; [exact M|apply IH].
Qed.

Lemma chain_begins remembers net n sent h m l : chain remembers net n sent h m l -> exists rest, l = sent ++ m :: rest /\ (length rest <= n)%nat.
Proof.
  induction 1 as [n sent h m|n sent h m h' m' l M C (rest & -> & L)]; [exists []; cbn; split; [reflexivity|lia]|].
  exists (m' :: rest). rewrite <- app_assoc. cbn. split; [reflexivity|lia].
Qed.

Lemma app_longer {A} (a b : list A) x u v : a ++ x :: u = b ++ v -> (length a < length b)%nat -> exists w, b = a ++ x :: w.
Proof.
  revert b. induction a as [|y a IH]; intros [|z b] E L; cbn in *; try lia.
  - injection E as <- _. exists b. reflexivity.
  - injection E as <- E. destruct (IH b E) as [w ->]; [lia|]. exists w. reflexivity.
Qed.

Lemma app_same {A} (a b u v : list A) : a ++ u = b ++ v -> length a = length b -> a = b /\ u = v.
Proof.
  revert b. induction a as [|x a IH]; intros [|y b] E L; cbn in *; try discriminate L; [auto|]. injection E as <- E. injection L as L.
  destruct (IH b E L) as [-> ->]. auto.
Qed.

(** What holds of the client's copy and the message, and is kept by every step, holds at every message; and any two
    neighbours are such a step. *)
Lemma chain_invariant remembers net (P : list message -> list (str * str) -> message -> Prop) :
  (forall sent h m h' m', P sent h m -> moves remembers net sent h m h' m' -> P (sent ++ [m]) h' m') ->
  forall n sent h m l, chain remembers net n sent h m l -> P sent h m ->
  (forall before x after, l = before ++ x :: after -> (length sent <= length before)%nat -> exists hx, P before hx x) /\
  (forall before x y after, l = before ++ x :: y :: after -> (length sent <= length before)%nat ->
     exists hx hy, P before hx x /\ moves remembers net before hx x hy y).
Proof.
  intros K n sent h m l C. induction C as [n sent h m|n sent h m h' m' l M C IH]; intros Hm.
  - split.
    + intros before x after E L. apply app_same in E; [|apply (f_equal (@length message)) in E; rewrite !app_length in E; cbn in E; lia].
      destruct E as [<- E]. injection E as <- _. eauto.
    + intros before x y after E L. apply (f_equal (@length message)) in E. rewrite !app_length in E. cbn in E. lia.
  - destruct (IH (K _ _ _ _ _ Hm M)) as [IH1 IH2]. destruct (chain_begins _ _ _ _ _ _ _ C) as (rest & -> & _). split.
    + intros before x after E L. destruct (Nat.eq_dec (length sent) (length before)) as [Q|Q].
      * rewrite <- app_assoc in E. apply app_same in E; [|exact Q]. destruct E as [<- E]. injection E as <- _. eauto.
      * eapply IH1; [exact E|]. rewrite app_length. cbn. lia.
    + intros before x y after E L. destruct (Nat.eq_dec (length sent) (length before)) as [Q|Q].
      * rewrite <- app_assoc in E. apply app_same in E; [|exact Q]. destruct E as [<- E]. injection E as <- <- _. eauto.
      * eapply IH2; [exact E|]. rewrite app_length. cbn. lia.
Qed.

Lemma execute_invariant remembers net t r (P : list message -> list (str * str) -> message -> Prop) :
  (forall sent h m h' m', P sent h m -> moves remembers net sent h m h' m' -> P (sent ++ [m]) h' m') ->
  P [] (rq_headers r) (first_message t r) ->
  (forall before x after, fst (execute remembers net t r) = before ++ x :: after -> exists hx, P before hx x) /\
  (forall before x y after, fst (execute remembers net t r) = before ++ x :: y :: after -> exists hx hy, P before hx x /\ moves remembers net before hx x hy y).
Proof.
  intros K H. destruct (chain_invariant remembers net P K _ _ _ _ _ (follow_chain remembers net 10 [] (rq_headers r) (first_message t r)) H) as [H1 H2].
  split; [intros before x after E; eapply H1; [exact E|cbn; lia]|intros before x y after E; eapply H2; [exact E|cbn; lia]].
Qed.

(** One request becomes at most eleven messages, the first of them the request itself. *)
Theorem C78_count remembers net t r : (1 <= length (fst (execute remembers net t r)) <= 11)%nat /\ sent_first (fst (execute remembers net t r)) (first_message t r).
Proof.
  destruct (chain_begins _ _ _ _ _ _ _ (follow_chain remembers net 10 [] (rq_headers r) (first_message t r))) as (rest & E & L).
  unfold execute. rewrite E. cbn [app length]. split; [lia|]. exists rest. reflexivity.
Qed.

(** Each further message is sent because the one before was answered with a redirect, and goes where that leads. *)
Theorem C78_led remembers net t r : led_on net (fst (execute remembers net t r)) sends_on.
Proof.
  intros before m next after E. destruct (execute_invariant remembers net t r (fun _ _ _ => True) (fun _ _ _ _ _ _ _ => I) I) as [_ H].
  destruct (H _ _ _ _ E) as (hx & hy & _ & M). destruct M as [status body method content h' p out N R O].
  exists status, body. split; [exact (redirected_status _ _ _ _ _ R)|exact N].
Qed.

(** What the call sees is the answer to the last message, or a failure. *)
Theorem C78_result remembers net t r l o : execute remembers net t r = (l, o) ->
  (o = HttpFailed \/ exists status location body, net l = Reply status location body /\ o = HttpResponse status body) /\
  (net l = NoReply -> o = HttpFailed) /\
  (forall status location body, net l = Reply status location body -> ~ sends_on status \/ location = None -> o = HttpResponse status body).
Proof.
  unfold execute. generalize 10%nat, (@nil message), (rq_headers r), (first_message t r). intros n. induction n as [|n IH]; intros sent h m E;
    match type of E with follow _ _ ?k _ _ _ = _ => destruct (follow_cases remembers net k sent h m) as [(o' & F & H1 & H2 & H3)|(n' & h' & m' & Q & M & F)] end;
    rewrite F in E.
  - injection E as <- <-. auto.
  - discriminate Q.
  - injection E as <- <-. auto.
  - injection Q as <-. exact (IH _ _ _ E).
Qed.

(** A client that does not put removed headers back: whatever the servers answer, no message with the token goes anywhere but to
    the host and port of the first one. *)
Lemma token_stays net t r m : In m (fst (execute true net t r)) -> bears_token m -> same_end m (first_message t r).
Proof.
  intros I [v V]. apply in_split in I. destruct I as (before & after & E).
  destruct (execute_invariant true net t r (fun _ h x => ms_headers x = h /\ ((exists v, In (B "authorization", v) h) -> same_end x (first_message t r)))) as [H _].
  - intros sent h x h' x' [Hh HP] [status body method content h1 p out N R O]. split; [reflexivity|]. intros [w W]. subst out. cbn [ms_place] in *.
    apply referer_in in W. destruct W as [W|W]; [|discriminate W]. destruct (same_server p (ms_place x)) eqn:S.
    + apply same_server_true in S. destruct S as [S1 S2]. assert (Q : same_end x (first_message t r)) by (apply HP; exists w; exact (redirected_headers _ _ _ _ _ _ _ _ R W)).
      destruct Q as [Q1 Q2]. split; cbn [ms_place]; congruence.
    + destruct (no_authorization _ _ W).
  - split; [reflexivity|]. intros _. split; reflexivity.
  - destruct (H _ _ _ E) as (hx & Hh & HP). apply HP. exists v. rewrite <- Hh. exact V.
Qed.

Theorem C78_token d c tr q r t net m : steps (run_call d c) tr q -> In r (asked tr) -> target_of d (rq_url r) = Some t ->
  In m (fst (execute true net t r)) -> bears_token m -> reaches m (B "iamcredentials.googleapis.com") 443.
Proof.
  intros H I T J V. assert (C : carries_token r).
  { destruct V as [v V]. exists v. apply in_split in J. destruct J as (before & after & E).
    destruct (execute_invariant true net t r (fun _ h x => forall v, (In (B "authorization", v) (ms_headers x) -> In (B "authorization", v) (rq_headers r)) /\
      (In (B "authorization", v) h -> In (B "authorization", v) (rq_headers r)))) as [K _].
    - intros sent h x h' x' HP [status body method content h1 p out N R O] w. destruct (HP w) as [_ HP']. subst out. cbn [ms_headers].
      match goal with |- ?A /\ _ => enough (G : A) by (split; exact G) end. intros W. apply referer_in in W. destruct W as [W|W]; [|discriminate W].
      apply HP'. apply (redirected_headers _ _ _ _ _ _ _ _ R). destruct (same_server p (ms_place x)); [exact W|]. destruct (no_authorization _ _ W).
    - intros w. split; intros W; exact W.
    - destruct (K _ _ _ E) as (hx & HP). destruct (HP v) as [HV _]. exact (HV V). }
  destruct (C72_server _ _ _ _ _ H I C) as (t' & T' & G1 & G2). rewrite T in T'. injection T' as <-.
  destruct (token_stays _ _ _ _ J V) as [E1 E2]. split; [rewrite E1|rewrite E2]; unfold first_message, place_of; rewrite G1, G2; reflexivity.
Qed.

(** Whether or not it puts them back: the message that first leaves a host for another is without token. *)
Theorem C78_hop remembers net t r a b : then_sent (fst (execute remembers net t r)) a b -> bears_token b -> same_end b a.
Proof.
  intros (before & after & E) [v V]. destruct (execute_invariant remembers net t r (fun _ _ _ => True) (fun _ _ _ _ _ _ _ => I) I) as [_ H].
  destruct (H _ _ _ _ E) as (hx & hy & _ & M). destruct M as [status body method content h' p out N R O]. subst out. cbn [ms_headers ms_place] in *.
  apply referer_in in V. destruct V as [V|V]; [|discriminate V]. destruct (same_server p (ms_place a)) eqn:S; [|destruct (no_authorization _ _ V)].
  apply same_server_true in S. destruct S as [S1 S2]. split; [exact S1|exact S2].
Qed.

(** The text to be signed is repeated only while every answer is 307 or 308, and unchanged. *)
Theorem C78_payload remembers net t r before m after content : rq_method r = B "POST" ->
  fst (execute remembers net t r) = before ++ m :: after -> ms_body m = Some content ->
  ms_method m = B "POST" /\ rq_body r = Some content /\ led_on net (before ++ [m]) repeats.
Proof.
  intros PM E Bm.
  destruct (execute_invariant remembers net t r (fun sent _ x => forall c, ms_body x = Some c -> ms_method x = B "POST" /\ rq_body r = Some c /\ led_on net (sent ++ [x]) repeats)) as [H _].
  - intros sent h x h' x' HP [status body method content' h1 p out N R O] c X. cbn [ms_body ms_method] in *. subst content'.
    assert (Q : ms_method x = method /\ ms_body x = Some c /\ repeats status).
    { destruct (ms_body x) as [c0|] eqn:Bx.
      - destruct (HP c0 eq_refl) as (Px & _ & _). unfold redirected in R. rewrite Px in R. change (str_eqb (B "POST") (B "POST")) with true in R.
        destruct (_ || _)%bool; [discriminate R|]. destruct (status =? 303)%N; [discriminate R|]. destruct (_ || _)%bool eqn:S; [|discriminate R].
        injection R as <- R <-. split; [exact Px|]. split; [congruence|]. apply orb_true_iff in S. unfold repeats. cbn [In].
        destruct S as [S|S]; apply N.eqb_eq in S; auto.
      - unfold redirected in R. destruct (_ || _)%bool; [destruct (str_eqb _ _); discriminate R|]. destruct (status =? 303)%N; [discriminate R|].
        destruct (_ || _)%bool; discriminate R. }
    destruct Q as (Qm & Qb & Qs). destruct (HP c Qb) as (P1 & P2 & P3). split; [congruence|]. split; [exact P2|].
    intros bf y nx af Z. destruct (exists_last (l := nx :: af)) as (w & z & Ez); [discriminate|].
    replace (bf ++ y :: nx :: af) with ((bf ++ [y]) ++ nx :: af) in Z by (rewrite <- app_assoc; reflexivity).
    rewrite Ez, app_assoc in Z. apply app_inj_tail in Z. destruct Z as [Z <-]. destruct w as [|w0 w].
    + cbn in Ez. injection Ez as -> ->. rewrite app_nil_r in Z. apply app_inj_tail in Z. destruct Z as [<- <-]. exists status, body. cbn [ms_place]. auto.
    + cbn in Ez. injection Ez as -> ->. apply (P3 bf y w0 w). rewrite Z, <- app_assoc. reflexivity.
  - intros c X. split; [exact PM|]. split; [exact X|]. intros bf y nx af Z. apply (f_equal (@length message)) in Z. rewrite !app_length in Z. cbn in Z. lia.
  - destruct (H _ _ _ E) as (hx & HP). exact (HP _ Bm).
Qed.

(** Messages that ask the metadata server, wherever they end up, are without token and content, and say what they are. *)
Theorem C78_metadata remembers net t base attribute m : In m (fst (execute remembers net t (metadata_request base attribute))) ->
  ms_method m = B "GET" /\ ms_body m = None /\ ~ bears_token m /\ In (B "Metadata-Flavor", B "Google") (ms_headers m).
Proof.
  intros I. apply in_split in I. destruct I as (before & after & E).
  assert (Keep : forall names h, ~ In (B "metadata-flavor") names -> In (B "Metadata-Flavor", B "Google") h -> In (B "Metadata-Flavor", B "Google") (without names h)).
  { intros names h N J. apply filter_In. split; [exact J|]. cbn [fst]. change (lower_str (B "Metadata-Flavor")) with (B "metadata-flavor").
    destruct (existsb _ names) eqn:X; [|reflexivity]. apply existsb_exists in X. destruct X as (z & Z & X). apply str_eqb_eq in X. subst z. contradiction. }
  assert (Keep2 : forall a b h, In (B "Metadata-Flavor", B "Google") h -> In (B "Metadata-Flavor", B "Google") (with_referer a b h)).
  { intros a b h J. unfold with_referer. destruct (_ && _)%bool; [exact J|]. apply in_or_app. left. apply Keep; [|exact J]. intros [X|[]]. discriminate X. }
  destruct (execute_invariant remembers net t (metadata_request base attribute) (fun _ h x => ms_method x = B "GET" /\ ms_body x = None /\
    (forall v, ~ In (B "authorization", v) (ms_headers x)) /\ In (B "Metadata-Flavor", B "Google") (ms_headers x) /\
    (forall v, ~ In (B "authorization", v) h) /\ In (B "Metadata-Flavor", B "Google") h)) as [H _].
  - intros sent h x h' x' (P1 & P2 & _ & _ & P5 & P6) [status body method content h1 p out N R O]. cbn [ms_method ms_body ms_headers].
    assert (R1 : method = B "GET" /\ content = None /\ In (B "Metadata-Flavor", B "Google") h1).
    { unfold redirected in R. rewrite P1, P2 in R. change (str_eqb (B "GET") (B "POST")) with false in R. change (str_eqb (B "GET") (B "HEAD")) with false in R. destruct (_ || _)%bool; [injection R as <- <- <-; auto|].
      destruct (status =? 303)%N; [injection R as <- <- <-; split; [reflexivity|]; split; [reflexivity|]; apply Keep; [|exact P6]|].
      - intros X. cbn [payload_names map In] in X. repeat destruct X as [X|X]; try discriminate X. exact X.
      - destruct (_ || _)%bool; [injection R as <- <- <-; auto|discriminate R]. }
    destruct R1 as (-> & -> & R3).
    assert (N1 : forall v, ~ In (B "authorization", v) h1) by (intros v X; apply (P5 v); exact (redirected_headers _ _ _ _ _ _ _ _ R X)).
    assert (N2 : forall v, ~ In (B "authorization", v) out).
    { intros v X. subst out. apply referer_in in X. destruct X as [X|X]; [|discriminate X]. destruct (same_server p (ms_place x)); [exact (N1 v X)|exact (no_authorization _ _ X)]. }
    assert (F2 : In (B "Metadata-Flavor", B "Google") out).
    { subst out. apply Keep2. destruct (same_server p (ms_place x)); [exact R3|]. apply Keep; [|exact R3].
      intros X. cbn [sensitive_names map In] in X. repeat destruct X as [X|X]; try discriminate X. exact X. }
    destruct remembers; auto 10.
  - cbn. repeat split; auto; intros v [X|[]]; discriminate X.
  - destruct (H _ _ _ E) as (hx & H1 & H2 & H3 & H4 & _). split; [exact H1|]. split; [exact H2|]. split; [intros [v V]; exact (H3 v V)|exact H4].
Qed.

(** * What redirects can do *)

(** A host that redirects every message to [p], until the message is one that [p] receives for the [n]-th time. *)
Definition sends_to (status : N) (p : place) (n : nat) (final : reply) (l : list message) : reply :=
  if Nat.ltb n (length l) then final else Reply status (Some (LAt p)) (Some []).

Definition other : place := {| pl_scheme := B "https"; pl_host := B "other.example"; pl_port := 443; pl_path := B "/" |}.
Definition plain : place := {| pl_scheme := B "http"; pl_host := B "iamcredentials.googleapis.com"; pl_port := 443; pl_path := B "/" |}.

Definition blob_place : destination := {| tg_scheme := B "https"; tg_authority := B "iamcredentials.googleapis.com";
  tg_url := {| u_path := sign_blob_path (B "sa@example.com"); u_query := None; u_fragment := None |} |}.

Lemma blob_place_ok d : target_of d (rq_url (sign_blob_request (B "sa@example.com") (B "token") (B "message"))) = Some blob_place.
Proof.
  destruct (C72_name d (B "sa@example.com") (B "token") (B "message")) as (t & E & P1 & P2 & P3).
  - apply Forall_forall. intros c I.
    assert (X : forallb (fun c => existsb (beq c) (B "ABCDEFGHIJKLMNOPQRSTUVWXYZabcdefghijklmnopqrstuvwxyz0123456789@.-_+")) (B "sa@example.com") = true) by reflexivity.
    rewrite forallb_forall in X. apply X in I. apply existsb_exists in I. destruct I as (x & J & E). destruct (beq_spec c x); [subst; exact J|discriminate E].
  - rewrite E. unfold sign_blob_request in E. cbn [rq_url] in E. rewrite blob_target in E. injection E as <-. cbn [tg_url] in *.
    unfold blob_place. do 2 f_equal. destruct (url_parse _ _) as [a b c]. cbn in P1, P2, P3. subst. reflexivity.
Qed.

(** "A message with the token goes to the signing service" is false for a client that takes the removed header back
    with the next redirect: two redirects suffice. *)
Theorem C78_token_refuted : exists email token message, forall d, exists t net m,
  target_of d (rq_url (sign_blob_request email token message)) = Some t /\
  In m (fst (execute false net t (sign_blob_request email token message))) /\ bears_token m /\ reaches m (B "other.example") 443.
Proof.
  exists (B "sa@example.com"), (B "token"), (B "message"). intros d.
  exists blob_place, (sends_to 307 other 2 (Reply 200 None (Some []))),
    {| ms_method := B "POST"; ms_place := other;
       ms_headers := [(B "authorization", B "Bearer token"); (B "content-type", B "application/json"); (B "referer", B "https://other.example/")];
       ms_body := rq_body (sign_blob_request (B "sa@example.com") (B "token") (B "message")) |}.
  split; [apply blob_place_ok|]. split; [vm_compute; auto|]. split; [eexists; left; reflexivity|split; reflexivity].
Qed.

(** "The token is sent over HTTPS" is false with either client: port 443 without TLS counts as the same server. *)
Theorem C78_plain_refuted : exists email token message, forall d remembers, exists t net m,
  target_of d (rq_url (sign_blob_request email token message)) = Some t /\
  In m (fst (execute remembers net t (sign_blob_request email token message))) /\ bears_token m /\ pl_scheme (ms_place m) = B "http".
Proof.
  exists (B "sa@example.com"), (B "token"), (B "message"). intros d remembers.
  exists blob_place, (sends_to 307 plain 1 (Reply 200 None (Some []))),
    {| ms_method := B "POST"; ms_place := plain;
       ms_headers := [(B "authorization", B "Bearer token"); (B "content-type", B "application/json")];
       ms_body := rq_body (sign_blob_request (B "sa@example.com") (B "token") (B "message")) |}.
  split; [apply blob_place_ok|]. split; [destruct remembers; vm_compute; auto|]. split; [eexists; left; reflexivity|reflexivity].
Qed.

(** "The text to be signed goes to the signing service" is false with either client, and the one who gets it learns from the
    referer for which account. *)
Theorem C78_payload_refuted : exists email token message, forall d remembers, exists t net m,
  target_of d (rq_url (sign_blob_request email token message)) = Some t /\
  In m (fst (execute remembers net t (sign_blob_request email token message))) /\ reaches m (B "other.example") 443 /\
  ms_body m = rq_body (sign_blob_request email token message) /\
  In (B "referer", B "https://iamcredentials.googleapis.com" ++ sign_blob_path email) (ms_headers m).
Proof.
  exists (B "sa@example.com"), (B "token"), (B "message"). intros d remembers.
  exists blob_place, (sends_to 308 other 1 (Reply 200 None (Some []))),
    {| ms_method := B "POST"; ms_place := other;
       ms_headers := [(B "content-type", B "application/json"); (B "referer", B "https://iamcredentials.googleapis.com" ++ sign_blob_path (B "sa@example.com"))];
       ms_body := rq_body (sign_blob_request (B "sa@example.com") (B "token") (B "message")) |}.
  split; [apply blob_place_ok|]. split; [destruct remembers; vm_compute; auto|]. split; [split; reflexivity|]. split; [reflexivity|]. right. left. reflexivity.
Qed.

(** "The token comes from the metadata server" is false: any server it redirects to may give one. *)
Theorem C78_source_refuted : exists base body, forall d remembers, exists t net m,
  target_of d (rq_url (metadata_request base (B "token"))) = Some t /\ goes_to t (B "http") (B "metadata.google.internal") /\
  sent_last (fst (execute remembers net t (metadata_request base (B "token")))) m /\ reaches m (B "other.example") 443 /\
  snd (execute remembers net t (metadata_request base (B "token"))) = HttpResponse 200 (Some body) /\
  access_token_from_str body <> None.
Proof.
  exists (B "http://metadata.google.internal"), (B "{""access_token"":""t"",""expires_in"":60,""token_type"":""Bearer""}"). intros d remembers.
  destruct (C73_metadata d (B "metadata.google.internal") (B "token")) as (t & E & G & P).
  - split; [discriminate|]. apply Forall_forall. intros c I.
    assert (X : forallb (fun c => existsb (beq c) (B "ABCDEFGHIJKLMNOPQRSTUVWXYZabcdefghijklmnopqrstuvwxyz0123456789.-_:[]")) (B "metadata.google.internal") = true) by reflexivity.
    rewrite forallb_forall in X. apply X in I. apply existsb_exists in I. destruct I as (x & J & E). destruct (beq_spec c x); [subst; exact J|discriminate E].
  - right. left. reflexivity.
  - exists t, (sends_to 302 other 1 (Reply 200 None (Some (B "{""access_token"":""t"",""expires_in"":60,""token_type"":""Bearer""}")))).
    destruct t as [sch au u]. destruct G as [G1 G2]. cbn in G1, G2. subst sch au. destruct P as (P1 & P2 & P3). destruct u as [path query fragment]. cbn in P1, P2, P3. subst.
    eexists. split; [exact E|]. split; [split; reflexivity|]. split; [destruct remembers; vm_compute; eexists [_]; reflexivity|].
    split; [split; reflexivity|]. split; [destruct remembers; vm_compute; reflexivity|vm_compute; discriminate].
Qed.

(** * Examples *)

Definition moved : place := {| pl_scheme := B "https"; pl_host := B "iamcredentials.googleapis.com"; pl_port := 443; pl_path := B "/v2" |}.

(** A network that leads from the signing service to another of its paths, on to another host, within that host, and there asks for a GET. *)
Definition tour (l : list message) : reply :=
  match length l with
  | 1%nat => Reply 307 (Some (LAt moved)) (Some [])
  | 2%nat | 3%nat => Reply 308 (Some (LAt other)) (Some [])
  | 4%nat => Reply 303 (Some (LAt other)) (Some [])
  | _ => Reply 200 None (Some (B "body"))
  end.

(** What the five messages show of each client: the host, whether there is a token, whether there is content. *)
Definition shown (m : message) : str * bool * bool :=
  (pl_host (ms_place m), existsb (fun kv => str_eqb (fst kv) (B "authorization")) (ms_headers m), match ms_body m with Some _ => true | None => false end).

Example C78_tour :
  let go remembers := execute remembers tour blob_place (sign_blob_request (B "sa@example.com") (B "token") (B "message")) in
  let iam := B "iamcredentials.googleapis.com" in let oth := B "other.example" in
  map shown (fst (go true)) = [(iam, true, true); (iam, true, true); (oth, false, true); (oth, false, true); (oth, false, false)] /\
  map shown (fst (go false)) = [(iam, true, true); (iam, true, true); (oth, false, true); (oth, true, true); (oth, true, false)] /\
  snd (go true) = HttpResponse 200 (Some (B "body")) /\
  map ms_method (fst (go true)) = map B ["POST"; "POST"; "POST"; "POST"; "GET"]%string.
Proof. vm_compute. repeat split. Qed.

(** A network that never ends. *)
Example C78_endless remembers : let l := execute remembers (fun _ => Reply 302 (Some (LAt other)) None) blob_place (sign_blob_request (B "sa@example.com") (B "token") (B "message")) in
  length (fst l) = 11%nat /\ snd l = HttpFailed.
Proof. destruct remembers; vm_compute; split; reflexivity. Qed.

(** ** Host and port of an authority *)

Lemma span_app ds c h : digits ds -> is_digit c = false -> span_digits (ds ++ c :: h) = (ds, c :: h).
Proof.
  intros D N. induction D as [|x ds Hx D IH]; cbn [app span_digits]; [rewrite N; reflexivity|].
  assert (is_digit x = true) as -> by (unfold is_digit, in_range; apply andb_true_iff; rewrite !N.leb_le; exact Hx). rewrite IH. reflexivity.
Qed.
Lemma span_spec s : let '(ds, r) := span_digits s in s = ds ++ r /\ digits ds /\ (r = [] \/ exists c h, r = c :: h /\ is_digit c = false).
Proof.
  induction s as [|c s IH]; cbn [span_digits]; [split; [reflexivity|]; split; [constructor|auto]|]. destruct (is_digit c) eqn:D.
  - destruct (span_digits s) as [ds r]. destruct IH as (-> & F & R). split; [reflexivity|]. split; [|exact R]. constructor; [|exact F].
    unfold is_digit, in_range in D. apply andb_true_iff in D. rewrite !N.leb_le in D. exact D.
  - split; [reflexivity|]. split; [constructor|]. eauto.
Qed.
Lemma after_user_none a : ~ In "@" a -> after_user a = a.
Proof.
  intros N. destruct a as [|c a]; [reflexivity|]. cbn [after_user]. destruct (existsb (beq "@") (c :: a)) eqn:E; [|reflexivity].
  apply existsb_exists in E. destruct E as (x & I & E). apply beq_eq in E. subst x. contradiction.
Qed.
Lemma after_user_part u a : user_part u -> ~ In "@" a -> after_user (u ++ a) = a.
Proof.
  intros [->|[n ->]] N; [apply after_user_none; exact N|]. induction n as [|c n IH].
  - cbn [app after_user existsb]. apply after_user_none. exact N.
  - cbn [app after_user]. assert (existsb (beq "@") (c :: (n ++ ["@"]) ++ a) = true) as ->; [|exact IH].
    apply existsb_exists. exists "@". split; [|reflexivity]. right. apply in_or_app. left. apply in_or_app. right. left. reflexivity.
Qed.
Lemma digits_rev ds : digits ds -> digits (rev ds).
Proof. apply Forall_rev. Qed.
Lemma valued_undec ds n : valued ds n -> undec_acc 0 ds = Some n.
Proof.
  induction 1 as [|ds c n V IH R]; [reflexivity|]. rewrite undec_acc_app, IH. cbn [undec_acc].
  assert (is_digit c = true) as -> by (unfold is_digit, in_range; apply andb_true_iff; rewrite !N.leb_le; exact R). reflexivity.
Qed.
Lemma valued_digits ds n : valued ds n -> digits ds.
Proof. induction 1 as [|ds c n V IH R]; [constructor|]. apply Forall_app. split; [exact IH|]. constructor; [exact R|constructor]. Qed.
Lemma usual_default scheme n : usual_port scheme n -> default_port scheme = n.
Proof. intros []; reflexivity. Qed.

(** The client reads every authority as the standard does: what follows the last at sign, up to a port. *)
Theorem C78_authority t user host ds p usual : usual_port (tg_scheme t) usual -> user_part user ->
  (tg_authority t = user ++ host -> portless host -> pl_host (place_of t) = lower_str host /\ pl_port (place_of t) = usual) /\
  (tg_authority t = user ++ host ++ ":" :: ds -> ~ In "@" host -> valued ds p ->
   pl_host (place_of t) = lower_str host /\ (ds <> [] -> pl_port (place_of t) = p) /\ (ds = [] -> pl_port (place_of t) = usual)).
Proof.
  intros Us U. apply usual_default in Us. split.
  - intros E [N P]. unfold place_of, host_port. rewrite E, after_user_part by assumption. pose proof (span_spec (rev host)) as Sp. destruct (span_digits (rev host)) as [d r].
    destruct Sp as (Eh & D & R). destruct R as [->|(c & h & -> & C)]; [cbn; auto|]. destruct (beq_spec c ":") as [->|_]; [|cbn; auto].
    exfalso. apply (P (rev h) (rev d) (digits_rev _ D)). rewrite <- (rev_involutive host), Eh, rev_app_distr. cbn [rev]. rewrite <- app_assoc. reflexivity.
  - intros E N V. pose proof (valued_digits _ _ V) as D. assert (N' : ~ In "@" (host ++ ":" :: ds)).
    { intros I. apply in_app_or in I. destruct I as [I|[I|I]]; [contradiction|discriminate I|]. unfold digits in D. rewrite Forall_forall in D. specialize (D _ I). cbn in D. lia. }
    unfold place_of, host_port. rewrite E, after_user_part by assumption. rewrite rev_app_distr. cbn [rev]. rewrite <- app_assoc. cbn [app].
    rewrite span_app by (apply digits_rev, D || reflexivity). cbn [beq]. rewrite !rev_involutive. change (beq ":" ":") with true. cbn [pl_host pl_port].
    split; [reflexivity|]. split; [|intros ->; exact Us]. intros Nd. apply valued_undec in V. unfold undec. destruct ds as [|x ds]; [congruence|]. rewrite V. reflexivity.
Qed.

Example C78_authority_case : let t a := {| tg_scheme := B "https"; tg_authority := a; tg_url := tg_url blob_place |} in
  usual_port (tg_scheme (t [])) 443 /\ user_part (B "u:1@") /\ portless (B "12345") /\ valued (B "8080") 8080 /\
  pl_port (place_of (t (B "u:1@" ++ B "12345"))) = 443%N /\ pl_port (place_of (t (B "u:1@" ++ B "Host" ++ ":" :: B "8080"))) = 8080%N.
Proof.
  intros t. split; [constructor|]. split; [right; exists (B "u:1"); reflexivity|]. split.
  - split; [intros I; cbn in I; intuition discriminate|]. intros h ds _ E. assert (I : In ":" (B "12345")) by (rewrite E; apply in_or_app; right; left; reflexivity). cbn in I. intuition discriminate.
  - split; [|split; vm_compute; reflexivity]. apply (va_snoc (B "808") "0" 808); [|vm_compute; split; discriminate]. apply (va_snoc (B "80") "8" 80); [|vm_compute; split; discriminate].
    apply (va_snoc (B "8") "0" 8); [|vm_compute; split; discriminate]. apply (va_snoc [] "8" 0); [constructor|vm_compute; split; discriminate].
Qed.

(** Reading host and port. *)
Example C78_places :
  host_port (B "http") (B "[fd20:ce::254]:8080") = (B "[fd20:ce::254]", 8080%N) /\ host_port (B "http") (B "[fd20:ce::254]") = (B "[fd20:ce::254]", 80%N) /\
  host_port (B "https") (B "u:1@Host.Example:") = (B "host.example", 443%N) /\ host_port (B "http") (B "169.254.169.254") = (B "169.254.169.254", 80%N).
Proof. vm_compute. repeat split. Qed.

(** The hypotheses of [C78_token], in a run of a form; of [C78_hop] and [C78_payload], on the tour. *)
Example C78_case : exists tr q r t net m, steps (run_call demo_deps demo_bound_form) tr q /\ In r (asked tr) /\ target_of demo_deps (rq_url r) = Some t /\
  In m (fst (execute true net t r)) /\ bears_token m.
Proof.
  destruct C72_case as (tr & q & r & S & I & [v V]). destruct (C72_server _ _ _ _ _ S I (ex_intro _ v V)) as (t & T & _).
  exists tr, q, r, t, tour, (first_message t r). split; [exact S|]. split; [exact I|]. split; [exact T|].
  destruct (C78_count true tour t r) as [_ [after ->]]. split; [left; reflexivity|]. exists v. exact V.
Qed.

Example C78_hop_case : exists a b before after content,
  let r := sign_blob_request (B "sa@example.com") (B "token") (B "message") in
  then_sent (fst (execute true tour blob_place r)) a b /\ bears_token b /\ rq_method r = B "POST" /\
  fst (execute true tour blob_place r) = before ++ b :: after /\ ms_body b = Some content /\ before <> [].
Proof.
  destruct (fst (execute true tour blob_place (sign_blob_request (B "sa@example.com") (B "token") (B "message")))) as [|a [|b after]] eqn:E; [vm_compute in E; discriminate E..|].
  exists a, b, [a], after, (match ms_body b with Some c => c | None => [] end). cbv zeta. rewrite E.
  assert (Eb : b = nth 1 (a :: b :: after) b) by reflexivity. rewrite <- E in Eb.
  split; [exists [], after; reflexivity|]. split; [exists (B "Bearer token"); rewrite Eb; vm_compute; auto|]. split; [reflexivity|]. split; [reflexivity|].
  split; [rewrite Eb; vm_compute; reflexivity|discriminate].
Qed.
