(** C57: which requests an operation sends, and in which order. *)
From Verif Require Import Base BaseFacts Time Json Effects EffectsFacts Keys HtmlForm SignedUrl Calls
  SpecToken TokenFacts SpecTrace KeysFacts CallFacts SpecRequests Demo.
Local Open Scope Z_scope.

Lemma asked_app a b : asked (a ++ b) = asked a ++ asked b.
Proof. apply flat_map_app. Qed.

Lemma beginning_app {A} (l w r : list A) : beginning l w -> beginning l (w ++ r).
Proof. intros [x ->]. exists (x ++ r). rewrite app_assoc. reflexivity. Qed.
Lemma beginning_under {A} (p l w : list A) : beginning l w -> beginning (p ++ l) (p ++ w).
Proof. intros [x ->]. exists x. rewrite app_assoc. reflexivity. Qed.

Lemma pre_asked c pre : not_served c pre -> asked pre = [].
Proof. intros [[_ ->]|(? & ? & ? & ? & _ & -> & _)]; reflexivity. Qed.

Section lookups.
  Context (d : deps) (bt : bound_token).
  Local Notation base := (bt_base_url bt).
  Local Notation both := [metadata_request base (B "email"); metadata_request base (B "token")].

  Lemma lookup_asked email token l : lookup (bt_id bt) base email token l -> lookup_asks base (asked l).
  Proof.
    intros [expires now _|c pre expires l' N (o1 & o2 & body & n & now & _ & _ & _ & _ & ->)]; [left; reflexivity|right].
    change (asked (VLock (bt_id bt) :: VGet (bt_id bt) c :: ?x)) with (asked x). cbn [asked flat_map app].
    change (flat_map _ (pre ++ ?x)) with (asked (pre ++ x)). rewrite asked_app, (pre_asked _ _ N). reflexivity.
  Qed.

  Lemma failure_asked e1 e2 e3 e4 e5 r tr e : request_failure d e1 e2 e3 e4 e5 r tr e -> beginning (asked tr) [r].
  Proof. intros [ | | | | ]; [exists [r]; reflexivity|exists []; reflexivity|exists []; reflexivity|exists []; reflexivity|exists []; reflexivity]. Qed.

  Lemma refresh_failure_asked tr e : refresh_failure d bt tr e -> beginning (asked tr) both.
  Proof.
    rewrite <- email_request_spec, <- token_request_spec.
    intros [tr' e' F|o1 email tr' e' _ F|o1 email o2 body _ _ _|o1 email o2 body t n y _ _ _ _].
    - apply failure_asked in F. apply (beginning_app _ [email_request bt]). exact F.
    - apply failure_asked in F. change (asked (VHttp (email_request bt) o1 :: tr')) with ([email_request bt] ++ asked tr').
      apply (beginning_under [email_request bt] _ [token_request bt]). exact F.
    - exists []. reflexivity.
    - exists []. reflexivity.
  Qed.

  Lemma refresh_run_asked tr q : refresh_run d bt tr q -> beginning (asked tr) both.
  Proof.
    intros H. rewrite <- email_request_spec, <- token_request_spec. destruct H as [k|o1 email k _|tr e F|o1 em o2 b t n k _ _ _|o1 em o2 b t n now _ _ _ _|o1 em o2 b t n now k _ _ _ _|email t expires l R].
    - exists [email_request bt; token_request bt]. reflexivity.
    - exists [token_request bt]. reflexivity.
    - rewrite email_request_spec, token_request_spec. eapply refresh_failure_asked; exact F.
    - exists []. reflexivity.
    - exists []. reflexivity.
    - exists []. reflexivity.
    - destruct R as (o1 & o2 & body & n & now & _ & _ & _ & _ & ->). rewrite email_request_spec, token_request_spec. exists []. reflexivity.
  Qed.

  Lemma locked_run_asked tr q : locked_run d bt tr q -> exists l, lookup_asks base l /\ beginning (asked tr) l.
  Proof.
    intros [k|email token expires k _|email token expires _|email token expires now _ _|email token expires now _ _|c pre tr' q' N R _ _].
    1-5: exists []; split; [left; reflexivity|exists []; reflexivity].
    exists both. split; [right; reflexivity|]. apply refresh_run_asked in R.
    change (asked (VGet (bt_id bt) c :: pre ++ tr')) with (asked (pre ++ tr')). rewrite asked_app, (pre_asked _ _ N). exact R.
  Qed.

  Lemma get_run_asked tr q : get_run d bt tr q -> exists l, lookup_asks base l /\ beginning (asked tr) l.
  Proof.
    intros [k|tr' q' L _|tr' r L|tr' r L].
    - exists []. split; [left; reflexivity|exists []; reflexivity].
    - apply locked_run_asked in L. exact L.
    - apply locked_run_asked in L. exact L.
    - apply locked_run_asked in L. change (asked (VLock (bt_id bt) :: tr' ++ [VUnlock (bt_id bt)])) with (asked (tr' ++ [VUnlock (bt_id bt)])).
      rewrite asked_app. cbn [asked flat_map]. rewrite app_nil_r. exact L.
  Qed.

  Lemma sign_run_asked m tr q : sign_run d bt m tr q ->
    exists l s, lookup_asks base l /\ sign_asks s /\ beginning (asked tr) (l ++ s).
  Proof.
    assert (S : forall em tk, sign_asks [sign_blob_request em tk m]) by (intros em tk; exists em, tk, m; eexists; split; [reflexivity|apply sign_blob_request_spec]).
    intros [tr' q' p G _ _ _ _|tr' e L|tr' em tk k L|tr' tr'' em tk e L F|tr' em tk o bd e L _ _ _|tr' em tk o bd sig L _ _].
    - apply get_run_asked in G. destruct G as (l & A & P). exists l, [sign_blob_request [] [] m]. split; [exact A|]. split; [apply S|]. apply beginning_app, P.
    - destruct L as [c pre l e N F]. exists both, [sign_blob_request [] [] m]. split; [right; reflexivity|]. split; [apply S|]. apply beginning_app.
      apply refresh_failure_asked in F. change (asked (VLock (bt_id bt) :: VGet (bt_id bt) c :: ?x)) with (asked x).
      change (beginning (asked (pre ++ l ++ [VUnlock (bt_id bt)])) both). rewrite !asked_app, (pre_asked _ _ N). cbn [asked flat_map app]. rewrite app_nil_r. exact F.
    - apply lookup_asked in L. exists (asked tr'), [sign_blob_request em tk m]. split; [exact L|]. split; [apply S|]. exists [sign_blob_request em tk m]. reflexivity.
    - apply lookup_asked in L. apply failure_asked in F. exists (asked tr'), [sign_blob_request em tk m]. split; [exact L|]. split; [apply S|].
      rewrite asked_app. apply beginning_under, F.
    - apply lookup_asked in L. exists (asked tr'), [sign_blob_request em tk m]. split; [exact L|]. split; [apply S|]. rewrite asked_app. exists []. rewrite app_nil_r. reflexivity.
    - apply lookup_asked in L. exists (asked tr'), [sign_blob_request em tk m]. split; [exact L|]. split; [apply S|]. rewrite asked_app. exists []. rewrite app_nil_r. reflexivity.
  Qed.
End lookups.

(** At any point of any execution, the requests sent so far are a beginning of: a lookup, a second lookup, one
    signBlob request.  Without a bound token there are none. *)
Theorem C57_requests d c tr q : steps (run_call d c) tr q ->
  asked tr = [] \/
  exists bt l1 l2 s, call_key c = Some (KBoundToken bt) /\
    lookup_asks (bt_base_url bt) l1 /\ lookup_asks (bt_base_url bt) l2 /\ sign_asks s /\
    beginning (asked tr) (l1 ++ l2 ++ s).
Proof.
  intros H. apply call_parts in H. destruct H as (pre & t1 & t2 & -> & P & B).
  assert (A : asked pre = []) by (destruct P as [->|[_ [t ->]]]; reflexivity).
  rewrite !asked_app, A. cbn [app]. destruct B as [[-> ->]|(bt & K & B)]; [left; reflexivity|]. right. exists bt.
  destruct B as [(-> & p & G)|(_ & em & tk & m & p & L & G)].
  - apply get_run_asked in G. destruct G as (l & X & Y). exists l, [], [sign_blob_request [] [] []]. split; [exact K|]. split; [exact X|].
    split; [left; reflexivity|]. split; [exists [], [], []; eexists; split; [reflexivity|apply sign_blob_request_spec]|].
    cbn [asked flat_map]. rewrite app_nil_r. apply beginning_app, Y.
  - apply lookup_asked in L. apply sign_run_asked in G. destruct G as (l & s & X & Y & Z).
    exists (asked t1), l, s. split; [exact K|]. split; [exact L|]. split; [exact X|]. split; [exact Y|]. apply beginning_under, Z.
Qed.

(** So an operation sends at most five requests, and nothing after a signBlob request. *)
Theorem C57_bound d c tr q : steps (run_call d c) tr q ->
  (length (asked tr) <= 5)%nat /\
  (forall a r b, asked tr = a ++ r :: b -> is_sign_blob r -> b = []) /\
  (forall base attribute, In attribute [B "email"; B "token"] ->
     (length (filter (fun r => str_eqb (rq_url r) (rq_url (metadata_request base attribute))) (asked tr)) <= 2)%nat).
Proof.
  intros H. apply C57_requests in H. destruct H as [->|(bt & l1 & l2 & s & _ & A1 & A2 & (em & tk & m & r & -> & Sr) & [rest E])].
  { split; [cbn; lia|]. split; [intros [|? ?] ? ? E _; discriminate E|]. intros. cbn. lia. }
  assert (M : forall l, lookup_asks (bt_base_url bt) l -> (length l <= 2)%nat /\ forall x, In x l -> is_metadata x).
  { intros l [->| ->]; [split; [cbn; lia|intros x []]|]. split; [cbn; lia|]. intros x [<-|[<-|[]]]; eexists; eexists; (split; [|reflexivity]); cbn; auto. }
  destruct (M _ A1) as [L1 M1]. destruct (M _ A2) as [L2 M2]. split; [|split].
  - apply (f_equal (@length request)) in E. rewrite !app_length in E. cbn [length] in E. lia.
  - intros a r' b E' Hs. rewrite E' in E. rewrite <- app_assoc in E. cbn [app] in E.
    destruct b as [|x b]; [reflexivity|exfalso].
    assert (I : In r' (l1 ++ l2)).
    { assert (K : (length a < length (l1 ++ l2))%nat).
      { apply (f_equal (@length request)) in E. rewrite !app_length in E. cbn [length] in E. rewrite !app_length in E. cbn [length] in E. rewrite app_length. lia. }
      rewrite app_assoc in E. apply (f_equal (fun l => nth_error l (length a))) in E.
      rewrite nth_error_app1 in E by exact K. rewrite (nth_error_app2 a) in E by lia. rewrite Nat.sub_diag in E. cbn in E. eapply nth_error_In; exact E. }
    apply (kinds_differ _ Hs). apply in_app_or in I. destruct I; auto.
  - intros base attribute At. set (f := fun r => str_eqb (rq_url r) (rq_url (metadata_request base attribute))).
    assert (Fl : forall l, lookup_asks (bt_base_url bt) l -> (length (filter f l) <= 1)%nat).
    { intros l [->| ->]; [cbn; lia|]. cbn [filter]. unfold f.
      destruct (str_eqb_spec (rq_url (metadata_request (bt_base_url bt) (B "email"))) (rq_url (metadata_request base attribute))) as [X|];
      destruct (str_eqb_spec (rq_url (metadata_request (bt_base_url bt) (B "token"))) (rq_url (metadata_request base attribute))) as [Y|]; cbn; try lia.
      exfalso. rewrite <- X in Y. cbn [rq_url metadata_request] in Y. apply app_inv_head in Y. apply app_inv_head in Y. discriminate Y. }
    assert (G : (length (filter f (asked tr)) <= length (filter f (l1 ++ l2 ++ [r])))%nat).
    { rewrite E, filter_app, app_length. lia. }
    rewrite !filter_app, !app_length in G. pose proof (Fl _ A1). pose proof (Fl _ A2).
    assert (X : filter f [r] = []).
    { cbn [filter]. unfold f. destruct (str_eqb_spec (rq_url r) (rq_url (metadata_request base attribute))) as [X|]; [exfalso|reflexivity].
      destruct Sr as (_ & U & _). apply (kinds_differ r); [exists em; exact U|]. exists base, attribute. split; [exact At|exact X]. }
    rewrite X in G. cbn [length] in G. lia.
Qed.

(** A successful operation with a bound token is exactly: a clock reading if no time was given, two lookups, and
    one answered signBlob request with email and token of the second lookup. *)
Theorem C57_success d c tr a bt : returns (run_call d c) tr a -> answer_ok a = true -> call_key c = Some (KBoundToken bt) ->
  exists clock l1 l2 email token email' token' message r o body sig,
    tr = clock ++ l1 ++ l2 ++ [VHttp r o] /\
    (clock = [] \/ call_accessible_at c = None /\ exists t, clock = [VNow t]) /\
    lookup (bt_id bt) (bt_base_url bt) email token l1 /\ lookup (bt_id bt) (bt_base_url bt) email' token' l2 /\
    sign_blob_call email' token' message r /\ answered o body /\ blob_body body sig.
Proof.
  intros H O K. destruct (call_ok d c tr a _ H O K) as (pre & tr' & -> & P & email & sig & m & t1 & t2 & H1 & H2 & ->).
  apply auth_ok in H1. destruct H1 as [token H1]. apply get_ok in H1. cbn [sign] in H2. destruct (call_use_sign_blob c).
  2:{ apply returns_ret_inv in H2. destruct H2 as [_ H2]. discriminate H2. }
  apply returns_bind_ok_inv in H2. destruct H2 as [(x & t3 & t4 & H3 & H2 & ->)|(e & _ & E)]; [|discriminate E].
  apply returns_ret_inv in H2. destruct H2 as [-> _]. rewrite app_nil_r.
  apply bound_token_sign_steps in H3. inversion H3 as [? ? ? ? ? ? NR| | | | |l2 em tk o bd sig' L A Bb]; subst; [destruct (NR _ eq_refl)|].
  exists pre, t1, l2, email, token, em, tk, m, (sign_blob_request em tk m), o, bd, x.
  split; [reflexivity|]. split; [exact P|]. split; [exact H1|]. split; [exact L|]. split; [apply sign_blob_request_spec|]. auto.
Qed.

(** A form with an empty cache: one refresh, a hit, one signBlob request. *)
Example C57_case :
  let p := run_call demo_deps demo_bound_form in let tr := fst (play p demo_run) in
  exists a, returns p tr a /\ answer_ok a = true /\ call_key demo_bound_form = Some (KBoundToken demo_token) /\ length (asked tr) = 3%nat.
Proof.
  cbv zeta. destruct (snd (play (run_call demo_deps demo_bound_form) demo_run)) as [a| |] eqn:E; [|vm_compute in E; discriminate E|vm_compute in E; discriminate E].
  exists a. split; [apply play_returns; exact E|]. vm_compute in E. injection E as <-. split; [reflexivity|]. split; [reflexivity|]. vm_compute. reflexivity.
Qed.
