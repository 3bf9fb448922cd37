(** Where a failed metadata response can stand in an execution. *)
From Verif Require Import Base BaseFacts Time Json Effects EffectsFacts Keys Scope Url HtmlForm SignedUrl Calls
  SpecToken TokenFacts SpecTrace KeysFacts CallFacts Discipline.
Local Open Scope Z_scope.

Definition fine (v : event) : Prop := forall r o, v = VHttp r o -> ~ refresh_failed r o.

Lemma fine_other v : (forall r o, v <> VHttp r o) -> fine v.
Proof. intros H r o E. destruct (H r o E). Qed.

Lemma email_not_token b1 b2 : metadata_request b1 (B "email") <> metadata_request b2 (B "token").
Proof.
  intros E. apply (f_equal (fun r => last (rq_url r) x00)) in E. cbn [rq_url metadata_request] in E.
  rewrite !app_assoc in E. rewrite !last_app_cons in E by discriminate. discriminate E.
Qed.

Lemma fine_email bt o em : answered o em -> fine (VHttp (email_request bt) o).
Proof.
  intros A r o' E. injection E as <- <-. intros [_ [N|(base & body & Er & _)]]; [exact (N _ A)|].
  rewrite email_request_spec in Er. exact (email_not_token _ _ Er).
Qed.

Lemma answered_fun o b1 b2 : answered o b1 -> answered o b2 -> b1 = b2.
Proof. intros (s1 & _ & ->) (s2 & _ & E). injection E as _ ->. reflexivity. Qed.

Lemma fine_token bt o body t n : answered o body -> token_body body t n (B "Bearer") -> fine (VHttp (token_request bt) o).
Proof.
  intros A T r o' E. injection E as <- <-. intros [_ [N|(base & body' & _ & A' & N)]]; [exact (N _ A)|].
  rewrite (answered_fun _ _ _ A' A) in N. exact (N _ _ T).
Qed.

Lemma fine_blob email token m o : fine (VHttp (sign_blob_request email token m) o).
Proof. intros r o' E. injection E as <- <-. intros [M _]. exact (kinds_differ _ (sign_blob_request_is _ _ _) M). Qed.

Definition stops (tr : list event) : Prop := exists l v, tr = l ++ [v] /\ Forall fine l /\ Forall outside tr.

Lemma request_failure_stops d e1 e2 e3 e4 e5 r tr e : request_failure d e1 e2 e3 e4 e5 r tr e -> tr = [] \/ exists o, tr = [VHttp r o].
Proof. intros H. destruct H; eauto. Qed.

Lemma refresh_failure_stops d bt tr e : refresh_failure d bt tr e -> Forall fine tr \/ stops tr.
Proof.
  intros H. destruct H as [tr e F|o1 em tr e A F|o1 em o2 body A1 A2 N|o1 em o2 body t n y A1 A2 T N].
  - apply request_failure_stops in F. destruct F as [->|[o ->]]; [left; constructor|].
    right. exists [], (VHttp (email_request bt) o). repeat constructor.
  - apply request_failure_stops in F. destruct F as [->|[o ->]].
    + left. constructor; [eapply fine_email; exact A|constructor].
    + right. eexists [_], _. split; [reflexivity|]. split; [constructor; [eapply fine_email; exact A|constructor]|repeat constructor].
  - right. eexists [_], _. split; [reflexivity|]. split; [constructor; [eapply fine_email; exact A1|constructor]|repeat constructor].
  - right. eexists [_], _. split; [reflexivity|]. split; [constructor; [eapply fine_email; exact A1|constructor]|repeat constructor].
Qed.

Ltac fines := repeat (constructor; [first [eapply fine_email; eassumption|eapply fine_token; eassumption|apply fine_other; discriminate]|]); constructor.

Lemma refreshed_fine bt em tk x l : refreshed (bt_id bt) (bt_base_url bt) em tk x l -> Forall fine l.
Proof.
  intros (o1 & o2 & body & n & now & A1 & A2 & T & _ & ->). rewrite <- email_request_spec, <- token_request_spec. fines.
Qed.

Lemma refresh_run_stops d bt tr q : refresh_run d bt tr q -> Forall fine tr \/ stops tr.
Proof.
  intros H. destruct H as [k|o1 em k A|tr e F|o1 em o2 body t n k A1 A2 T|o1 em o2 body t n now A1 A2 T O|o1 em o2 body t n now k A1 A2 T O|em t x l R].
  - left; constructor.
  - left; fines.
  - apply (refresh_failure_stops d bt tr e). exact F.
  - left; fines.
  - left; fines.
  - left; fines.
  - left. eapply refreshed_fine; exact R.
Qed.

Lemma not_served_fine c pre : not_served c pre -> Forall fine pre /\ Forall outside pre.
Proof.
  intros [[_ ->]|(em & tk & x & now & _ & -> & _)]; split; repeat constructor. apply fine_other; discriminate.
Qed.

(** The trace of a lookup that met a failed response. *)
Definition lookup_stops (id : N) (tr : list event) : Prop :=
  exists c l v, Forall fine l /\ Forall outside (l ++ [v]) /\
    (tr = VLock id :: VGet id c :: l ++ [v] \/ tr = VLock id :: VGet id c :: l ++ [v; VUnlock id]).

Lemma locked_run_stops d bt tr q : locked_run d bt tr q -> Forall fine tr \/
  exists c l v, tr = VGet (bt_id bt) c :: l ++ [v] /\ Forall fine l /\ Forall outside (l ++ [v]).
Proof.
  intros H. destruct H as [k|e t x k Hx|e t x Hx|e t x now Hx Hn|e t x now Hn Hx|c pre tr q N R _ _]; try (left; fines).
  destruct (not_served_fine _ _ N) as [Fp Op]. apply refresh_run_stops in R. destruct R as [R|(l & v & -> & Fl & Ol)].
  - left. constructor; [apply fine_other; discriminate|]. apply Forall_app. auto.
  - right. exists c, (pre ++ l), v. rewrite <- app_assoc. split; [reflexivity|]. split; apply Forall_app; auto.
Qed.

Lemma get_run_stops d bt tr q : get_run d bt tr q -> Forall fine tr \/ lookup_stops (bt_id bt) tr.
Proof.
  intros H. destruct H as [k|tr q L Hn|tr r' L|tr r' L].
  - left; constructor.
  - apply locked_run_stops in L. destruct L as [L|(c & l & v & -> & F & O)]; [left; constructor; [apply fine_other; discriminate|exact L]|].
    right. exists c, l, v. auto.
  - apply locked_run_stops in L. destruct L as [L|(c & l & v & -> & F & O)]; [left; constructor; [apply fine_other; discriminate|exact L]|].
    right. exists c, l, v. auto.
  - apply locked_run_stops in L. destruct L as [L|(c & l & v & -> & F & O)].
    + left; constructor; [apply fine_other; discriminate|]. apply Forall_app. split; [exact L|fines].
    + right. exists c, l, v. split; [exact F|]. split; [exact O|]. right. cbn [app]. rewrite <- app_assoc. reflexivity.
Qed.

Lemma lookup_fine bt em tk tr : lookup (bt_id bt) (bt_base_url bt) em tk tr -> Forall fine tr.
Proof.
  intros H. destruct H as [x now Hx|c pre x l N R]; [fines|].
  destruct (not_served_fine _ _ N) as [Fp _]. apply refreshed_fine in R.
  constructor; [apply fine_other; discriminate|]. constructor; [apply fine_other; discriminate|].
  apply Forall_app. split; [exact Fp|]. apply Forall_app. split; [exact R|fines].
Qed.

Lemma lookup_failure_stops d bt tr e : lookup_failure d bt tr e -> Forall fine tr \/ lookup_stops (bt_id bt) tr.
Proof.
  intros H. destruct H as [c pre tr e N R]. destruct (not_served_fine _ _ N) as [Fp Op].
  apply refresh_failure_stops in R. destruct R as [R|(l & v & -> & Fl & Ol)].
  - left. constructor; [apply fine_other; discriminate|]. constructor; [apply fine_other; discriminate|].
    apply Forall_app. split; [exact Fp|]. apply Forall_app. split; [exact R|fines].
  - right. exists c, (pre ++ l), v. split; [apply Forall_app; auto|].
    split; [rewrite <- app_assoc; apply Forall_app; auto|]. right. rewrite <- !app_assoc. reflexivity.
Qed.

Lemma sign_run_stops d bt m tr q : sign_run d bt m tr q -> Forall fine tr \/ lookup_stops (bt_id bt) tr.
Proof.
  intros G. destruct G as [tr' q' p G|tr' e G|tr' em' tk' k G|tr' tr'' em' tk' e G F|tr' em' tk' o' bd e G A NB' He|tr' em' tk' o' bd sig G A Bb].
  - eapply get_run_stops; exact G.
  - eapply lookup_failure_stops; exact G.
  - left. eapply lookup_fine; exact G.
  - left. apply Forall_app. split; [eapply lookup_fine; exact G|]. apply request_failure_stops in F.
    destruct F as [->|[o ->]]; [constructor|]. constructor; [apply fine_blob|constructor].
  - left. apply Forall_app. split; [eapply lookup_fine; exact G|]. constructor; [apply fine_blob|constructor].
  - left. apply Forall_app. split; [eapply lookup_fine; exact G|]. constructor; [apply fine_blob|constructor].
Qed.

Lemma call_stops d c tr q : steps (run_call d c) tr q -> Forall fine tr \/
  exists bt pre tr', call_key c = Some (KBoundToken bt) /\ tr = pre ++ tr' /\ Forall fine pre /\ lookup_stops (bt_id bt) tr'.
Proof.
  intros H. apply call_parts in H. destruct H as (pre & t1 & t2 & -> & P & Bp).
  assert (Fp : Forall fine pre) by (destruct P as [->|[_ [t ->]]]; fines).
  destruct Bp as [[-> ->]|(bt & K & [(-> & p & G)|(_ & em & tk & m & p & L & G)])].
  - left. rewrite !app_nil_r. exact Fp.
  - rewrite app_nil_r. apply get_run_stops in G. destruct G as [G|G]; [left; apply Forall_app; auto|]. right. exists bt, pre, t1. auto.
  - apply lookup_fine in L. apply sign_run_stops in G. destruct G as [G|G].
    + left. apply Forall_app. split; [exact Fp|]. apply Forall_app. auto.
    + right. exists bt, (pre ++ t1), t2. rewrite <- app_assoc. split; [exact K|]. split; [reflexivity|]. split; [apply Forall_app; auto|exact G].
Qed.

Lemma ok_trace_fine d k usb tr : ok_trace d k usb tr -> Forall fine tr.
Proof.
  intros (email & sig & m & t1 & t2 & H1 & H2 & ->). destruct k as [bt|a s|e key].
  - apply auth_ok in H1. destruct H1 as [tk H1]. apply get_ok in H1. apply lookup_fine in H1. apply Forall_app. split; [exact H1|].
    cbn [sign] in H2. destruct usb.
    2:{ apply returns_ret_inv in H2. destruct H2 as [_ H2]. discriminate H2. }
    apply returns_bind_ok_inv in H2. destruct H2 as [(a & t3 & t4 & H3 & H & ->)|(e & _ & E)]; [|discriminate E].
    apply returns_ret_inv in H. destruct H as [-> _]. rewrite app_nil_r.
    apply bound_token_sign_steps in H3. inversion H3 as [? ? ? ? ? ? NR| | | | |tr em tk' o bd sig' L A Bb]; subst; [destruct (NR _ eq_refl)|].
    apply Forall_app. split; [eapply lookup_fine; exact L|]. constructor; [apply fine_blob|constructor].
  - destruct (returns_panic_inv _ _ _ H2).
  - apply returns_ret_inv in H1. destruct H1 as [-> _]. apply sign_steps in H2. destruct H2 as [->|(bt & E & _)]; [constructor|discriminate E].
Qed.

Lemma fold_outside l h : Forall outside l -> fold_left held_after l h = h.
Proof.
  revert h. induction l as [|v l IH]; intros h H; [reflexivity|]. inversion H as [|? ? O H']; subst. cbn [fold_left].
  rewrite IH by exact H'. destruct v; try reflexivity; discriminate O.
Qed.

Lemma lookup_panic_fine d bt tr s : lookup_panic d bt tr s -> Forall fine tr.
Proof.
  intros H. destruct H as [em tk x Hx|em tk x now Hx Hn|c pre o1 em o2 body t n now N A1 A2 T O]; [fines|fines|].
  destruct (not_served_fine _ _ N) as [Fp _].
  constructor; [apply fine_other; discriminate|]. constructor; [apply fine_other; discriminate|].
  apply Forall_app. split; [exact Fp|fines].
Qed.

Lemma auth_panics d bt tr s : panics (authorizer d (KBoundToken bt)) tr s -> lookup_panic d bt tr s.
Proof.
  cbn [authorizer]. intros H. apply panics_bind_ok_inv in H. destruct H as [H|(a & t1 & t2 & _ & H & _)]; [apply (get_panics d); exact H|].
  destruct (panics_ret_inv _ _ _ H).
Qed.

Lemma sign_panics d bt usb m tr s : panics (sign d (KBoundToken bt) usb m) tr s -> usb = true /\ lookup_panic d bt tr s.
Proof.
  cbn [sign]. destruct usb; intros H; [|destruct (panics_ret_inv _ _ _ H)]. split; [reflexivity|].
  apply panics_bind_ok_inv in H. destruct H as [H|(a & t1 & t2 & _ & H & _)]; [|destruct (panics_ret_inv _ _ _ H)].
  unfold bound_token_sign in H. apply panics_bind_ok_inv in H. destruct H as [H|(a & t1 & t2 & _ & H & _)]; [apply (get_panics d); exact H|].
  exfalso. apply panics_bind_ok_inv in H. destruct H as [H|(b & t3 & t4 & _ & H & _)]; [exact (request_text_panics _ _ _ _ _ _ _ _ _ H)|].
  destruct (signed_blob_from_str b); [destruct (Base64.b64_decode _)|]; exact (panics_ret_inv _ _ _ H).
Qed.

Lemma panics_fine d c tr s : panics (run_call d c) tr s -> Forall fine tr.
Proof.
  intros H. apply call_panics in H. destruct H as (k & pre & tr' & K & -> & P & T).
  assert (Fp : Forall fine pre) by (destruct P as [->|[_ [t ->]]]; fines).
  apply Forall_app. split; [exact Fp|]. assert (D : (exists bt, k = KBoundToken bt) \/ (forall bt, k <> KBoundToken bt)).
  { destruct k; [left; eauto|right; discriminate|right; discriminate]. }
  destruct T as [[-> _]|[T|(em & t1 & t2 & H1 & -> & T)]]; [constructor| |].
  - destruct D as [[bt ->]|Hn]; [eapply lookup_panic_fine; apply (auth_panics d); exact T|].
    apply auth_local in T; [|exact Hn]. rewrite T. constructor.
  - apply Forall_app. destruct D as [[bt ->]|Hn].
    + apply auth_ok in H1. destruct H1 as [tk H1]. apply get_ok in H1. split; [eapply lookup_fine; exact H1|].
      destruct T as [[-> _]|[m T]]; [constructor|]. apply sign_panics in T. destruct T as [_ T]. eapply lookup_panic_fine; exact T.
    + apply auth_local in H1; [|exact Hn]. subst t1. split; [constructor|].
      destruct T as [[-> _]|[m T]]; [constructor|]. apply sign_steps in T. destruct T as [->|(bt & E & _)]; [constructor|destruct (Hn _ E)].
Qed.
