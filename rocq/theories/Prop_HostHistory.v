(** C104, for histories of many tasks. *)
From Verif Require Import Base BaseFacts Time Effects EffectsFacts Keys HtmlForm SignedUrl Calls Conc SpecConc ConcFacts Prop_Conc
  SpecToken TokenFacts SpecTrace CallFacts SpecSecret SpecRequests Prop_Requests SpecHistory Prop_History Demo Sim SpecHostFree Prop_HostFree SpecHostHistory.
Local Open Scope Z_scope.

Lemma shift_inv h h' {A} (p p' : prog A) : shift h h' p p' ->
  match p with
  | Ret a => p' = Ret a
  | Panic s => p' = Panic s
  | Act e k => match e as e0 return ((resp e0 -> prog A) -> Prop) with
               | EHttp r => fun k => exists r' k', p' = Act (EHttp r') k' /\ elsewhere h h' r r' /\ forall o, shift h h' (k o) (k' o)
               | e0 => fun k => exists k', p' = Act e0 k' /\ forall x, shift h h' (k x) (k' x)
               end k
  end.
Proof.
  intros X. destruct X as [a|s|e k k' N K|r r' k k' E K]; [reflexivity|reflexivity| |exists r', k'; auto].
  destruct e; try (exists k'; split; [reflexivity|exact K]). destruct (N r eq_refl).
Qed.

Lemma with_key_key c k k' : call_key c = Some k -> call_key (with_key c k') = Some k'.
Proof. destruct c as [b|o]; cbn [call_key with_key]; [|reflexivity]. destruct (b_signing_options b); [|discriminate]. destruct b; reflexivity. Qed.

Section Histories.
Variables (d : deps) (host host' : N -> str).
Hypothesis U : forall id a, In a [B "email"; B "token"] -> d_url_ok d (metadata_url (host id) a) = true /\ d_url_ok d (metadata_url (host' id) a) = true.
Let base := fun id => B "http://" ++ host id.
Let base' := fun id => B "http://" ++ host' id.

(** What is left of the two runs of a call. *)
Definition prel (c : call) (p p' : prog answer) : Prop :=
  match call_key c with Some (KBoundToken bt) => shift (host (bt_id bt)) (host' (bt_id bt)) p p' | _ => p' = p end.
Definition srel (c : call) (s s' : status) : Prop :=
  match s with
  | Running p => exists p', s' = Running p' /\ prel c p p'
  | InFlight r k => exists bt r' k', call_key c = Some (KBoundToken bt) /\ s' = InFlight r' k' /\ elsewhere (host (bt_id bt)) (host' (bt_id bt)) r r' /\ forall o, prel c (k o) (k' o)
  | Ended e => s' = Ended e
  end.
Definition trel (t t' : task) : Prop := t_call t' = relocated host' (t_call t) /\ srel (t_call t) (t_status t) (t_status t').
Record crel (cfg cfg' : config) : Prop := {
  cr_tasks : Forall2 trel (tasks cfg) (tasks cfg');
  cr_owner x : owner cfg' x = owner cfg x;
  cr_cache x : caches cfg' x = caches cfg x
}.

Lemma prel_ret c a p' : prel c (Ret a) p' -> p' = Ret a.
Proof. unfold prel. destruct (call_key c) as [[bt| |]|]; try tauto. intros X. exact (shift_inv _ _ _ _ X). Qed.
Lemma prel_panic c s p' : prel c (Panic s) p' -> p' = Panic s.
Proof. unfold prel. destruct (call_key c) as [[bt| |]|]; try tauto. intros X. exact (shift_inv _ _ _ _ X). Qed.
Lemma prel_act c e k p' : (forall r, e <> EHttp r) -> prel c (Act e k) p' -> exists k', p' = Act e k' /\ forall x, prel c (k x) (k' x).
Proof.
  intros N. unfold prel. destruct (call_key c) as [[bt| |]|]; try (intros ->; eexists; split; [reflexivity|reflexivity]).
  intros X. apply shift_inv in X. destruct e as [|r|n|n|n|n x]; try exact X. destruct (N r eq_refl).
Qed.

Lemma rel_at cfg cfg' i c s : crel cfg cfg' -> at_ cfg i c s -> exists s', at_ cfg' i (relocated host' c) s' /\ srel c s s'.
Proof.
  intros R. pose proof (cr_tasks _ _ R) as F. unfold at_. generalize dependent i. induction F as [|t t' l l' T F IH]; intros i A; [destruct i; discriminate A|].
  destruct i as [|i]; cbn in *; [|exact (IH i A)]. injection A as ->. destruct T as [Tc Ts]. cbn [t_call t_status] in *.
  exists (t_status t'). split; [|exact Ts]. rewrite <- Tc. destruct t'; reflexivity.
Qed.

Lemma rel_replace l l' i t t' : Forall2 trel l l' -> trel t t' -> Forall2 trel (replace l i t) (replace l' i t').
Proof. intros F T. revert i. induction F as [|x y l l' X F IH]; intros i; [constructor|]. destruct i as [|i]; cbn [replace]; constructor; auto. Qed.

Lemma rel_put cfg cfg' i c s s' : crel cfg cfg' -> srel c s s' -> crel (put cfg i c s) (put cfg' i (relocated host' c) s').
Proof.
  intros R S. constructor; cbn [put tasks owner caches]; [|apply (cr_owner _ _ R)|apply (cr_cache _ _ R)].
  apply rel_replace; [apply (cr_tasks _ _ R)|]. split; [reflexivity|exact S].
Qed.
Lemma rel_owner cfg cfg' id o : crel cfg cfg' -> crel (set_owner cfg id o) (set_owner cfg' id o).
Proof. intros R. constructor; cbn; [apply (cr_tasks _ _ R)| |apply (cr_cache _ _ R)]. intros x. rewrite (cr_owner _ _ R). reflexivity. Qed.
Lemma rel_cache cfg cfg' id o : crel cfg cfg' -> crel (set_cache cfg id o) (set_cache cfg' id o).
Proof. intros R. constructor; cbn; [apply (cr_tasks _ _ R)|apply (cr_owner _ _ R)|]. intros x. rewrite (cr_cache _ _ R). reflexivity. Qed.
Lemma rel_release cfg cfg' i : crel cfg cfg' -> crel (release cfg i) (release cfg' i).
Proof. intros R. constructor; cbn; [apply (cr_tasks _ _ R)| |apply (cr_cache _ _ R)]. intros x. rewrite (cr_owner _ _ R). reflexivity. Qed.

Lemma call_prel c : fits base c -> prel c (run_call d c) (run_call d (relocated host' c)).
Proof.
  intros F. unfold prel, relocated. destruct (call_key c) as [[bt| |]|] eqn:K; try reflexivity.
  assert (X : bt = {| bt_id := bt_id bt; bt_base_url := B "http://" ++ host (bt_id bt) |}) by (pose proof (F bt K) as Y; unfold base in Y; destruct bt; cbn in *; rewrite Y; reflexivity).
  rewrite X in K. exact (call_shift (host (bt_id bt)) (host' (bt_id bt)) d (bt_id bt) (U (bt_id bt)) c K).
Qed.

Lemma relocated_fits c : fits base' (relocated host' c).
Proof.
  unfold fits, relocated. intros bt. destruct (call_key c) as [[bt0| |]|] eqn:K; try (rewrite K; discriminate).
  rewrite (with_key_key _ _ _ K). intros E. injection E as <-. reflexivity.
Qed.

(** Only tasks with such a key send requests. *)
Lemma sender tr cfg i c r k : runs d base tr cfg -> at_ cfg i c (Running (Act (EHttp r) k)) -> exists bt, call_key c = Some (KBoundToken bt).
Proof.
  intros H A. destruct (li_steps _ _ _ _ (runs_local _ _ _ _ H) _ _ _ A) as (p & S & X). cbn [rest_of] in X. assert (Ep : p = Act (EHttp r) k) by (destruct X as [X|X]; [injection X as X; symmetry; exact X|discriminate X]).
  assert (S' : steps (run_call d c) (did i tr ++ [VHttp r HttpFailed]) (k HttpFailed)).
  { eapply steps_app; [exact S|]. rewrite Ep. apply (steps_act (EHttp r) k HttpFailed). constructor. }
  apply C57_requests in S'. destruct S' as [E|(bt & _ & _ & _ & K & _)]; [|eauto].
  unfold asked in E. rewrite flat_map_app in E. apply app_eq_nil in E. destruct E as [_ E]. discriminate E.
Qed.

Lemma gmoved_more tr v x y : gmoved host host' tr x y -> gmoved host host' (tr ++ [v]) x y.
Proof.
  assert (M : forall i id, uses_key tr i id -> uses_key (tr ++ [v]) i id) by (intros i id (c & bt & I & K & E); exists c, bt; split; [apply in_or_app; left; exact I|auto]).
  intros X. destruct X; econstructor; eauto.
Qed.

Lemma move_runs tr cfg : runs d base tr cfg -> exists tr' cfg', Forall2 (gmoved host host' tr) tr tr' /\ runs d base' tr' cfg' /\ crel cfg cfg'.
Proof.
  intros H. induction H as [|tr cfg v cfg1 H IH S].
  { exists [], initial. split; [constructor|]. split; [constructor|]. constructor; [constructor|reflexivity|reflexivity]. }
  destruct IH as (tr' & cfg' & F & H' & R).
  assert (X : exists v' cfg1', gmoved host host' (tr ++ [v]) v v' /\ cstep d base' cfg' v' cfg1' /\ crel cfg1 cfg1').
  { assert (Key : forall i c s bt, at_ cfg i c s -> call_key c = Some (KBoundToken bt) -> uses_key (tr ++ [v]) i (bt_id bt)).
    { intros i c s bt A K. exists c, bt. split; [|auto]. apply in_or_app. left. apply (li_spawn _ _ _ _ (runs_local _ _ _ _ H)). exists s. exact A. }
    clear F. revert H R Key.
    destruct S as [cfg c Fc|cfg i c k t A|cfg i c r k A|cfg i c r k o A|cfg i c id k A O|cfg i c id k A|cfg i c id k A|cfg i c id x k A|cfg i c a A|cfg i c s A|cfg i c s A N]; intros H R Key.
    - exists (GSpawn (length (tasks cfg)) (relocated host' c)). eexists. split; [constructor|].
      assert (L : length (tasks cfg') = length (tasks cfg)) by (symmetry; clear Key; induction (cr_tasks _ _ R) as [|? ? ? ? _ _ IHl]; cbn; [reflexivity|f_equal; exact IHl]). rewrite <- L. split; [apply cs_spawn; apply relocated_fits|].
      constructor; cbn; [|apply (cr_owner _ _ R)|apply (cr_cache _ _ R)]. apply Forall2_app; [apply (cr_tasks _ _ R)|]. constructor; [|constructor].
      split; [reflexivity|]. cbn. eexists. split; [reflexivity|]. apply call_prel. exact Fc.
    - destruct (rel_at _ _ _ _ _ R A) as (s' & A' & p' & -> & P). apply prel_act in P; [|discriminate]. destruct P as (k' & -> & P).
      do 2 eexists. split; [apply gm_do; reflexivity|]. split; [apply (cs_now d base' cfg' i (relocated host' c) k' t A')|]. apply rel_put; [exact R|]. eexists. split; [reflexivity|apply P].
    - destruct (sender _ _ _ _ _ _ H A) as [bt K]. pose proof (Key _ _ _ _ A K) as Uk.
      destruct (rel_at _ _ _ _ _ R A) as (s' & A' & p' & -> & P). assert (P' := P). unfold prel in P'. rewrite K in P'. apply shift_inv in P'. destruct P' as (r' & k' & -> & E & P').
      do 2 eexists. split; [eapply gm_send; [exact Uk|exact E]|]. split; [apply cs_send; exact A'|]. apply rel_put; [exact R|].
      exists bt, r', k'. split; [exact K|]. split; [reflexivity|]. split; [exact E|]. intros o. unfold prel. rewrite K. apply P'.
    - destruct (rel_at _ _ _ _ _ R A) as (s' & A' & bt & r' & k' & K & -> & E & P). pose proof (Key _ _ _ _ A K) as Uk.
      do 2 eexists. split; [eapply gm_answer; [exact Uk|exact E]|]. split; [apply (cs_receive d base' cfg' i _ r' k' o A')|]. apply rel_put; [exact R|]. eexists. split; [reflexivity|apply P].
    - destruct (rel_at _ _ _ _ _ R A) as (s' & A' & p' & -> & P). apply prel_act in P; [|discriminate]. destruct P as (k' & -> & P).
      do 2 eexists. split; [apply gm_do; reflexivity|]. split; [apply (cs_lock d base' cfg' i _ id k' A'); rewrite (cr_owner _ _ R); exact O|]. apply rel_owner, rel_put; [exact R|]. eexists. split; [reflexivity|apply P].
    - destruct (rel_at _ _ _ _ _ R A) as (s' & A' & p' & -> & P). apply prel_act in P; [|discriminate]. destruct P as (k' & -> & P).
      do 2 eexists. split; [apply gm_do; reflexivity|]. split; [apply (cs_unlock d base' cfg' i _ id k' A')|]. apply rel_owner, rel_put; [exact R|]. eexists. split; [reflexivity|apply P].
    - destruct (rel_at _ _ _ _ _ R A) as (s' & A' & p' & -> & P). apply prel_act in P; [|discriminate]. destruct P as (k' & -> & P).
      do 2 eexists. split; [apply gm_do; reflexivity|]. rewrite <- (cr_cache _ _ R id). split; [apply (cs_get d base' cfg' i _ id k' A')|]. apply rel_put; [exact R|]. eexists. split; [reflexivity|apply P].
    - destruct (rel_at _ _ _ _ _ R A) as (s' & A' & p' & -> & P). apply prel_act in P; [|discriminate]. destruct P as (k' & -> & P).
      do 2 eexists. split; [apply gm_do; reflexivity|]. split; [apply (cs_set d base' cfg' i _ id x k' A')|]. apply rel_cache, rel_put; [exact R|]. eexists. split; [reflexivity|apply P].
    - destruct (rel_at _ _ _ _ _ R A) as (s' & A' & p' & -> & P). apply prel_ret in P. subst p'.
      do 2 eexists. split; [apply gm_end|]. split; [apply (cs_return d base' cfg' i _ a A')|]. apply rel_put; [exact R|reflexivity].
    - destruct (rel_at _ _ _ _ _ R A) as (s' & A' & p' & -> & P). apply prel_panic in P. subst p'.
      do 2 eexists. split; [apply gm_end|]. split; [apply (cs_panic d base' cfg' i _ s A')|]. apply rel_release, rel_put; [exact R|reflexivity].
    - destruct (rel_at _ _ _ _ _ R A) as (s' & A' & P).
      do 2 eexists. split; [apply gm_end|]. split; [apply (cs_cancel d base' cfg' i _ s' A')|apply rel_release, rel_put; [exact R|reflexivity]].
      intros e ->. destruct s as [p|r k|e']; cbn in P; [destruct P as (? & X & _); discriminate X|destruct P as (? & ? & ? & _ & X & _); discriminate X|exact (N e' eq_refl)]. }
  destruct X as (v' & cfg1' & G & S' & R'). exists (tr' ++ [v']), cfg1'. split; [|split; [eapply runs_snoc; eassumption|exact R']].
  apply Forall2_app; [|constructor; [exact G|constructor]]. eapply Forall2_impl; [|exact F]. intros x y. apply gmoved_more.
Qed.
End Histories.

(** Whatever many calls do together with one set of metadata hosts they do with another. *)
Theorem C104_histories d host host' tr :
  (forall id a, In a [B "email"; B "token"] -> d_url_ok d (metadata_url (host id) a) = true /\ d_url_ok d (metadata_url (host' id) a) = true) ->
  history d (fun id => B "http://" ++ host id) tr ->
  exists tr', Forall2 (gmoved host host' tr) tr tr' /\ history d (fun id => B "http://" ++ host' id) tr'.
Proof.
  intros U H. apply C62_histories in H. destruct H as [cfg H]. destruct (move_runs d host host' U tr cfg H) as (tr' & cfg' & F & H' & _).
  exists tr'. split; [exact F|]. apply C62_histories. exists cfg'. exact H'.
Qed.

Example C104_histories_case :
  (forall (id : N) a, In a [B "email"; B "token"] ->
     d_url_ok demo_deps (metadata_url (B "metadata.google.internal") a) = true /\ d_url_ok demo_deps (metadata_url (B "10.0.0.1:80") a) = true) /\
  history demo_deps (fun id => B "http://" ++ (fun _ => B "metadata.google.internal") id) (sim demo_deps demo_base (demo_two ++ [MStep 0 RUnit] ++ demo_two_rest)).
Proof.
  split; [intros _ a _; split; reflexivity|]. apply C62_histories.
  destruct (sim_history demo_deps demo_base (demo_two ++ [MStep 0 RUnit] ++ demo_two_rest)) as [cfg H]; [vm_compute; exact Logic.I|]. exists cfg. exact H.
Qed.
