(** Facts about the histories of the image uploader. *)
From Verif Require Import Base BaseFacts Time Effects EffectsFacts Keys HtmlForm SignedUrl SpecForm Uploader SpecUploader.

(** * Handlers *)

Lemma put_handler_at i h l r h0 : nth_error l i = Some (r, h0) -> nth_error (put_handler i h l) i = Some (r, h).
Proof.
  revert l. induction i as [|i IH]; intros [|[r' x] l] E; cbn in *; try discriminate.
  - injection E as -> ->. reflexivity.
  - apply IH. exact E.
Qed.

Lemma put_handler_other i j h l : i <> j -> nth_error (put_handler i h l) j = nth_error l j.
Proof.
  revert j l. induction i as [|i IH]; intros [|j] [|[r x] l] N; cbn; try reflexivity; try congruence.
  apply IH. congruence.
Qed.

Lemma put_handler_length i h l : length (put_handler i h l) = length l.
Proof. revert l. induction i as [|i IH]; intros [|[r x] l]; cbn; auto. Qed.

Lemma moved_at a i j r h h0 r' h' images : handler_at a i r h0 -> handler_at (moved a i h images) j r' h' ->
  (j = i /\ r' = r /\ h' = h) \/ (j <> i /\ handler_at a j r' h').
Proof.
  unfold handler_at, moved. cbn [a_handlers]. intros A H. destruct (Nat.eq_dec i j) as [<-|N].
  - rewrite (put_handler_at _ h _ _ _ A) in H. injection H as <- <-. auto.
  - rewrite put_handler_other in H by exact N. right. auto.
Qed.

(** * Readings of histories *)

Lemma arrivals_app a b : arrivals (a ++ b) = arrivals a ++ arrivals b.
Proof. apply flat_map_app. Qed.
Lemma forms_app a b : forms (a ++ b) = forms a ++ forms b.
Proof. apply flat_map_app. Qed.
Lemma effects_app a b i : effects_of (a ++ b) i = effects_of a i ++ effects_of b i.
Proof. apply flat_map_app. Qed.
Lemma effects_do i v : effects_of [ADo i v] i = [v].
Proof. unfold effects_of. cbn [flat_map app]. rewrite Nat.eqb_refl. reflexivity. Qed.
Lemma effects_do_other i j v : j <> i -> effects_of [ADo j v] i = [].
Proof. unfold effects_of. cbn [flat_map app]. intros N. apply Nat.eqb_neq in N. rewrite N. reflexivity. Qed.

Lemma requested_app a b i r : requested_as a i r -> requested_as (a ++ b) i r.
Proof. unfold requested_as. rewrite arrivals_app. intros H. rewrite nth_error_app1; [exact H|]. apply nth_error_Some. congruence. Qed.

Lemma requested_fun tr i r r' : requested_as tr i r -> requested_as tr i r' -> r = r'.
Proof. unfold requested_as. congruence. Qed.

(** Splitting a history. *)
Lemma app_runs_split d c tr a : app_runs d c tr a -> forall x v y, tr = x ++ v :: y ->
  exists a1 a2, app_runs d c x a1 /\ app_step d c a1 v a2 /\ app_runs d c (x ++ [v]) a2.
Proof.
  induction 1 as [|tr a v a' H IH S]; intros x w y E; [destruct x; discriminate E|].
  destruct (exists_last (l := w :: y) ltac:(discriminate)) as (z & last & E'). rewrite E' in E. rewrite app_assoc in E.
  apply app_inj_tail in E. destruct E as [-> ->]. destruct z as [|w' z].
  - cbn in E'. injection E' as -> ->. rewrite app_nil_r in *. exists a, a'. split; [exact H|]. split; [exact S|]. econstructor; eassumption.
  - cbn in E'. injection E' as <- ->. exact (IH x w z eq_refl).
Qed.

(** * What the state of a handler says *)

Record handler_fits (d : deps) (c : app_config) (tr : list app_event) (i : nat) (r : app_request) (h : handler) : Prop := {
  hf_request : requested_as tr i r;
  hf_state : match h with
    | HNew => effects_of tr i = []
    | HForm id p => exists random len type, length random = 16%nat /\ id = uuid_to_string (uuid_new_v4 random) /\
        r = RqCreate len type /\ steps (create_form d c id len type) (effects_of tr i) p
    | HLinks p => r = RqList /\ exists before after a, tr = before ++ ACopy i :: after /\ app_runs d c before a /\
        steps (list_links d c (a_images a)) (effects_of tr i) p
    | HOver => True
    end
}.

Lemma fits_later d c tr i r h v : handler_fits d c tr i r h -> effects_of [v] i = [] -> handler_fits d c (tr ++ [v]) i r h.
Proof.
  intros [Q S] E. constructor; [apply requested_app; exact Q|]. rewrite effects_app, E, app_nil_r. destruct h; try exact S.
  destruct S as (Hr & before & after & a & -> & R & S). split; [exact Hr|]. exists before, (after ++ [v]), a.
  rewrite <- app_assoc. auto.
Qed.

Lemma app_inv d c tr a : app_runs d c tr a ->
  length (a_handlers a) = length (arrivals tr) /\
  (forall i, (length (a_handlers a) <= i)%nat -> effects_of tr i = []) /\
  forall i r h, handler_at a i r h -> handler_fits d c tr i r h.
Proof.
  induction 1 as [|tr a v a' H (L & O & IH) S].
  - split; [reflexivity|]. split; [reflexivity|]. intros [|i] r h X; discriminate X.
  - assert (M : forall i r0 h0 h1 images, handler_at a i r0 h0 -> arrivals [v] = [] ->
      (forall j, j <> i -> effects_of [v] j = []) -> handler_fits d c (tr ++ [v]) i r0 h1 ->
      length (a_handlers (moved a i h1 images)) = length (arrivals (tr ++ [v])) /\
      (forall j, (length (a_handlers (moved a i h1 images)) <= j)%nat -> effects_of (tr ++ [v]) j = []) /\
      forall j r h, handler_at (moved a i h1 images) j r h -> handler_fits d c (tr ++ [v]) j r h).
    { intros i r0 h0 h1 images A Ar N F. unfold moved at 1 2. cbn [a_handlers]. rewrite put_handler_length, arrivals_app, Ar, app_nil_r.
      split; [exact L|]. split.
      - intros j J. rewrite effects_app. assert (J' : j <> i).
        { intros ->. unfold handler_at in A. assert (X : nth_error (a_handlers a) i <> None) by congruence. apply nth_error_Some in X. lia. }
        rewrite N by exact J'. rewrite app_nil_r. apply O. exact J.
      - intros j r h X. apply (moved_at _ _ _ _ _ _ _ _ _ A) in X. destruct X as [(-> & -> & ->)|(J & X)]; [exact F|].
        apply fits_later; [apply IH; exact X|apply N; exact J]. }
    assert (G : forall i v0, v = v0 -> (match v0 with ADo j _ => j = i | AArrive _ => False | _ => True end) ->
      arrivals [v] = [] /\ forall j, j <> i -> effects_of [v] j = []).
    { intros i v0 -> K. destruct v0; try contradiction; split; try reflexivity. intros j J. apply effects_do_other. congruence. }
    destruct S as [a r|a i random len type A R id|a i A|a i r id v p q A S|a i r v p q A S|a i r id fields A|a i r id e A|a i r urls A|a i r e A|a i id A|a i r h A N].
    + unfold handler_at. cbn [a_handlers]. rewrite arrivals_app, !app_length. cbn. split; [lia|]. split.
      * intros i I. rewrite effects_app. cbn. rewrite app_nil_r. apply O. lia.
      * intros i r' h X. destruct (Nat.lt_ge_cases i (length (a_handlers a))) as [I|I].
        -- rewrite nth_error_app1 in X by exact I. apply fits_later; [apply IH; exact X|reflexivity].
        -- rewrite nth_error_app2 in X by exact I. destruct (i - length (a_handlers a))%nat as [|k] eqn:K; [|destruct k; discriminate X].
           cbn in X. injection X as <- <-. assert (i = length (a_handlers a)) as -> by lia. constructor.
           ++ unfold requested_as. rewrite arrivals_app, nth_error_app2 by lia. rewrite L, Nat.sub_diag. reflexivity.
           ++ rewrite effects_app, O by lia. reflexivity.
    + destruct (G i _ eq_refl I) as [G1 G2]. apply (M i (RqCreate len type) HNew); try assumption. destruct (IH _ _ _ A) as [Q E].
      constructor; [apply requested_app; exact Q|]. exists random, len, type. split; [exact R|]. split; [reflexivity|]. split; [reflexivity|].
      rewrite effects_app, E. constructor.
    + destruct (G i _ eq_refl I) as [G1 G2]. apply (M i RqList HNew); try assumption. destruct (IH _ _ _ A) as [Q E].
      constructor; [apply requested_app; exact Q|]. split; [reflexivity|]. exists tr, [], a. split; [reflexivity|]. split; [exact H|].
      rewrite effects_app, E. constructor.
    + destruct (G i _ eq_refl eq_refl) as [G1 G2]. apply (M i r (HForm id p)); try assumption. destruct (IH _ _ _ A) as [Q E].
      constructor; [apply requested_app; exact Q|]. destruct E as (random & len & type & R & E1 & E2 & E3).
      exists random, len, type. split; [exact R|]. split; [exact E1|]. split; [exact E2|]. rewrite effects_app, effects_do.
      eapply steps_app; eassumption.
    + destruct (G i _ eq_refl eq_refl) as [G1 G2]. apply (M i r (HLinks p)); try assumption. destruct (IH _ _ _ A) as [Q E].
      constructor; [apply requested_app; exact Q|]. destruct E as (Hr & before & after & a1 & -> & R & E).
      split; [exact Hr|]. exists before, (after ++ [ADo i v]), a1. split; [rewrite <- app_assoc; reflexivity|]. split; [exact R|].
      rewrite effects_app, effects_do. eapply steps_app; eassumption.
    + destruct (G i _ eq_refl I) as [G1 G2]. eapply M; try eassumption. constructor; [apply requested_app; eapply IH; exact A|exact I].
    + destruct (G i _ eq_refl I) as [G1 G2]. eapply M; try eassumption. constructor; [apply requested_app; eapply IH; exact A|exact I].
    + destruct (G i _ eq_refl I) as [G1 G2]. eapply M; try eassumption. constructor; [apply requested_app; eapply IH; exact A|exact I].
    + destruct (G i _ eq_refl I) as [G1 G2]. eapply M; try eassumption. constructor; [apply requested_app; eapply IH; exact A|exact I].
    + destruct (G i _ eq_refl I) as [G1 G2]. eapply M; try eassumption. constructor; [apply requested_app; eapply IH; exact A|exact I].
    + destruct (G i _ eq_refl I) as [G1 G2]. eapply M; try eassumption. constructor; [apply requested_app; eapply IH; exact A|exact I].
Qed.

(** * Marking *)

Lemma mark_ids id l : map im_id (mark_uploaded id l) = map im_id l.
Proof. induction l as [|i l IH]; cbn; [reflexivity|]. destruct (str_eqb (im_id i) id); cbn; congruence. Qed.

Lemma mark_at id l n im : nth_error (mark_uploaded id l) n = Some im ->
  exists old, nth_error l n = Some old /\ im_id old = im_id im /\
    (im_uploaded im = true <-> im_uploaded old = true \/
       im_id im = id /\ forall m x, (m < n)%nat -> nth_error l m = Some x -> im_id x <> id).
Proof.
  revert n. induction l as [|i l IH]; intros n H; cbn [mark_uploaded] in H; [destruct n; discriminate H|].
  destruct (str_eqb (im_id i) id) eqn:E.
  - apply str_eqb_eq in E. destruct n as [|n]; cbn in H.
    + injection H as <-. exists i. cbn. split; [reflexivity|]. split; [reflexivity|]. split; [|auto]. intros _. right. split; [exact E|].
      intros m x M. lia.
    + exists im. split; [exact H|]. split; [reflexivity|]. split; [auto|]. intros [U|[_ U]]; [exact U|]. exfalso.
      exact (U 0%nat i ltac:(lia) eq_refl E).
  - assert (N : im_id i <> id) by (intros X; rewrite X, str_eqb_refl in E; discriminate E). destruct n as [|n]; cbn in H.
    + injection H as <-. exists i. split; [reflexivity|]. split; [reflexivity|]. split; [auto|]. intros [U|[X _]]; [exact U|contradiction].
    + destruct (IH n H) as (old & O1 & O2 & O3). exists old. split; [exact O1|]. split; [exact O2|]. rewrite O3. split.
      * intros [U|[X U]]; [auto|]. right. split; [exact X|]. intros [|m] x M Y; cbn in Y; [injection Y as <-; exact N|].
        apply (U m); [lia|exact Y].
      * intros [U|[X U]]; [auto|]. right. split; [exact X|]. intros m x M Y. apply (U (S m)); [lia|exact Y].
Qed.
