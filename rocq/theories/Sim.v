(** Running concrete schedules, for examples and witnesses.  Models no code. *)
From Verif Require Import Base BaseFacts Time Effects EffectsFacts Keys Calls Conc SpecConc.

(** A choice of the scheduler: start a call, let a task make its next step (with what the environment answers),
    drop a task. *)
Inductive move : Type :=
| MSpawn (c : call)
| MStep (i : nat) (r : reply)
| MCancel (i : nat).

Definition fits_bool (base : N -> str) (c : call) : bool :=
  match call_key c with Some (KBoundToken bt) => str_eqb (bt_base_url bt) (base (bt_id bt)) | _ => true end.

Lemma fits_bool_ok base c : fits_bool base c = true -> fits base c.
Proof. unfold fits_bool, fits. intros H bt K. rewrite K in H. apply str_eqb_eq. exact H. Qed.

Definition sim1 (d : deps) (base : N -> str) (cfg : config) (m : move) : option (gevent * config) :=
  match m with
  | MSpawn c =>
      if fits_bool base c
      then Some (GSpawn (length (tasks cfg)) c,
                 {| tasks := tasks cfg ++ [{| t_call := c; t_status := Running (run_call d c) |}]; owner := owner cfg; caches := caches cfg |})
      else None
  | MStep i r =>
      match nth_error (tasks cfg) i with
      | Some {| t_call := c; t_status := Running p |} =>
          match p with
          | Ret a => Some (GEnd i (Returned a), put cfg i c (Ended (Returned a)))
          | Panic s => Some (GEnd i (Panicked s), release (put cfg i c (Ended (Panicked s))) i)
          | Act e k =>
              match e return (resp e -> prog answer) -> option (gevent * config) with
              | ENow => fun k => match r with RNow t => Some (GDo i (VNow t), put cfg i c (Running (k t))) | _ => None end
              | EHttp q => fun k => Some (GSend i q, put cfg i c (InFlight q k))
              | ELock id => fun k => match owner cfg id with
                                     | None => Some (GDo i (VLock id), set_owner (put cfg i c (Running (k tt))) id (Some i))
                                     | Some _ => None
                                     end
              | EUnlock id => fun k => Some (GDo i (VUnlock id), set_owner (put cfg i c (Running (k tt))) id None)
              | EGet id => fun k => Some (GDo i (VGet id (caches cfg id)), put cfg i c (Running (k (caches cfg id))))
              | ESet id x => fun k => Some (GDo i (VSet id x), set_cache (put cfg i c (Running (k tt))) id x)
              end k
          end
      | Some {| t_call := c; t_status := InFlight q k |} =>
          match r with RHttp o => Some (GDo i (VHttp q o), put cfg i c (Running (k o))) | _ => None end
      | _ => None
      end
  | MCancel i =>
      match nth_error (tasks cfg) i with
      | Some {| t_call := c; t_status := Ended _ |} => None
      | Some {| t_call := c; t_status := _ |} => Some (GEnd i Cancelled, release (put cfg i c (Ended Cancelled)) i)
      | None => None
      end
  end.

Lemma sim1_step d base cfg m v cfg' : sim1 d base cfg m = Some (v, cfg') -> cstep d base cfg v cfg'.
Proof.
  destruct m as [c|i r|i]; cbn [sim1].
  - destruct (fits_bool base c) eqn:F; [|discriminate]. intros E. injection E as <- <-. apply cs_spawn. apply fits_bool_ok. exact F.
  - destruct (nth_error (tasks cfg) i) as [[c s]|] eqn:A; [|discriminate]. destruct s as [p|q k|e]; [|destruct r; try discriminate|discriminate].
    + destruct p as [a|s|e k].
      * intros E. injection E as <- <-. apply cs_return. exact A.
      * intros E. injection E as <- <-. apply cs_panic. exact A.
      * destruct e as [|q|id|id|id|id x].
        -- destruct r; try discriminate. intros E. injection E as <- <-. apply cs_now. exact A.
        -- intros E. injection E as <- <-. apply cs_send. exact A.
        -- destruct (owner cfg id) eqn:O; [discriminate|]. intros E. injection E as <- <-. apply cs_lock; assumption.
        -- intros E. injection E as <- <-. apply cs_unlock. exact A.
        -- intros E. injection E as <- <-. apply cs_get. exact A.
        -- intros E. injection E as <- <-. apply cs_set. exact A.
    + intros E. injection E as <- <-. apply cs_receive. exact A.
  - destruct (nth_error (tasks cfg) i) as [[c s]|] eqn:A; [|discriminate].
    destruct s as [p|q k|e]; try discriminate; intros E; injection E as <- <-; eapply cs_cancel; [exact A|discriminate|exact A|discriminate].
Qed.

Fixpoint sim_from (d : deps) (base : N -> str) (cfg : config) (ms : list move) : option (list gevent * config) :=
  match ms with
  | [] => Some ([], cfg)
  | m :: rest =>
      match sim1 d base cfg m with
      | None => None
      | Some (v, cfg1) =>
          match sim_from d base cfg1 rest with
          | None => None
          | Some (tr, cfg2) => Some (v :: tr, cfg2)
          end
      end
  end.

Lemma sim_runs d base ms : forall tr0 cfg0 tr cfg, runs d base tr0 cfg0 -> sim_from d base cfg0 ms = Some (tr, cfg) -> runs d base (tr0 ++ tr) cfg.
Proof.
  induction ms as [|m ms IH]; intros tr0 cfg0 tr cfg H; cbn [sim_from].
  - intros E. injection E as <- <-. rewrite app_nil_r. exact H.
  - destruct (sim1 d base cfg0 m) as [[v cfg1]|] eqn:E1; [|discriminate]. destruct (sim_from d base cfg1 ms) as [[tr' cfg2]|] eqn:E2; [|discriminate].
    intros E. injection E as <- <-. change (v :: tr') with ([v] ++ tr'). rewrite app_assoc. eapply IH; [|exact E2].
    econstructor; [exact H|]. apply sim1_step with (m := m). exact E1.
Qed.

Definition sim (d : deps) (base : N -> str) (ms : list move) : list gevent :=
  match sim_from d base initial ms with Some (tr, _) => tr | None => [] end.

(** A schedule that can be run gives a history. *)
Lemma sim_history d base ms : match sim_from d base initial ms with Some _ => True | None => False end ->
  exists cfg, runs d base (sim d base ms) cfg.
Proof.
  unfold sim. destruct (sim_from d base initial ms) as [[tr cfg]|] eqn:E; [|intros []]. intros _. exists cfg.
  exact (sim_runs d base ms [] initial tr cfg (runs_nil d base) E).
Qed.

Lemma sim_state {X} d base ms (f : config -> X) y :
  match sim_from d base initial ms with Some (_, cfg) => Some (f cfg) | None => None end = Some y ->
  exists cfg, runs d base (sim d base ms) cfg /\ f cfg = y.
Proof.
  unfold sim. destruct (sim_from d base initial ms) as [[tr cfg]|] eqn:E; [|discriminate]. intros Y. injection Y as Y. exists cfg. split; [|exact Y].
  exact (sim_runs d base ms [] initial tr cfg (runs_nil d base) E).
Qed.
