(** UTF-8, percent-encoding and application/x-www-form-urlencoded. *)
From Verif Require Import Base BaseFacts Utf8 FormUrl CodecFacts.
From Coq Require Import ZifyBool ZifyNat ZifyN.
Ltac Zify.zify_post_hook ::= Z.div_mod_to_equations.
Local Open Scope byte_scope.

(** * UTF-8 *)

Lemma utf8_first_pos s : (1 <= snd (utf8_first s))%nat.
Proof.
  unfold utf8_first. destruct s as [|b0 r]; [cbn; lia|].
  repeat match goal with
         | |- context [if ?c then _ else _] => destruct c
         | |- context [match ?l with [] => _ | _ :: _ => _ end] => destruct l
         end; cbn; lia.
Qed.

Lemma utf8_first_len s : fst (utf8_first s) = true -> (snd (utf8_first s) <= length s)%nat.
Proof.
  unfold utf8_first. destruct s as [|b0 r]; [cbn; discriminate|].
  repeat match goal with
         | |- context [if ?c then _ else _] => destruct c
         | |- context [match ?l with [] => _ | _ :: _ => _ end] => destruct l
         end; cbn; try discriminate; lia.
Qed.

(** The first character does not depend on what follows it. *)
Lemma utf8_first_app s t : fst (utf8_first s) = true -> utf8_first (s ++ t) = utf8_first s.
Proof.
  unfold utf8_first. destruct s as [|b0 r]; [cbn; discriminate|]. cbn [app].
  destruct r as [|b1 [|b2 [|b3 r]]]; cbn [app];
  repeat match goal with
         | |- context [if ?c then _ else _] => destruct c eqn:?
         | |- context [match ?l with [] => _ | _ :: _ => _ end] => destruct l
         end; cbn; try discriminate; reflexivity.
Qed.

Lemma skipn_length_lt {A} n (l : list A) : (1 <= n)%nat -> l <> [] -> (length (skipn n l) < length l)%nat.
Proof. intros Hn Hl. rewrite skipn_length. destruct l; [congruence|]. cbn [length]. lia. Qed.

Lemma utf8_valid_fuel_irrel f g s :
  (length s <= f)%nat -> (length s <= g)%nat -> utf8_valid_fuel f s = utf8_valid_fuel g s.
Proof.
  revert g s. induction f as [|f IH]; intros g s Hf Hg.
  { destruct s; [|cbn in Hf; lia]. destruct g; reflexivity. }
  destruct g as [|g]; [destruct s; [reflexivity|cbn in Hg; lia]|].
  cbn [utf8_valid_fuel]. destruct s as [|b s]; [reflexivity|].
  pose proof (utf8_first_pos (b :: s)) as Hp. destruct (utf8_first (b :: s)) as [ok n]. cbn [snd] in Hp.
  assert (H : (length (skipn n (b :: s)) < length (b :: s))%nat) by (apply skipn_length_lt; [exact Hp|congruence]).
  rewrite (IH g) by lia. reflexivity.
Qed.

Lemma utf8_lossy_fuel_irrel f g s :
  (length s <= f)%nat -> (length s <= g)%nat -> utf8_lossy_fuel f s = utf8_lossy_fuel g s.
Proof.
  revert g s. induction f as [|f IH]; intros g s Hf Hg.
  { destruct s; [|cbn in Hf; lia]. destruct g; reflexivity. }
  destruct g as [|g]; [destruct s; [reflexivity|cbn in Hg; lia]|].
  cbn [utf8_lossy_fuel]. destruct s as [|b s]; [reflexivity|].
  pose proof (utf8_first_pos (b :: s)) as Hp. destruct (utf8_first (b :: s)) as [ok n]. cbn [snd] in Hp.
  assert (H : (length (skipn n (b :: s)) < length (b :: s))%nat) by (apply skipn_length_lt; [exact Hp|congruence]).
  rewrite (IH g) by lia. reflexivity.
Qed.

Lemma utf8_valid_step s : s <> [] ->
  utf8_valid s = fst (utf8_first s) && utf8_valid (skipn (snd (utf8_first s)) s).
Proof.
  intros Hs. unfold utf8_valid at 1. destruct s as [|b s]; [congruence|]. cbn [length utf8_valid_fuel].
  pose proof (utf8_first_pos (b :: s)) as Hp. destruct (utf8_first (b :: s)) as [ok n]. cbn [fst snd] in *.
  f_equal. unfold utf8_valid. apply utf8_valid_fuel_irrel; [|lia].
  pose proof (skipn_length_lt n (b :: s) Hp ltac:(congruence)) as H. cbn [length] in H. lia.
Qed.

Lemma utf8_lossy_step s : s <> [] ->
  utf8_lossy s = (if fst (utf8_first s) then firstn (snd (utf8_first s)) s else replacement)
                 ++ utf8_lossy (skipn (snd (utf8_first s)) s).
Proof.
  intros Hs. unfold utf8_lossy at 1. destruct s as [|b s]; [congruence|]. cbn [length utf8_lossy_fuel].
  pose proof (utf8_first_pos (b :: s)) as Hp. destruct (utf8_first (b :: s)) as [ok n]. cbn [fst snd] in *.
  f_equal. unfold utf8_lossy. apply utf8_lossy_fuel_irrel; [|lia].
  pose proof (skipn_length_lt n (b :: s) Hp ltac:(congruence)) as H. cbn [length] in H. lia.
Qed.

Lemma utf8_ind (P : str -> Prop) :
  P [] -> (forall s, s <> [] -> P (skipn (snd (utf8_first s)) s) -> P s) -> forall s, P s.
Proof.
  intros H0 H1. assert (H : forall n s, (length s <= n)%nat -> P s).
  { induction n as [|n IH]; intros s Hs; [destruct s; [exact H0|cbn in Hs; lia]|].
    destruct s as [|b s]; [exact H0|]. apply H1; [congruence|]. apply IH.
    pose proof (skipn_length_lt (snd (utf8_first (b :: s))) (b :: s) (utf8_first_pos _) ltac:(congruence)).
    lia. }
  intros s. apply (H (length s)). lia.
Qed.

Lemma utf8_lossy_valid_id s : utf8_valid s = true -> utf8_lossy s = s.
Proof.
  induction s as [|s Hs IH] using utf8_ind; [reflexivity|]. intros H.
  rewrite utf8_valid_step in H by exact Hs. apply andb_true_iff in H. destruct H as [Hok Hr].
  rewrite utf8_lossy_step by exact Hs. rewrite Hok, IH by exact Hr. apply firstn_skipn.
Qed.

Lemma utf8_valid_app a b : utf8_valid a = true -> utf8_valid (a ++ b) = utf8_valid b.
Proof.
  induction a as [|a Ha IH] using utf8_ind; [reflexivity|]. intros H.
  rewrite utf8_valid_step in H by exact Ha. apply andb_true_iff in H. destruct H as [Hok Hr].
  rewrite utf8_valid_step by (destruct a; [congruence|discriminate]).
  rewrite utf8_first_app by exact Hok. rewrite Hok. cbn [andb].
  rewrite skipn_app. pose proof (utf8_first_len a Hok) as Hl.
  replace (snd (utf8_first a) - length a)%nat with 0%nat by lia. rewrite skipn_O. apply IH. exact Hr.
Qed.

Lemma utf8_valid_firstn s : fst (utf8_first s) = true -> s <> [] ->
  utf8_valid (firstn (snd (utf8_first s)) s) = true.
Proof.
  unfold utf8_first. destruct s as [|b0 r]; [congruence|]. intros H _. revert H.
  destruct (N.ltb (bN b0) 128) eqn:E0.
  { cbn [fst snd firstn]. intros _. unfold utf8_valid. cbn [length utf8_valid_fuel utf8_first].
    rewrite E0. reflexivity. }
  destruct (in_range 194 223 b0) eqn:E1.
  { destruct r as [|b1 r]; [discriminate|]. destruct (is_cont b1) eqn:C1; [|discriminate].
    cbn [fst snd firstn]. intros _. unfold utf8_valid. cbn [length utf8_valid_fuel utf8_first].
    rewrite E0, E1, C1. reflexivity. }
  destruct (in_range 224 239 b0) eqn:E2.
  { destruct r as [|b1 r]; [discriminate|]. cbv zeta.
    destruct (if N.eqb (bN b0) 224 then in_range 160 191 b1 else if N.eqb (bN b0) 237 then in_range 128 159 b1 else is_cont b1) eqn:C1; [|discriminate].
    destruct r as [|b2 r]; [discriminate|]. destruct (is_cont b2) eqn:C2; [|discriminate].
    cbn [fst snd firstn]. intros _. unfold utf8_valid. cbn [length utf8_valid_fuel utf8_first].
    cbv zeta. rewrite E0, E1, E2, C1, C2. reflexivity. }
  destruct (in_range 240 244 b0) eqn:E3; [|discriminate].
  destruct r as [|b1 r]; [discriminate|]. cbv zeta.
  destruct (if N.eqb (bN b0) 240 then in_range 144 191 b1 else if N.eqb (bN b0) 244 then in_range 128 143 b1 else is_cont b1) eqn:C1; [|discriminate].
  destruct r as [|b2 r]; [discriminate|]. destruct (is_cont b2) eqn:C2; [|discriminate].
  destruct r as [|b3 r]; [discriminate|]. destruct (is_cont b3) eqn:C3; [|discriminate].
  cbn [fst snd firstn]. intros _. unfold utf8_valid. cbn [length utf8_valid_fuel utf8_first].
  cbv zeta. rewrite E0, E1, E2, E3, C1, C2, C3. reflexivity.
Qed.

Lemma utf8_lossy_is_valid s : utf8_valid (utf8_lossy s) = true.
Proof.
  induction s as [|s Hs IH] using utf8_ind; [reflexivity|].
  rewrite utf8_lossy_step by exact Hs. destruct (fst (utf8_first s)) eqn:E.
  - rewrite utf8_valid_app; [exact IH|]. apply utf8_valid_firstn; assumption.
  - rewrite utf8_valid_app; [exact IH|]. reflexivity.
Qed.

Lemma utf8_lossy_idem s : utf8_lossy (utf8_lossy s) = utf8_lossy s.
Proof. apply utf8_lossy_valid_id. apply utf8_lossy_is_valid. Qed.

Lemma utf8_first_ascii b s : (bN b < 128)%N -> utf8_first (b :: s) = (true, 1%nat).
Proof. intros H. unfold utf8_first. apply N.ltb_lt in H. rewrite H. reflexivity. Qed.

Lemma utf8_valid_cons b s : (bN b < 128)%N -> utf8_valid (b :: s) = utf8_valid s.
Proof. intros H. rewrite utf8_valid_step by congruence. rewrite utf8_first_ascii by exact H. reflexivity. Qed.

Lemma utf8_valid_ascii s : Forall (fun b => (bN b < 128)%N) s -> utf8_valid s = true.
Proof. induction 1 as [|b s H HF IH]; [reflexivity|]. rewrite utf8_valid_cons by exact H. exact IH. Qed.

Lemma utf8_lossy_cons b s : (bN b < 128)%N -> utf8_lossy (b :: s) = b :: utf8_lossy s.
Proof. intros H. rewrite utf8_lossy_step by congruence. rewrite utf8_first_ascii by exact H. reflexivity. Qed.

(** * Percent-encoding *)

Lemma unhexd_HEXD n : (n < 16)%N -> unhexd (HEXD n) = Some n.
Proof.
  intros H. pose proof (n_sweep 16 (fun n => match unhexd (HEXD n) with Some m => N.eqb m n | None => false end) eq_refl n H) as E.
  cbv beta in E. destruct (unhexd _); [|discriminate]. apply N.eqb_eq in E. congruence.
Qed.

Lemma pct_decode_pct b s : pct_decode (pct b ++ s) = b :: pct_decode s.
Proof.
  unfold pct. cbn [app pct_decode]. change (beq "%" "%") with true. cbv iota.
  pose proof (bN_lt b). rewrite !unhexd_HEXD by lia. f_equal.
  apply nb_of. lia.
Qed.

Lemma pct_decode_plain b s : b <> "%" -> pct_decode (b :: s) = b :: pct_decode s.
Proof. intros H. cbn [pct_decode]. destruct (beq_spec b "%"); [congruence|reflexivity]. Qed.

(** [s] starts with a [%HH] triplet. *)
Definition is_triplet (s : str) : bool :=
  match s with
  | c :: h :: l :: _ =>
      beq c "%" && match unhexd h, unhexd l with Some _, Some _ => true | _, _ => false end
  | _ => false
  end.

(** [s] contains no [%HH] triplet. *)
Fixpoint no_triplet (s : str) : bool :=
  match s with
  | [] => true
  | _ :: t => negb (is_triplet s) && no_triplet t
  end.

Lemma pct_decode_cons_no b s : is_triplet (b :: s) = false -> pct_decode (b :: s) = b :: pct_decode s.
Proof.
  unfold is_triplet. intros H. cbn [pct_decode]. destruct (beq b "%"); [|reflexivity].
  destruct s as [|h [|l r]]; try reflexivity. destruct (unhexd h), (unhexd l); try discriminate; reflexivity.
Qed.

Lemma pct_decode_triplet s : is_triplet s = true ->
  exists h l r a b, s = "%" :: h :: l :: r /\ unhexd h = Some a /\ unhexd l = Some b /\
                    pct_decode s = nb (16 * a + b) :: pct_decode r.
Proof.
  unfold is_triplet. destruct s as [|c [|h [|l r]]]; try discriminate. intros H.
  apply andb_true_iff in H. destruct H as [Hc Hh]. apply beq_eq in Hc. subst c.
  destruct (unhexd h) as [a|] eqn:Ea; [|discriminate]. destruct (unhexd l) as [b|] eqn:Eb; [|discriminate].
  exists h, l, r, a, b. repeat split; try assumption. cbn [pct_decode]. rewrite Ea, Eb. reflexivity.
Qed.

Lemma pct_decode_no_triplet s : no_triplet s = true -> pct_decode s = s.
Proof.
  induction s as [|b s IH]; [reflexivity|]. intros H. cbn [no_triplet] in H. apply andb_true_iff in H.
  destruct H as [H1 H2]. apply negb_true_iff in H1. rewrite pct_decode_cons_no by exact H1.
  rewrite IH by exact H2. reflexivity.
Qed.

(** A set that leaves ['%'] and hex digits alone. *)
Definition set_ok (set : byte -> bool) : bool :=
  forallb (fun b => negb (set b && (beq b "%" || match unhexd b with Some _ => true | None => false end)))
          (map (fun n => nb (N.of_nat n)) (seq 0 256)).

Lemma set_ok_pct set : set_ok set = true -> set "%" = false.
Proof.
  intros H. unfold set_ok in H. rewrite forallb_forall in H. specialize (H "%").
  destruct (set "%"); [|reflexivity]. discriminate H.
  apply in_map_iff. exists 37%nat. split; [reflexivity|]. apply in_seq. lia.
Qed.

Lemma set_ok_hex set b n : set_ok set = true -> unhexd b = Some n -> set b = false.
Proof.
  intros H Hb. unfold set_ok in H. rewrite forallb_forall in H. specialize (H b).
  rewrite Hb in H. destruct (set b); [|reflexivity]. rewrite orb_true_r in H. discriminate H.
  apply in_map_iff. exists (N.to_nat (bN b)). rewrite N2Nat.id. split; [apply nb_bN|].
  apply in_seq. pose proof (bN_lt b). lia.
Qed.

Lemma pct_encode_cons set b s :
  pct_encode set (b :: s) = (if set b then pct b else [b]) ++ pct_encode set s.
Proof. reflexivity. Qed.

Lemma pct_encode_app set a b : pct_encode set (a ++ b) = pct_encode set a ++ pct_encode set b.
Proof. unfold pct_encode. apply flat_map_app. Qed.

Lemma unhexd_pct : unhexd "%" = None.
Proof. reflexivity. Qed.

(** After encoding, the same triplets are seen. *)
Lemma is_triplet_encode set s : set_ok set = true ->
  match s with
  | [] => True
  | b :: t => set b = false -> is_triplet (b :: pct_encode set t) = is_triplet (b :: t)
  end.
Proof.
  intros Hset. destruct s as [|b t]; [exact I|]. intros Hb.
  unfold is_triplet. destruct (beq b "%"); [|destruct t as [|h [|l r]]; cbn [andb];
    repeat (match goal with |- context [match ?x with [] => _ | _ :: _ => _ end] => destruct x end); reflexivity].
  cbn [andb]. destruct t as [|h t]; [reflexivity|].
  rewrite pct_encode_cons. destruct (set h) eqn:Eh.
  - assert (Uh : unhexd h = None).
    { destruct (unhexd h) eqn:U; [|reflexivity]. rewrite (set_ok_hex set h n Hset U) in Eh. discriminate. }
    unfold pct. cbn [app]. change (unhexd "%") with (@None N). rewrite Uh.
    destruct t; reflexivity.
  - cbn [app]. destruct t as [|l t]; [reflexivity|]. rewrite pct_encode_cons. destruct (set l) eqn:El.
    + assert (Ul : unhexd l = None).
      { destruct (unhexd l) eqn:U; [|reflexivity]. rewrite (set_ok_hex set l n Hset U) in El. discriminate. }
      unfold pct. cbn [app]. change (unhexd "%") with (@None N). rewrite Ul. reflexivity.
    + reflexivity.
Qed.

(** Encoding does not change what a decoder reads. *)
Lemma pct_decode_encode set s : set_ok set = true -> pct_decode (pct_encode set s) = pct_decode s.
Proof.
  intros Hset. assert (H : forall n s, (length s <= n)%nat -> pct_decode (pct_encode set s) = pct_decode s).
  2:{ apply (H (length s)). lia. }
  clear s. induction n as [|n IH]; intros s Hl.
  { destruct s; [reflexivity|cbn in Hl; lia]. }
  destruct s as [|b t]; [reflexivity|]. cbn in Hl.
  rewrite pct_encode_cons. destruct (set b) eqn:Eb.
  - rewrite pct_decode_pct. rewrite IH by lia.
    rewrite pct_decode_plain; [reflexivity|]. intros ->. rewrite set_ok_pct in Eb; [discriminate|exact Hset].
  - cbn [app]. pose proof (is_triplet_encode set (b :: t) Hset Eb) as Ht.
    destruct (is_triplet (b :: t)) eqn:T.
    + destruct (pct_decode_triplet _ T) as (h & l & r & x & y & E & Hx & Hy & Hd). injection E as -> ->.
      rewrite !pct_encode_cons. rewrite (set_ok_hex set h _ Hset Hx), (set_ok_hex set l _ Hset Hy).
      cbn [app]. rewrite Hd. cbn [pct_decode]. change (beq "%" "%") with true. cbv iota.
      rewrite Hx, Hy. f_equal. apply IH. cbn in Hl. lia.
    + rewrite !pct_decode_cons_no by assumption. f_equal. apply IH. lia.
Qed.

Lemma pct_encode_id set s : forallb (fun b => negb (set b)) s = true -> pct_encode set s = s.
Proof.
  induction s as [|b s IH]; [reflexivity|]. cbn [forallb]. intros H. apply andb_true_iff in H. destruct H as [H1 H2].
  rewrite pct_encode_cons. apply negb_true_iff in H1. rewrite H1, IH by exact H2. reflexivity.
Qed.

(** Bytes of an encoded text. *)
Lemma pct_encode_bytes (P : byte -> bool) set s :
  P "%" = true -> (forall n, (n < 16)%N -> P (HEXD n) = true) -> (forall b, In b s -> set b = false -> P b = true) ->
  forallb P (pct_encode set s) = true.
Proof.
  intros H1 H2 H3. unfold pct_encode. apply forallb_forall. intros x Hx. apply in_flat_map in Hx.
  destruct Hx as (b & Hb & Hx). destruct (set b) eqn:E.
  - unfold pct in Hx. pose proof (bN_lt b). destruct Hx as [<-|[<-|[<-|[]]]]; [exact H1|apply H2; lia|apply H2; lia].
  - destruct Hx as [<-|[]]. apply H3; assumption.
Qed.

Lemma HEXD_sweep (P : byte -> bool) :
  forallb (fun i => P (HEXD (N.of_nat i))) (seq 0 16) = true -> forall n, (n < 16)%N -> P (HEXD n) = true.
Proof. intros H n Hn. exact (n_sweep 16 (fun n => P (HEXD n)) H n Hn). Qed.

(** An encoded text avoids the encoded characters. *)
Lemma pct_encode_avoids set c s : set c = true -> c <> "%" -> (forall n, (n < 16)%N -> HEXD n <> c) ->
  ~ In c (pct_encode set s).
Proof.
  intros Hc Hp Hh Hin. unfold pct_encode in Hin. apply in_flat_map in Hin. destruct Hin as (b & Hb & Hx).
  destruct (set b) eqn:E.
  - unfold pct in Hx. pose proof (bN_lt b).
    destruct Hx as [E1|[E1|[E1|[]]]]; [congruence| |]; eapply Hh; try exact E1; lia.
  - destruct Hx as [<-|[]]. congruence.
Qed.

(** * Splitting *)

Lemma split_on_nonempty sep s : split_on sep s <> [].
Proof. destruct s as [|c s]; cbn; [discriminate|]. destruct (beq c sep); [discriminate|]. destruct (split_on sep s); discriminate. Qed.

Lemma split_on_none sep s : ~ In sep s -> split_on sep s = [s].
Proof.
  induction s as [|c s IH]; intros H; [reflexivity|]. cbn [split_on].
  destruct (beq_spec c sep) as [->|]; [exfalso; apply H; left; reflexivity|].
  rewrite IH; [reflexivity|]. intros Hin. apply H. right. exact Hin.
Qed.

Lemma split_on_app sep a b : split_on sep (a ++ sep :: b) = split_on sep a ++ split_on sep b.
Proof.
  induction a as [|c a IH]; cbn [app split_on].
  - rewrite beq_refl. reflexivity.
  - destruct (beq c sep); [rewrite IH; reflexivity|]. rewrite IH.
    pose proof (split_on_nonempty sep a). destruct (split_on sep a); [congruence|reflexivity].
Qed.

Lemma split_on_join sep l : l <> [] -> Forall (fun s => ~ In sep s) l -> split_on sep (join [sep] l) = l.
Proof.
  induction l as [|x l IH]; [congruence|]. intros _ H. inversion H as [|? ? Hx Hl]; subst.
  destruct l as [|y l]; [cbn [join]; apply split_on_none; exact Hx|].
  rewrite join_cons2. change ([sep] ++ join [sep] (y :: l)) with (sep :: join [sep] (y :: l)).
  rewrite split_on_app, IH by (congruence || exact Hl). rewrite split_on_none by exact Hx. reflexivity.
Qed.

Lemma join_split_on sep s : join [sep] (split_on sep s) = s.
Proof.
  induction s as [|c s IH]; [reflexivity|]. cbn [split_on].
  destruct (beq_spec c sep) as [->|Hn].
  - pose proof (split_on_nonempty sep s). destruct (split_on sep s) as [|x l] eqn:E; [congruence|].
    rewrite join_cons2, IH. reflexivity.
  - pose proof (split_on_nonempty sep s). destruct (split_on sep s) as [|x l] eqn:E; [congruence|].
    destruct l as [|y l].
    + cbn [join] in *. congruence.
    + rewrite join_cons2 in *. cbn [app]. f_equal. exact IH.
Qed.

Lemma split_on_no_sep sep s : Forall (fun p => ~ In sep p) (split_on sep s).
Proof.
  induction s as [|c s IH]; cbn [split_on]; [constructor; [intros []|constructor]|].
  destruct (beq_spec c sep) as [->|Hn]; [constructor; [intros []|exact IH]|].
  destruct (split_on sep s) as [|x l]; [constructor; [|constructor]; intros [E|[]]; congruence|].
  inversion IH as [|? ? H1 H2]; subst. constructor; [|exact H2]. intros [E|Hin]; [congruence|exact (H1 Hin)].
Qed.

(** * Forms *)

Lemma form_serialize_cons b s : form_serialize (b :: s) =
  (if form_unchanged b then [b] else if beq b " " then ["+"] else pct b) ++ form_serialize s.
Proof. reflexivity. Qed.

Lemma replace_plus_app a b : replace_plus (a ++ b) = replace_plus a ++ replace_plus b.
Proof. apply map_app. Qed.

Lemma replace_plus_id s : ~ In "+" s -> replace_plus s = s.
Proof.
  induction s as [|c s IH]; intros H; [reflexivity|]. cbn [replace_plus map].
  destruct (beq_spec c "+") as [->|]; [exfalso; apply H; left; reflexivity|].
  f_equal. apply IH. intros Hin. apply H. right. exact Hin.
Qed.

Lemma HEXD_not_plus n : (n < 16)%N -> beq (HEXD n) "+" = false.
Proof. intros H. apply negb_true_iff. exact (HEXD_sweep (fun b => negb (beq b "+")) eq_refl n H). Qed.

Lemma replace_plus_pct b : replace_plus (pct b) = pct b.
Proof.
  pose proof (bN_lt b). unfold pct, replace_plus. cbn [map]. change (beq "%" "+") with false. cbv iota.
  rewrite !HEXD_not_plus by lia. reflexivity.
Qed.

Lemma form_unchanged_not b : form_unchanged b = true ->
  b <> "%" /\ b <> "+" /\ b <> "&" /\ b <> "=" /\ b <> "#".
Proof. intros H. repeat split; intros ->; discriminate H. Qed.

Lemma pct_decode_serialize s t :
  pct_decode (replace_plus (form_serialize s) ++ t) = s ++ pct_decode t.
Proof.
  induction s as [|b s IH]; [reflexivity|]. rewrite form_serialize_cons, replace_plus_app, <- app_assoc.
  cbn [app]. destruct (form_unchanged b) eqn:E.
  - destruct (form_unchanged_not b E) as (H1 & H2 & _). cbn [replace_plus map app].
    destruct (beq_spec b "+"); [congruence|]. fold (replace_plus (form_serialize s)).
    rewrite pct_decode_plain by exact H1. f_equal. exact IH.
  - destruct (beq_spec b " ") as [->|].
    + cbn [replace_plus map app]. change (beq "+" "+") with true. cbv iota.
      fold (replace_plus (form_serialize s)). rewrite pct_decode_plain by discriminate. f_equal. exact IH.
    + rewrite replace_plus_pct, pct_decode_pct. f_equal. exact IH.
Qed.

Lemma form_decode_serialize s : form_decode (form_serialize s) = utf8_lossy s.
Proof.
  unfold form_decode. rewrite <- (app_nil_r (replace_plus _)), pct_decode_serialize.
  cbn [pct_decode]. rewrite app_nil_r. reflexivity.
Qed.

(** Bytes written by [form_serialize]. *)
Definition form_byte (b : byte) : bool := form_unchanged b || beq b "+" || beq b "%".

Lemma form_serialize_bytes s : forallb form_byte (form_serialize s) = true.
Proof.
  apply forallb_forall. intros x Hx. unfold form_serialize in Hx. apply in_flat_map in Hx.
  destruct Hx as (b & _ & Hx). destruct (form_unchanged b) eqn:E.
  - destruct Hx as [<-|[]]. unfold form_byte. rewrite E. reflexivity.
  - destruct (beq b " "); [destruct Hx as [<-|[]]; reflexivity|].
    unfold pct in Hx. pose proof (bN_lt b).
    destruct Hx as [<-|[<-|[<-|[]]]]; [reflexivity| |];
      (apply HEXD_sweep; [reflexivity|lia]).
Qed.

Lemma form_serialize_avoids c s : form_byte c = false -> ~ In c (form_serialize s).
Proof.
  intros H Hin. pose proof (form_serialize_bytes s) as F. rewrite forallb_forall in F.
  rewrite (F c Hin) in H. discriminate.
Qed.

Lemma form_parse_nil : form_parse [] = [].
Proof. reflexivity. Qed.

Lemma form_parse_app a b : form_parse (a ++ "&" :: b) = form_parse a ++ form_parse b.
Proof. unfold form_parse. rewrite split_on_app, filter_app, map_app. reflexivity. Qed.

(** One name=value piece without separators. *)
Lemma form_parse_pair k v : ~ In "&" k -> ~ In "=" k -> ~ In "&" v ->
  form_parse (k ++ "=" :: v) = [(form_decode k, form_decode v)].
Proof.
  intros H1 H2 H3. unfold form_parse. rewrite split_on_none.
  2:{ intros Hin. apply in_app_or in Hin. destruct Hin as [Hin|[E|Hin]]; [exact (H1 Hin)|discriminate E|exact (H3 Hin)]. }
  cbn [filter]. destruct (k ++ "=" :: v) as [|x l] eqn:E; [destruct k; discriminate E|]. rewrite <- E.
  cbn [map]. rewrite split_once_app by exact H2. reflexivity.
Qed.

Lemma form_parse_append q kv :
  form_parse (append_pair q kv) = form_parse q ++ [(utf8_lossy (fst kv), utf8_lossy (snd kv))].
Proof.
  destruct kv as [k v]. cbn [fst snd].
  assert (H : form_parse (form_serialize k ++ "=" :: form_serialize v) = [(utf8_lossy k, utf8_lossy v)]).
  { rewrite form_parse_pair; [rewrite !form_decode_serialize; reflexivity| | |];
      apply form_serialize_avoids; reflexivity. }
  unfold append_pair. cbn [fst snd]. destruct q as [|c q].
  - cbn [app]. rewrite form_parse_nil. exact H.
  - change (["&"] ++ form_serialize k ++ ["="] ++ form_serialize v)
      with ("&" :: (form_serialize k ++ "=" :: form_serialize v)).
    rewrite form_parse_app, H. reflexivity.
Qed.

Lemma form_parse_fold q l :
  form_parse (fold_left append_pair l q)
  = form_parse q ++ map (fun kv => (utf8_lossy (fst kv), utf8_lossy (snd kv))) l.
Proof.
  revert q; induction l as [|kv l IH]; intros q; cbn [fold_left map]; [rewrite app_nil_r; reflexivity|].
  rewrite IH, form_parse_append, <- app_assoc. reflexivity.
Qed.

Lemma form_parse_valid q : Forall (fun kv => utf8_valid (fst kv) = true /\ utf8_valid (snd kv) = true) (form_parse q).
Proof.
  unfold form_parse. apply Forall_forall. intros kv H. apply in_map_iff in H. destruct H as (p & <- & _).
  destruct (split_once "=" p) as [k v]. cbn [fst snd]. split; apply utf8_lossy_is_valid.
Qed.

(** A list of pieces joined by [&]. *)
Lemma form_parse_join (l : list (str * str)) :
  Forall (fun kv => ~ In "&" (fst kv) /\ ~ In "=" (fst kv) /\ ~ In "&" (snd kv)) l ->
  form_parse (join (B "&") (map (fun kv => fst kv ++ B "=" ++ snd kv) l))
  = map (fun kv => (form_decode (fst kv), form_decode (snd kv))) l.
Proof.
  induction l as [|[k v] l IH]; intros H; [reflexivity|]. inversion H as [|? ? (H1 & H2 & H3) Hl]; subst.
  cbn [fst snd] in *. cbn [map fst snd]. destruct l as [|kv2 l].
  - cbn [map join]. change (B "=" ++ v) with ("=" :: v). apply form_parse_pair; assumption.
  - specialize (IH Hl). cbn [map] in *. rewrite join_cons2. change (B "&" ++ ?x) with ("&" :: x).
    rewrite form_parse_app. refine (eq_trans (f_equal (app _) IH) _). change (B "=" ++ v) with ("=" :: v).
    rewrite form_parse_pair by assumption. reflexivity.
Qed.
