(** The canonical header block and the signed header names. *)
From Coq Require Import Sorted Permutation.
From Verif Require Import Base BaseFacts Keys Url SignedUrl SpecUrl UrlFacts UrlSpecFacts SignedUrlFacts.
Local Open Scope byte_scope.

Definition vals (n : str) (l : list (str * str)) : list str := map snd (filter (fun kv => str_eqb (lower_str (fst kv)) n) l).

Definition opt_list (l : list str) : option (list str) := match l with [] => None | _ => Some l end.

Lemma collect_spec hs m m' : StronglySorted str_lt (map fst m) -> (forall n, lookup n m <> Some []) ->
  collect_headers hs m = Some m' ->
  StronglySorted str_lt (map fst m') /\
  (forall n, lookup n m' = opt_list (unwrap_or (lookup n m) [] ++ vals n hs)) /\
  Forall (fun h => header_value_to_str (snd h) <> None) hs.
Proof.
  revert m. induction hs as [|[k v] hs IH]; intros m S N H; cbn [collect_headers] in H.
  - injection H as <-. split; [exact S|]. split; [|constructor]. intros n. unfold vals. cbn [filter map]. rewrite app_nil_r.
    specialize (N n). destruct (lookup n m) as [[|x l]|]; [congruence|reflexivity|reflexivity].
  - destruct (header_value_to_str v) as [w|] eqn:Ev; [|discriminate H].
    assert (w = v) as -> by (unfold header_value_to_str in Ev; destruct (forallb _ v); congruence).
    apply IH in H.
    + destruct H as (S' & L & F). split; [exact S'|]. split; [|constructor; [cbn [snd]; congruence|exact F]]. intros n. rewrite L.
      rewrite bmap_push_lookup by exact S. unfold vals. cbn [filter]. cbn [fst].
      rewrite (str_eqb_sym n (lower_str k)). destruct (str_eqb_spec (lower_str k) n) as [<-|Hn].
      * cbn [map snd unwrap_or]. rewrite <- app_assoc. reflexivity.
      * reflexivity.
    + rewrite bmap_push_keys. apply bset_insert_sorted. exact S.
    + intros n. rewrite bmap_push_lookup by exact S. destruct (str_eqb n (lower_str k)); [|apply N].
      intros E. injection E as E. destruct (unwrap_or _ _); discriminate E.
Qed.

Lemma collect_total hs m : Forall (fun h => header_value_to_str (snd h) <> None) hs -> collect_headers hs m <> None.
Proof.
  revert m. induction hs as [|[k v] hs IH]; intros m F; cbn [collect_headers]; [discriminate|]. inversion F as [|? ? F1 F2]; subst.
  cbn [snd] in F1. destruct (header_value_to_str v); [|congruence]. apply IH. exact F2.
Qed.

Lemma lookup_in {V} n (m : list (str * V)) : (exists v, lookup n m = Some v) <-> In n (map fst m).
Proof.
  induction m as [|[k v] m IH]; cbn [lookup map fst In]; [split; [intros [? H]; discriminate H|intros []]|].
  destruct (str_eqb_spec n k) as [->|Hn]; [split; [auto|eauto]|]. rewrite IH. split; [auto|intros [E|H]; [congruence|exact H]].
Qed.

Lemma map_by_lookup (m : list (str * list str)) (f : str -> list str) : NoDup (map fst m) ->
  (forall n v, lookup n m = Some v -> v = f n) -> m = map (fun n => (n, f n)) (map fst m).
Proof.
  induction m as [|[k v] m IH]; intros ND L; [reflexivity|]. cbn [map fst] in *. inversion ND as [|? ? N1 N2]; subst. f_equal.
  - f_equal. apply L. cbn [lookup]. rewrite str_eqb_refl. reflexivity.
  - apply IH; [exact N2|]. intros n w Hn. apply L. cbn [lookup]. destruct (str_eqb_spec n k) as [->|]; [|exact Hn].
    exfalso. apply N1. apply lookup_in. eauto.
Qed.

Lemma lower_idem s : lower_str (lower_str s) = lower_str s.
Proof.
  unfold lower_str. rewrite map_map. apply map_ext. intros c. apply beq_eq. revert c.
  apply (byte_sweep (fun c => beq (lower (lower c)) (lower c))). reflexivity.
Qed.

Section Headers.
Context (d : deps) (ok : deps_ok d) (o : url_options).
Let L := d_hm_iter d (request_headers (lowered o)).

Lemma iter_in kv : In kv L <-> In kv (request_headers (lowered o)).
Proof.
  assert (G : forall m, In kv m <-> In kv (filter (fun x => str_eqb (fst x) (fst kv)) m)).
  { intros m. rewrite filter_In, str_eqb_refl. tauto. }
  rewrite (G L), (G (request_headers (lowered o))). unfold L. rewrite (ok (request_headers (lowered o)) (fst kv)). reflexivity.
Qed.

Lemma iter_lower kv : In kv L -> lower_str (fst kv) = fst kv.
Proof.
  intros H. apply iter_in in H. destruct H as [<-|H]; [reflexivity|]. unfold lowered in H. apply in_map_iff in H.
  destruct H as (h & <- & _). cbn [fst]. apply lower_idem.
Qed.

Lemma vals_iter n : vals n L = values (o_headers o) n.
Proof.
  unfold vals. rewrite (filter_ext_in _ (fun kv => str_eqb (fst kv) n)).
  2:{ intros kv H. rewrite (iter_lower kv H). reflexivity. }
  unfold L. rewrite ok. unfold request_headers, values. cbn [filter fst]. rewrite (str_eqb_sym (B "host") n).
  assert (E : map snd (filter (fun kv => str_eqb (fst kv) n) (lowered o)) = map snd (filter (fun h => str_eqb (ascii_lower (fst h)) n) (o_headers o))).
  { unfold lowered. induction (o_headers o) as [|h hs IH]; [reflexivity|]. cbn [map filter fst snd].
    destruct (str_eqb (ascii_lower (fst h)) n); cbn [map snd]; rewrite IH; reflexivity. }
  destruct (str_eqb n (B "host")); cbn [map snd app]; rewrite E; reflexivity.
Qed.

Definition name_list : list str := bset_of_list (map (fun kv => lower_str (fst kv)) L).

Lemma name_list_in n : In n name_list <-> values (o_headers o) n <> [].
Proof.
  unfold name_list. rewrite bset_of_list_in, in_map_iff, <- vals_iter. unfold vals. split.
  - intros (kv & E & I) H. assert (G : In kv (filter (fun kv => str_eqb (lower_str (fst kv)) n) L)) by (apply filter_In; split; [exact I|apply str_eqb_eq; exact E]).
    destruct (filter _ L); [destruct G|discriminate H].
  - intros H. destruct (filter _ L) as [|kv r] eqn:E; [contradiction H; reflexivity|].
    assert (G : In kv (filter (fun kv => str_eqb (lower_str (fst kv)) n) L)) by (rewrite E; left; reflexivity).
    apply filter_In in G. destruct G as [G1 G2]. apply str_eqb_eq in G2. eauto.
Qed.

Lemma names_spec : header_names (o_headers o) name_list.
Proof. split; [apply strictly_ascending_iff; apply bset_of_list_sorted|exact name_list_in]. Qed.

Lemma names_text : names_of d (lowered o) = join (B ";") name_list.
Proof. reflexivity. Qed.

Lemma block_spec block : block_of d (lowered o) = Some block ->
  block = join [x0a] (map (fun n => n ++ B ":" ++ join (B ",") (values (o_headers o) n)) name_list) /\
  Forall (fun h => header_value_to_str (snd h) <> None) (o_headers o).
Proof.
  unfold block_of. fold L. destruct (collect_headers L []) as [m|] eqn:E; [|discriminate]. intros H. injection H as <-.
  apply collect_spec in E; [|constructor|discriminate]. destruct E as (S & K & F). cbn [lookup unwrap_or app] in K.
  assert (M : m = map (fun n => (n, values (o_headers o) n)) (map fst m)).
  { apply map_by_lookup; [apply strict_sorted_nodup; exact S|]. intros n v Hv. rewrite K, vals_iter in Hv.
    destruct (values (o_headers o) n); [discriminate Hv|]. unfold opt_list in Hv. congruence. }
  assert (N : map fst m = name_list).
  { apply strict_sorted_unique; [exact S|apply bset_of_list_sorted|]. intros n. rewrite name_list_in, <- lookup_in, K, vals_iter.
    destruct (values (o_headers o) n); cbn [opt_list]; split; try congruence; try discriminate; eauto. intros [? H]; discriminate H. }
  split.
  - f_equal. rewrite M, N, map_map. reflexivity.
  - apply Forall_forall. intros h Hh. rewrite Forall_forall in F. apply (F (ascii_lower (fst h), snd h)). apply iter_in. right.
    unfold lowered. apply in_map_iff. exists h. auto.
Qed.

Lemma block_total : Forall (fun h => header_value_to_str (snd h) <> None) (o_headers o) -> exists block, block_of d (lowered o) = Some block.
Proof.
  intros F. unfold block_of. fold L. destruct (collect_headers L []) as [m|] eqn:E; [eauto|]. exfalso. revert E. apply collect_total.
  apply Forall_forall. intros h Hh. apply iter_in in Hh. destruct Hh as [<-|Hh]; [discriminate|]. unfold lowered in Hh. apply in_map_iff in Hh.
  destruct Hh as (x & <- & Hx). cbn [snd]. rewrite Forall_forall in F. auto.
Qed.

Lemma block_text block : block_of d (lowered o) = Some block -> header_block (o_headers o) name_list block.
Proof.
  intros H. apply block_spec in H. destruct H as [-> _].
  exists (map (fun n => n ++ B ":" ++ join (B ",") (values (o_headers o) n)) name_list). split; [|apply glued_iff; reflexivity].
  induction name_list as [|n l IH]; constructor; [|exact IH]. eexists. split; [apply glued_iff; reflexivity|reflexivity].
Qed.

End Headers.
