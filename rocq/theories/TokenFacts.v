(** The struct readers of Keys.v meet SpecToken.v. *)
From Verif Require Import Base BaseFacts Json SpecJson JsonFacts Base64 SpecCodec CodecFacts Effects Keys SpecToken.

(** String literals of a raw tree are lexically valid. *)
Fixpoint raw_wf (r : raw) : Prop :=
  match r with
  | RStr t => rstr t
  | RArr l => fold_right (fun x acc => raw_wf x /\ acc) True l
  | RObj l => fold_right (fun kv acc => rstr (fst kv) /\ raw_wf (snd kv) /\ acc) True l
  | _ => True
  end.

Lemma rvalue_wf :
  (forall r t, rvalue r t -> raw_wf r) /\
  (forall l t, relems l t -> fold_right (fun x acc => raw_wf x /\ acc) True l) /\
  (forall l t, rmembers l t -> fold_right (fun kv acc => rstr (fst kv) /\ raw_wf (snd kv) /\ acc) True l).
Proof. apply raw_grammar_ind; intros; cbn [raw_wf fold_right fst snd]; auto. Qed.

Lemma raw_text_wf r s : raw_text r s -> raw_wf r.
Proof. intros (? & t & ? & _ & _ & H & _). eapply rvalue_wf; exact H. Qed.

Lemma text_of_spec r s : raw_wf r -> (text_of r s <-> de_string r = Some s).
Proof.
  intros W. unfold text_of. split.
  - intros (t & -> & J). cbn. apply unescape_jstring in J. tauto.
  - destruct r as [| |?|t|?|?]; cbn; try discriminate. intros U. exists t. split; [reflexivity|]. apply jstring_unescape; assumption.
Qed.

Lemma number_of_spec r n : number_of r n <-> de_u64 r = Some n.
Proof.
  unfold number_of. split.
  - intros (t & -> & U & L). cbn [de_u64]. rewrite U. apply N.ltb_lt in L. rewrite L. reflexivity.
  - destruct r as [| |t|?|?|?]; cbn [de_u64]; try discriminate. destruct (undec t) as [m|] eqn:U; [|discriminate].
    destruct (N.ltb_spec m two64); [|discriminate]. intros E. injection E as <-. exists t. auto.
Qed.

Lemma filter_none {V} (l : list (str * V)) n : ~ In n (map fst l) -> filter (fun kv => str_eqb (fst kv) n) l = [].
Proof.
  induction l as [|[k v] l IH]; cbn; [reflexivity|]. intros H. destruct (str_eqb_spec k n) as [->|]; [tauto|auto].
Qed.

Lemma filter_nil {V} (l : list (str * V)) n : filter (fun kv => str_eqb (fst kv) n) l = [] -> ~ In n (map fst l).
Proof.
  induction l as [|[k v] l IH]; cbn; [auto|]. destruct (str_eqb_spec k n) as [->|Hn]; [discriminate|].
  intros H [E|I]; [congruence|]. exact (IH H I).
Qed.

Lemma only_member_spec (l : list (str * raw)) n v : only_member l n v <-> members_named n l = [v].
Proof.
  unfold only_member, members_named. split.
  - intros (a & b & -> & Ha & Hb). rewrite filter_app. cbn [filter fst].
    destruct (str_eqb_spec n n) as [_|]; [|congruence]. rewrite !filter_none by assumption. reflexivity.
  - induction l as [|[k w] l IH]; cbn [filter fst]; [discriminate|]. destruct (str_eqb_spec k n) as [->|Hn].
    + cbn [map snd]. intros H. injection H as -> H. exists [], l. split; [reflexivity|]. split; [auto|].
      apply filter_nil. destruct (filter _ l); [reflexivity|discriminate H].
    + intros H. destruct (IH H) as (a & b & -> & Ha & Hb). exists ((k, w) :: a), b. split; [reflexivity|].
      split; [|exact Hb]. cbn. intros [E|I]; [congruence|auto].
Qed.

Lemma traverse_forall2 {A C} (f : A -> option C) l l' : traverse f l = Some l' <-> Forall2 (fun x y => f x = Some y) l l'.
Proof.
  revert l'. induction l as [|x l IH]; intros l'; cbn [traverse].
  - split; [intros H; injection H as <-; constructor|]. intros H. inversion H. reflexivity.
  - split.
    + destruct (f x) as [y|] eqn:E; [|discriminate]. destruct (traverse f l) as [ys|]; [|discriminate].
      intros H. injection H as <-. constructor; [exact E|]. apply IH. reflexivity.
    + intros H. inversion H as [|? y ? ys Hy Hys]; subst. rewrite Hy. apply IH in Hys. rewrite Hys. reflexivity.
Qed.

Lemma Forall2_impl {A C} (P Q : A -> C -> Prop) l l' :
  (forall x y, P x y -> Q x y) -> Forall2 P l l' -> Forall2 Q l l'.
Proof. intros H. induction 1; constructor; auto. Qed.

Lemma struct_of_spec names r vs : raw_wf r -> (struct_of names r vs <-> de_struct names r = Some vs).
Proof.
  intros W. split.
  - intros H. destruct H as [l H|l l' vs Hk Hm].
    + cbn [de_struct]. rewrite H, Nat.eqb_refl. reflexivity.
    + cbn [de_struct]. assert (E : decode_keys l = Some l').
      { unfold decode_keys. apply traverse_forall2. eapply Forall2_impl; [|exact Hk].
        intros [k v] [k' v'] [J E]. cbn [fst snd] in *. subst v'. apply unescape_jstring in J. destruct J as [_ ->]. reflexivity. }
      rewrite E. apply traverse_forall2. eapply Forall2_impl; [|exact Hm]. cbv beta. intros n v Hn.
      apply only_member_spec in Hn. rewrite Hn. reflexivity.
  - destruct r as [| | | |l|l]; cbn [de_struct]; try discriminate.
    + destruct (Nat.eqb_spec (length l) (length names)); [|discriminate]. intros E. injection E as <-. constructor. assumption.
    + destruct (decode_keys l) as [l'|] eqn:E; [|discriminate]. intros T. apply (so_object names l l').
      * unfold decode_keys in E. apply traverse_forall2 in E. cbn [raw_wf] in W. clear T. revert W.
        induction E as [|[k v] [k' v'] l l' H E IH]; intros W; constructor.
        -- cbn [fst snd] in *. destruct (unescape k) as [u|] eqn:U; [|discriminate]. injection H as <- <-.
           split; [|reflexivity]. apply jstring_unescape; [|exact U]. apply W.
        -- apply IH. cbn [fold_right] in W. tauto.
      * apply traverse_forall2 in T. eapply Forall2_impl; [|exact T]. cbv beta. intros n v H. apply only_member_spec.
        destruct (members_named n l') as [|x [|? ?]]; try discriminate. congruence.
Qed.

Lemma struct_of_wf names r vs : raw_wf r -> struct_of names r vs -> Forall raw_wf vs.
Proof.
  intros W H. destruct H as [l H|l l' vs Hk Hm].
  - clear H. induction l as [|x l IH]; constructor; cbn in W; tauto.
  - assert (F : forall n v, In (n, v) l' -> raw_wf v).
    { intros n v. cbn [raw_wf] in W. revert W. clear Hm. induction Hk as [|[k w] [k' w'] l l' [_ E] Hk IH]; intros W; [intros []|].
      cbn [fold_right fst snd] in *. subst w'. intros [E|I]; [injection E as _ <-; tauto|tauto]. }
    induction Hm as [|n v names vs Hn Hm IH]; constructor; [|exact IH].
    destruct Hn as (a & b & -> & _). apply (F n). apply in_or_app. right; left; reflexivity.
Qed.

Lemma token_body_spec body token n ty :
  token_body body token n ty <->
  access_token_from_str body = Some {| at_token := token; at_expires_in := n; at_type := ty |}.
Proof.
  unfold token_body, access_token_from_str. split.
  - intros (r & a & e & t & R & S & Ha & He & Ht). pose proof (raw_text_wf _ _ R) as W.
    pose proof (struct_of_wf _ _ _ W S) as WF. inversion WF as [|? ? Wa WF1]; subst. inversion WF1 as [|? ? We WF2]; subst.
    inversion WF2 as [|? ? Wt _]; subst. apply from_str_raw_spec in R. rewrite R.
    apply struct_of_spec in S; [|exact W]. rewrite S. apply text_of_spec in Ha; [|exact Wa]. apply text_of_spec in Ht; [|exact Wt].
    apply number_of_spec in He. rewrite Ha, He, Ht. reflexivity.
  - destruct (from_str_raw body) as [r|] eqn:R; [|discriminate]. apply from_str_raw_spec in R.
    pose proof (raw_text_wf _ _ R) as W. destruct (de_struct _ r) as [l|] eqn:S; [|discriminate].
    apply struct_of_spec in S; [|exact W]. pose proof (struct_of_wf _ _ _ W S) as WF.
    destruct l as [|a [|e [|t [|? ?]]]]; try discriminate.
    inversion WF as [|? ? Wa WF1]; subst. inversion WF1 as [|? ? We WF2]; subst. inversion WF2 as [|? ? Wt _]; subst.
    destruct (de_string a) as [sa|] eqn:Ea; [|discriminate]. destruct (de_u64 e) as [se|] eqn:Ee; [|discriminate].
    destruct (de_string t) as [st|] eqn:Et; [|discriminate]. intros E. injection E as -> -> ->.
    exists r, a, e, t. split; [exact R|]. split; [exact S|]. split; [apply text_of_spec; assumption|].
    split; [apply number_of_spec; assumption|apply text_of_spec; assumption].
Qed.

Lemma token_body_unique body t1 n1 y1 t2 n2 y2 :
  token_body body t1 n1 y1 -> token_body body t2 n2 y2 -> t1 = t2 /\ n1 = n2 /\ y1 = y2.
Proof.
  intros H1 H2. apply token_body_spec in H1, H2. rewrite H1 in H2. injection H2 as -> -> ->. auto.
Qed.

Lemma blob_body_spec body sig :
  blob_body body sig <-> exists blob, signed_blob_from_str body = Some blob /\ b64_decode blob = Some sig.
Proof.
  unfold blob_body, signed_blob_from_str. split.
  - intros (r & k & b & key_id & blob & R & S & Hk & Hb & D). pose proof (raw_text_wf _ _ R) as W.
    pose proof (struct_of_wf _ _ _ W S) as WF. inversion WF as [|? ? Wk WF1]; subst. inversion WF1 as [|? ? Wb _]; subst.
    apply from_str_raw_spec in R. rewrite R. apply struct_of_spec in S; [|exact W]. rewrite S.
    apply text_of_spec in Hk; [|exact Wk]. apply text_of_spec in Hb; [|exact Wb]. rewrite Hk, Hb.
    exists blob. split; [reflexivity|]. apply b64_decode_spec. exact D.
  - intros (blob & E & D). destruct (from_str_raw body) as [r|] eqn:R; [|discriminate]. apply from_str_raw_spec in R.
    pose proof (raw_text_wf _ _ R) as W. destruct (de_struct _ r) as [l|] eqn:S; [|discriminate].
    apply struct_of_spec in S; [|exact W]. pose proof (struct_of_wf _ _ _ W S) as WF.
    destruct l as [|k [|b [|? ?]]]; try discriminate.
    inversion WF as [|? ? Wk WF1]; subst. inversion WF1 as [|? ? Wb _]; subst.
    destruct (de_string k) as [sk|] eqn:Ek; [|discriminate]. destruct (de_string b) as [sb|] eqn:Eb; [|discriminate].
    injection E as ->. exists r, k, b, sk, blob. split; [exact R|]. split; [exact S|].
    split; [apply text_of_spec; assumption|]. split; [apply text_of_spec; assumption|]. apply b64_decode_spec. exact D.
Qed.
