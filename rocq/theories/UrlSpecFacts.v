(** The relations of SpecUrl.v agree with the functions of the model. *)
From Coq Require Import Sorted Permutation.
From Verif Require Import Base BaseFacts Utf8 FormUrl FormUrlFacts Sha256 SpecCodec CodecFacts Time TimeFacts SpecCalendar SpecPolicy
  Effects Keys Scope Url SignedUrl UrlFacts SpecUrl.
Local Open Scope byte_scope.

(** * Percent-decoding *)

Definition hexes : list (byte * nat) := combine upper_hex (seq 0 16) ++ combine hex_alphabet (seq 0 16).

Lemma nth_combine (s : str) n c k : nth_error s n = Some c -> In (c, k + n)%nat (combine s (seq k (length s))).
Proof.
  revert n k. induction s as [|x s IH]; intros [|n] k H; try discriminate H; cbn [length seq combine].
  - injection H as ->. left. f_equal. lia.
  - right. replace (k + S n)%nat with (S k + n)%nat by lia. apply IH. exact H.
Qed.

Lemma hex_digit_unhexd c n : hex_digit c n <-> unhexd c = Some (N.of_nat n).
Proof.
  split.
  - intros H. assert (I : In (c, n) hexes).
    { apply in_or_app. destruct H as [H|H]; [left|right]; exact (nth_combine _ _ _ 0 H). }
    revert I. assert (F : forall x, In x hexes -> unhexd (fst x) = Some (N.of_nat (snd x))).
    { apply Forall_forall. repeat constructor. }
    intros I. exact (F _ I).
  - intros H. unfold hex_digit.
    assert (G : match unhexd c with
      | Some m => match nth_error upper_hex (N.to_nat m) with Some x => beq x c | None => false end
                  || match nth_error hex_alphabet (N.to_nat m) with Some x => beq x c | None => false end
      | None => true end = true).
    { clear. revert c. apply byte_sweep. vm_compute. reflexivity. }
    rewrite H, Nat2N.id in G. apply orb_true_iff in G. destruct G as [G|G]; [left|right];
      destruct (nth_error _ n) as [x|]; try discriminate G; apply beq_eq in G; congruence.
Qed.

Lemma unhexd_nat c m : unhexd c = Some m -> hex_digit c (N.to_nat m).
Proof. intros H. apply hex_digit_unhexd. rewrite N2Nat.id. exact H. Qed.

Lemma unhexd_range c m : unhexd c = Some m -> (m < 16)%N.
Proof.
  intros H. pose proof (byte_sweep (fun c => match unhexd c with Some m => N.ltb m 16 | None => true end) eq_refl c) as G.
  cbv beta in G. rewrite H in G. apply N.ltb_lt in G. exact G.
Qed.

Lemma triplet_iff s : (exists b r, triplet s b r) <-> is_triplet s = true.
Proof.
  split.
  - intros (b & r & h & l & x & y & -> & Hx & Hy & E). cbn [is_triplet]. rewrite beq_refl.
    apply hex_digit_unhexd in Hx, Hy. rewrite Hx, Hy. reflexivity.
  - unfold is_triplet. destruct s as [|c [|h [|l r]]]; try discriminate. intros H. apply andb_true_iff in H. destruct H as [E H].
    apply beq_eq in E. subst c. destruct (unhexd h) as [x|] eqn:Ex; [|discriminate H]. destruct (unhexd l) as [y|] eqn:Ey; [|discriminate H].
    exists (nb (16 * x + y)), r, h, l, (N.to_nat x), (N.to_nat y). split; [reflexivity|]. split; [apply unhexd_nat; exact Ex|].
    split; [apply unhexd_nat; exact Ey|]. apply unhexd_range in Ex, Ey. rewrite bN_nb by lia. lia.
Qed.

Lemma not_triplet s : is_triplet s = false <-> forall b r, ~ triplet s b r.
Proof.
  split.
  - intros H b r T. assert (is_triplet s = true) by (apply triplet_iff; eauto). congruence.
  - intros H. destruct (is_triplet s) eqn:E; [|reflexivity]. apply triplet_iff in E. destruct E as (b & r & T). destruct (H _ _ T).
Qed.

Lemma triplet_decode s b r : triplet s b r -> pct_decode s = b :: pct_decode r.
Proof.
  intros (h & l & x & y & -> & Hx & Hy & E). apply hex_digit_unhexd in Hx, Hy. cbn [pct_decode]. rewrite beq_refl, Hx, Hy.
  f_equal. apply bN_inj. apply unhexd_range in Hx, Hy. rewrite bN_nb by lia. lia.
Qed.

Lemma unescaped_iff s t : unescaped s t <-> t = pct_decode s.
Proof.
  split.
  - induction 1 as [|s b r t T H ->|c s t N H ->]; [reflexivity| |].
    + symmetry. apply triplet_decode. exact T.
    + symmetry. apply pct_decode_cons_no. apply not_triplet. exact N.
  - intros ->. remember (length s) as n eqn:E. assert (L : (length s <= n)%nat) by lia. clear E. revert s L.
    induction n as [|n IH]; intros s L; (destruct s as [|c s]; [constructor|]); cbn [length] in L; [lia|].
    destruct (is_triplet (c :: s)) eqn:E.
    + apply triplet_iff in E. destruct E as (b & r & T). rewrite (triplet_decode _ _ _ T). eapply ue_triplet; [exact T|]. apply IH.
      destruct T as (h & l & x & y & E & _). injection E as _ ->. cbn [length] in L. lia.
    + rewrite pct_decode_cons_no by exact E. apply ue_plain; [apply not_triplet; exact E|]. apply IH. lia.
Qed.

Lemma plain_iff s : plain s <-> no_triplet s = true.
Proof.
  split.
  - induction s as [|c s IH]; [reflexivity|]. intros H. cbn [no_triplet]. apply andb_true_iff. split.
    + apply negb_true_iff. apply not_triplet. intros b r. apply (H []). reflexivity.
    + apply IH. intros p q b r E. apply (H (c :: p)). cbn [app]. congruence.
  - intros H p. revert s H. induction p as [|c p IH]; intros s H q b r E; cbn [app] in E.
    + subst. destruct q as [|c q]; [intros (h & l & x & y & E & _); discriminate E|]. apply not_triplet. cbn [no_triplet] in H.
      apply andb_true_iff in H. destruct H as [H _]. apply negb_true_iff in H. exact H.
    + subst. cbn [no_triplet] in H. apply andb_true_iff in H. destruct H as [_ H]. apply (IH _ H _ _ _ eq_refl).
Qed.

(** * Escaping *)

Lemma reserved_iff c : In c reserved_characters <-> reserved c = true.
Proof.
  split.
  - revert c. apply Forall_forall. repeat constructor.
  - intros H. assert (G : implb (reserved c) (existsb (beq c) reserved_characters) = true) by (revert c H; intros c _; revert c; apply byte_sweep; reflexivity).
    rewrite H in G. apply existsb_exists in G. destruct G as (x & I & E). apply beq_eq in E. congruence.
Qed.

Lemma HEXD_nth n : (n < 16)%N -> nth_error upper_hex (N.to_nat n) = Some (HEXD n).
Proof.
  intros H. pose proof (n_sweep 16 (fun n => match nth_error upper_hex (N.to_nat n) with Some x => beq x (HEXD n) | None => false end) eq_refl n H) as E.
  cbv beta in E. destruct (nth_error _ _); [|discriminate E]. apply beq_eq in E. congruence.
Qed.

Lemma escaped_iff s t : escaped s t <-> t = percent_encode s.
Proof.
  split.
  - induction 1 as [|c h l s t I Hh Hl H ->|c s t N H ->]; [reflexivity| |].
    + unfold percent_encode. rewrite pct_encode_cons. apply reserved_iff in I. rewrite I. unfold pct. pose proof (bN_lt c).
      rewrite HEXD_nth in Hh by lia. rewrite HEXD_nth in Hl by lia. injection Hh as <-. injection Hl as <-. reflexivity.
    + unfold percent_encode. rewrite pct_encode_cons. destruct (reserved c) eqn:E; [apply reserved_iff in E; contradiction|]. reflexivity.
  - intros ->. induction s as [|c s IH]; [constructor|]. unfold percent_encode. rewrite pct_encode_cons. destruct (reserved c) eqn:E.
    + pose proof (bN_lt c). unfold pct. cbn [app]. apply es_reserved; [apply reserved_iff; exact E|apply HEXD_nth; lia|apply HEXD_nth; lia|exact IH].
    + apply es_other; [intros I; apply reserved_iff in I; congruence|exact IH].
Qed.

Lemma reserved_set_ok : set_ok reserved = true.
Proof. vm_compute. reflexivity. Qed.
Lemma path_set_ok caret : set_ok (set_path caret) = true.
Proof. destruct caret; vm_compute; reflexivity. Qed.
Lemma query_set_ok : set_ok set_query = true.
Proof. vm_compute. reflexivity. Qed.

Lemma percent_encode_decode s : pct_decode (percent_encode s) = pct_decode s.
Proof. apply pct_decode_encode. exact reserved_set_ok. Qed.

Lemma percent_encode_avoids c s : reserved c = true -> ~ In c (percent_encode s).
Proof.
  intros H. apply pct_encode_avoids; [exact H|intros ->; discriminate H|].
  intros n Hn E. assert (negb (reserved (HEXD n)) = true) as G by (revert n Hn E; intros n Hn _; revert n Hn; apply (HEXD_sweep (fun c => negb (reserved c))); reflexivity).
  rewrite E, H in G. discriminate G.
Qed.

(** * Lists and order *)

Lemma glued_iff sep l t : glued sep l t <-> t = join sep l.
Proof.
  split.
  - induction 1 as [|s|s l t N H ->]; [reflexivity|reflexivity|]. destruct l as [|y l]; [congruence|]. rewrite join_cons2. reflexivity.
  - intros ->. induction l as [|s l IH]; [constructor|]. destruct l as [|y l]; [constructor|]. rewrite join_cons2. apply gl_more; [discriminate|exact IH].
Qed.

Lemma str_ltb_cons a b s t : str_ltb (a :: s) (b :: t) = if N.ltb (bN a) (bN b) then true else if N.ltb (bN b) (bN a) then false else str_ltb s t.
Proof.
  unfold str_ltb. cbn [str_leb]. destruct (N.ltb_spec (bN a) (bN b)), (N.ltb_spec (bN b) (bN a)); try reflexivity. lia.
Qed.

Lemma text_lt_iff a b : text_lt a b <-> str_lt a b.
Proof.
  unfold str_lt. split.
  - induction 1 as [c s|a b s t H|c s t H IH]; [reflexivity| |].
    + rewrite str_ltb_cons. apply N.ltb_lt in H. rewrite H. reflexivity.
    + rewrite str_ltb_cons, N.ltb_irrefl. exact IH.
  - revert b. induction a as [|x a IH]; intros [|y b] H; [discriminate H|constructor|discriminate H|].
    rewrite str_ltb_cons in H. destruct (N.ltb_spec (bN x) (bN y)) as [L|L]; [apply tl_here; exact L|].
    destruct (N.ltb_spec (bN y) (bN x)); [discriminate H|]. assert (x = y) as -> by (apply bN_inj; lia). apply tl_later. apply IH. exact H.
Qed.

Lemma text_le_iff a b : text_le a b <-> str_le a b.
Proof.
  unfold text_le. rewrite text_lt_iff. unfold str_le, str_lt. split.
  - intros [H| ->]; [apply str_ltb_leb; exact H|apply str_leb_refl].
  - intros H. destruct (str_eq_dec a b) as [->|N]; [right; reflexivity|left; apply str_ltb_of_leb; assumption].
Qed.

Lemma StronglySorted_ext {A} (R S : A -> A -> Prop) l : (forall a b, R a b -> S a b) -> StronglySorted R l -> StronglySorted S l.
Proof.
  intros H. induction 1 as [|x l _ IH F]; constructor; [exact IH|]. eapply Forall_impl; [|exact F]. auto.
Qed.

Lemma ascending_iff l : ascending l <-> StronglySorted str_le l.
Proof. split; apply StronglySorted_ext; intros a b; apply text_le_iff. Qed.
Lemma strictly_ascending_iff l : strictly_ascending l <-> StronglySorted str_lt l.
Proof. split; apply StronglySorted_ext; intros a b; apply text_lt_iff. Qed.

(** * Form-encoded queries *)

(** What a server reads, before any UTF-8 repair. *)
Definition form_raw (s : str) : str := pct_decode (replace_plus s).
Definition read_piece (piece : str) : str * str :=
  let '(k, v) := split_once "=" piece in (form_raw k, form_raw (unwrap_or v [])).
Definition nonempty (p : str) : bool := match p with [] => false | _ => true end.
Definition form_read (q : str) : list (str * str) := map read_piece (filter nonempty (split_on "&" q)).
Definition lossy2 (kv : str * str) : str * str := (utf8_lossy (fst kv), utf8_lossy (snd kv)).

Lemma form_parse_read q : form_parse q = map lossy2 (form_read q).
Proof.
  unfold form_parse, form_read. rewrite map_map. apply map_ext. intros p. unfold read_piece, lossy2, form_decode, form_raw.
  destruct (split_once "=" p) as [k v]. reflexivity.
Qed.

Lemma form_text_iff s v : form_text s v <-> v = form_raw s.
Proof. unfold form_text. rewrite unescaped_iff. reflexivity. Qed.

Lemma form_piece_iff p pair : form_piece p pair <-> pair = read_piece p.
Proof.
  split.
  - intros [k v name value N H1 H2|k name N H1]; unfold read_piece.
    + rewrite split_once_app by exact N. apply form_text_iff in H1, H2. subst. reflexivity.
    + rewrite split_once_none by exact N. apply form_text_iff in H1. subst. reflexivity.
  - intros ->. unfold read_piece. pose proof (split_once_spec "=" p) as H. destruct (split_once "=" p) as [k [v|]].
    + destruct H as [-> N]. apply fp_pair; [exact N|apply form_text_iff; reflexivity|apply form_text_iff; reflexivity].
    + destruct H as [-> N]. change (form_raw (unwrap_or None [])) with (@nil byte). apply fp_name; [exact N|apply form_text_iff; reflexivity].
Qed.

Lemma form_pieces_iff l pairs : form_pieces l pairs <-> pairs = map read_piece (filter nonempty l).
Proof.
  split.
  - induction 1 as [|l pairs H ->|p pair l pairs N Hp H ->]; [reflexivity|reflexivity|]. apply form_piece_iff in Hp. subst.
    destruct p as [|c p]; [congruence|]. reflexivity.
  - intros ->. induction l as [|p l IH]; [constructor|]. destruct p as [|c p]; [apply fs_empty; exact IH|].
    apply fs_piece; [discriminate|apply form_piece_iff; reflexivity|exact IH].
Qed.

Lemma glued_split q l : glued (B "&") l q /\ Forall (fun p => ~ In "&" p) l -> filter nonempty l = filter nonempty (split_on "&" q).
Proof.
  intros [G F]. apply glued_iff in G. subst. destruct l as [|x l]; [reflexivity|]. rewrite split_on_join; [reflexivity|discriminate|exact F].
Qed.

Lemma form_query_iff q pairs : form_query q pairs <-> pairs = form_read q.
Proof.
  split.
  - intros (l & G & F & P). apply form_pieces_iff in P. subst. unfold form_read. rewrite (glued_split q l) by auto. reflexivity.
  - intros ->. exists (split_on "&" q). split; [apply glued_iff; symmetry; apply (join_split_on "&")|]. split; [apply split_on_no_sep|].
    apply form_pieces_iff. reflexivity.
Qed.

Lemma form_read_app a b : form_read (a ++ "&" :: b) = form_read a ++ form_read b.
Proof. unfold form_read. rewrite split_on_app, filter_app, map_app. reflexivity. Qed.

Lemma form_read_pair k v : ~ In "&" k -> ~ In "=" k -> ~ In "&" v -> form_read (k ++ "=" :: v) = [(form_raw k, form_raw v)].
Proof.
  intros H1 H2 H3. unfold form_read. rewrite split_on_none.
  2:{ intros I. apply in_app_or in I. destruct I as [I|[E|I]]; [exact (H1 I)|discriminate E|exact (H3 I)]. }
  cbn [filter]. destruct (k ++ "=" :: v) as [|c r] eqn:E; [destruct k; discriminate E|]. cbn [nonempty map]. rewrite <- E.
  unfold read_piece. rewrite split_once_app by exact H2. reflexivity.
Qed.

Lemma form_read_join (l : list (str * str)) :
  Forall (fun kv => ~ In "&" (fst kv) /\ ~ In "=" (fst kv) /\ ~ In "&" (snd kv)) l ->
  form_read (join (B "&") (map (fun kv => fst kv ++ B "=" ++ snd kv) l)) = map (fun kv => (form_raw (fst kv), form_raw (snd kv))) l.
Proof.
  induction l as [|[k v] l IH]; [reflexivity|]. intros H. inversion H as [|? ? (H1 & H2 & H3) H']; subst. cbn [fst snd] in *.
  destruct l as [|kv2 l]; [exact (form_read_pair k v H1 H2 H3)|]. cbn [map]. rewrite join_cons2.
  change (B "&" ++ ?x) with ("&" :: x). rewrite form_read_app.
  change ((fst (k, v)) ++ B "=" ++ (snd (k, v))) with (k ++ "=" :: v). rewrite (form_read_pair k v) by assumption. cbn [app]. f_equal. exact (IH H').
Qed.

(** * Headers *)

Lemma ascii_lower_eq s : ascii_lower s = lower_str s.
Proof. reflexivity. Qed.

Lemma header_name_byte_iff q c : header_name_byte q c = true <-> token_character c \/ q = true /\ c = """".
Proof.
  assert (G : Bool.eqb (header_name_byte q c) (existsb (beq c) (B "!#$%&'*+-.^_`|~0123456789abcdefghijklmnopqrstuvwxyzABCDEFGHIJKLMNOPQRSTUVWXYZ")
     || (q && beq c """")) = true) by (destruct q; revert c; apply byte_sweep; vm_compute; reflexivity).
  apply Bool.eqb_prop in G. rewrite G, orb_true_iff, andb_true_iff, existsb_exists, beq_eq. unfold token_character. split.
  - intros [(x & I & E)|H]; [|right; exact H]. left. apply beq_eq in E. congruence.
  - intros [H|H]; [|right; exact H]. left. exists c. split; [exact H|apply beq_refl].
Qed.
