(** C106: which objects can be reached by a signed URL, and how their names have to be written. *)
From Coq Require Import Permutation.
From Verif Require Import Base BaseFacts Utf8 FormUrl FormUrlFacts SpecCodec CodecFacts Time TimeFacts SpecCalendar SpecPolicy
  Effects EffectsFacts Keys Url SignedUrl UrlFacts SpecUrl UrlSpecFacts SpecToken SpecTrace SpecSign SignFacts SignedUrlFacts HeaderFacts
  Demo UrlResult UrlQueryFacts Prop_Url Prop_UrlQuery Prop_UrlPath Prop_UrlScope Prop_UrlHeaders SpecServer Prop_Server SpecPath Prop_Path SpecName Prop_Name SpecParameter Prop_Parameter SpecAddress.
Local Open Scope byte_scope.

(** * Texts written as the server does *)

Lemma escapes_split kept s : kept "/" = true -> split_on "/" (pct_encode (escapes kept) s) = map (pct_encode (escapes kept)) (split_on "/" s).
Proof.
  intros K. assert (N : forall p, ~ In "/" p -> ~ In "/" (pct_encode (escapes kept) p)).
  { intros p Np I. unfold pct_encode in I. apply in_flat_map in I. destruct I as (c & Hc & I). unfold escapes in I. destruct (kept c); cbn [negb] in I.
    - destruct I as [->|[]]. contradiction.
    - pose proof (byte_sweep (fun c => negb (mem "/" (pct c))) eq_refl c) as G. cbv beta in G. apply mem_iff in I. rewrite I in G. discriminate G. }
  assert (J : forall l, pct_encode (escapes kept) (join ["/"] l) = join ["/"] (map (pct_encode (escapes kept)) l)).
  { induction l as [|x l IH]; [reflexivity|]. destruct l as [|y l]; [reflexivity|]. cbn [map] in *. rewrite !join_cons2, !pct_encode_app, IH. f_equal. f_equal. cbn. unfold escapes. rewrite K. reflexivity. }
  rewrite <- (join_split_on "/" s) at 1. rewrite J. apply split_on_join; [intros E; apply map_eq_nil in E; exact (split_on_nonempty _ _ E)|].
  pose proof (split_on_no_sep "/" s) as F. induction F as [|p l Np F IH]; [constructor|]. cbn [map]. constructor; [apply N; exact Np|exact IH].
Qed.

Lemma segment_split s seg : s <> [] -> (segment s seg <-> In seg (split_on "/" s)).
Proof.
  intros Ne. split.
  - intros (l & G & F & I). apply glued_iff in G. subst s. change (B "/") with ["/"]. rewrite split_on_join; [exact I|intros ->; destruct I|exact F].
  - intros I. exists (split_on "/" s). split; [apply glued_iff; symmetry; apply join_split_on|]. split; [apply split_on_no_sep|exact I].
Qed.

Lemma encoded_decode kept s : kept "%" = false -> pct_decode (pct_encode (escapes kept) s) = s.
Proof. intros K. symmetry. apply unescaped_iff. apply (encoded_unescaped kept); [exact K|apply Prop_Server.encoded_iff; reflexivity]. Qed.

Lemma keeps_slash sv : server_ok sv -> sv_path sv "/" = true.
Proof. intros (_ & _ & _ & K & _). exact K. Qed.

Section Server.
Context (sv : server) (OK : server_ok sv) (caret : bool).
Notation kept := (sv_path sv).
Notation written s := (pct_encode (escapes (sv_path sv)) s).

Lemma written_bytes (P : byte -> bool) s : P "%" = true -> (forall n, (n < 16)%N -> P (HEXD n) = true) -> (forall b, In b s -> kept b = true -> P b = true) -> forallb P (written s) = true.
Proof. intros Pp Ph Pk. apply pct_encode_bytes; [exact Pp|exact Ph|]. intros b Hb E. apply Pk; [exact Hb|]. unfold escapes in E. destruct (kept b); [reflexivity|discriminate E]. Qed.

Lemma written_avoids c s : kept c = false -> c <> "%" -> (forall n, (n < 16)%N -> HEXD n <> c) -> ~ In c (written s).
Proof. intros K. apply pct_encode_avoids. unfold escapes. rewrite K. reflexivity. Qed.

Lemma low_not_kept c : (bN c <= 32)%N -> kept c = false.
Proof. intros L. apply OK. left. left. exact L. Qed.

Lemma hexd_above n : (n < 16)%N -> (48 <= bN (HEXD n) <= 70)%N.
Proof. intros H. assert (In n (map N.of_nat (seq 0 16))) as I by (apply in_map_iff; exists (N.to_nat n); split; [lia|apply in_seq; lia]). cbn in I. repeat (destruct I as [<-|I]; [vm_compute; split; discriminate|]). destruct I. Qed.

Lemma written_tidy s : tidy (written s).
Proof.
  assert (F : forallb (fun c => N.ltb 32 (bN c)) (written s) = true).
  { apply written_bytes; [reflexivity|intros n Hn; apply N.ltb_lt; pose proof (hexd_above n Hn); lia|]. intros b _ K. apply N.ltb_lt. destruct (N.ltb_spec 32 (bN b)) as [L|L]; [exact L|]. rewrite (low_not_kept b L) in K. discriminate K. }
  rewrite forallb_forall in F. repeat split; try (intros I; apply F in I; discriminate I). intros p c E. apply N.ltb_lt. apply F. rewrite E. apply in_or_app. right. left. reflexivity.
Qed.

Lemma reserved_not_kept c : In c ("%" :: reserved_characters) -> kept c = false.
Proof. intros I. exact (proj2 (proj1 (proj2 OK) c I)). Qed.

Lemma not_hexd c : (bN c < 48 \/ 70 < bN c)%N -> forall n, (n < 16)%N -> HEXD n <> c.
Proof. intros R n Hn <-. pose proof (hexd_above n Hn). lia. Qed.

Lemma hexd_not c : mem c upper_hex = false -> forall n, (n < 16)%N -> HEXD n <> c.
Proof. intros M n Hn <-. pose proof (hex_upper n Hn) as E. apply nth_error_In in E. apply mem_iff in E. congruence. Qed.

Lemma written_marks s : ~ In "?" (written s) /\ ~ In "#" (written s).
Proof. split; (apply written_avoids; [apply reserved_not_kept; cbn; tauto|discriminate|apply hexd_not; reflexivity]). Qed.

Lemma written_backslash s : (In "\" s -> kept "\" = false) -> ~ In "\" (written s).
Proof.
  intros H I. destruct (kept "\") eqn:K; [|revert I; apply written_avoids; [exact K|discriminate|apply hexd_not; reflexivity]].
  assert (F : forallb (fun c => negb (beq c "\")) (written s) = true).
  { apply written_bytes; [reflexivity|intros n Hn; apply negb_true_iff; destruct (beq_spec (HEXD n) "\") as [E|_]; [|reflexivity]; exfalso; exact (hexd_not "\" eq_refl n Hn E)|].
    intros b Hb _. destruct (beq_spec b "\") as [->|_]; [|reflexivity]. specialize (H Hb). discriminate H. }
  rewrite forallb_forall in F. apply F in I. discriminate I.
Qed.

Lemma written_agrees s : (In "^" s -> kept "^" = true -> caret = false) -> agrees kept caret (written s).
Proof.
  induction s as [|c s IH]; intros H; [constructor|]. rewrite pct_encode_cons. unfold escapes at 1. destruct (kept c) eqn:K; cbn [negb app].
  - apply ag_other; [intros ->; rewrite (reserved_not_kept "%") in K by (left; reflexivity); discriminate K|intros ->; exact K|intros ->; rewrite H by (exact K || (left; reflexivity)); exact K|]. apply IH. intros I. apply H. right. exact I.
  - unfold pct. cbn [app]. pose proof (bN_lt c) as R. apply (ag_escape _ _ c); [exact K|apply hex_upper; apply N.div_lt_upper_bound; lia|apply hex_upper; apply N.mod_lt; discriminate|]. apply IH. intros I. apply H. right. exact I.
Qed.

Lemma written_dots s : (forall seg, segment s seg -> seg <> B "." /\ seg <> B "..") -> no_dot_segment (written s).
Proof.
  intros H seg t Hs U. destruct (list_eq_dec byte_eq_dec s []) as [->|Ne].
  - destruct Hs as (l & G & F & I). apply glued_iff in G. assert (seg = []) as ->.
    { destruct l as [|x l]; [destruct I|]. destruct l as [|y l]; [cbn in G; subst x; destruct I as [<-|[]]; reflexivity|]. rewrite join_cons2 in G. destruct x; discriminate G. }
    apply unescaped_iff in U. subst t. split; discriminate.
  - assert (Nw : written s <> []) by (destruct s as [|c s]; [congruence|]; rewrite pct_encode_cons; destruct (escapes kept c); discriminate).
    apply segment_split in Hs; [|exact Nw]. rewrite escapes_split in Hs by apply (keeps_slash sv OK). apply in_map_iff in Hs. destruct Hs as (p & <- & I). apply segment_split in I; [|exact Ne].
    apply unescaped_iff in U. rewrite encoded_decode in U by (apply reserved_not_kept; left; reflexivity). subst t. apply H. exact I.
Qed.

(** * Texts on which library and server agree *)

(** A kept character of the decoded text stands for itself. *)
Lemma agrees_raw s c : agrees kept caret s -> kept c = true -> In c (pct_decode s) -> In c s /\ (c = "^" -> caret = false).
Proof.
  intros A K. induction A as [|b h l s Kb H1 H2 A IH|x s N N1 N2 A IH]; intros I; [destruct I| |].
  - pose proof (bN_lt b) as R. assert ((bN b / 16 < 16)%N) as R1 by (apply N.div_lt_upper_bound; lia). assert ((bN b mod 16 < 16)%N) as R2 by (apply N.mod_lt; lia).
    rewrite hex_upper in H1, H2 by assumption. injection H1 as <-. injection H2 as <-. change ("%" :: HEXD (bN b / 16) :: HEXD (bN b mod 16) :: s) with (pct b ++ s) in *. rewrite pct_decode_pct in I.
    destruct I as [->|I]; [congruence|]. apply IH in I. split; [apply in_or_app; right|]; apply I.
  - rewrite pct_decode_plain in I by exact N. destruct I as [->|I].
    + split; [left; reflexivity|]. intros ->. specialize (N2 eq_refl). rewrite K in N2. destruct caret; [discriminate N2|reflexivity].
    + apply IH in I. split; [right|]; apply I.
Qed.

Lemma agrees_decode_slash s r : agrees kept caret s -> pct_decode (s ++ "/" :: r) = pct_decode s ++ "/" :: pct_decode r.
Proof.
  induction 1 as [|b h l s Kb H1 H2 A IH|x s N N1 N2 A IH]; [apply pct_decode_plain; discriminate| |].
  - pose proof (bN_lt b) as R. assert ((bN b / 16 < 16)%N) as R1 by (apply N.div_lt_upper_bound; lia). assert ((bN b mod 16 < 16)%N) as R2 by (apply N.mod_lt; lia).
    rewrite hex_upper in H1, H2 by assumption. injection H1 as <-. injection H2 as <-. cbn [app].
    change ("%" :: HEXD (bN b / 16) :: HEXD (bN b mod 16) :: s) with (pct b ++ s). change ("%" :: HEXD (bN b / 16) :: HEXD (bN b mod 16) :: s ++ "/" :: r) with (pct b ++ (s ++ "/" :: r)).
    rewrite !pct_decode_pct, IH. reflexivity.
  - cbn [app]. rewrite !pct_decode_plain by exact N. rewrite IH. reflexivity.
Qed.

Lemma agrees_decode_join l : Forall (agrees kept caret) l -> pct_decode (join ["/"] l) = join ["/"] (map pct_decode l).
Proof.
  induction 1 as [|s l A F IH]; [reflexivity|]. destruct l as [|s2 l]; [reflexivity|]. cbn [map] in *. rewrite !join_cons2. cbn [app]. rewrite agrees_decode_slash by exact A. rewrite IH. reflexivity.
Qed.

Lemma reached_no_dots l st : reached l st -> Forall (fun s => ~ stays s /\ ~ ups s) st.
Proof.
  induction 1 as [|l s st R IH S|l s st x R IH U N|l s st x R IH U D|l s R IH U|l s st R IH N M]; try assumption; [constructor| |].
  - apply Forall_app in IH. apply IH.
  - apply Forall_app. split; [exact IH|]. constructor; [split; assumption|constructor].
Qed.

Lemma segments_no_dots segs out : path_segments segs out -> Forall (fun s => ~ stays s /\ ~ ups s) out.
Proof.
  intros [l s st R N M|l s st R _]; apply Forall_app; (split; [eapply reached_no_dots; exact R|]); (constructor; [|constructor]); [split; assumption|].
  unfold stays, ups. rewrite !unescaped_iff. split; discriminate.
Qed.

Lemma agrees_addressable name segs out target : named_segments name segs -> path_segments segs out -> Forall (agrees kept caret) out ->
  target = pct_decode (join (B "/") out) -> addressable kept caret target.
Proof.
  intros Ns Ps A ->. pose proof (segments_clean _ _ _ Ns Ps) as Cl. rewrite Forall_forall in Cl.
  pose proof (proj2 (agrees_join kept caret out) A) as Aj. constructor.
  - intros seg Hs. change (B "/") with ["/"] in Hs. rewrite agrees_decode_join in Hs by exact A.
    assert (Ns' : Forall (fun x => ~ In "/" x) out).
    { destruct Ns as (u & v & p & _ & _ & _ & Se). eapply segments_no_slash; [|exact Ps]. eapply separated_no_slash. exact Se. }
    assert (Nd : Forall (fun x => ~ In "/" x) (map pct_decode out)).
    { rewrite Forall_forall in *. intros x Hx I. apply in_map_iff in Hx. destruct Hx as (s & <- & Hs'). apply (Ns' s Hs'). apply (agrees_raw s "/" (A s Hs')); [apply (keeps_slash sv OK)|exact I]. }
    assert (In seg (map pct_decode out)) as I.
    { destruct Hs as (l & G & F & I). apply glued_iff in G. destruct (list_eq_dec (list_eq_dec byte_eq_dec) out []) as [E|Ne].
      - exfalso. clear - Ps E. revert E. destruct Ps as [l0 s0 st|l0 s0 st]; destruct st; discriminate.
      - rewrite <- (split_on_join "/" (map pct_decode out)); [|intros E; apply Ne; exact (map_eq_nil _ _ E)|exact Nd]. rewrite G. change (B "/") with ["/"].
        rewrite split_on_join; [exact I|intros ->; destruct I|exact F]. }
    apply in_map_iff in I. destruct I as (s & <- & Hs'). pose proof (segments_no_dots _ _ Ps) as Nx. rewrite Forall_forall in Nx. destruct (Nx s Hs') as [N1 N2].
    unfold stays, ups in N1, N2. rewrite unescaped_iff in N1, N2. split; intros E; [apply N1|apply N2]; symmetry; exact E.
  - intros I. destruct (kept "\") eqn:K; [|reflexivity]. exfalso. destruct (agrees_raw _ "\" Aj K I) as [R _]. apply (Cl _ R). cbn. tauto.
  - intros I K. exact (proj2 (agrees_raw _ "^" Aj K I) eq_refl).
Qed.
End Server.

(** * C106 *)

Lemma encoded_alike kept t s : kept "%" = false -> encoded kept t s -> read_alike kept s t.
Proof.
  intros Kp. induction 1 as [|c s t K H IH|c h l s t K Hh Hl H IH]; [constructor| |].
  - apply ra_same; [intros ->; congruence|right; exact K|exact IH].
  - apply ra_escape; assumption.
Qed.

(** Written as the server writes them in its canonical request, the names of every addressable object and any passable parameters
    give a URL that has the path of the object and is accepted. *)
Theorem C106_reached d o tr url path query sig headers sv bucket object wanted : deps_ok d ->
  returns (build_signed_url d o) tr (Ok url) -> url_parts url path query sig -> plain_rest o -> sends o headers -> server_ok sv ->
  Forall valid_pair (o_query_parameters o) -> passable (sv_query sv) wanted -> Forall2 (encoded_pair (sv_query sv)) wanted (o_query_parameters o) ->
  addressable (sv_path sv) (d_path_caret d) (bucket ++ B "/" ++ object) ->
  encoded (sv_path sv) bucket (o_bucket_name o) -> encoded (sv_path sv) object (o_object_name o) ->
  unescaped path (B "/" ++ bucket ++ B "/" ++ object) /\
  exists t t1 t2 t3 email message s, url_time o t t1 /\ tr = t1 ++ t2 ++ t3 /\ authorized (o_signing_key o) t2 email /\
    signed d (o_signing_key o) (o_use_sign_blob o) message t3 s /\
    forall now, account_text email -> sv_verifies sv email message s ->
      (t / 1000000000 <= now < t / 1000000000 + (o_expires o - t) / 1000000000)%Z ->
      accepts sv now (issued o path query sig headers) email message s.
Proof.
  intros D H P PR SE OK Vp [Pn Po] Ew [Ad Ab Ac] Eb Eo. set (target := bucket ++ B "/" ++ object) in *. apply Prop_Server.encoded_iff in Eb, Eo.
  assert (Er : requested o = pct_encode (escapes (sv_path sv)) target).
  { unfold requested, target. rewrite Eb, Eo, !pct_encode_app. f_equal. f_equal. cbn. unfold escapes. replace (sv_path sv "/") with true by (symmetry; apply (keeps_slash sv OK)). reflexivity. }
  assert (Kp : sv_path sv "%" = false) by (apply (reserved_not_kept sv OK); left; reflexivity).
  set (e := pct_encode (escapes (sv_path sv)) target) in *.
  destruct (written_marks sv OK target) as [M1 M2]. pose proof (written_backslash sv target Ab) as M3. fold e in M1, M2, M3.
  assert (E : path = pct_encode (set_path (d_path_caret d)) ("/" :: e)).
  { destruct (url_facts_valid _ _ _ _ _ _ _ D H P) as (_ & _ & _ & _ & _ & _ & _ & _ & _ & _ & _ & _ & _ & _ & _ & -> & _). unfold path_of. rewrite Er.
    apply (path_cut d _ e []); [apply (written_tidy sv OK)|rewrite app_nil_r; reflexivity|exact M1|exact M2|left; reflexivity|exact M3|]. apply (written_dots sv OK). exact Ad. }
  assert (De : pct_decode ("/" :: e) = "/" :: target) by (rewrite pct_decode_plain by discriminate; unfold e; rewrite encoded_decode by exact Kp; reflexivity).
  assert (U : unescaped path ("/" :: target)) by (rewrite E; apply unescaped_iff; rewrite pct_decode_encode by apply path_set_ok; symmetry; exact De).
  split; [exact U|]. assert (Own : own_parameters (requested o) []) by (apply op_none; rewrite Er; exact M1).
  destruct (accepted_wide _ _ _ _ _ _ _ _ [] D H P Own Vp PR SE) as (t & t1 & t2 & t3 & email & message & s & T & Et & A & Sg & G).
  exists t, t1, t2, t3, email, message, s. split; [exact T|]. split; [exact Et|]. split; [exact A|]. split; [exact Sg|]. intros now Em Vf W.
  assert (PA : parameters_agree (sv_query sv) ([] ++ o_query_parameters o) wanted).
  { constructor; [|exact Pn|exact Po]. cbn [app]. assert (Kq : sv_query sv "%" = false) by (apply (proj1 (proj2 OK)); left; reflexivity). clear - Ew Kq.
    induction Ew as [|a b l m [E1 E2] F IH]; constructor; [split; apply encoded_alike; assumption|exact IH]. }
  apply (G sv now wanted); try assumption.
  exists ("/" :: target). split; [exact U|]. rewrite E. apply Prop_Server.encoded_iff. rewrite <- De.
  apply (alike_iff sv OK (d_path_caret d) _ ("/" :: e) (Nat.le_refl _)).
  - apply Forall_forall. intros c [<-|I] X; cbn in X; [intuition discriminate|]. destruct X as [<-|[<-|[<-|[]]]]; contradiction.
  - apply ag_other; [discriminate..|]. apply (written_agrees sv OK). exact Ac.
Qed.

(** The server reads the parameters that were wanted. *)
Theorem C106_read d o tr url path query sig sv bucket object wanted : deps_ok d ->
  returns (build_signed_url d o) tr (Ok url) -> url_parts url path query sig -> server_ok sv -> utf8_valid (region_of o) = true ->
  encoded (sv_path sv) bucket (o_bucket_name o) -> encoded (sv_path sv) object (o_object_name o) ->
  Forall valid_pair (o_query_parameters o) -> Forall2 (encoded_pair (sv_query sv)) wanted (o_query_parameters o) ->
  exists t1 t2 t3 email, tr = t1 ++ t2 ++ t3 /\ authorized (o_signing_key o) t2 email /\
    (utf8_valid email = true -> exists pairs, form_query (query ++ B "&X-Goog-Signature=" ++ sig) pairs /\ exists others,
      Permutation pairs (wanted ++ others) /\ forall kv, In kv others -> In (fst kv) goog_names).
Proof.
  intros D H P OK V Eb Eo Vp Ew. apply Prop_Server.encoded_iff in Eb, Eo.
  assert (Own : own_parameters (requested o) []).
  { apply op_none. unfold requested. rewrite Eb, Eo, !in_app_iff. intros [I|[I|I]]; [exact (proj1 (written_marks sv OK bucket) I)|destruct I as [I|[]]; discriminate I|exact (proj1 (written_marks sv OK object) I)]. }
  destruct (C17_read _ _ _ _ _ _ _ [] D H P Own Vp V) as (t & t1 & t2 & t3 & email & date & scope & expires & names & names_text & _ & Et & A & _ & _ & _ & _ & _ & G).
  exists t1, t2, t3, email. split; [exact Et|]. split; [exact A|]. intros Em. destruct (G Em) as (pairs & read & Q & Pm & F). exists pairs. split; [exact Q|].
  cbn [app] in F. apply Forall2_app_inv_l in F. destruct F as (r1 & r2 & F1 & F2 & ->). exists r2. assert (r1 = wanted) as <-.
  { assert (Kq : sv_query sv "%" = false) by (apply (proj1 (proj2 OK)); left; reflexivity). clear - F1 Ew Kq. revert r1 F1. induction Ew as [|a b l m [E1 E2] Fw IH]; intros r1 F1; inversion F1 as [|? r ? rs [U1 U2] F1']; subst; [reflexivity|].
    f_equal; [|apply IH; exact F1']. apply encoded_unescaped in E1, E2; try exact Kq. apply unescaped_iff in E1, E2, U1, U2. destruct a, r. cbn [fst snd] in *. congruence. }
  split; [exact Pm|]. intros kv I. assert (N : map fst r2 = goog_names).
  { clear - F2. unfold required_parameters in F2. cbn [app] in F2. repeat match goal with X : Forall2 _ (_ :: _) _ |- _ => inversion X as [|? [? ?] ? ? [? _] ?]; subst; clear X end. match goal with X : Forall2 _ [] _ |- _ => inversion X; subst end.
    repeat match goal with X : unescaped _ _ |- _ => apply unescaped_iff in X; cbn [fst] in X; vm_compute in X; subst end. reflexivity. }
  rewrite <- N. apply in_map. exact I.
Qed.

(** For every other object, whatever names are passed: no request for its path is accepted for what was signed. *)
Theorem C106_unreachable d o tr url path query sig target : deps_ok d ->
  returns (build_signed_url d o) tr (Ok url) -> url_parts url path query sig -> unescaped path (B "/" ++ target) ->
  exists t t1 t2 t3 email canonical message s, url_time o t t1 /\ tr = t1 ++ t2 ++ t3 /\ authorized (o_signing_key o) t2 email /\
    signed d (o_signing_key o) (o_use_sign_blob o) message t3 s /\
    canonical_text (o_http_method o) path query (o_headers o) canonical /\ message_text (t / 1000000000)%Z (region_of o) canonical message /\
    forall sv now r account s', server_ok sv -> ~ addressable (sv_path sv) (d_path_caret d) target -> accepts sv now r account message s' -> collision canonical.
Proof.
  intros D H P U. destruct (C89_total (requested o)) as (segs & out & Ns & Ps & _).
  destruct (C90_refused _ _ _ _ _ _ _ _ _ D H P Ns Ps) as (t & t1 & t2 & t3 & email & canonical & message & s & T & Et & A & Sg & Cn & Ms & G).
  exists t, t1, t2, t3, email, canonical, message, s. split; [exact T|]. split; [exact Et|]. split; [exact A|]. split; [exact Sg|]. split; [exact Cn|]. split; [exact Ms|].
  intros sv now r account s' OK Na Ac. apply (G sv now r account s' OK); [|exact Ac]. intros F. apply Na. apply (agrees_addressable sv OK (d_path_caret d) _ _ _ target Ns Ps F).
  destruct (url_facts_valid _ _ _ _ _ _ _ D H P) as (_ & _ & _ & _ & _ & _ & _ & _ & _ & _ & _ & _ & _ & _ & _ & -> & _). unfold path_of in U.
  destruct (parsed_path d (requested o)) as (segs' & out' & Ns' & Ps' & Ep). rewrite Ep in U. pose proof (named_segments_unique _ _ _ Ns Ns') as <-. pose proof (path_segments_unique _ _ _ Ps Ps') as <-.
  rewrite encode_join in U. apply unescaped_iff in U. cbn [app B] in U. rewrite pct_decode_plain in U by discriminate. rewrite pct_decode_encode in U by apply path_set_ok. injection U as U. exact U.
Qed.

(** Neither is one with parameters that are read as others than passable ones. *)
Theorem C106_impassable d o tr url path query sig own wanted : deps_ok d ->
  returns (build_signed_url d o) tr (Ok url) -> url_parts url path query sig ->
  own_parameters (requested o) own -> Forall valid_pair (own ++ o_query_parameters o) -> utf8_valid (region_of o) = true ->
  Forall2 unescaped_pair (own ++ o_query_parameters o) wanted ->
  exists t t1 t2 t3 email canonical message s, url_time o t t1 /\ tr = t1 ++ t2 ++ t3 /\ authorized (o_signing_key o) t2 email /\
    signed d (o_signing_key o) (o_use_sign_blob o) message t3 s /\
    canonical_text (o_http_method o) path query (o_headers o) canonical /\ message_text (t / 1000000000)%Z (region_of o) canonical message /\
    (utf8_valid email = true -> forall sv now r account s', server_ok sv -> ~ passable (sv_query sv) wanted -> accepts sv now r account message s' -> collision canonical).
Proof.
  intros D H P Own Vp V Fw. destruct (C91_refused _ _ _ _ _ _ _ _ D H P Own Vp V) as (t & t1 & t2 & t3 & email & canonical & message & s & T & Et & A & Sg & Cn & Ms & G).
  exists t, t1, t2, t3, email, canonical, message, s. split; [exact T|]. split; [exact Et|]. split; [exact A|]. split; [exact Sg|]. split; [exact Cn|]. split; [exact Ms|].
  intros Em sv now r account s' OK Np Ac. destruct (G Em sv now r account s' OK Ac) as [C|(read & [F N O])]; [exact C|]. exfalso. apply Np. assert (wanted = read) as ->; [|constructor; assumption].
  assert (Kp : sv_query sv "%" = false) by (apply (proj1 (proj2 OK)); left; reflexivity). assert (Kr : forall c, In c reserved_characters -> sv_query sv c = false) by (intros c Hc; apply (proj1 (proj2 OK)); right; exact Hc).
  clear - F Fw Kp Kr. revert read F. induction Fw as [|a b l m [U1 U2] Fw IH]; intros read F; inversion F as [|? q ? qs [R1 R2] F']; subst; [reflexivity|]. f_equal; [|apply IH; exact F'].
  apply read_to in R1, R2; try assumption. apply unescaped_iff in U1, U2. destruct b, q. cbn [fst snd] in *. f_equal; [rewrite U1; symmetry; apply R1|rewrite U2; symmetry; apply R2].
Qed.

(** ** Cases *)

(** An object with characters that mean something in a URL. *)
Definition demo_wild : str := B "100% a?b#c\d|e^.txt ".
Definition demo_wanted : list (str * str) := [(B "response-content-type", B "text/plain; charset=""utf-8"""); (B "userProject", B "a b&c")].
Definition demo_wild_options : url_options :=
  demo_url_with (B "bucket1") (B "100%25%20a%3Fb%23c%5Cd%7Ce%5E.txt%20") None []
    [(B "response-content-type", B "text%2Fplain%3B%20charset%3D%22utf-8%22"); (B "userProject", B "a%20b%26c")] demo_account false.
Example C106_reached_case : let o := demo_wild_options in
  deps_ok demo_deps /\ plain_rest o /\ sends o demo_request /\ server_ok strict_server /\ utf8_valid (region_of o) = true /\
  (exists url path query sig, returns (build_signed_url demo_deps o) [] (Ok url) /\ url_parts url path query sig) /\
  Forall valid_pair (o_query_parameters o) /\ passable (sv_query strict_server) demo_wanted /\ Forall2 (encoded_pair (sv_query strict_server)) demo_wanted (o_query_parameters o) /\
  addressable (sv_path strict_server) (d_path_caret demo_deps) (B "bucket1" ++ B "/" ++ demo_wild) /\
  encoded (sv_path strict_server) (B "bucket1") (o_bucket_name o) /\ encoded (sv_path strict_server) demo_wild (o_object_name o).
Proof.
  intros o. split; [exact demo_deps_ok|]. split; [constructor; [apply literal_text; reflexivity|constructor]|]. split; [exact (demo_request_ok (B "a"))|]. split; [exact strict_ok|]. split; [reflexivity|]. split.
  { destruct (demo_success o eq_refl eq_refl eq_refl) as [sg R]; [vm_compute; reflexivity|]. do 4 eexists. split; [exact R|apply url_parts_of]. }
  split; [repeat constructor|]. split.
  { constructor.
    - intros n I J. assert (G : existsb (fun n => existsb (str_eqb n) goog_names) (map fst demo_wanted) = false) by (vm_compute; reflexivity).
      assert (G' : existsb (fun n => existsb (str_eqb n) goog_names) (map fst demo_wanted) = true) by (apply existsb_exists; exists n; split; [exact I|apply existsb_exists; exists n; split; [exact J|apply str_eqb_refl]]). congruence.
    - assert (G : forallb (fun a => forallb (fun b => negb (overtakes_b (sv_query strict_server) a b)) (map fst demo_wanted ++ signed_names)) (map fst demo_wanted ++ signed_names) = true) by (vm_compute; reflexivity).
      intros a b Ha Hb. apply overtakes_b_ok. rewrite forallb_forall in G. specialize (G a Ha). rewrite forallb_forall in G. specialize (G b Hb). apply negb_true_iff in G. exact G. }
  split; [constructor; [|constructor; [|constructor]]; split; apply Prop_Server.encoded_iff; vm_compute; reflexivity|].
  split; [|split; apply Prop_Server.encoded_iff; vm_compute; reflexivity].
  constructor; [apply segments_b_ok; [vm_compute; reflexivity|discriminate]|intros _; vm_compute; reflexivity|intros _ K; vm_compute in K; discriminate K].
Qed.

(** Dots as a segment of the name: also with escaped slashes, no server accepts the URL. *)
Example C106_unreachable_case : let o := demo_named (B "a%2F..%2Fb") in
  (exists url path query sig, returns (build_signed_url demo_deps o) [] (Ok url) /\ url_parts url path query sig /\ unescaped path (B "/" ++ B "bucket1/a/../b")) /\
  forall kept caret, ~ addressable kept caret (B "bucket1/a/../b").
Proof.
  intros o. split.
  { destruct (demo_named_ok (o_object_name o)) as (url & path & q & s & R & P & E); [vm_compute; reflexivity|]. exists url, path, q, s. split; [exact R|]. split; [exact P|].
    rewrite E. apply unescaped_iff. vm_compute. reflexivity. }
  intros kept caret [A _ _]. destruct (A (B "..")) as [_ N]; [|exact (N eq_refl)]. apply segment_split; [discriminate|]. vm_compute. tauto.
Qed.

(** Of the two names, the longer one comes first in the text. *)
Example C106_impassable_case : let o := demo_params [(B "part", B "1"); (B "part%31", B "2")] in
  (exists url path query sig, returns (build_signed_url demo_deps o) [] (Ok url) /\ url_parts url path query sig) /\
  own_parameters (requested o) [] /\ Forall valid_pair ([] ++ o_query_parameters o) /\ utf8_valid (region_of o) = true /\
  Forall2 unescaped_pair ([] ++ o_query_parameters o) [(B "part", B "1"); (B "part1", B "2")] /\
  forall kept, ~ passable kept [(B "part", B "1"); (B "part1", B "2")].
Proof.
  intros o. split. { destruct (demo_success o eq_refl eq_refl eq_refl) as [sg R]; [vm_compute; reflexivity|]. do 4 eexists. split; [exact R|apply url_parts_of]. }
  split; [apply op_none; apply not_in_b_ok; vm_compute; reflexivity|]. split; [repeat constructor|]. split; [reflexivity|].
  split; [constructor; [|constructor; [|constructor]]; split; apply unescaped_iff; reflexivity|]. intros kept [_ O]. apply (O (B "part") (B "part1")); [left; reflexivity|right; left; reflexivity|].
  exists "1", []. split; [reflexivity|]. right. reflexivity.
Qed.
