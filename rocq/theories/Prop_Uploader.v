(** C68-C71: the image uploader of examples/image-uploader. *)
From Verif Require Import Base BaseFacts Utf8 FormUrl Sha256 Base64 SpecCodec CodecFacts Time TimeFacts SpecCalendar SpecPolicy Policy PolicyFacts JsonTree Json SpecJson JsonFacts
  Effects EffectsFacts Keys Scope Url HtmlForm FormFacts SignedUrl FormUrlFacts SpecForm SpecToken SpecTrace SpecSign SignFacts SpecUrl UrlSpecFacts UrlFacts SignedUrlFacts HeaderFacts UrlResult
  SpecUtf8 SpecConstructors Prop_ServiceAccount Prop_Constructors Prop_Form Prop_Url Prop_UrlPath Prop_UrlScope Uploader SpecUploader UploaderFacts Demo.
Local Open Scope Z_scope.

(** * Times *)

Lemma in_a_minute_returns {A} (f : systime -> prog A) tr r : returns (in_a_minute f) tr r ->
  exists t tr', tr = VNow t :: tr' /\ returns (f (t + 60 * NS)) tr' r.
Proof.
  intros H. apply returns_act_inv in H. destruct H as (t & tr' & -> & H). exists t, tr'. split; [reflexivity|].
  unfold systime_add_secs in H. change (Z.of_N 60) with 60 in H. destruct (t + 60 * NS <? two63 * NS); [exact H|].
  apply steps_panic in H. destruct H as [_ H]. discriminate H.
Qed.

(** * Forms *)

Lemma covers_eq n v k : covers (n, v) k -> n <> B "Content-Length" -> k = CEq n v.
Proof. intros H N. inversion H; subst; [contradiction|reflexivity]. Qed.
Lemma covers_length v n k : covers (B "Content-Length", v) k -> decimal_of n v -> k = CRange n n.
Proof. intros H D. inversion H as [x m M E|x y N E]; subst; [rewrite (decimal_text_unique _ _ _ M D); reflexivity|contradiction]. Qed.

Lemma covers_form bucket len type id a credential date l :
  Forall2 covers [(B "bucket", bucket); (B "Content-Length", dec len); (B "Content-Type", type); (B "key", id);
    (B "x-goog-algorithm", a); (B "x-goog-credential", credential); (B "x-goog-date", date)] l ->
  l = [CEq (B "bucket") bucket; CRange len len; CEq (B "Content-Type") type; CEq (B "key") id;
       CEq (B "x-goog-algorithm") a; CEq (B "x-goog-credential") credential; CEq (B "x-goog-date") date].
Proof.
  intros C. pose proof (decimal_dec len) as D. revert C D. generalize (dec len). intros digits C D.
  inversion C as [|x k1 ? r1 C1 D1]; subst. inversion D1 as [|x k2 ? r2 C2 D2]; subst. inversion D2 as [|x k3 ? r3 C3 D3]; subst.
  inversion D3 as [|x k4 ? r4 C4 D4]; subst. inversion D4 as [|x k5 ? r5 C5 D5]; subst. inversion D5 as [|x k6 ? r6 C6 D6]; subst.
  inversion D6 as [|x k7 ? r7 C7 D7]; subst. inversion D7; subst.
  apply covers_eq in C1; [|discriminate]. apply covers_eq in C3; [|discriminate]. apply covers_eq in C4; [|discriminate].
  apply covers_eq in C5; [|discriminate]. apply covers_eq in C6; [|discriminate]. apply covers_eq in C7; [|discriminate].
  apply (covers_length _ len) in C2; [|exact D]. subst. reflexivity.
Qed.

Lemma create_form_ok d c tr id len type fields : returns (create_form d c id len type) tr (Ok fields) ->
  upload_form d c tr id len type fields.
Proof.
  intros H. apply in_a_minute_returns in H. destruct H as (t1 & tr' & -> & H).
  match type of H with returns (build _ (builder_of ?l)) _ _ => set (calls := l) in * end.
  set (o := {| so_accessible_at := None; so_expiration := t1 + 60 * NS; so_region := None;
               so_signing_key := c_signing_key c; so_use_sign_blob := c_use_sign_blob c |}).
  assert (Lo : last_options calls o).
  { exists [CBucket (c_bucket_name c); CContentLength len; CContentType type; CKey id], []. split; [reflexivity|]. intros x []. }
  destruct (signed_form _ _ _ _ _ Lo H) as (t & pre & l1 & l2 & acc & exp & bucket & key & email & sig & cs & S).
  cbn zeta in S. destruct S as (T & E & Hw & Hacc & Hexp & Hb & Hk & Au & Sg & Hfs & M & C).
  cbn in Hb, Hk. injection Hb as <-. injection Hk as <-.
  inversion T as [x Tx|x Tx]; subst x; [discriminate Tx|]. subst pre. cbn [so_expiration so_signing_key so_use_sign_blob o] in *.
  match type of Hfs with _ = form_list _ _ (Some ?pf) _ => set (p := pf) in * end.
  assert (F : fields = [(B "bucket", c_bucket_name c); (B "Content-Length", dec len); (B "Content-Type", type); (B "key", id);
    (B "policy", pf_policy p); (B "x-goog-algorithm", B "GOOG4-RSA-SHA256"); (B "x-goog-credential", pf_credential p);
    (B "x-goog-date", pf_date p); (B "x-goog-signature", pf_signature p)]) by (rewrite Hfs; reflexivity).
  assert (K : covered fields = [(B "bucket", c_bucket_name c); (B "Content-Length", dec len); (B "Content-Type", type); (B "key", id);
    (B "x-goog-algorithm", B "GOOG4-RSA-SHA256"); (B "x-goog-credential", pf_credential p); (B "x-goog-date", pf_date p)])
    by (rewrite F; reflexivity).
  rewrite K in C. clear K Hfs. pose proof (ut_ts_ok _ _ Hacc) as [Ta _]. pose proof (ut_ts_ok _ _ Hexp) as [Tx' _].
  assert (Ea : acc = t / 1000000000 /\ 0 <= t) by (apply ut_from_system_time_spec in Hacc; unfold NS in *; lia).
  destruct Ea as [-> T0].
  exists t1, t, l1, l2, email, (dec len), (pf_policy p), (date_to_string (date_from_unix_timestamp (t / 1000000000))), (pf_date p), (pf_signature p), exp, sig.
  cbn zeta. split; [cbn [app] in E; rewrite E; reflexivity|]. split; [exact F|]. split; [apply decimal_dec|]. split; [exact Au|].
  split; [apply iso8601_spec; exact Ta|]. split; [apply date_utc_spec; exact Ta|]. split; [|split; [|split; [|split]]].
  - destruct (policy_text_tree cs exp Tx') as [PT JT].
    exists (policy_to_string {| conditions := cs; pd_expiration := exp |}), (policy_to_json {| conditions := cs; pd_expiration := exp |}).
    split; [apply b64_encode_spec|]. split; [exact JT|]. split; [intros j' J; eapply json_text_unique; eassumption|].
    apply Forall2_cond_of in C.
    apply covers_form in C. rewrite C in PT. exact PT.
  - apply ut_from_system_time_spec in Hexp. destruct Hexp as [_ ->]. unfold NS.
    pose proof (Z.div_mod (t1 + 60 * 1000000000) 1000000000 ltac:(lia)). pose proof (Z.mod_pos_bound (t1 + 60 * 1000000000) 1000000000 ltac:(lia)). lia.
  - unfold NS in Hw. lia.
  - exact Sg.
  - apply hex_encode_spec.
Qed.

(** * Identifiers *)

Local Open Scope byte_scope.

Lemma hex_two b : hex_encode [b] = [hexd (bN b / 16)%N; hexd (bN b mod 16)%N].
Proof. reflexivity. Qed.

Lemma hex_two_alphabet b : Forall (fun c => In c hex_alphabet) [hexd (bN b / 16)%N; hexd (bN b mod 16)%N].
Proof. apply (hex_of_alphabet [b]). apply (hex_encode_spec [b]). Qed.

Lemma version_digit b : hexd (bN (nb (bN b mod 16 + 64)) / 16)%N = "4".
Proof. destruct b; reflexivity. Qed.

Lemma variant_digit b : In (hexd (bN (nb (bN b mod 64 + 128)) / 16)%N) (B "89ab").
Proof. destruct b; vm_compute; tauto. Qed.

(** The sixteen bytes of the generator give a version-4 identifier. *)
Lemma uuid_text random : length random = 16%nat -> uuid_v4_text (uuid_to_string (uuid_new_v4 random)).
Proof.
  intros L. do 16 (destruct random as [|? random]; [discriminate L|]). destruct random; [|discriminate L]. clear L.
  unfold uuid_new_v4. cbn [firstn skipn map app]. unfold uuid_to_string. cbn [firstn skipn]. unfold hex_encode. cbn [flat_map app].
  rewrite version_digit.
  exists (hex_encode [b; b0; b1; b2]), (hex_encode [b3; b4]), (hexd (bN (nb (bN b5 mod 16 + 64)) mod 16)%N :: hex_encode [b6]),
    (hexd (bN (nb (bN b7 mod 64 + 128)) / 16)%N), (hexd (bN (nb (bN b7 mod 64 + 128)) mod 16)%N :: hex_encode [b8]),
    (hex_encode [b9; b10; b11; b12; b13; b14]).
  split; [reflexivity|]. do 5 (split; [reflexivity|]). split; [apply variant_digit|].
  assert (A : forall l, Forall (fun c => In c hex_alphabet) (hex_encode l)) by (intros l; eapply hex_of_alphabet; apply hex_encode_spec).
  assert (D : forall x, In (hexd (bN x mod 16)%N) hex_alphabet).
  { intros x. pose proof (hex_two_alphabet x) as X. inversion X as [|? ? _ Y]; subst. inversion Y; subst. assumption. }
  apply Forall_app. split; [apply A|]. apply Forall_app. split; [apply A|]. apply Forall_app. split; [constructor; [apply D|apply A]|].
  apply Forall_app. split; [constructor; [apply D|apply A]|apply A].
Qed.

(** * Links *)

Definition name_characters : str := B "abcdefghijklmnopqrstuvwxyz0123456789-_.".

Lemma uuid_characters s : uuid_v4_text s -> Forall (fun c => In c name_characters) s /\ s <> B "." /\ s <> B "..".
Proof.
  intros (a & b & c & d & e & f & -> & La & Lb & Lc & Le & Lf & D & F).
  assert (H : forall x, In x hex_alphabet -> In x name_characters).
  { intros x X. cbn in X. repeat destruct X as [<-|X]; try contradiction; vm_compute; tauto. }
  assert (G : forall l, Forall (fun c => In c hex_alphabet) l -> Forall (fun c => In c name_characters) l).
  { intros l X. eapply Forall_impl; [exact H|exact X]. }
  rewrite !Forall_app in F. destruct F as (Fa & Fb & Fc & Fe & Ff). apply G in Fa, Fb, Fc, Fe, Ff.
  split.
  - rewrite !Forall_app. split; [exact Fa|]. split; [repeat constructor; vm_compute; tauto|]. split; [exact Fb|].
    split; [repeat constructor; vm_compute; tauto|]. split; [exact Fc|]. split; [repeat constructor; vm_compute; tauto|].
    constructor; [cbn in D; repeat destruct D as [<-|D]; try contradiction; vm_compute; tauto|]. rewrite !Forall_app. split; [exact Fe|].
    split; [repeat constructor; vm_compute; tauto|exact Ff].
  - split; intros E; apply (f_equal (@length byte)) in E; rewrite !app_length, La in E; discriminate E.
Qed.

Lemma name_characters_fine s : Forall (fun c => In c name_characters) s ->
  ~ In "/" s /\ ~ In "?" s /\ ~ In "#" s /\ ~ In "\" s /\ ~ In "%" s /\ Forall (fun c => 32 < bN c)%N s.
Proof.
  intros H. assert (A : forall c, ~ In c name_characters -> ~ In c s) by (intros c N I; rewrite Forall_forall in H; exact (N (H c I))).
  assert (N : forall c, existsb (beq c) name_characters = false -> ~ In c s).
  { intros c E. apply A. intros I. assert (X : existsb (beq c) name_characters = true) by (apply existsb_exists; exists c; split; [exact I|apply beq_refl]).
    congruence. }
  do 5 (split; [apply N; reflexivity|]). eapply Forall_impl; [|exact H]. intros c I. cbn in I.
  repeat destruct I as [<-|I]; try contradiction; vm_compute; reflexivity.
Qed.

Lemma no_percent_plain s : ~ In "%" s -> plain s.
Proof. intros N p q b r -> (h & l & x & y & -> & _). apply N. apply in_or_app. right. left. reflexivity. Qed.

Lemma link_path d c id t tr url path query sig : bucket_text (c_bucket_name c) -> uuid_v4_text id ->
  returns (build_signed_url d (link_options c id t)) tr (Ok url) -> url_parts url path query sig ->
  unescaped path (B "/" ++ c_bucket_name c ++ B "/" ++ id).
Proof.
  intros (B1 & B2 & B3) U R P. apply uuid_characters in U. destruct U as (U3 & U1 & U2).
  destruct (name_characters_fine _ B3) as (Bs & Bq & Bh & Bb & Bp & Bc). destruct (name_characters_fine _ U3) as (Us & Uq & Uh & Ub & Up & Uc).
  assert (X : forall x, x <> "/" -> ~ In x (c_bucket_name c) -> ~ In x id -> ~ In x (requested (link_options c id t))).
  { intros x N N1 N2 I. unfold requested in I. cbn [o_bucket_name o_object_name link_options] in I. apply in_app_or in I. destruct I as [I|I]; [auto|].
    apply in_app_or in I. destruct I as [[I|[]]|I]; [apply N; symmetry; exact I|auto]. }
  assert (C : Forall (fun x => 32 < bN x)%N (requested (link_options c id t))).
  { unfold requested. cbn [o_bucket_name o_object_name link_options]. rewrite !Forall_app. split; [exact Bc|]. split; [repeat constructor|exact Uc]. }
  apply (C14_plain_path d (link_options c id t) tr url path query sig R P).
  - apply X; [discriminate|exact Bq|exact Uq].
  - apply X; [discriminate|exact Bh|exact Uh].
  - apply X; [discriminate|exact Bb|exact Ub].
  - rewrite Forall_forall in C. split; [intros I; apply C in I; discriminate I|]. split; [intros I; apply C in I; discriminate I|].
    split; [intros I; apply C in I; discriminate I|]. intros p x E. apply C. rewrite E. apply in_or_app. right. left. reflexivity.
  - apply no_percent_plain. apply X; [discriminate|exact Bp|exact Up].
  - intros seg (l & G & F & I). apply glued_iff in G. unfold requested in G. cbn [o_bucket_name o_object_name link_options] in G.
    assert (l = [c_bucket_name c; id]) as ->.
    { change (B "/") with ["/"] in G. assert (J : join ["/"] l = join ["/"] [c_bucket_name c; id]) by (rewrite <- G; reflexivity).
      apply (f_equal (split_on "/")) in J. rewrite !split_on_join in J; [exact J|discriminate|repeat constructor; assumption| |exact F].
      intros ->. destruct I. }
    destruct I as [<-|[<-|[]]]; auto.
Qed.

Local Open Scope Z_scope.

Lemma link_ok d c tr id url : deps_ok d -> uuid_v4_text id ->
  returns (in_a_minute (fun expires => build_signed_url d (link_options c id expires))) tr (Ok url) ->
  download_link d c tr id url.
Proof.
  intros D U H. apply in_a_minute_returns in H. destruct H as (t1 & tr' & -> & H).
  destruct (C12_shape _ _ _ _ H) as (path & query & sig & P & _).
  destruct (C13_signed_message _ _ _ _ _ _ _ D H P) as (t & pre & l1 & l2 & email & canonical & message & s & T & E & A & C & M & Sg & X).
  destruct (C11_expires _ _ _ _ _ _ _ H P) as (t' & pre' & rest & secs & digits & T' & E' & O & Es & _ & De & Q & L).
  inversion T as [x Tx|x Tx]; subst x; [discriminate Tx|]. inversion T' as [x Tx'|x Tx']; subst x; [discriminate Tx'|].
  subst pre pre'. rewrite E in E'. cbn [app] in E'. injection E' as <- _.
  cbn [o_expires link_options] in *. unfold NS in *.
  exists t1, t, l1, l2, email, path, query, sig, digits, secs, canonical, message, s. split; [rewrite E; reflexivity|]. split; [exact P|].
  split; [intros Bt; eapply link_path; eassumption|]. split; [exact A|]. split; [exact C|]. split; [exact M|]. split; [exact Sg|].
  split; [exact X|]. split; [exact De|]. split; [exact Q|]. split; [rewrite Es; apply Z.div_pos; lia|exact L].
Qed.

Lemma links_ok d c images tr urls : deps_ok d -> Forall (fun im => uuid_v4_text (im_id im)) images ->
  returns (list_links d c images) tr (Ok urls) -> links d c tr (shown images) urls.
Proof.
  intros D. revert tr urls. induction images as [|im images IH]; intros tr urls U H.
  - apply returns_ret_inv in H. destruct H as [-> E]. injection E as ->. constructor.
  - inversion U as [|? ? U1 U2]; subst. cbn [list_links] in H. unfold shown. cbn [filter]. destruct (im_uploaded im).
    + apply returns_bind_ok_inv in H. destruct H as [(url & l1 & l2 & H1 & H2 & ->)|(e & _ & E)]; [|discriminate E].
      apply returns_bind_ok_inv in H2. destruct H2 as [(rest & l3 & l4 & H2 & H3 & ->)|(e & _ & E)]; [|discriminate E].
      apply returns_ret_inv in H3. destruct H3 as [-> E]. injection E as ->. rewrite app_nil_r. cbn [map].
      constructor; [apply link_ok; assumption|]. apply IH; assumption.
    + apply IH; assumption.
Qed.

(** * C68 *)

Lemma form_key d c mine id len type fields : upload_form d c mine id len type fields -> has_field fields (B "key") id.
Proof.
  intros (t1 & t2 & l1 & l2 & email & digits & policy & day & date & signature & secs & s & _ & -> & _). split.
  - right; right; right; left. reflexivity.
  - intros v I. cbn [In] in I. repeat destruct I as [I|I]; try contradiction; try (apply (f_equal fst) in I; discriminate I).
    injection I as <-. reflexivity.
Qed.

Lemma images_inv d c tr a : app_runs d c tr a ->
  Forall2 (fun im fields => has_field fields (B "key") (im_id im) /\ uuid_v4_text (im_id im)) (a_images a) (forms tr).
Proof.
  induction 1 as [|tr a v a' H IH S]; [constructor|]. rewrite forms_app. destruct (app_inv _ _ _ _ H) as (_ & _ & F).
  destruct S as [a r|a i random len type A R id|a i A|a i r id v p q A S|a i r v p q A S|a i r id fields A|a i r id e A|a i r urls A|a i r e A|a i id A|a i r h A N];
    cbn [forms flat_map app moved a_images]; rewrite ?app_nil_r; try exact IH.
  - apply Forall2_app; [exact IH|]. constructor; [|constructor]. cbn [im_id]. destruct (F _ _ _ A) as [_ (random & len & type & R & E & _ & X)].
    split; [eapply form_key; apply create_form_ok; exact X|]. rewrite E. apply uuid_text. exact R.
  - clear -IH. assert (G : forall P : str -> list (str * str) -> Prop, forall l fs,
      Forall2 (fun im fields => P (im_id im) fields) l fs -> Forall2 (fun im fields => P (im_id im) fields) (mark_uploaded id l) fs).
    { intros P l fs X. induction X as [|im f l fs Y X IH']; [constructor|]. cbn [mark_uploaded]. destruct (str_eqb (im_id im) id); constructor; assumption. }
    exact (G (fun s fields => has_field fields (B "key") s /\ uuid_v4_text s) _ _ IH).
Qed.

(** The list of images is that of the forms handed out, in the order in which they were handed out: each image has
    the key of its form, which is a version-4 UUID. *)
Theorem C68_images d c tr a : app_runs d c tr a ->
  Forall2 (fun im fields => has_field fields (B "key") (im_id im) /\ uuid_v4_text (im_id im)) (a_images a) (forms tr).
Proof. apply images_inv. Qed.

Lemma Forall2_len {A C} (R : A -> C -> Prop) l m : Forall2 R l m -> length l = length m.
Proof. induction 1; cbn; congruence. Qed.

Lemma reported_snoc tr v n id : reported (tr ++ [v]) n id <->
  reported tr n id \/ exists i, v = ARespond i RpNoContent /\ requested_as tr i (RqUpdate id) /\ (n < length (forms tr))%nat.
Proof.
  split.
  - intros (before & i & after & E & Q & L). destruct after as [|x after].
    + apply app_inj_tail in E. destruct E as [-> ->]. right. exists i. auto.
    + left. destruct (exists_last (l := x :: after) ltac:(discriminate)) as (z & last & E'). rewrite E' in E.
      change (before ++ ARespond i RpNoContent :: z ++ [last]) with (before ++ (ARespond i RpNoContent :: z) ++ [last]) in E.
      rewrite app_assoc in E. apply app_inj_tail in E. destruct E as [-> _]. exists before, i, z. auto.
  - intros [(before & i & after & -> & Q & L)|(i & -> & Q & L)].
    + exists before, i, (after ++ [v]). rewrite <- app_assoc. auto.
    + exists tr, i, []. auto.
Qed.

(** An image is marked exactly if an update with its id was answered after its form was handed out, and it is the
    first image with this id. *)
Theorem C68_uploaded d c tr a n im : app_runs d c tr a -> nth_error (a_images a) n = Some im ->
  (im_uploaded im = true <-> reported tr n (im_id im) /\
     forall m im', (m < n)%nat -> nth_error (a_images a) m = Some im' -> im_id im' <> im_id im).
Proof.
  intros H. revert n im. induction H as [|tr a v a' H IH S]; [intros [|n] im X; discriminate X|].
  pose proof (Forall2_len _ _ _ (images_inv _ _ _ _ H)) as L. destruct (app_inv _ _ _ _ H) as (_ & _ & F).
  assert (Same : forall images, images = a_images a -> (forall i, v <> ARespond i RpNoContent) -> forall n im, nth_error images n = Some im ->
    (im_uploaded im = true <-> reported (tr ++ [v]) n (im_id im) /\
     forall m im', (m < n)%nat -> nth_error images m = Some im' -> im_id im' <> im_id im)).
  { intros images -> N n im X. rewrite (IH n im X), reported_snoc. split; [tauto|]. intros [[R|(i & E & _)] R']; [auto|destruct (N i E)]. }
  destruct S as [a r|a i random len type A R id|a i A|a i r id v p q A S|a i r v p q A S|a i r id fields A|a i r id e A|a i r urls A|a i r e A|a i id A|a i r h A N];
    cbn [a_images moved]; try (apply Same; [reflexivity|discriminate]).
  - intros n im X. destruct (Nat.lt_ge_cases n (length (a_images a))) as [I|I].
    + rewrite nth_error_app1 in X by exact I. rewrite (IH n im X), reported_snoc. split.
      * intros [R U]. split; [auto|]. intros m im' M Y. rewrite nth_error_app1 in Y by lia. apply (U m); [exact M|exact Y].
      * intros [[R|(j & E & _)] U]; [|discriminate E]. split; [exact R|]. intros m im' M Y. apply (U m); [exact M|]. rewrite nth_error_app1 by lia. exact Y.
    + rewrite nth_error_app2 in X by exact I. destruct (n - length (a_images a))%nat as [|k] eqn:K; [|destruct k; discriminate X].
      injection X as <-. cbn [im_uploaded im_id]. split; [discriminate|]. intros [R _]. exfalso. apply reported_snoc in R.
      destruct R as [(before & j & after & -> & _ & R)|(j & E & _)]; [|discriminate E]. rewrite forms_app, app_length in L. lia.
  - intros n im X. apply mark_at in X. destruct X as (old & X & E & U). rewrite U, reported_snoc, <- E.
    assert (Ids : forall m x, nth_error (mark_uploaded id (a_images a)) m = Some x -> exists y, nth_error (a_images a) m = Some y /\ im_id y = im_id x).
    { intros m x Y. apply mark_at in Y. destruct Y as (y & Y & E' & _). eauto. }
    assert (Ids' : forall m y, nth_error (a_images a) m = Some y -> exists x, nth_error (mark_uploaded id (a_images a)) m = Some x /\ im_id x = im_id y).
    { intros m y Y. assert (Z : nth_error (map im_id (mark_uploaded id (a_images a))) m = Some (im_id y)) by (rewrite mark_ids; apply map_nth_error; exact Y).
      rewrite nth_error_map in Z. destruct (nth_error (mark_uploaded id (a_images a)) m) as [x|]; [|discriminate Z]. injection Z as Z. eauto. }
    assert (First : (forall m im', (m < n)%nat -> nth_error (mark_uploaded id (a_images a)) m = Some im' -> im_id im' <> im_id old) <->
                    (forall m im', (m < n)%nat -> nth_error (a_images a) m = Some im' -> im_id im' <> im_id old)).
    { split; intros G m x M Y.
      - apply Ids' in Y. destruct Y as (y & Y & <-). exact (G m y M Y).
      - apply Ids in Y. destruct Y as (y & Y & <-). exact (G m y M Y). }
    rewrite First, (IH n old X). destruct (F _ _ _ A) as [Q _].
    assert (Ln : (n < length (forms tr))%nat) by (rewrite <- L; apply nth_error_Some; congruence).
    split.
    + intros [[R G]|[Ex G]]; [tauto|]. split; [right; exists i; rewrite Ex; auto|]. intros m x M Y. rewrite Ex. apply (G m); assumption.
    + intros [[R|(j & Ej & Qj & _)] G]; [tauto|]. injection Ej as <-. pose proof (requested_fun _ _ _ _ Q Qj) as Z. injection Z as Z.
      right. split; [congruence|]. intros m x M Y. rewrite Z. apply (G m); assumption.
Qed.

(** Images are never removed, reordered or unmarked. *)
Theorem C68_monotone d c x y a : app_runs d c (x ++ y) a -> exists a1, app_runs d c x a1 /\
  forall n im, nth_error (a_images a1) n = Some im ->
  exists im', nth_error (a_images a) n = Some im' /\ im_id im' = im_id im /\ (im_uploaded im = true -> im_uploaded im' = true).
Proof.
  intros H. remember (x ++ y) as tr eqn:E. revert x y E. induction H as [|tr a v a' H IH S]; intros x y E.
  - symmetry in E. apply app_eq_nil in E. destruct E as [-> ->]. eexists. split; [constructor|]. intros n im X. eauto.
  - destruct y as [|w y].
    + rewrite app_nil_r in E. subst x. exists a'. split; [econstructor; eassumption|]. intros n im X. eauto.
    + destruct (exists_last (l := w :: y) ltac:(discriminate)) as (z & last & E'). rewrite E', app_assoc in E. apply app_inj_tail in E.
      destruct E as [E <-]. destruct (IH x z E) as (a1 & R & G). exists a1. split; [exact R|]. intros n im X.
      destruct (G n im X) as (im1 & X1 & E1 & U1). clear - S X1 E1 U1.
      destruct S as [a r|a i random len type A R id|a i A|a i r id v p q A S|a i r v p q A S|a i r id fields A|a i r id e A|a i r urls A|a i r e A|a i id A|a i r h A N];
        cbn [a_images moved]; try (exists im1; auto; fail).
      * exists im1. split; [|auto]. rewrite nth_error_app1; [exact X1|]. apply nth_error_Some. congruence.
      * assert (Z : nth_error (map im_id (mark_uploaded id (a_images a))) n = Some (im_id im1)) by (rewrite mark_ids; apply map_nth_error; exact X1).
        rewrite nth_error_map in Z. destruct (nth_error (mark_uploaded id (a_images a)) n) as [x|] eqn:Y; [|discriminate Z]. injection Z as Z.
        exists x. split; [reflexivity|]. split; [congruence|]. intros U. apply mark_at in Y. destruct Y as (old & Y & _ & W). apply W. left.
        rewrite X1 in Y. injection Y as <-. auto.
Qed.

(** * C69 *)

(** A listing answers with one link per image marked when the listing was begun, in the order of the images. *)
Theorem C69_links d c tr a before i urls after : deps_ok d -> app_runs d c tr a ->
  tr = before ++ ARespond i (RpLinks urls) :: after ->
  exists x y a1, before = x ++ ACopy i :: y /\ app_runs d c x a1 /\
    requested_as before i RqList /\ links d c (effects_of before i) (shown (a_images a1)) urls.
Proof.
  intros D H E. destruct (app_runs_split _ _ _ _ H _ _ _ E) as (a1 & a2 & R & S & _). destruct (app_inv _ _ _ _ R) as (_ & _ & F).
  inversion S; subst. match goal with X : handler_at _ _ _ _ |- _ => destruct (F _ _ _ X) as [Q (-> & x & y & a3 & -> & R3 & X3)] end.
  exists x, y, a3. split; [reflexivity|]. split; [exact R3|]. split; [exact Q|]. apply links_ok; [exact D| |exact X3].
  apply images_inv in R3. clear -R3. induction R3 as [|im f l fs [_ U] R3 IH]; constructor; assumption.
Qed.

(** A listing that fails does so because the crate refused one of the links. *)
Theorem C69_failure d c tr a before i after : app_runs d c tr a -> tr = before ++ ARespond i RpFailed :: after ->
  requested_as before i RqList ->
  exists x y a1 done t mine id e, before = x ++ ACopy i :: y /\ app_runs d c x a1 /\ In id (shown (a_images a1)) /\
    effects_of before i = done ++ VNow t :: mine /\
    returns (build_signed_url d {| o_bucket_name := c_bucket_name c; o_object_name := id; o_region := None;
      o_expires := t + 60 * 1000000000; o_http_method := B "GET"; o_accessible_at := None; o_signing_key := c_signing_key c;
      o_use_sign_blob := c_use_sign_blob c; o_headers := []; o_query_parameters := [] |}) mine (Err e).
Proof.
  intros H E Q. destruct (app_runs_split _ _ _ _ H _ _ _ E) as (a1 & a2 & R & S & _). destruct (app_inv _ _ _ _ R) as (_ & _ & F).
  inversion S; subst; match goal with X : handler_at _ _ _ _ |- _ => destruct (F _ _ _ X) as [Q' W] end.
  - destruct W as (random & len & type & _ & _ & -> & _). pose proof (requested_fun _ _ _ _ Q Q') as Z. discriminate Z.
  - destruct W as (-> & x & y & a3 & -> & R3 & X3). exists x, y, a3.
    assert (G : forall images l err, returns (list_links d c images) l (Err err) -> exists done t mine id e, In id (shown images) /\
      l = done ++ VNow t :: mine /\ returns (build_signed_url d (link_options c id (t + 60 * NS))) mine (Err e)).
    { clear. induction images as [|im images IH]; intros l err X; [apply returns_ret_inv in X; destruct X as [_ X]; discriminate X|].
      cbn [list_links] in X. unfold shown. cbn [filter]. destruct (im_uploaded im).
      - cbn [map]. apply returns_bind_ok_inv in X. destruct X as [(url & l1 & l2 & X1 & X2 & ->)|(e & X & _)].
        + apply returns_bind_ok_inv in X2. destruct X2 as [(rest & l3 & l4 & _ & X3 & _)|(e & X2 & _)].
          * apply returns_ret_inv in X3. destruct X3 as [_ X3]. discriminate X3.
          * destruct (IH _ _ X2) as (done & t & mine & id & e' & I & -> & Y). exists (l1 ++ done), t, mine, id, e'. split; [right; exact I|].
            rewrite <- app_assoc. auto.
        + apply in_a_minute_returns in X. destruct X as (t & mine & -> & X). exists [], t, mine, (im_id im), e. split; [left; reflexivity|]. auto.
      - exact (IH _ _ X). }
    destruct (G _ _ _ X3) as (done & t & mine & id & e' & I & El & Y). exists done, t, mine, id, e'. split; [reflexivity|]. split; [exact R3|].
    split; [exact I|]. split; [exact El|exact Y].
Qed.

(** * C70 *)

(** The answer to a create request: the form of a fresh object for exactly the requested length and type, to be sent
    with POST to the bucket. *)
Theorem C70_form d c tr a before i fields method url after : app_runs d c tr a ->
  tr = before ++ ARespond i (RpForm fields method url) :: after ->
  method = B "POST" /\ url = B "https://storage.googleapis.com/" ++ c_bucket_name c /\
  exists len type id, requested_as before i (RqCreate len type) /\ uuid_v4_text id /\
    upload_form d c (effects_of before i) id len type fields.
Proof.
  intros H E. destruct (app_runs_split _ _ _ _ H _ _ _ E) as (a1 & a2 & R & S & _). destruct (app_inv _ _ _ _ R) as (_ & _ & F).
  inversion S; subst. match goal with X : handler_at _ _ _ _ |- _ => destruct (F _ _ _ X) as [Q (random & len & type & L & -> & -> & X3)] end.
  split; [reflexivity|]. split; [reflexivity|]. exists len, type, (uuid_to_string (uuid_new_v4 random)). split; [exact Q|].
  split; [apply uuid_text; exact L|]. apply create_form_ok. exact X3.
Qed.

(** Whatever a server reads from such a policy, it accepts nothing but an upload of that object with that length and
    type. *)
Theorem C70_upload bucket id len type credential date secs policy text j cs secs' form size :
  upload_policy bucket id len type credential date secs policy ->
  base64_of text policy -> json_text j text -> policy_tree cs secs' j -> accepted cs form size ->
  has_field form (B "bucket") bucket /\ has_field form (B "key") id /\ has_field form (B "Content-Type") type /\ size = len.
Proof.
  intros (text' & j' & D' & J' & U & P') D J P A. rewrite (base64_of_data_unique _ _ _ D D') in J. rewrite (U _ J) in P.
  rewrite (policy_tree_conds _ _ _ _ _ P P') in A. unfold accepted in A.
  inversion A as [|? ? A1 R1]; subst. inversion R1 as [|? ? A2 R2]; subst. inversion R2 as [|? ? A3 R3]; subst. inversion R3 as [|? ? A4 R4]; subst.
  cbn [satisfied] in A1, A2, A3, A4. split; [exact A1|]. split; [exact A4|]. split; [exact A3|]. lia.
Qed.

(** * C71 *)

Lemma env_var_spec v s : env_var v = Some s <-> v = Some s /\ unicode s.
Proof.
  unfold env_var. destruct v as [x|]; [|split; [discriminate|intros [X _]; discriminate X]].
  destruct (utf8_valid x) eqn:U.
  - apply unicode_spec in U. split; [intros E; injection E as ->; auto|intros [E _]; exact E].
  - split; [discriminate|]. intros [E X]. injection E as ->. apply unicode_spec in X. congruence.
Qed.

(** The program starts exactly with the described settings. *)
Theorem C71_configuration d files id e c : main_config d files id e = Some c <-> configured d files id e c.
Proof.
  split.
  - unfold main_config. destruct (env_var (e_use_sign_blob e)) as [text|] eqn:E1; [|discriminate]. apply env_var_spec in E1.
    unfold bool_from_str. destruct (str_eqb text (B "true")) eqn:T.
    + apply str_eqb_eq in T. subst text. destruct (env_var (e_bucket_name e)) as [bucket|] eqn:E2; [|discriminate]. apply env_var_spec in E2.
      intros X. injection X as <-. constructor; tauto.
    + destruct (str_eqb text (B "false")) eqn:T'; [|discriminate]. apply str_eqb_eq in T'. subst text.
      destruct (env_var (e_credentials e)) as [path|] eqn:E3; [|discriminate]. apply env_var_spec in E3.
      destruct (service_account_from_path d (files path)) as [k|] eqn:E4; [|discriminate]. apply C61_file in E4.
      destruct E4 as (bytes & l & account & key & Ef & U & Rd & M1 & M2 & ->).
      destruct (env_var (e_bucket_name e)) as [bucket|] eqn:E2; [|discriminate]. apply env_var_spec in E2.
      intros X. injection X as <-. eapply cf_account with (path := path); try eassumption; tauto.
  - intros [bucket E1 E2 U|path bucket bytes l account key E1 E3 U3 Ef U4 Rd M1 M2 E2 U2]; unfold main_config.
    + rewrite E1. change (env_var (Some (B "true"))) with (Some (B "true")). cbn [bool_from_str]. change (str_eqb (B "true") (B "true")) with true. cbn iota.
      rewrite (proj2 (env_var_spec _ bucket) (conj E2 U)). reflexivity.
    + rewrite E1. change (env_var (Some (B "false"))) with (Some (B "false")). change (bool_from_str (B "false")) with (Some false). cbn iota.
      rewrite (proj2 (env_var_spec _ path) (conj E3 U3)). rewrite (proj2 (C61_file d (files path) (KServiceAccount account key))).
      * rewrite (proj2 (env_var_spec _ bucket) (conj E2 U2)). reflexivity.
      * exists bytes, l, account, key. auto 10.
Qed.

(** The results and panics a program can end with. *)
Fixpoint leaves {A} (R : A -> Prop) (P : panic -> Prop) (p : prog A) : Prop :=
  match p with
  | Ret a => R a
  | Panic s => P s
  | Act e k => forall r, leaves R P (k r)
  end.

Lemma leaves_steps {A} (R : A -> Prop) P p tr q : steps p tr q -> leaves R P p -> leaves R P q.
Proof. induction 1 as [p|e k r tr q S IH]; intros L; [exact L|]. apply IH. apply L. Qed.

Lemma leaves_bind {A C} (R : A -> Prop) (R' : C -> Prop) P p f : leaves R P p -> (forall a, R a -> leaves R' P (f a)) -> leaves R' P (bind p f).
Proof. intros L F. induction p as [a|s|e k IH]; cbn in *; auto. Qed.

Lemma leaves_weaken {A} (R R' : A -> Prop) (P P' : panic -> Prop) p : (forall a, R a -> R' a) -> (forall s, P s -> P' s) -> leaves R P p -> leaves R' P' p.
Proof. intros F G L. induction p as [a|s|e k IH]; cbn in *; auto. Qed.

Lemma leaves_bind_ok {A C E F} (R : E -> Prop) (R' : F -> Prop) P (g : E -> F) (p : prog (res A E)) (f : A -> prog (res C F)) :
  leaves (fun r => forall e, r = Err e -> R e) P p -> (forall e, R e -> R' (g e)) ->
  (forall a, leaves (fun r => forall e, r = Err e -> R' e) P (f a)) ->
  leaves (fun r => forall e, r = Err e -> R' e) P (bind_ok g p f).
Proof.
  intros L G H. eapply leaves_bind; [exact L|]. intros [a|e] X; [apply H|]. intros e' E'. injection E' as <-. apply G. apply X. reflexivity.
Qed.

Lemma leaves_request d a1 a2 a3 a4 a5 r : leaves (fun _ : res str bt_error => True) clock_panic (request_text d a1 a2 a3 a4 a5 r).
Proof. unfold request_text. destruct (negb _); [exact I|]. intros [|status body]; cbn; [exact I|]. destruct (negb (is_success status)), body; exact I. Qed.

Lemma leaves_refresh d bt : leaves (fun _ => True) clock_panic (refresh d bt).
Proof.
  unfold refresh. eapply leaves_bind; [apply leaves_request|]. intros [email|e] _; [|exact I].
  eapply leaves_bind; [apply leaves_request|]. intros [body|e] _; [|exact I].
  destruct (access_token_from_str body) as [tok|]; [|exact I]. destruct (negb _); [exact I|]. intros now. cbn.
  destruct (systime_add_secs now (at_expires_in tok)); [intros r; exact I|right; right; left; reflexivity].
Qed.

Lemma leaves_lookup d bt : leaves (fun _ => True) clock_panic (get_email_and_token d bt).
Proof.
  intros r. eapply leaves_bind; [|intros a _ r'; exact I]. intros [[[email token] expires]|]; [|apply leaves_refresh].
  cbn. destruct (duration_since expires 0); [|left; reflexivity]. intros now. cbn. destruct (duration_since now 0); [|right; left; reflexivity].
  destruct (Z.ltb _ _); [exact I|apply leaves_refresh].
Qed.

(** A key as [main] sets it up. *)
Inductive usable : signing_key -> bool -> Prop :=
| us_bound bt : usable (KBoundToken bt) true
| us_account email key : usable (KServiceAccount email key) false.

Lemma configured_usable d files id e c : configured d files id e c -> usable (c_signing_key c) (c_use_sign_blob c).
Proof. destruct 1; constructor. Qed.

Lemma leaves_authorizer d k u : usable k u -> leaves (fun r => forall e, r = Err e -> remote_failure e) clock_panic (authorizer d k).
Proof.
  intros [bt|email key]; [|intros e E; discriminate E]. cbn [authorizer]. eapply leaves_bind; [apply leaves_lookup|].
  intros [et|x] _ e E; [discriminate E|]. injection E as <-. left. eauto.
Qed.

Lemma leaves_sign d k u m : usable k u -> leaves (fun r => forall e, r = Err e -> remote_failure e) clock_panic (sign d k u m).
Proof.
  intros [bt|email key]; cbn [sign].
  - apply (leaves_bind_ok (fun _ => True)); [|intros x _; right; left; eauto|intros s e E; discriminate E].
    unfold bound_token_sign. eapply leaves_weaken with (R := fun _ => True); [auto|intros s X; exact X|].
    eapply leaves_bind; [apply leaves_lookup|]. intros [et|x] _; [|exact I].
    eapply leaves_bind; [apply leaves_request|]. intros [body|x] _; [|exact I].
    destruct (signed_blob_from_str body) as [blob|]; [|exact I]. destruct (b64_decode blob); exact I.
  - destruct (d_rsa_sign d key m) as [s|x]; intros e E; [discriminate E|]. injection E as <-. right. right. eauto.
Qed.

Ltac plain_error := let e := fresh in let E := fresh in let x := fresh in let X := fresh in
  intros e E x X; injection E as <-; destruct X as [X|X]; discriminate X.

Lemma leaves_build d c id len type t : usable (c_signing_key c) (c_use_sign_blob c) ->
  leaves (fun r => forall e, r = Err e -> forall x, e = FormBoundTokenAuthorizer x \/ e = FormSigning x -> remote_failure x) (fun _ => True)
    (build d (builder_of [CBucket (c_bucket_name c); CContentLength len; CContentType type; CKey id;
      CSigningOptions {| so_accessible_at := None; so_expiration := t; so_region := None;
                         so_signing_key := c_signing_key c; so_use_sign_blob := c_use_sign_blob c |}])).
Proof.
  intros U. set (R := fun e => forall x, e = FormBoundTokenAuthorizer x \/ e = FormSigning x -> remote_failure x).
  unfold build. apply (leaves_bind_ok R R); [|auto|].
  - intros now. unfold build_policy_at. cbn [so_expiration so_signing_key so_use_sign_blob so_region].
    destruct (t <=? now); [plain_error|]. destruct (ut_from_system_time now) as [acc|]; [|plain_error].
    destruct (ut_from_system_time t) as [exp|]; [|plain_error]. cbn [b_bucket b_key builder_of fold_left apply_call builder_new].
    destruct (key_algorithm (c_signing_key c)); try plain_error.
    apply (leaves_bind_ok remote_failure); [eapply leaves_weaken; [intros a X; exact X| |eapply leaves_authorizer; exact U]; auto| |].
    { intros e X x [Y|Y]; [injection Y as <-; exact X|discriminate Y]. }
    intros email. destruct (location_try_from _) as [location|]; [|exact I]. destruct (credential_scope_new _ _ _ _) as [scope|]; [|plain_error].
    destruct (traverse _ _) as [fixed|]; [|exact I]. cbn [b_x_goog_meta meta_conditions].
    apply (leaves_bind_ok remote_failure); [eapply leaves_weaken; [intros a X; exact X| |apply leaves_sign; exact U]; auto| |].
    { intros e X x [Y|Y]; [discriminate Y|injection Y as <-; exact X]. }
    intros digest e E. discriminate E.
  - intros p. cbn [b_key builder_of fold_left apply_call builder_new b_x_goog_meta meta_fields]. intros e E. discriminate E.
Qed.

Theorem C71_form_errors d files id0 env c tr a i r id e : configured d files id0 env c -> app_runs d c tr a ->
  handler_at a i r (HForm id (Ret (Err e))) ->
  exists t1 t2 rest, effects_of tr i = VNow t1 :: VNow t2 :: rest /\ form_trouble t1 t2 e.
Proof.
  intros Cf H A. apply configured_usable in Cf. destruct (app_inv _ _ _ _ H) as (_ & _ & F).
  destruct (F _ _ _ A) as [_ (random & len & type & _ & _ & _ & S)]. apply in_a_minute_returns in S. destruct S as (t1 & l & -> & S).
  pose proof (leaves_steps _ _ _ _ _ S (leaves_build d c id len type (t1 + 60 * NS) Cf) e eq_refl) as L.
  match type of S with returns (build _ (builder_of ?l)) _ _ => set (calls := l) in * end.
  set (o := {| so_accessible_at := None; so_expiration := t1 + 60 * NS; so_region := None;
               so_signing_key := c_signing_key c; so_use_sign_blob := c_use_sign_blob c |}).
  assert (Lo : last_options calls o).
  { exists [CBucket (c_bucket_name c); CContentLength len; CContentType type; CKey id], []. split; [reflexivity|]. intros x []. }
  destruct (C08_errors _ _ _ _ _ Lo S) as (t & pre & rest & T & -> & X).
  inversion T as [x Tx|x Tx]; subst x; [discriminate Tx|]. subst pre. exists t1, t, rest. split; [reflexivity|].
  destruct X as [[V _]|[_ [(x & ->)|[(-> & (v & M))|((x & ->) & _)]]]].
  - destruct V as [V|V1 V2|V1 V2 V3|V1 V2 V3 V4|V1 V2 V3 V4 V5|access secret V1 V2 V3 V4 V5 V6]; unfold o in *; cbn [so_expiration so_signing_key] in *.
    + apply ft_late. exact V.
    + apply ft_now. exact V2.
    + apply ft_expiration. exact V3.
    + exfalso. inversion V4 as [|? ? X _]; subst. apply (X (c_bucket_name c)). cbn. auto.
    + exfalso. inversion V5 as [|? ? _ X1]; subst. inversion X1 as [|? ? _ X2]; subst. inversion X2 as [|? ? _ X3]; subst. inversion X3 as [|? ? X _]; subst.
      apply (X id). cbn. auto.
    + exfalso. rewrite V6 in Cf. inversion Cf.
  - apply ft_authorizer. apply L. auto.
  - exfalso. cbn in M. repeat destruct M as [M|M]; try discriminate M. exact M.
  - apply ft_signing. apply L. auto.
Qed.

Theorem C71_form_panics d files id0 env c tr a i r id s : configured d files id0 env c -> app_runs d c tr a ->
  handler_at a i r (HForm id (Panic s)) ->
  exists t1 rest, effects_of tr i = VNow t1 :: rest /\
    (s = PExpiresOverflow /\ rest = [] /\ two63 * 1000000000 <= t1 + 60 * 1000000000 \/
     (exists bt, c_signing_key c = KBoundToken bt) /\ clock_panic s).
Proof.
  intros Cf H A. apply configured_usable in Cf. destruct (app_inv _ _ _ _ H) as (_ & _ & F).
  destruct (F _ _ _ A) as [_ (random & len & type & _ & _ & _ & S)]. apply panics_act_inv in S. destruct S as (t1 & l & -> & S).
  exists t1, l. split; [reflexivity|]. unfold systime_add_secs in S. change (Z.of_N 60) with 60 in S.
  destruct (Z.ltb_spec (t1 + 60 * NS) (two63 * NS)) as [W|W].
  - right. apply C09_panics in S. destruct S as (o & t & pre & rest & (x & y & E & _) & _ & _ & _ & [(email & key & K & U & _)|(bt & K & P)]).
    + exfalso. assert (I : In (CSigningOptions o) (x ++ CSigningOptions o :: y)) by (apply in_or_app; right; left; reflexivity).
      rewrite <- E in I. cbn in I. repeat destruct I as [I|I]; try discriminate I; [|exact I]. injection I as <-. cbn in K, U. rewrite K, U in Cf. inversion Cf.
    + split; [|exact P]. assert (I : In (CSigningOptions o) (x ++ CSigningOptions o :: y)) by (apply in_or_app; right; left; reflexivity).
      rewrite <- E in I. cbn in I. repeat destruct I as [I|I]; try discriminate I; [|destruct I]. injection I as <-. exists bt. exact K.
  - left. apply steps_panic in S. destruct S as [-> S]. injection S as ->. unfold NS in W. auto.
Qed.

Ltac link_error := let e := fresh in let E := fresh in let X := fresh in let x := fresh in
  intros e E; injection E as <-; split; [discriminate|]; split; [intros X; cbn in X; repeat destruct X as [X|X]; try discriminate X; exact X|intros x X; discriminate X].

Lemma clock_link s : clock_panic s -> link_panic s.
Proof. intros [<-|[<-|[<-|[]]]]; unfold link_panic; cbn; tauto. Qed.

Lemma leaves_link d c id t : usable (c_signing_key c) (c_use_sign_blob c) ->
  leaves (fun r => forall e, r = Err e -> link_trouble e) link_panic (build_signed_url d (link_options c id t)).
Proof.
  intros U now. unfold build_signed_url_at. cbn [o_region o_expires o_http_method o_headers o_query_parameters link_options unwrap_or convert_headers].
  destruct (ut_from_system_time now) as [acc|]; [|link_error]. destruct (duration_since t now) as [dur|]; [|link_error].
  destruct (i64_try_from (as_secs dur)) as [expiration|]; [|link_error].
  change (http_verb_from_str (B "GET")) with (Some Get). cbn iota.
  destruct (uri_parse _) as [uri|]; [|link_error]. destruct (d_hm_overflow d []); [cbn; unfold link_panic; cbn; tauto|].
  destruct (location_try_from (B "auto")) as [location|] eqn:El; [|vm_compute in El; discriminate El].
  destruct (credential_scope_new _ _ _ _) as [scope|] eqn:Es; [|discriminate Es].
  destruct (expiration_try_from expiration) as [secs|]; [|link_error].
  apply (leaves_bind_ok (fun e => e <> HostHeaderNotFound /\ forall x, e = UrlSigning x -> remote_failure x)).
  - unfold signed_url_new. apply (leaves_bind_ok remote_failure).
    + eapply leaves_weaken; [intros x X; exact X|exact clock_link|eapply leaves_authorizer; exact U].
    + intros e X. split; [discriminate|]. intros x E. injection E as <-. exact X.
    + intros email. cbn [hr_headers existsb fst]. change (str_eqb (B "host") (B "host")) with true. cbn [orb negb].
      destruct (add_required_params _ _ _ _ _ _ _) as [req|]; [|cbn; unfold link_panic; cbn; tauto].
      destruct (canonical_request d req) as [canonical|].
      * apply (leaves_bind_ok remote_failure).
        -- eapply leaves_weaken; [intros x X; exact X|exact clock_link|apply leaves_sign; exact U].
        -- intros e X. split; [discriminate|]. intros x E. injection E as <-. exact X.
        -- intros digest e E. discriminate E.
      * intros e E. injection E as <-. split; [discriminate|]. intros x X. discriminate X.
  - intros e [X Y]. split; [discriminate|]. split; [|intros x E; injection E as ->; apply Y; reflexivity].
    intros I. cbn in I. repeat destruct I as [I|I]; try discriminate I; [|exact I]. injection I as <-. apply X. reflexivity.
  - intros url e E. discriminate E.
Qed.

Lemma leaves_links d c images : usable (c_signing_key c) (c_use_sign_blob c) ->
  leaves (fun r => forall e, r = Err e -> link_trouble e) link_panic (list_links d c images).
Proof.
  intros U. induction images as [|im images IH]; [intros e E; discriminate E|]. cbn [list_links]. destruct (im_uploaded im); [|exact IH].
  apply (leaves_bind_ok link_trouble); [|auto|].
  - intros now. cbn. destruct (systime_add_secs now 60); [apply leaves_link; exact U|cbn; unfold link_panic; cbn; tauto].
  - intros url. apply (leaves_bind_ok link_trouble); [exact IH|auto|]. intros urls e E. discriminate E.
Qed.

Theorem C71_links d files id0 env c tr a i r p : configured d files id0 env c -> app_runs d c tr a ->
  handler_at a i r (HLinks p) ->
  (forall e, p = Ret (Err e) -> link_trouble e) /\ (forall s, p = Panic s -> link_panic s).
Proof.
  intros Cf H A. apply configured_usable in Cf. destruct (app_inv _ _ _ _ H) as (_ & _ & F).
  destruct (F _ _ _ A) as [_ (_ & x & y & a1 & _ & _ & S)].
  pose proof (leaves_steps _ _ _ _ _ S (leaves_links d c (a_images a1) Cf)) as L. split.
  - intros e ->. exact (L e eq_refl).
  - intros s ->. exact L.
Qed.

(** * Concrete cases *)

Lemma serve_form d c tr a i r id p l q : app_runs d c tr a -> handler_at a i r (HForm id p) -> steps p l q ->
  exists a', app_runs d c (tr ++ map (ADo i) l) a' /\ handler_at a' i r (HForm id q) /\ a_images a' = a_images a /\
    length (a_handlers a') = length (a_handlers a) /\ forall j, j <> i -> nth_error (a_handlers a') j = nth_error (a_handlers a) j.
Proof.
  intros H A S. revert tr a H A. induction S as [p|e k x l q S IH]; intros tr a H A.
  - exists a. cbn [map]. rewrite app_nil_r. auto.
  - assert (S1 : app_step d c a (ADo i (event_of e x)) (moved a i (HForm id (k x)) (a_images a))).
    { eapply as_form; [exact A|]. constructor. constructor. }
    destruct (IH _ _ (ar_snoc _ _ _ _ _ _ H S1)) as (a' & R & A' & E & L & O); [unfold handler_at, moved; cbn [a_handlers]; eapply put_handler_at; exact A|].
    exists a'. cbn [map]. rewrite <- app_assoc in R. split; [exact R|]. split; [exact A'|]. split; [exact E|].
    unfold moved in L, O. cbn [a_handlers] in L, O. rewrite put_handler_length in L. split; [exact L|]. intros j N. rewrite (O j N). apply put_handler_other. congruence.
Qed.

Lemma serve_links d c tr a i r p l q : app_runs d c tr a -> handler_at a i r (HLinks p) -> steps p l q ->
  exists a', app_runs d c (tr ++ map (ADo i) l) a' /\ handler_at a' i r (HLinks q) /\ a_images a' = a_images a /\
    length (a_handlers a') = length (a_handlers a) /\ forall j, j <> i -> nth_error (a_handlers a') j = nth_error (a_handlers a) j.
Proof.
  intros H A S. revert tr a H A. induction S as [p|e k x l q S IH]; intros tr a H A.
  - exists a. cbn [map]. rewrite app_nil_r. auto.
  - assert (S1 : app_step d c a (ADo i (event_of e x)) (moved a i (HLinks (k x)) (a_images a))).
    { eapply as_links; [exact A|]. constructor. constructor. }
    destruct (IH _ _ (ar_snoc _ _ _ _ _ _ H S1)) as (a' & R & A' & E & L & O); [unfold handler_at, moved; cbn [a_handlers]; eapply put_handler_at; exact A|].
    exists a'. cbn [map]. rewrite <- app_assoc in R. split; [exact R|]. split; [exact A'|]. split; [exact E|].
    unfold moved in L, O. cbn [a_handlers] in L, O. rewrite put_handler_length in L. split; [exact L|]. intros j N. rewrite (O j N). apply put_handler_other. congruence.
Qed.

(** One request served from start to end, whatever else is going on. *)
Lemma serve_create d c tr a len type random l fields : app_runs d c tr a -> length random = 16%nat ->
  let i := length (a_handlers a) in
  let id := uuid_to_string (uuid_new_v4 random) in
  returns (create_form d c id len type) l (Ok fields) ->
  exists a', app_runs d c (tr ++ [AArrive (RqCreate len type); ADraw i random] ++ map (ADo i) l ++
      [ARespond i (RpForm fields (B "POST") (B "https://storage.googleapis.com/" ++ c_bucket_name c))]) a' /\
    a_images a' = a_images a ++ [{| im_id := id; im_uploaded := false |}] /\ length (a_handlers a') = S i.
Proof.
  intros H R i id S.
  pose proof (ar_snoc _ _ _ _ _ _ H (as_arrive d c a (RqCreate len type))) as H1.
  assert (A1 : handler_at {| a_images := a_images a; a_handlers := a_handlers a ++ [(RqCreate len type, HNew)] |} i (RqCreate len type) HNew).
  { unfold handler_at. cbn [a_handlers]. rewrite nth_error_app2 by (unfold i; lia). unfold i. rewrite Nat.sub_diag. reflexivity. }
  pose proof (ar_snoc _ _ _ _ _ _ H1 (as_draw d c _ i random len type A1 R)) as H2. cbn zeta in H2. fold id in H2.
  destruct (serve_form _ _ _ _ i (RqCreate len type) id _ _ _ H2 (put_handler_at _ _ _ _ _ A1) S) as (a3 & H3 & A3 & E3 & L3 & _).
  pose proof (ar_snoc _ _ _ _ _ _ H3 (as_created d c _ i _ _ _ A3)) as H4. eexists. split; [rewrite <- !app_assoc in H4; exact H4|].
  cbn [moved a_images a_handlers]. rewrite E3. split; [reflexivity|]. rewrite put_handler_length, L3. unfold moved. cbn [a_handlers].
  rewrite put_handler_length, app_length. cbn. unfold i. lia.
Qed.

Lemma serve_update d c tr a id : app_runs d c tr a ->
  let i := length (a_handlers a) in
  exists a', app_runs d c (tr ++ [AArrive (RqUpdate id); ARespond i RpNoContent]) a' /\
    a_images a' = mark_uploaded id (a_images a) /\ length (a_handlers a') = S i.
Proof.
  intros H i. pose proof (ar_snoc _ _ _ _ _ _ H (as_arrive d c a (RqUpdate id))) as H1.
  assert (A1 : handler_at {| a_images := a_images a; a_handlers := a_handlers a ++ [(RqUpdate id, HNew)] |} i (RqUpdate id) HNew).
  { unfold handler_at. cbn [a_handlers]. rewrite nth_error_app2 by (unfold i; lia). unfold i. rewrite Nat.sub_diag. reflexivity. }
  pose proof (ar_snoc _ _ _ _ _ _ H1 (as_updated d c _ i id A1)) as H2. eexists. split; [rewrite <- !app_assoc in H2; exact H2|].
  cbn [moved a_images a_handlers]. split; [reflexivity|]. rewrite put_handler_length, app_length. cbn. unfold i. lia.
Qed.

Lemma serve_list d c tr a l q : app_runs d c tr a ->
  let i := length (a_handlers a) in
  steps (list_links d c (a_images a)) l q ->
  exists a', app_runs d c (tr ++ [AArrive RqList; ACopy i] ++ map (ADo i) l) a' /\ handler_at a' i RqList (HLinks q) /\ a_images a' = a_images a.
Proof.
  intros H i S. pose proof (ar_snoc _ _ _ _ _ _ H (as_arrive d c a RqList)) as H1.
  assert (A1 : handler_at {| a_images := a_images a; a_handlers := a_handlers a ++ [(RqList, HNew)] |} i RqList HNew).
  { unfold handler_at. cbn [a_handlers]. rewrite nth_error_app2 by (unfold i; lia). unfold i. rewrite Nat.sub_diag. reflexivity. }
  pose proof (ar_snoc _ _ _ _ _ _ H1 (as_copy d c _ i A1)) as H2. cbn [a_images] in H2.
  destruct (serve_links _ _ _ _ i RqList _ _ _ H2 (put_handler_at _ _ _ _ _ A1) S) as (a3 & H3 & A3 & E3 & _).
  exists a3. rewrite <- !app_assoc in H3. auto.
Qed.

Definition demo_app : app_config := {| c_bucket_name := B "bucket1"; c_signing_key := demo_account; c_use_sign_blob := false |}.
Definition demo_random : list byte := [x00; x11; x22; x33; x44; x55; x66; x77; x88; x99; xaa; xbb; xcc; xdd; xee; xff]%byte.
Definition demo_id : str := B "00112233-4455-4677-8899-aabbccddeeff".

Lemma demo_id_eq : uuid_to_string (uuid_new_v4 demo_random) = demo_id.
Proof. vm_compute. reflexivity. Qed.

(** A form for an image of three bytes. *)
Lemma demo_create : exists fields, returns (create_form demo_deps demo_app demo_id 3 (B "image/png")) [VNow demo_time; VNow (demo_time + 1)] (Ok fields).
Proof.
  pose proof (play_steps (create_form demo_deps demo_app demo_id 3 (B "image/png")) [RNow demo_time; RNow (demo_time + 1)]) as H.
  destruct (play (create_form demo_deps demo_app demo_id 3 (B "image/png")) [RNow demo_time; RNow (demo_time + 1)]) as [tr q] eqn:E.
  vm_compute in E. injection E as <- <-. eexists. exact H.
Qed.

(** As [local_success], with the time taken from the clock. *)
Lemma clock_success d o t email key sig0 : valid_check d o t = true -> o_accessible_at o = None ->
  o_signing_key o = KServiceAccount email key -> o_use_sign_blob o = false -> (forall m, d_rsa_sign d key m = Ok (sig0 m)) ->
  too_long (path_of d o) (query_after d o (t / NS) (lifetime o t) (lowered o) email) [] = false ->
  block_of d (lowered o) <> None ->
  exists url, returns (build_signed_url d o) [VNow t] (Ok url).
Proof.
  intros V A K U R T Bk. apply valid_check_ok in V. destruct (block_of d (lowered o)) as [block|] eqn:Eb; [|congruence]. clear Bk.
  pose proof (verb_known (o_http_method o)) as W. destruct (http_verb_from_str (o_http_method o)) as [verb|]; [|exfalso; apply W; apply V].
  set (m := message_of o (t / NS) (canonical_of d o verb (sorted_query (pairs_of d o (t / NS) (lifetime o t) (lowered o) email)) block (names_of d (lowered o)))).
  assert (S : success d o (url_of d o (sorted_query (pairs_of d o (t / NS) (lifetime o t) (lowered o) email)) (sig0 m)) t [] [] email verb block (sig0 m)).
  { constructor; try assumption; try reflexivity.
    - apply W.
    - rewrite K. constructor.
    - rewrite K, U. cbn [sign]. fold m. rewrite R. constructor. }
  eexists. exact (url_ok_back _ _ _ [VNow t] _ _ _ _ _ _ _ (ut_clock _ _ A) S).
Qed.

(** A link made five seconds after the first reading of the clock, and one that comes too late. *)
Definition demo_images : list image := [{| im_id := demo_id; im_uploaded := true |}].
Lemma demo_link : exists url, returns (list_links demo_deps demo_app demo_images) [VNow demo_time; VNow (demo_time + 5 * NS)] (Ok [url]).
Proof.
  destruct (clock_success demo_deps (link_options demo_app demo_id (demo_time + 60 * NS)) (demo_time + 5 * NS) (B "sa@example.com") (B "key") (fun m => B "key" ++ m)) as [url X];
    try reflexivity; [discriminate|].
  exists url. unfold demo_images. cbn [list_links im_uploaded im_id].
  change [VNow demo_time; VNow (demo_time + 5 * NS)] with ([VNow demo_time; VNow (demo_time + 5 * NS)] ++ []).
  eapply (returns_bind_ok (fun e => e)); [|constructor].
  apply (steps_act ENow _ demo_time [VNow (demo_time + 5 * NS)]). change (systime_add_secs demo_time 60) with (Some (demo_time + 60 * NS)). exact X.
Qed.
Lemma demo_late : exists e, returns (list_links demo_deps demo_app demo_images) [VNow demo_time; VNow (demo_time + 61 * NS)] (Err e).
Proof.
  pose proof (play_steps (list_links demo_deps demo_app demo_images) [RNow demo_time; RNow (demo_time + 61 * NS)]) as H.
  destruct (play (list_links demo_deps demo_app demo_images) [RNow demo_time; RNow (demo_time + 61 * NS)]) as [tr q] eqn:E.
  vm_compute in E. injection E as <- <-. eexists. exact H.
Qed.

(** A form is handed out, the upload is reported. *)
Lemma demo_uploaded : exists fields a, app_runs demo_deps demo_app
    ([AArrive (RqCreate 3 (B "image/png")); ADraw 0 demo_random; ADo 0 (VNow demo_time); ADo 0 (VNow (demo_time + 1));
      ARespond 0 (RpForm fields (B "POST") (B "https://storage.googleapis.com/bucket1"))] ++
     [AArrive (RqUpdate demo_id); ARespond 1 RpNoContent]) a /\ a_images a = demo_images /\ length (a_handlers a) = 2%nat.
Proof.
  destruct demo_create as [fields X]. rewrite <- demo_id_eq in X.
  destruct (serve_create _ _ _ _ 3 (B "image/png") demo_random _ fields (ar_nil demo_deps demo_app) eq_refl X) as (a & H & E & L).
  destruct (serve_update _ _ _ _ demo_id H) as (a' & H' & E' & L'). exists fields, a'. cbn [a_handlers length] in *. rewrite L in *.
  split; [exact H'|]. split; [|exact L']. rewrite E', E, demo_id_eq. reflexivity.
Qed.

Lemma demo_bucket : bucket_text (c_bucket_name demo_app).
Proof.
  split; [discriminate|]. split; [discriminate|]. apply Forall_forall. intros c I.
  assert (X : forallb (fun c => existsb (Byte.eqb c) (B "abcdefghijklmnopqrstuvwxyz0123456789-_.")) (c_bucket_name demo_app) = true) by reflexivity.
  rewrite forallb_forall in X. apply X in I. apply existsb_exists in I. destruct I as (x & J & E). apply Byte.byte_dec_bl in E. subst x. exact J.
Qed.

(** Then the links are listed: the history meets the hypotheses of C68, C69 and C70. *)
Example C69_case : exists fields url a, app_runs demo_deps demo_app
    ([AArrive (RqCreate 3 (B "image/png")); ADraw 0 demo_random; ADo 0 (VNow demo_time); ADo 0 (VNow (demo_time + 1));
      ARespond 0 (RpForm fields (B "POST") (B "https://storage.googleapis.com/bucket1"));
      AArrive (RqUpdate demo_id); ARespond 1 RpNoContent;
      AArrive RqList; ACopy 2; ADo 2 (VNow demo_time); ADo 2 (VNow (demo_time + 5 * NS)); ARespond 2 (RpLinks [url])]) a /\
    a_images a = [{| im_id := demo_id; im_uploaded := true |}] /\ bucket_text (c_bucket_name demo_app) /\ deps_ok demo_deps.
Proof.
  destruct demo_uploaded as (fields & a & H & E & L). destruct demo_link as [url X]. rewrite <- E in X.
  destruct (serve_list _ _ _ _ _ _ H X) as (a' & H' & A' & E'). rewrite L in *.
  pose proof (ar_snoc _ _ _ _ _ _ H' (as_listed _ _ _ _ _ _ A')) as H2. exists fields, url. eexists. split; [exact H2|].
  split; [cbn [moved a_images]; rewrite E'; exact E|]. split; [exact demo_bucket|exact demo_deps_ok].
Qed.

(** The other way for a listing to end: the clock was set forward by a minute between its two readings. *)
Example C69_failure_case : exists tr a, app_runs demo_deps demo_app (tr ++ [ARespond 2 RpFailed]) a /\ requested_as tr 2 RqList.
Proof.
  destruct demo_uploaded as (fields & a & H & E & L). destruct demo_late as [e X]. rewrite <- E in X.
  destruct (serve_list _ _ _ _ _ _ H X) as (a' & H' & A' & E'). rewrite L in *.
  pose proof (ar_snoc _ _ _ _ _ _ H' (as_not_listed _ _ _ _ _ _ A')) as H2. eexists. eexists. split; [exact H2|]. reflexivity.
Qed.

(** The form of the demo is accepted by its own policy for a file of three bytes. *)
Example C70_upload_case : exists credential date secs policy text j cs form,
  upload_policy (B "bucket1") demo_id 3 (B "image/png") credential date secs policy /\
  base64_of text policy /\ json_text j text /\ policy_tree cs secs j /\ accepted cs form 3.
Proof.
  destruct demo_create as [fields X]. apply create_form_ok in X.
  destruct X as (t1 & t2 & l1 & l2 & email & digits & policy & day & date & signature & secs & s & X). cbn zeta in X.
  destruct X as (_ & F & _ & _ & _ & _ & P & _). pose proof P as (text & j & D & J & _ & T).
  eexists _, date, secs, policy, text, j, _, fields. split; [exact P|]. split; [exact D|]. split; [exact J|]. split; [exact T|].
  clear P T. rewrite F. unfold accepted. repeat (constructor; [cbn [satisfied]; try lia|]); try constructor;
    try (cbn [In]; tauto); intros v I; cbn [In] in I; repeat destruct I as [I|I]; try contradiction; try (apply (f_equal fst) in I; discriminate I);
    injection I as <-; reflexivity.
Qed.

(** Both kinds of settings. *)
Definition demo_file : str := B "{""client_email"":""sa@example.com"",""private_key"":""key""}".
Definition demo_env (flag : str) : environment := {|
  e_use_sign_blob := Some flag; e_credentials := Some (B "/key.json"); e_bucket_name := Some (B "bucket1"); e_metadata_host := None |}.
Example C71_case :
  configured demo_deps (fun _ => Contents demo_file) 7 (demo_env (B "false")) demo_app /\
  configured demo_deps (fun _ => OpenFails) 7 (demo_env (B "true"))
    {| c_bucket_name := B "bucket1"; c_signing_key := KBoundToken demo_token; c_use_sign_blob := true |} /\
  main_config demo_deps (fun _ => Contents demo_file) 7 (demo_env (B "TRUE")) = None.
Proof. split; [apply C71_configuration; vm_compute; reflexivity|]. split; [apply C71_configuration; vm_compute; reflexivity|vm_compute; reflexivity]. Qed.

(** A request for a form that got as far as [q]. *)
Lemma serve_drawn d c tr a random len type l q : app_runs d c tr a -> length random = 16%nat ->
  let id := uuid_to_string (uuid_new_v4 random) in
  steps (create_form d c id len type) l q ->
  exists tr a, app_runs d c tr a /\ handler_at a (length (a_handlers a) - 1) (RqCreate len type) (HForm id q).
Proof.
  intros H R id S. set (i := length (a_handlers a)).
  pose proof (ar_snoc _ _ _ _ _ _ H (as_arrive d c a (RqCreate len type))) as H1.
  assert (A1 : handler_at {| a_images := a_images a; a_handlers := a_handlers a ++ [(RqCreate len type, HNew)] |} i (RqCreate len type) HNew).
  { unfold handler_at. cbn [a_handlers]. rewrite nth_error_app2 by (unfold i; lia). unfold i. rewrite Nat.sub_diag. reflexivity. }
  pose proof (ar_snoc _ _ _ _ _ _ H1 (as_draw d c _ i random len type A1 R)) as H2. cbn zeta in H2. fold id in H2.
  destruct (serve_form _ _ _ _ i (RqCreate len type) id _ _ _ H2 (put_handler_at _ _ _ _ _ A1) S) as (a3 & H3 & A3 & E3 & L3 & _).
  eexists _, a3. split; [exact H3|]. replace (length (a_handlers a3) - 1)%nat with i; [exact A3|].
  rewrite L3. unfold moved. cbn [a_handlers]. rewrite put_handler_length, app_length. cbn. unfold i. lia.
Qed.

(** A form that is not made because the clock moved by a minute, a panic at the end of time, and a link that comes too late. *)
Lemma demo_expired : exists e, returns (create_form demo_deps demo_app demo_id 3 (B "image/png")) [VNow demo_time; VNow (demo_time + 60 * NS)] (Err e).
Proof.
  pose proof (play_steps (create_form demo_deps demo_app demo_id 3 (B "image/png")) [RNow demo_time; RNow (demo_time + 60 * NS)]) as H.
  destruct (play (create_form demo_deps demo_app demo_id 3 (B "image/png")) [RNow demo_time; RNow (demo_time + 60 * NS)]) as [tr q] eqn:E.
  vm_compute in E. injection E as <- <-. eexists. exact H.
Qed.
Lemma demo_overflow : exists s, steps (create_form demo_deps demo_app demo_id 3 (B "image/png")) [VNow (two63 * NS - 1)] (Panic s).
Proof.
  pose proof (play_steps (create_form demo_deps demo_app demo_id 3 (B "image/png")) [RNow (two63 * NS - 1)]) as H.
  destruct (play (create_form demo_deps demo_app demo_id 3 (B "image/png")) [RNow (two63 * NS - 1)]) as [tr q] eqn:E.
  vm_compute in E. injection E as <- <-. eexists. exact H.
Qed.

Example C71_errors_case : exists tr a i r id e, app_runs demo_deps demo_app tr a /\ handler_at a i r (HForm id (Ret (Err e))).
Proof.
  destruct demo_expired as [e X]. unfold returns in X. rewrite <- demo_id_eq in X.
  destruct (serve_drawn _ _ _ _ demo_random _ _ _ _ (ar_nil demo_deps demo_app) eq_refl X) as (tr & a & H & A).
  exists tr, a. eexists _, _, _, e. split; [exact H|exact A].
Qed.

Example C71_panics_case : exists tr a i r id s, app_runs demo_deps demo_app tr a /\ handler_at a i r (HForm id (Panic s)).
Proof.
  destruct demo_overflow as [s X]. rewrite <- demo_id_eq in X.
  destruct (serve_drawn _ _ _ _ demo_random _ _ _ _ (ar_nil demo_deps demo_app) eq_refl X) as (tr & a & H & A).
  exists tr, a. eexists _, _, _, s. split; [exact H|exact A].
Qed.

Example C71_links_case : exists tr a i r e, app_runs demo_deps demo_app tr a /\ handler_at a i r (HLinks (Ret (Err e))).
Proof.
  destruct demo_uploaded as (fields & a & H & E & L). destruct demo_late as [e X]. rewrite <- E in X.
  destruct (serve_list _ _ _ _ _ _ H X) as (a' & H' & A' & E'). eexists _, a', _, _, e. split; [exact H'|exact A'].
Qed.
