(** C81-C85: what a service account's private key text is read as, and that its signatures are RSA signatures under its public key. *)
From Coq Require Import Znumtheory.
From Verif Require Import Base BaseFacts Time Base64 Sha256 Effects EffectsFacts Keys KeysFacts HtmlForm SignedUrl SpecCodec SpecSha SpecTrace SpecSign SpecForm SpecUrl SpecServer
  CodecFacts ShaFacts FormFacts SignedUrlFacts UrlResult Demo Prop_Form Prop_Url Prop_Server Prop_Messages Rsa SpecRsa NumberFacts DerFacts RsaFacts PemFacts DemoRsa.
Local Open Scope Z_scope.

(** * C81: the text of a key is read as that key *)

Lemma components_values l c c' : values_of c = values_of c' -> from_components l c = from_components l c'.
Proof. intro E. unfold from_components. rewrite !be_value_octets. unfold values_of in E. injection E as -> -> -> -> -> -> -> ->. reflexivity. Qed.

Lemma key_unique content k k' : pkcs8_text k content -> pkcs8_text k' content -> k = k'.
Proof.
  intros H H'. destruct (pkcs8_complete _ _ H) as (key & c & E1 & E2 & <-). destruct (pkcs8_complete _ _ H') as (key' & c' & E1' & E2' & <-).
  rewrite E1 in E1'. injection E1' as <-. rewrite E2 in E2'. injection E2' as <-. reflexivity.
Qed.

(** A private key in PKCS #8 and PEM is read, and however it is written the result is the same. *)
Theorem C81_same l k content content' text text' m :
  pem_text content text -> pkcs8_text k content -> pem_text content' text' -> pkcs8_text k content' ->
  rsa_sign_with l text m = rsa_sign_with l text' m /\ rsa_sign_with l text m <> Err PemParsing.
Proof.
  intros P K P' K'. unfold rsa_sign_with. rewrite (pem_complete _ _ P), (pem_complete _ _ P'). unfold from_pkcs8.
  destruct (pkcs8_complete _ _ K) as (key & c & E1 & E2 & E3). destruct (pkcs8_complete _ _ K') as (key' & c' & E1' & E2' & E3').
  rewrite E1, E2, E1', E2'. rewrite (components_values l c' c) by congruence. split; [reflexivity|].
  destruct (from_components l c) as [kp|]; [|discriminate]. destruct (key_pair_sign kp m); discriminate.
Qed.

(** A text that is read as PEM contains what it is read as; one with which signing is attempted contains the PKCS #8 text of a key. *)
Theorem C81_contains l text m :
  rsa_sign_with l text m = Err PemParsing \/
  rsa_sign_with l text m = Err Pkcs8Parsing /\ (exists content, pem_contains content text) \/
  exists content k, pem_contains content text /\ pkcs8_text k content /\ forall text' content', pem_text content' text' -> pkcs8_text k content' ->
    rsa_sign_with l text' m = rsa_sign_with l text m.
Proof.
  unfold rsa_sign_with. destruct (pem_parse text) as [content|] eqn:P; [right|left; reflexivity]. apply pem_sound in P.
  destruct (from_pkcs8 l content) as [kp|] eqn:F; [right|left; split; [reflexivity|eauto]]. unfold from_pkcs8 in F.
  destruct (pkcs8_unwrap content) as [key|] eqn:E1; [|discriminate F]. destruct (rsa_private_key key) as [c|] eqn:E2; [|discriminate F].
  exists content, (values_of c). split; [exact P|]. split; [eapply pkcs8_sound; eassumption|]. intros text' content' P' K'.
  rewrite (pem_complete _ _ P'). unfold from_pkcs8. destruct (pkcs8_complete _ _ K') as (key' & c' & E1' & E2' & E3'). rewrite E1', E2', (components_values l c' c E3'), F. reflexivity.
Qed.

(** The DER reader accepts exactly the PKCS #8 texts of keys. *)
Theorem C81_exact content k :
  (exists key c, pkcs8_unwrap content = Some key /\ rsa_private_key key = Some c /\ values_of c = k) <-> pkcs8_text k content.
Proof. split; [intros (key & c & E1 & E2 & <-); eapply pkcs8_sound; eassumption|apply pkcs8_complete]. Qed.

(** * C82: signatures verify *)

Lemma modulus_large l c kp : 496 <= l_min l -> from_components l c = Some kp -> 0 < k_n kp /\ (62 <= modulus_len kp)%nat.
Proof.
  intros L F. apply from_components_facts in F. destruct F as (_ & _ & M & _).
  assert (62 <= (bit_length (k_n kp) + 7) / 8) by lia.
  assert (B0 : 0 < bit_length (k_n kp)) by (destruct (Z_le_gt_dec (bit_length (k_n kp)) 0) as [X|X]; [|lia]; pose proof (Z.div_le_mono (bit_length (k_n kp) + 7) 7 8 ltac:(lia) ltac:(lia)) as Y; change (7 / 8) with 0 in Y; lia).
  split; [apply bit_length_pos; exact B0|]. unfold modulus_len. lia.
Qed.

(** Whatever the key text: a signature is valid for the message under the public key in it. *)
Theorem C82_any l text m s : 496 <= l_min l -> rsa_sign_with l text m = Ok s ->
  exists content k, pem_contains content text /\ pkcs8_text k content /\ rsa_valid (r_n k) (r_e k) m s.
Proof.
  intros L. unfold rsa_sign_with. destruct (pem_parse text) as [content|] eqn:P; [|discriminate]. apply pem_sound in P.
  destruct (from_pkcs8 l content) as [kp|] eqn:F; [|discriminate]. unfold from_pkcs8 in F.
  destruct (pkcs8_unwrap content) as [key|] eqn:E1; [|discriminate F]. destruct (rsa_private_key key) as [c|] eqn:E2; [|discriminate F].
  destruct (key_pair_sign kp m) as [s'|] eqn:S; [|discriminate]. intro H. injection H as ->.
  exists content, (values_of c). split; [exact P|]. split; [eapply pkcs8_sound; eassumption|].
  destruct (modulus_large l c kp L F) as [N M]. apply sign_valid in S; [|exact N|exact M].
  apply from_components_facts in F. destruct F as (En & Ee & _). cbn [values_of r_n r_e]. rewrite <- En, <- Ee. exact S.
Qed.

Lemma written_valid l k content text m s : 496 <= l_min l -> pem_text content text -> pkcs8_text k content -> rsa_sign_with l text m = Ok s ->
  exists c kp, values_of c = k /\ from_components l c = Some kp /\ key_pair_sign kp m = Some s /\ 0 < k_n kp /\ (62 <= modulus_len kp)%nat.
Proof.
  intros L P K. unfold rsa_sign_with. rewrite (pem_complete _ _ P). unfold from_pkcs8. destruct (pkcs8_complete _ _ K) as (key & c & E1 & E2 & E3). rewrite E1, E2.
  destruct (from_components l c) as [kp|] eqn:F; [|discriminate]. destruct (key_pair_sign kp m) as [s'|] eqn:S; [|discriminate]. intro H. injection H as ->.
  exists c, kp. split; [exact E3|]. split; [exact F|]. split; [exact S|]. eapply modulus_large; eassumption.
Qed.

(** The key is the one written, and it is of the size the limits ask for. *)
Theorem C82_valid l k content text m s : 496 <= l_min l -> pem_text content text -> pkcs8_text k content -> rsa_sign_with l text m = Ok s ->
  rsa_valid (r_n k) (r_e k) m s.
Proof.
  intros L P K H. destruct (written_valid _ _ _ _ _ _ L P K H) as (c & kp & <- & F & S & N & M). apply sign_valid in S; [|exact N|exact M].
  apply from_components_facts in F. destruct F as (En & Ee & _). cbn [values_of r_n r_e]. rewrite <- En, <- Ee. exact S.
Qed.

Theorem C82_strength l k content text m s : 496 <= l_min l -> pem_text content text -> pkcs8_text k content -> rsa_sign_with l text m = Ok s ->
  2 ^ (l_min l - 8) <= r_n k < 2 ^ l_max l /\ 65537 <= r_e k < 2 ^ 33 /\ Z.Odd (r_n k) /\ Z.Odd (r_e k) /\ Z.of_nat (length s) <= (l_max l + 7) / 8.
Proof.
  intros L P K H. pose proof (C82_valid _ _ _ _ _ _ L P K H) as V. destruct (written_valid _ _ _ _ _ _ L P K H) as (c & kp & <- & F & S & N & M).
  pose proof F as F'. unfold from_components in F'. rewrite !be_value_octets in F'.
  destruct (if octets (c_q c) <? octets (c_p c) then _ else _) as [[[[p q] dp] dq] given].
  destruct (public_ok l (octets (c_n c)) (octets (c_e c))) eqn:Pu; cbn [negb] in F'; [|discriminate F']. clear F'.
  apply from_components_facts in F. destruct F as (En & Ee & _ & _). cbn [values_of r_n r_e].
  unfold public_ok in Pu. rewrite !andb_true_iff, !Z.leb_le in Pu. destruct Pu as (((((O1 & H1) & H2) & O2) & H3) & H4).
  rewrite <- En, <- Ee in *. destruct (proj1 (bit_length_iff (k_n kp) _ N) eq_refl) as (B0 & Lo & Up). pose proof (byte_length _ B0) as By.
  split; [split|].
  - eapply Z.le_trans; [|exact Lo]. apply Z.pow_le_mono_r; lia.
  - eapply Z.lt_le_trans; [exact Up|]. apply Z.pow_le_mono_r; lia.
  - split; [change (2 ^ 33) with 8589934592; lia|]. split; [apply Z.odd_spec; exact O1|]. split; [apply Z.odd_spec; exact O2|].
    unfold key_pair_sign in S. destruct (private_exponentiate _ _) as [v|]; [|discriminate S]. injection S as <-.
    destruct (be_bytes_spec (modulus_len kp) v) as [-> _]. unfold modulus_len. rewrite Z2Nat.id by (apply Z.div_pos; lia). apply Z.div_le_mono; lia.
Qed.

(** So are its primes, as far as ring looks: odd, of one length, which is half of the modulus's and a multiple of the step, and the
    modulus divides their product. *)
Theorem C82_primes l k content text m s : 496 <= l_min l -> 0 < l_granularity l -> pem_text content text -> pkcs8_text k content -> rsa_sign_with l text m = Ok s ->
  exists half, (l_granularity l | half) /\ 2 ^ (half - 1) <= r_p k < 2 ^ half /\ 2 ^ (half - 1) <= r_q k < 2 ^ half /\
    2 ^ (2 * half - 2) <= r_n k < 2 ^ (2 * half) /\ Z.Odd (r_p k) /\ Z.Odd (r_q k) /\ (r_n k | r_p k * r_q k) /\ 2 ^ half <= r_d k < r_n k /\ Z.Odd (r_d k).
Proof.
  intros L G P K H. destruct (written_valid _ _ _ _ _ _ L P K H) as (c & kp & <- & F & _ & N & M).
  pose proof (from_components_facts _ _ _ F) as (En & _ & _ & _). rewrite En in N. unfold from_components in F. rewrite !be_value_octets in F. cbn [values_of r_n r_p r_q r_d].
  set (n := octets (c_n c)) in *. set (d := octets (c_d c)) in *.
  assert (Y : exists p q dp dq given, (if octets (c_q c) <? octets (c_p c)
      then (octets (c_p c), octets (c_q c), octets (c_dp c), octets (c_dq c), Some (octets (c_qinv c)))
      else (octets (c_q c), octets (c_p c), octets (c_dq c), octets (c_dp c), None)) = (p, q, dp, dq, given) /\
      (p = octets (c_p c) /\ q = octets (c_q c) \/ p = octets (c_q c) /\ q = octets (c_p c))).
  { destruct (octets (c_q c) <? octets (c_p c)); do 5 eexists; (split; [reflexivity|auto]). }
  destruct Y as (p & q & dp & dq & given & Y & Pq). rewrite Y in F. clear Y.
  destruct (public_ok l n _); cbn [negb] in F; [|discriminate F].
  destruct (prime_ok l (bit_length n) p dp && prime_ok l (bit_length n) q dq) eqn:Pr; cbn [negb] in F; [|discriminate F].
  destruct ((p * q) mod n =? 0) eqn:Di; cbn [negb] in F; [|discriminate F].
  match type of F with context [if negb ?x then _ else _] => destruct x eqn:Ds; cbn [negb] in F; [|discriminate F] end. clear F.
  unfold prime_ok in Pr. rewrite !andb_true_iff, !Z.leb_le, !Z.eqb_eq, !Z.ltb_lt in Pr. rewrite !andb_true_iff, !Z.ltb_lt in Ds.
  destruct Pr as ((((((Op & Gp) & Bp) & Sp) & _) & _) & (((((Oq & Gq) & Bq) & Sq) & _) & _)). destruct Ds as [[D1 D2] D3].
  apply Z.eqb_eq in Di. apply Z.mod_divide in Di; [|lia].
  destruct (proj1 (bit_length_iff n _ N) eq_refl) as (B0 & Lo & Up). set (bits := bit_length n) in *. set (half := (bits + 1) / 2) in *.
  assert (Hb : bits = 2 * half \/ bits = 2 * half - 1) by (unfold half; pose proof (Z.div_mod (bits + 1) 2 ltac:(lia)); pose proof (Z.mod_pos_bound (bits + 1) 2 ltac:(lia)); lia).
  apply bit_length_iff in Bp; [|lia]. apply bit_length_iff in Bq; [|lia]. destruct Bp as (_ & Bp). destruct Bq as (_ & Bq).
  exists half. split; [rewrite (proj2 (bit_length_iff p half ltac:(lia))) in Sp by (split; [lia|exact Bp]); apply Z.mod_divide in Sp; [exact Sp|lia]|].
  assert (Bd : 2 ^ half <= d).
  { destruct (Z.le_gt_cases d 0) as [Z|Z]; [unfold bit_length in D1; apply Z.leb_le in Z; rewrite Z in D1; lia|].
    destruct (proj1 (bit_length_iff d _ Z) eq_refl) as (_ & Ld & _). eapply Z.le_trans; [|exact Ld]. apply Z.pow_le_mono_r; lia. }
  assert (Bn : 2 ^ (2 * half - 2) <= n < 2 ^ (2 * half)).
  { split; [eapply Z.le_trans; [|exact Lo]; apply Z.pow_le_mono_r; lia|eapply Z.lt_le_trans; [exact Up|]; apply Z.pow_le_mono_r; lia]. }
  apply Z.odd_spec in Op, Oq, D3.
  destruct Pq as [[-> ->]|[-> ->]]; do 5 (split; [assumption|]); (split; [|split; [split; assumption|exact D3]]); [exact Di|rewrite Z.mul_comm; exact Di].
Qed.

(** With ring's limits: the modulus of a key that signs has 2041 to 4096 bits, and its primes 1024, 1536 or 2048. *)
Theorem C82_ring k content text m s : pem_text content text -> pkcs8_text k content -> rsa_sign text m = Ok s ->
  rsa_valid (r_n k) (r_e k) m s /\ 2 ^ 2040 <= r_n k < 2 ^ 4096 /\ 65537 <= r_e k < 2 ^ 33 /\
  exists half, In half [1024; 1536; 2048] /\ 2 ^ (half - 1) <= r_p k < 2 ^ half /\ 2 ^ (half - 1) <= r_q k < 2 ^ half.
Proof.
  intros P K H. assert (L : 496 <= l_min ring_limits) by (cbn; lia). split; [exact (C82_valid _ _ _ _ _ _ L P K H)|].
  destruct (C82_strength _ _ _ _ _ _ L P K H) as (N & E & _). split; [exact N|]. split; [exact E|].
  destruct (C82_primes _ _ _ _ _ _ L ltac:(cbn; lia) P K H) as (half & [x ->] & Bp & Bq & Bn & _).
  exists (x * l_granularity ring_limits). split; [|split; assumption]. cbn [l_granularity l_min l_max ring_limits] in *.
  assert (X : 0 <= x).
  { destruct (Z.le_gt_cases 0 x) as [|X]; [assumption|]. rewrite (Z.pow_neg_r 2 (2 * (x * 512))) in Bn by lia. pose proof (Z.pow_pos_nonneg 2 (2048 - 8)). lia. }
  assert (2048 - 8 < 2 * (x * 512)) by (apply (Z.pow_lt_mono_r_iff 2); lia). assert (2 * (x * 512) - 2 < 4096) by (apply (Z.pow_lt_mono_r_iff 2); lia).
  assert (x = 2 \/ x = 3 \/ x = 4) as [->|[->| ->]] by lia; cbn; auto.
Qed.

(** * C83: sound keys sign every message *)

Theorem C83_signs l k content text m : 496 <= l_min l -> 0 < l_granularity l -> rsa_sound k -> sized (l_min l) (l_max l) (l_granularity l) k ->
  pem_text content text -> pkcs8_text k content -> exists s, rsa_sign_with l text m = Ok s.
Proof.
  intros L G So Si P K. unfold rsa_sign_with. rewrite (pem_complete _ _ P). unfold from_pkcs8. destruct (pkcs8_complete _ _ K) as (key & c & E1 & E2 & E3). rewrite E1, E2.
  rewrite <- E3 in So, Si. destruct (sound_accepted l c G ltac:(lia) So Si) as (kp & F & _ & _ & Ps). rewrite F.
  destruct (modulus_large l c kp L F) as [N M]. unfold key_pair_sign. rewrite be_value_octets.
  destruct (crt_undo kp (octets (pkcs1_encode (modulus_len kp) m)) Ps) as [v ->]; [|eauto].
  pose proof (octets_range (pkcs1_encode (modulus_len kp) m)). pose proof (encode_small (modulus_len kp) m M). pose proof (modulus_octets (k_n kp) N) as X. fold (modulus_len kp) in X. lia.
Qed.

(** With the limits that ring has: two primes of 1024, 1536 or 2048 bits each. *)
Theorem C83_ring k content text m : rsa_sound k -> sized 2048 4096 512 k -> pem_text content text -> pkcs8_text k content ->
  exists s, rsa_sign text m = Ok s /\ rsa_valid (r_n k) (r_e k) m s.
Proof.
  intros So Si P K. assert (L : 496 <= l_min ring_limits) by (cbn; lia). destruct (C83_signs ring_limits k content text m L ltac:(cbn; lia) So Si P K) as [s H].
  exists s. split; [exact H|]. exact (C82_valid _ _ _ _ _ _ L P K H).
Qed.

(** * C84: signatures are unique, and for one digest only *)

Lemma encoded_long len m em : encoded_message len m em -> (62 <= len)%nat.
Proof.
  intros (digest & info & fill & D & I & F & -> & <-). apply digest_length in D. apply digest_info_iff in I; [|exact D]. subst info.
  rewrite !app_length, repeat_length, D. cbn [length sha256_prefix]. lia.
Qed.

Lemma len_unique n a b : 256 ^ (Z.of_nat a - 1) <= n < 256 ^ Z.of_nat a -> 256 ^ (Z.of_nat b - 1) <= n < 256 ^ Z.of_nat b -> a = b.
Proof.
  intros A C. assert (H : forall x y : nat, 256 ^ (Z.of_nat x - 1) <= n < 256 ^ Z.of_nat x -> 256 ^ (Z.of_nat y - 1) <= n -> (y <= x)%nat).
  { intros x y X Y. destruct (Nat.le_gt_cases y x) as [|G]; [assumption|]. exfalso. assert (256 ^ Z.of_nat x <= 256 ^ (Z.of_nat y - 1)) by (apply Z.pow_le_mono_r; lia). lia. }
  pose proof (H a b A ltac:(lia)). pose proof (H b a C ltac:(lia)). lia.
Qed.

Theorem C84_unique k m s s' : rsa_sound k -> 0 < r_e k -> rsa_valid (r_n k) (r_e k) m s -> rsa_valid (r_n k) (r_e k) m s' -> s = s'.
Proof.
  intros [P Q N En _ [[E0 _] E1] [[F0 _] F1] _] E (len & em & R & L & S & D & V) (len' & em' & R' & L' & S' & D' & V').
  assert (El : len' = len) by (eapply len_unique; eassumption). rewrite El in *. pose proof (encoded_long _ _ _ D) as G.
  apply encoded_iff in D, D'; [|exact G..]. rewrite D' in V'. rewrite D in V.
  apply octets_inj; [congruence|]. pose proof (octets_range s). pose proof (octets_range s'). pose proof (prime_ge_2 _ P). pose proof (prime_ge_2 _ Q).
  apply (pow_injective (r_p k) (r_q k) (r_e k) (r_dp k) (r_dq k)); try assumption; try lia; rewrite <- En; try lia.
  apply cong_mod; [nia|]. congruence.
Qed.

(** A signature is valid for one digest only. *)
Theorem C84_message n e m m' s digest : rsa_valid n e m s -> rsa_valid n e m' s -> (digest_of m digest <-> digest_of m' digest).
Proof.
  intros (len & em & R & L & S & D & V) (len' & em' & R' & L' & S' & D' & V'). rewrite L in L'. subst len'.
  assert (E : em = em').
  { apply octets_inj; [|congruence]. destruct D as (? & ? & ? & _ & _ & _ & _ & ->). destruct D' as (? & ? & ? & _ & _ & _ & _ & ->). reflexivity. }
  subst em'. pose proof (encoded_long _ _ _ D) as G. apply encoded_iff in D, D'; [|exact G..]. rewrite D in D'. unfold pkcs1_encode in D'. cbn zeta in D'.
  rewrite !app_length, !sha256_length in D'. injection D' as D'. apply app_inv_head in D'. injection D' as D'. rewrite !digest_iff, D'. reflexivity.
Qed.

(** The signature is the only one that is valid. *)
Theorem C84_only l k content text m s : 496 <= l_min l -> rsa_sound k -> pem_text content text -> pkcs8_text k content -> rsa_sign_with l text m = Ok s ->
  forall s', rsa_valid (r_n k) (r_e k) m s' <-> s' = s.
Proof.
  intros L So P K H s'. pose proof (C82_valid _ _ _ _ _ _ L P K H) as V. pose proof (C82_strength _ _ _ _ _ _ L P K H) as (_ & E & _).
  split; [|intros ->; exact V]. intro V'. eapply C84_unique; try eassumption. lia.
Qed.

(** * C85: forms and URLs *)

(** The private key of a service account, written in PKCS #8 and PEM. *)
Definition account_key (key : str) (k : rsa_key) : Prop := exists content, pem_text content key /\ pkcs8_text k content.

Theorem C85_form d l calls o tr fields email key k policy signature :
  (forall text m, d_rsa_sign d text m = rsa_sign_with l text m) -> 496 <= l_min l -> so_signing_key o = KServiceAccount email key -> account_key key k ->
  last_options calls o -> returns (build d (builder_of calls)) tr (Ok fields) ->
  In (B "policy", policy) fields -> In (B "x-goog-signature", signature) fields ->
  exists s, hex_of s signature /\ rsa_valid (r_n k) (r_e k) policy s.
Proof.
  intros D L A (content & P & K) Lo H I1 I2. destruct (C06_signature _ _ _ _ _ _ _ Lo H I1 I2) as (before & during & s & _ & S & X).
  exists s. split; [exact X|]. rewrite A in S. inversion S as [? ? ? ? E|]; subst. rewrite D in E. eapply C82_valid; eassumption.
Qed.

Theorem C85_url d l o tr url path query sig email key k : deps_ok d ->
  (forall text m, d_rsa_sign d text m = rsa_sign_with l text m) -> 496 <= l_min l -> o_signing_key o = KServiceAccount email key -> account_key key k ->
  returns (build_signed_url d o) tr (Ok url) -> url_parts url path query sig ->
  exists t pre canonical message s, url_time o t pre /\ tr = pre /\ canonical_text (o_http_method o) path query (o_headers o) canonical /\
    message_text (t / 1000000000) (region_of o) canonical message /\ hex_of s sig /\ rsa_valid (r_n k) (r_e k) message s.
Proof.
  intros Dk D L A (content & P & K) H U. destruct (C13_signed_message _ _ _ _ _ _ _ Dk H U) as (t & pre & t1 & t2 & mail & canonical & message & s & T & -> & Au & C & M & S & X).
  rewrite A in S, Au. inversion S as [? ? ? ? E|]; subst. inversion Au; subst. exists t, pre, canonical, message, s. rewrite !app_nil_r.
  repeat (split; [assumption || reflexivity|]). rewrite D in E. eapply C82_valid; eassumption.
Qed.

(** A server that accepts the account's RSA signatures accepts the request during the lifetime of the URL. *)
Theorem C85_accepted d l o tr url path query sig headers email key k : deps_ok d ->
  (forall text m, d_rsa_sign d text m = rsa_sign_with l text m) -> 496 <= l_min l -> o_signing_key o = KServiceAccount email key -> account_key key k ->
  returns (build_signed_url d o) tr (Ok url) -> url_parts url path query sig -> portable o -> sends o headers -> account_text email ->
  exists t message s, url_time o t tr /\
    forall sv now, server_ok sv -> (forall message s, rsa_valid (r_n k) (r_e k) message s -> sv_verifies sv email message s) ->
      (t / 1000000000 <= now < t / 1000000000 + (o_expires o - t) / 1000000000)%Z ->
      accepts sv now (issued o path query sig headers) email message s.
Proof.
  intros Dk D L A (content & P & K) H U Po Se Em. destruct (C54_accepted _ _ _ _ _ _ _ _ Dk H U Po Se) as (t & t1 & t2 & t3 & mail & message & s & T & -> & Au & S & Acc).
  rewrite A in S, Au. inversion S as [? ? ? ? E|]; subst. inversion Au; subst. exists t, message, s. rewrite !app_nil_r. split; [exact T|].
  intros sv now Ok V W. apply Acc; try assumption. apply V. rewrite D in E. eapply C82_valid; eassumption.
Qed.

(** With a sound key nothing fails in signing. *)
Theorem C85_form_signs d l calls o tr e email key k :
  (forall text m, d_rsa_sign d text m = rsa_sign_with l text m) -> 496 <= l_min l -> 0 < l_granularity l -> so_signing_key o = KServiceAccount email key -> account_key key k ->
  rsa_sound k -> sized (l_min l) (l_max l) (l_granularity l) k ->
  last_options calls o -> returns (build d (builder_of calls)) tr (Err e) ->
  exists t pre rest, build_time o t pre /\ tr = pre ++ rest /\ (violation calls o t e \/ (e = XGoogMetaNameEmpty /\ empty_meta calls)).
Proof.
  intros D L G A (content & P & K) So Si Lo H. destruct (C08_errors _ _ _ _ _ Lo H) as (t & pre & rest & T & E & C). exists t, pre, rest. split; [exact T|]. split; [exact E|].
  destruct C as [[V _]|(_ & [[x Ex]|[M|[[x Ex] _]]])]; [auto| |auto|]; exfalso; apply options_iff in Lo; apply (form_fails d _ o) in H; try exact Lo;
    destruct H as (pre' & tr' & _ & _ & [N1 N2|y Ha _|t1 t2 mail m y _ Hs _ _]).
  - exact (N1 _ Ex).
  - rewrite A in Ha. apply returns_ret_inv in Ha. destruct Ha as [_ Ha]. discriminate Ha.
  - rewrite A in Hs. cbn [sign] in Hs. destruct (so_use_sign_blob o); [destruct (returns_panic_inv _ _ _ Hs)|].
    destruct (C83_signs l k content key m L G So Si P K) as [s Es]. rewrite D, Es in Hs. apply returns_ret_inv in Hs. destruct Hs as [_ Hs]. discriminate Hs.
  - exact (N2 _ Ex).
  - rewrite A in Ha. apply returns_ret_inv in Ha. destruct Ha as [_ Ha]. discriminate Ha.
  - rewrite A in Hs. cbn [sign] in Hs. destruct (so_use_sign_blob o); [destruct (returns_panic_inv _ _ _ Hs)|].
    destruct (C83_signs l k content key m L G So Si P K) as [s Es]. rewrite D, Es in Hs. apply returns_ret_inv in Hs. destruct Hs as [_ Hs]. discriminate Hs.
Qed.

Theorem C85_url_signs d l o tr e email key k :
  (forall text m, d_rsa_sign d text m = rsa_sign_with l text m) -> 496 <= l_min l -> 0 < l_granularity l -> o_signing_key o = KServiceAccount email key -> account_key key k ->
  rsa_sound k -> sized (l_min l) (l_max l) (l_granularity l) k ->
  returns (build_signed_url d o) tr (Err e) -> forall x, e <> UrlSignedUrl (UrlSigning x).
Proof.
  intros D L G A (content & P & K) So Si H x Ex. apply url_fails in H. destruct H as (pre' & tr' & _ & _ & [N1 N2|y Ha _|t1 t2 mail m y _ Hs _ _]).
  - exact (N1 _ Ex).
  - rewrite A in Ha. apply returns_ret_inv in Ha. destruct Ha as [_ Ha]. discriminate Ha.
  - rewrite A in Hs. cbn [sign] in Hs. destruct (o_use_sign_blob o); [destruct (returns_panic_inv _ _ _ Hs)|].
    destruct (C83_signs l k content key m L G So Si P K) as [s Es]. rewrite D, Es in Hs. apply returns_ret_inv in Hs. destruct Hs as [_ Hs]. discriminate Hs.
Qed.

(** * Cases *)

(** Two texts of the small key; a message is signed with it. *)
Example C81_case : pem_text demo_content demo_pem /\ pem_text demo_content demo_pem_wide /\ pkcs8_text demo_rsa demo_content /\ demo_pem <> demo_pem_wide /\
  (exists text content, pem_contains content text /\ rsa_sign_with demo_limits text (B "m") = Err Pkcs8Parsing) /\
  (exists text, rsa_sign_with demo_limits text (B "m") = Err PemParsing).
Proof.
  split; [exact demo_pem_text|]. split; [exact demo_wide_text|]. split; [exact demo_pkcs8|]. split; [discriminate|]. split.
  - exists (B "-----BEGIN A-----AAAA-----END A-----"), [x00; x00; x00]. split; [apply pem_sound; vm_compute; reflexivity|vm_compute; reflexivity].
  - exists (B "-----BEGIN A-----AAAA-----END B-----"). vm_compute. reflexivity.
Qed.

Lemma demo_signs m : exists s, rsa_sign_with demo_limits demo_pem m = Ok s.
Proof.
  apply (C83_signs demo_limits demo_rsa demo_content); [cbn; lia|cbn; lia|exact demo_rsa_sound|exact demo_rsa_sized|exact demo_pem_text|exact demo_pkcs8].
Qed.

Example C82_case m : exists s, 496 <= l_min demo_limits /\ rsa_sign_with demo_limits demo_pem m = Ok s /\ rsa_valid (r_n demo_rsa) 65537 m s /\ 496 <= l_min ring_limits.
Proof.
  destruct (demo_signs m) as [s E]. exists s. split; [cbn; lia|]. split; [exact E|]. split; [|cbn; lia].
  apply (C82_valid demo_limits demo_rsa demo_content demo_pem); [cbn; lia|exact demo_pem_text|exact demo_pkcs8|exact E].
Qed.

(** A sound key of 496 bits; the limits of ring are met by the key in the tests of the code (see DESIGN.md), whose primes are too large for a proof here. *)
Example C83_case : rsa_sound demo_rsa /\ sized (l_min demo_limits) (l_max demo_limits) (l_granularity demo_limits) demo_rsa /\
  0 < l_granularity demo_limits /\ 0 < l_granularity ring_limits.
Proof. split; [exact demo_rsa_sound|]. split; [exact demo_rsa_sized|]. cbn. lia. Qed.

(** The same key with one digit of its modulus changed, and the key itself for ring's limits: nothing is signed. *)
Example C83_refused_case : rsa_sign demo_pem (B "m") = Err Pkcs8Parsing /\
  exists text, length text = length demo_pem /\ rsa_sign_with demo_limits text (B "m") = Err Pkcs8Parsing.
Proof.
  split; [vm_compute; reflexivity|]. exists (firstn 90 demo_pem ++ B "B" ++ skipn 91 demo_pem). vm_compute. split; reflexivity.
Qed.

Example C84_case : exists s s', rsa_valid (r_n demo_rsa) (r_e demo_rsa) (B "a") s /\ rsa_valid (r_n demo_rsa) (r_e demo_rsa) (B "b") s' /\ s <> s' /\ 0 < r_e demo_rsa.
Proof.
  destruct (C82_case (B "a")) as (s & _ & _ & V & _). destruct (C82_case (B "b")) as (s' & _ & _ & V' & _). exists s, s'. split; [exact V|]. split; [exact V'|]. split; [|reflexivity].
  intros ->. pose proof (proj1 (C84_message _ _ _ _ _ _ V V') (sha256_digest_of (B "a"))) as D. apply digest_iff in D. vm_compute in D. discriminate D.
Qed.

(** The dependencies with signing as modelled; [f] is only there to keep the signature from being computed. *)
Definition rsa_deps (f : str -> str) : deps := {|
  d_path_caret := false; d_quote_in_header_name := false; d_num_ok := fun _ => true;
  d_rsa_sign := fun key message => if str_eqb key demo_pem then Ok (f message) else rsa_sign_with demo_limits key message;
  d_hm_iter := fun l => l; d_hm_overflow := fun _ => false; d_url_ok := fun _ => true |}.

Definition demo_signature (m : str) : str := match rsa_sign_with demo_limits demo_pem m with Ok s => s | Err _ => [] end.

Lemma demo_rsa_deps key m : d_rsa_sign (rsa_deps demo_signature) key m = rsa_sign_with demo_limits key m.
Proof.
  cbn [rsa_deps d_rsa_sign]. destruct (str_eqb key demo_pem) eqn:E; [|reflexivity]. apply str_eqb_iff in E. subst key. unfold demo_signature.
  destruct (demo_signs m) as [s ->]. reflexivity.
Qed.

Definition rsa_calls : list builder_call := demo_form_at (Some demo_time) (KServiceAccount (B "sa@example.com") demo_pem) false.

Lemma demo_rsa_form f : exists fields policy signature, returns (build (rsa_deps f) (builder_of rsa_calls)) [] (Ok fields) /\
  In (B "policy", policy) fields /\ In (B "x-goog-signature", signature) fields.
Proof.
  do 3 eexists. split; [unfold returns; vm_compute; constructor|]. split; cbn [In]; repeat first [left; reflexivity | right].
Qed.

Lemma demo_account_key : account_key demo_pem demo_rsa.
Proof. exists demo_content. split; [exact demo_pem_text|exact demo_pkcs8]. Qed.

(** A form signed with the small key. *)
Example C85_form_case : exists fields policy signature s, returns (build (rsa_deps demo_signature) (builder_of rsa_calls)) [] (Ok fields) /\
  In (B "policy", policy) fields /\ In (B "x-goog-signature", signature) fields /\ hex_of s signature /\ rsa_valid (r_n demo_rsa) 65537 policy s.
Proof.
  destruct (demo_rsa_form demo_signature) as (fields & policy & signature & R & I1 & I2).
  destruct (C85_form _ demo_limits rsa_calls (demo_options (Some demo_time) (demo_time + 60 * NS) (KServiceAccount (B "sa@example.com") demo_pem) false) _ _ (B "sa@example.com") demo_pem demo_rsa _ _ demo_rsa_deps ltac:(cbn; lia) eq_refl demo_account_key (demo_last _ _ _) R I1 I2) as (s & X & V).
  exists fields, policy, signature, s. repeat (split; [eassumption || reflexivity|]). exact V.
Qed.

Definition rsa_url : url_options := demo_url_with (B "bucket1") (B "a/" ++ [xc3; xa9] ++ B " {b}(1).txt") (Some (B "us-east1"))
  [(B "X-Goog-Meta-A", B "1 x"); (B "Content-Type", B "text/plain"); (B "x-goog-meta-a", B "2")]
  [(B "generation", B "1360887697105000"); (B "userProject", B "my:project@a&b=c+d"); (B "generation", B "")] (KServiceAccount (B "sa@example.com") demo_pem) false.

Lemma rsa_url_portable : portable rsa_url.
Proof. destruct demo_portable_ok. constructor; assumption. Qed.
Lemma rsa_url_sends : sends rsa_url demo_sent.
Proof. exact demo_sent_ok. Qed.
Lemma rsa_url_success : exists url path query sig, returns (build_signed_url (rsa_deps demo_signature) rsa_url) [] (Ok url) /\ url_parts url path query sig.
Proof.
  destruct (local_success (rsa_deps demo_signature) rsa_url demo_time (B "sa@example.com") demo_pem demo_signature) as [sig R].
  - vm_compute. reflexivity.
  - reflexivity.
  - reflexivity.
  - reflexivity.
  - intros m. unfold rsa_deps. cbn [d_rsa_sign]. rewrite str_eqb_refl. reflexivity.
  - vm_compute. reflexivity.
  - vm_compute. discriminate.
  - do 4 eexists. split; [exact R|]. apply url_parts_of.
Qed.

(** A service that knows the public key of the account. *)
Definition rsa_server : server := {| sv_query := sv_query strict_server; sv_path := sv_path strict_server;
  sv_verifies account message s := account = B "sa@example.com" /\ rsa_valid (r_n demo_rsa) 65537 message s |}.
Lemma rsa_server_ok : server_ok rsa_server.
Proof. exact strict_ok. Qed.

(** It accepts the URL for 600 seconds. *)
Example C85_url_case : exists url path query sig message s, returns (build_signed_url (rsa_deps demo_signature) rsa_url) [] (Ok url) /\ url_parts url path query sig /\
  accepts rsa_server (demo_time / 1000000000 + 599)%Z (issued rsa_url path query sig demo_sent) (B "sa@example.com") message s.
Proof.
  destruct rsa_url_success as (url & path & query & sig & R & P). exists url, path, query, sig.
  assert (Dk : deps_ok (rsa_deps demo_signature)) by (intros m n; reflexivity).
  destruct (C85_accepted _ demo_limits rsa_url _ _ _ _ _ demo_sent (B "sa@example.com") demo_pem demo_rsa Dk demo_rsa_deps ltac:(cbn; lia) eq_refl demo_account_key R P
    rsa_url_portable rsa_url_sends ltac:(apply literal_text; reflexivity)) as (t & message & s & T & Acc).
  exists message, s. split; [exact R|]. split; [exact P|].
  assert (t = demo_time) as -> by (assert (G : forall l, url_time rsa_url t l -> t = demo_time) by (intros l [x Ex|x Ex]; [injection Ex; auto|discriminate Ex]); exact (G _ T)).
  apply Acc; [exact rsa_server_ok|intros m x V; split; [reflexivity|exact V]|]. vm_compute. split; [discriminate|reflexivity].
Qed.

(** A form with a sound key that fails for another reason. *)
Example C85_signs_case : exists calls o e, last_options calls o /\ so_signing_key o = KServiceAccount (B "sa@example.com") demo_pem /\
  returns (build (rsa_deps demo_signature) (builder_of calls)) [] (Err e) /\ (forall x, e <> FormSigning x).
Proof.
  exists (demo_form_at (Some (demo_time + 60 * NS)%Z) (KServiceAccount (B "sa@example.com") demo_pem) false). do 2 eexists.
  split; [apply demo_last|]. split; [reflexivity|]. split; [unfold returns; vm_compute; constructor|discriminate].
Qed.
