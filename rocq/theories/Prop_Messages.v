(** C76: what the texts of errors tell. *)
From Verif Require Import Base BaseFacts Time Json SpecJson JsonFacts Base64 CodecFacts Effects EffectsFacts Keys HtmlForm SignedUrl Calls CallFacts
  KeysFacts SpecToken TokenFacts SpecCodec SpecTrace SpecSecret Messages SpecMessages FormFacts Demo.
Local Open Scope byte_scope.

(** * Texts determine errors *)

(** The first prefix of the list that fits, and the rest of the text. *)
Fixpoint cut (l : list str) (s : str) : option (nat * str) :=
  match l with
  | [] => None
  | p :: l => match strip_prefix p s with
              | Some r => Some (O, r)
              | None => match cut l s with Some (n, r) => Some (S n, r) | None => None end
              end
  end.

Definition bt_prefixes : list str := [
  B "bound token / email request / build error: "; B "bound token / email request / error response error: ";
  B "bound token / email request / execute error: "; B "bound token / email request / status error: ";
  B "bound token / email request / success response error: "; B "bound token / signBlob request / build error: ";
  B "bound token / signBlob request / error response error: "; B "bound token / signBlob request / execute error: ";
  B "bound token / signBlob request / status error: "; B "bound token / signBlob request / success response error: ";
  B "bound token / signBlob request / success response base64 decode error: ";
  B "bound token / signBlob request / success response deserialize error: "; B "bound token / token request / build error: ";
  B "bound token / token request / error response error: "; B "bound token / token request / execute error: ";
  B "bound token / token request / invalid token_type error: "; B "bound token / token request / status error: ";
  B "bound token / token request / success response error: "; B "bound token / token request / success response deserialize error: "].

Definition bt_payload (e : bt_error) (x : outside_error) : str :=
  match e with
  | EmailRequestStatus s b | SignBlobRequestStatus s b | TokenRequestStatus s b => dec s ++ B " " ++ b
  | TokenRequestInvalidTokenType t => t
  | _ => oe_text x
  end.

Definition bt_index (e : bt_error) : nat :=
  match e with
  | EmailRequestBuild => 0 | EmailRequestErrorResponse => 1 | EmailRequestExecute => 2 | EmailRequestStatus _ _ => 3
  | EmailRequestSuccessResponse => 4 | SignBlobRequestBuild => 5 | SignBlobRequestErrorResponse => 6 | SignBlobRequestExecute => 7
  | SignBlobRequestStatus _ _ => 8 | SignBlobRequestSuccessResponse => 9 | SignBlobRequestSuccessResponseBase64Decode => 10
  | SignBlobRequestSuccessResponseDeserialize => 11 | TokenRequestBuild => 12 | TokenRequestErrorResponse => 13
  | TokenRequestExecute => 14 | TokenRequestInvalidTokenType _ => 15 | TokenRequestStatus _ _ => 16
  | TokenRequestSuccessResponse => 17 | TokenRequestSuccessResponseDeserialize => 18
  end%nat.

Lemma bt_cut e x : cut bt_prefixes (bt_message e x) = Some (bt_index e, bt_payload e x).
Proof. destruct e; reflexivity. Qed.

Lemma dec_split a b s t : dec a ++ B " " ++ s = dec b ++ B " " ++ t -> a = b /\ s = t.
Proof.
  assert (K : forall x y, Forall (fun c => is_digit c = true) x -> Forall (fun c => is_digit c = true) y ->
    x ++ B " " ++ s = y ++ B " " ++ t -> x = y /\ s = t).
  { induction x as [|c x IH]; intros [|c' y] Hx Hy E; cbn in E; injection E; auto.
    - intros _ <-. inversion Hy as [|? ? H _]; discriminate H.
    - intros _ ->. inversion Hx as [|? ? H _]; discriminate H.
    - intros E' <-. inversion Hx; inversion Hy; subst. destruct (IH y) as [-> ->]; auto. }
  intros E. apply K in E; try apply dec_digits. destruct E as [E ->]. split; [apply dec_inj; exact E|reflexivity].
Qed.

Lemma bt_inj e x e' x' : bt_message e x = bt_message e' x' -> e = e' /\ settled bt_message e x x'.
Proof.
  intros H. apply (f_equal (cut bt_prefixes)) in H. rewrite !bt_cut in H. injection H as I P.
  destruct e; destruct e'; try discriminate I; clear I; cbn [bt_payload] in P;
    try (apply dec_split in P; destruct P as [<- <-]); try subst; (split; [reflexivity|]);
    first [left; assumption|right; intros y; reflexivity].
Qed.

Definition key_prefixes : list str := [
  B "bound token authorizer error: "; B "bound token must use sign blob"; B "bound token signing error: ";
  B "service account private key pem parsing error: "; B "service account private key pkcs8 parsing error: ";
  B "service account signing error: "].
Definition key_cut_of (e : key_error) (x : outside_error) : nat * str :=
  match e with
  | BoundTokenAuthorizer e => (0, bt_message e x)
  | BoundTokenMustUseSignBlob => (1, [])
  | BoundTokenSigning e => (2, bt_message e x)
  | ServiceAccountSigning PemParsing => (3, oe_text x)
  | ServiceAccountSigning Pkcs8Parsing => (4, oe_text x)
  | ServiceAccountSigning RsaSigning => (5, oe_text x)
  end%nat.

Lemma key_cut e x : cut key_prefixes (key_message e x) = Some (key_cut_of e x).
Proof. destruct e as [| | |[]]; reflexivity. Qed.

Lemma key_inj e x e' x' : key_message e x = key_message e' x' -> e = e' /\ settled key_message e x x'.
Proof.
  intros H. apply (f_equal (cut key_prefixes)) in H. rewrite !key_cut in H. unfold settled.
  destruct e as [e| |e|[]]; destruct e' as [e'| |e'|[]]; cbn in H; try discriminate H;
    first [injection H as H|idtac];
    try (apply bt_inj in H; destruct H as [<- [H|H]]; (split; [reflexivity|]); [left; exact H|right; intros y; cbn [key_message]; rewrite H; reflexivity]);
    (split; [reflexivity|]); first [left; exact H|right; intros y; reflexivity].
Qed.

Definition form_prefixes : list str := [
  B "accessible_at out of range"; B "bound token authorizer: "; B "bucket not found"; B "expiration before accessible_at";
  B "expiration out of range"; B "key not found"; B "x-goog-algorithm not supported"; B "x-goog-credential invalid";
  B "x-goog-meta-* field name is empty"].
Definition form_cut_of (e : form_error) (x : outside_error) : option (nat * str) :=
  match e with
  | AccessibleAtOutOfRange => Some (0, [])
  | FormBoundTokenAuthorizer e => Some (1, key_message e x)
  | BucketNotFound => Some (2, [])
  | ExpirationBeforeAccessibleAt => Some (3, [])
  | FormExpirationOutOfRange => Some (4, [])
  | KeyNotFound => Some (5, [])
  | FormSigning e => None
  | XGoogAlgorithmNotSupported => Some (6, [])
  | XGoogCredentialInvalid => Some (7, [])
  | XGoogMetaNameEmpty => Some (8, [])
  end%nat.

Lemma form_cut e x : cut form_prefixes (form_message e x) = form_cut_of e x.
Proof. destruct e as [| | | | | |e| | |]; try reflexivity. destruct e as [| | |[]]; reflexivity. Qed.

(** The text of a failed form determines the error, and the text of the outside error as far as that occurs in it. *)
Theorem C76_form_distinct e x e' x' : form_message e x = form_message e' x' -> e = e' /\ settled form_message e x x'.
Proof.
  intros H0. pose proof H0 as H. apply (f_equal (cut form_prefixes)) in H. rewrite !form_cut in H. unfold settled.
  destruct e as [|e| | | | |e| | |]; destruct e' as [|e'| | | | |e'| | |]; cbn [form_cut_of] in H; try discriminate H;
    try (split; [reflexivity|right; intros y; reflexivity]).
  - injection H as H. apply key_inj in H. destruct H as [<- [H|H]]; (split; [reflexivity|]); [left; exact H|right; intros y; cbn [form_message]; rewrite H; reflexivity].
  - cbn [form_message] in H0. apply key_inj in H0. destruct H0 as [<- [H0|H0]]; (split; [reflexivity|]); [left; exact H0|right; exact H0].
Qed.

Lemma dec_z_inj a b : dec_z a = dec_z b -> a = b.
Proof.
  unfold dec_z. destruct (Z.ltb_spec a 0), (Z.ltb_spec b 0); intros E.
  - cbn in E. injection E as E. apply dec_inj in E. lia.
  - exfalso. pose proof (dec_digits (Z.to_N b)) as D. rewrite <- E in D. cbn in D. inversion D as [|? ? D1 _]; discriminate D1.
  - exfalso. pose proof (dec_digits (Z.to_N a)) as D. rewrite E in D. cbn in D. inversion D as [|? ? D1 _]; discriminate D1.
  - apply dec_inj in E. lia.
Qed.

Definition url_prefixes : list str := [
  B "SERVICE 'storage' and REQUEST_TYPE 'goog4_request' is an invalid combination"; B "out of range (0..=604800) : "; B "expiration out of range";
  B "invalid http verb: "; B "uri too long"; B "invalid HTTP header name"; B "failed to parse header value"; B "invalid location";
  B "now out of range"; B "header value contains non visible ascii characters"; B "host header not found"; B "signing error: "].
Definition url_cut_of (e : url_error) (x : outside_error) : nat * str :=
  match e with
  | UrlCredentialScope => (0, [])
  | UrlExpiration seconds => (1, dec_z seconds)
  | UrlExpirationOutOfRange => (2, [])
  | UrlHttpMethod method => (3, method)
  | UrlHttpRequest => (4, [])
  | UrlInvalidHeaderName => (5, [])
  | UrlInvalidHeaderValue => (6, [])
  | UrlLocation => (7, [])
  | UrlNow => (8, [])
  | UrlSignedUrl CanonicalRequestError => (9, [])
  | UrlSignedUrl HostHeaderNotFound => (10, [])
  | UrlSignedUrl (UrlSigning e) => (11, key_message e x)
  end%nat.

Lemma url_cut e x : cut url_prefixes (url_message e x) = Some (url_cut_of e x).
Proof. destruct e as [| | | | | | | | |[]]; reflexivity. Qed.

(** The same for URLs. *)
Theorem C76_url_distinct e x e' x' : url_message e x = url_message e' x' -> e = e' /\ settled url_message e x x'.
Proof.
  intros H. apply (f_equal (cut url_prefixes)) in H. rewrite !url_cut in H. injection H as H. unfold settled.
  destruct e as [|z| |m| | | | | |[| |e]]; destruct e' as [|z'| |m'| | | | | |[| |e']]; cbn [url_cut_of] in H; try discriminate H;
    try (split; [reflexivity|right; intros y; reflexivity]).
  - injection H as H. apply dec_z_inj in H. subst z'. split; [reflexivity|right; intros y; reflexivity].
  - injection H as <-. split; [reflexivity|right; intros y; reflexivity].
  - injection H as H. apply key_inj in H. destruct H as [<- [H|H]]; (split; [reflexivity|]); [left; exact H|right; intros y; cbn [url_message signed_url_message]; rewrite H; reflexivity].
Qed.

(** The text of a failed key file determines the error, except that opening and reading the file are not told apart. *)
Theorem C76_key_file e x e' x' : sa_message e x = sa_message e' x' ->
  e = e' \/ In e [FileOpen; FileRead] /\ In e' [FileOpen; FileRead] /\ oe_text x = oe_text x'.
Proof.
  intros H. destruct e; destruct e'; try (left; reflexivity); try (exfalso; cbn in H; discriminate H); right; cbn;
    (split; [tauto|]); (split; [tauto|]); cbn [sa_message] in H; apply app_inv_head in H; exact H.
Qed.

Theorem C76_key_file_refuted d : exists e e', service_account_from_path d OpenFails = Err e /\ service_account_from_path d ReadFails = Err e' /\
  e <> e' /\ forall x, sa_message e x = sa_message e' x.
Proof. exists FileOpen, FileRead. split; [reflexivity|]. split; [reflexivity|]. split; [discriminate|reflexivity]. Qed.

(** * Texts and executions *)

Lemma exchanges_app a b : exchanges (a ++ b) = exchanges a ++ exchanges b.
Proof. apply flat_map_app. Qed.

Lemma header_value_sendable v : header_value_ok v = true <-> sendable v.
Proof.
  unfold header_value_ok, sendable. rewrite forallb_forall, Forall_forall. split; intros H c I; specialize (H c I).
  - apply orb_true_iff in H. destruct H as [H|H]; [right|left; destruct (beq_spec c x09); [assumption|discriminate H]].
    apply andb_true_iff in H. destruct H as [H1 H2]. apply N.leb_le in H1. apply negb_true_iff, N.eqb_neq in H2. auto.
  - destruct H as [->|[H1 H2]]; [reflexivity|]. apply orb_true_iff. left. apply andb_true_iff. split; [apply N.leb_le; exact H1|]. apply negb_true_iff, N.eqb_neq. exact H2.
Qed.

Lemma not_buildable d r : ~ buildable d r -> unsendable d r.
Proof.
  intros H. unfold buildable in H. unfold unsendable. destruct (d_url_ok d (rq_url r)); [right|left; reflexivity].
  destruct (forallb (fun h => header_value_ok (snd h)) (rq_headers r)) eqn:F; [destruct H; auto|].
  assert (X : ~ Forall (fun h => header_value_ok (snd h) = true) (rq_headers r)).
  { intros X. rewrite <- not_true_iff_false in F. apply F. apply forallb_forall. apply Forall_forall. exact X. }
  clear F H. induction (rq_headers r) as [|[n v] l IH]; [destruct X; constructor|].
  destruct (header_value_ok v) eqn:V.
  - destruct IH as (n' & v' & I & S); [intros Y; apply X; constructor; assumption|]. exists n', v'. split; [right; exact I|exact S].
  - exists n, v. split; [left; reflexivity|]. intros S. apply header_value_sendable in S. congruence.
Qed.

Lemma dec_plain s : undec (dec s) = Some s /\ exists c r, dec s = c :: r /\ (c = "0" -> s = 0%N).
Proof.
  split; [apply undec_dec|]. destruct (N.eq_dec s 0) as [->|N]; [exists "0", []; split; reflexivity|].
  destruct (dec_head s) as (c & r & E & Z); [lia|]. exists c, r. split; [exact E|]. intros ->. destruct (Z eq_refl).
Qed.

(** One failing request in an execution [full]. *)
Lemma request_report d base x before name e1 e2 e3 e4 e5 r tr full e :
  named base r name -> exchanges full = before ++ exchanges tr ->
  (unsendable d r -> tr = [] -> report d base (oe_text x) full (B "bound token / " ++ name ++ B " request / build error: " ++ oe_text x)) ->
  bt_message e1 x = B "bound token / " ++ name ++ B " request / build error: " ++ oe_text x ->
  bt_message e2 x = B "bound token / " ++ name ++ B " request / execute error: " ++ oe_text x ->
  bt_message e3 x = B "bound token / " ++ name ++ B " request / error response error: " ++ oe_text x ->
  (forall s b, bt_message (e4 s b) x = B "bound token / " ++ name ++ B " request / status error: " ++ dec s ++ B " " ++ b) ->
  bt_message e5 x = B "bound token / " ++ name ++ B " request / success response error: " ++ oe_text x ->
  request_failure d e1 e2 e3 e4 e5 r tr e -> report d base (oe_text x) full (bt_message e x).
Proof.
  intros N X F M1 M2 M3 M4 M5 H. destruct H as [H| |s S|s b S|s S].
  - rewrite M1. apply F; [apply not_buildable, H|reflexivity].
  - rewrite M2. eapply (rp_answer d base _ _ _ r HttpFailed name (B "execute error: " ++ oe_text x)); [exact X|exact N|constructor].
  - rewrite M3. eapply (rp_answer d base _ _ _ r (HttpResponse s None) name (B "error response error: " ++ oe_text x)); [exact X|exact N|constructor; exact S].
  - rewrite M4. eapply (rp_answer d base _ _ _ r (HttpResponse s (Some b)) name (B "status error: " ++ dec s ++ B " " ++ b)); [exact X|exact N|].
    destruct (dec_plain s) as [D P]. constructor; assumption.
  - rewrite M5. eapply (rp_answer d base _ _ _ r (HttpResponse s None) name (B "success response error: " ++ oe_text x)); [exact X|exact N|constructor; exact S].
Qed.

Lemma not_served_exchanges c pre : not_served c pre -> exchanges pre = [].
Proof. intros [[_ ->]|(em & tk & x & now & _ & -> & _)]; reflexivity. Qed.

Lemma lookup_exchanges id base email token l : lookup id base email token l -> Forall (fun ro => exists body, answered (snd ro) body) (exchanges l).
Proof.
  intros [expires now H|c pre expires l' N (o1 & o2 & body & n & now & A1 & A2 & _ & _ & ->)]; [constructor|].
  change (VLock id :: VGet id c :: pre ++ ?x) with ([VLock id; VGet id c] ++ pre ++ x). rewrite !exchanges_app, (not_served_exchanges _ _ N).
  cbn [exchanges flat_map app]. repeat constructor; cbn [snd]; eauto.
Qed.

(** A failing lookup. *)
Lemma lookup_report d bt x before tr e : Forall (fun ro => exists body, answered (snd ro) body) (exchanges before) ->
  lookup_failure d bt tr e -> report d (bt_base_url bt) (oe_text x) (before ++ tr) (bt_message e x).
Proof.
  intros F [c pre tr' e' N R]. set (full := before ++ _).
  assert (E : exchanges full = exchanges before ++ exchanges tr').
  { unfold full. change (VLock (bt_id bt) :: VGet (bt_id bt) c :: ?x) with ([VLock (bt_id bt); VGet (bt_id bt) c] ++ x).
    rewrite !exchanges_app, (not_served_exchanges _ _ N). cbn [exchanges flat_map app]. rewrite app_nil_r. reflexivity. }
  clearbody full. destruct R as [tr2 e2 R|o1 email tr2 e2 A R|o1 email o2 body A1 A2 T|o1 email o2 body t n y A1 A2 T Y].
  - eapply (request_report d _ x _ (B "email")); try exact R; try reflexivity; [rewrite email_request_spec; constructor|exact E|].
    intros U ->. rewrite email_request_spec in U. apply rp_unsent; [left; reflexivity|exact U|]. rewrite E, app_nil_r. exact F.
  - change (VHttp (email_request bt) o1 :: tr2) with ([VHttp (email_request bt) o1] ++ tr2) in E. rewrite exchanges_app, app_assoc in E.
    eapply (request_report d _ x _ (B "token")); try exact R; try reflexivity; [rewrite token_request_spec; constructor|exact E|].
    intros U ->. rewrite token_request_spec in U. apply rp_unsent; [right; left; reflexivity|exact U|].
    rewrite E, app_nil_r. apply Forall_app. split; [exact F|]. repeat constructor. cbn [snd]. eauto.
  - cbn [exchanges flat_map app] in E.
    eapply (rp_body d _ _ _ (exchanges before ++ [(email_request bt, o1)]) (token_request bt) o2 body (B "token") (B "success response deserialize error: " ++ oe_text x)).
    + rewrite <- app_assoc. exact E.
    + rewrite token_request_spec. constructor.
    + exact A2.
    + constructor. exact T.
  - cbn [exchanges flat_map app] in E.
    eapply (rp_body d _ _ _ (exchanges before ++ [(email_request bt, o1)]) (token_request bt) o2 body (B "token") (B "invalid token_type error: " ++ y)).
    + rewrite <- app_assoc. exact E.
    + rewrite token_request_spec. constructor.
    + exact A2.
    + econstructor; eassumption.
Qed.

Lemma blob_text_spec body blob : signed_blob_from_str body = Some blob <-> blob_text body blob.
Proof.
  unfold blob_text, signed_blob_from_str. split.
  - intros E. destruct (from_str_raw body) as [r|] eqn:R; [|discriminate]. apply from_str_raw_spec in R.
    pose proof (raw_text_wf _ _ R) as W. destruct (de_struct _ r) as [l|] eqn:S; [|discriminate].
    apply struct_of_spec in S; [|exact W]. pose proof (struct_of_wf _ _ _ W S) as WF.
    destruct l as [|k [|b [|? ?]]]; try discriminate.
    inversion WF as [|? ? Wk WF1]; subst. inversion WF1 as [|? ? Wb _]; subst.
    destruct (de_string k) as [sk|] eqn:Ek; [|discriminate]. destruct (de_string b) as [sb|] eqn:Eb; [|discriminate].
    injection E as ->. exists r, k, b, sk. split; [exact R|]. split; [exact S|].
    split; apply text_of_spec; assumption.
  - intros (r & k & b & key_id & R & S & Hk & Hb). pose proof (raw_text_wf _ _ R) as W.
    pose proof (struct_of_wf _ _ _ W S) as WF. inversion WF as [|? ? Wk WF1]; subst. inversion WF1 as [|? ? Wb _]; subst.
    apply from_str_raw_spec in R. rewrite R. apply struct_of_spec in S; [|exact W]. rewrite S.
    apply text_of_spec in Hk; [|exact Wk]. apply text_of_spec in Hb; [|exact Wb]. rewrite Hk, Hb. reflexivity.
Qed.

(** A failing remote signature. *)
Lemma sign_report d bt x before message tr e : Forall (fun ro => exists body, answered (snd ro) body) (exchanges before) ->
  returns (bound_token_sign d bt message) tr (Err e) -> report d (bt_base_url bt) (oe_text x) (before ++ tr) (bt_message e x).
Proof.
  intros F H. unfold bound_token_sign in H. apply returns_bind_ok_inv in H.
  destruct H as [([email token] & t1 & t2 & H1 & H & ->)|(e' & H & E)]; [|injection E as <-; apply lookup_report; [exact F|apply get_err; exact H]].
  apply get_ok in H1. cbn [fst snd] in H. rewrite app_assoc.
  assert (F' : Forall (fun ro => exists body, answered (snd ro) body) (exchanges (before ++ t1))).
  { rewrite exchanges_app. apply Forall_app. split; [exact F|eapply lookup_exchanges; exact H1]. }
  assert (N : named (bt_base_url bt) (sign_blob_request email token message) (B "signBlob")).
  { eapply nm_blob. apply sign_blob_request_spec. }
  apply returns_bind_ok_inv in H. destruct H as [(body & t3 & t4 & H2 & H & ->)|(e' & H & E)].
  - apply request_text_ok in H2. destruct H2 as (_ & o & A & ->).
    destruct (signed_blob_from_str body) as [blob|] eqn:Bl; [destruct (b64_decode blob) as [sig|] eqn:D|];
      apply returns_ret_inv in H; destruct H as [-> E]; [discriminate E| |]; injection E as ->; cbn [app].
    + eapply (rp_body d _ _ _ _ (sign_blob_request email token message) o body (B "signBlob") (B "success response base64 decode error: " ++ oe_text x)); [apply exchanges_app|exact N|exact A|].
      eapply mu_base64; [apply blob_text_spec; exact Bl|]. intros sig S. apply b64_decode_spec in S. congruence.
    + eapply (rp_body d _ _ _ _ (sign_blob_request email token message) o body (B "signBlob") (B "success response deserialize error: " ++ oe_text x)); [apply exchanges_app|exact N|exact A|].
      apply mu_blob. intros blob S. apply blob_text_spec in S. congruence.
  - injection E as <-. apply request_text_err in H. destruct H as [H _].
    eapply (request_report d _ x _ (B "signBlob")); try exact H; try reflexivity; [exact N|apply exchanges_app|].
    intros U ->. rewrite app_nil_r. eapply rp_unsigned; [reflexivity|exact H1|apply sign_blob_request_spec|exact U|exact F'].
Qed.

(** How a signing call fails: by itself, in the lookup for the account, or in the signature. *)
Inductive err_trace {E} (d : deps) (k : signing_key) (usb : bool) (wa ws : key_error -> E) (tr : list event) (e : E) : Prop :=
| et_local : (forall x, e <> wa x) -> (forall x, e <> ws x) -> err_trace d k usb wa ws tr e
| et_auth x : returns (authorizer d k) tr (Err x) -> e = wa x -> err_trace d k usb wa ws tr e
| et_sign t1 t2 email m x : returns (authorizer d k) t1 (Ok email) -> returns (sign d k usb m) t2 (Err x) -> tr = t1 ++ t2 -> e = ws x ->
    err_trace d k usb wa ws tr e.

Definition fails_as {A E} (d : deps) (k : signing_key) (usb : bool) (wa ws : key_error -> E) (p : prog (res A E)) : Prop :=
  forall tr e, returns p tr (Err e) -> err_trace d k usb wa ws tr e.
Definition fails_late {A E} (d : deps) (k : signing_key) (usb : bool) (wa ws : key_error -> E) (p : prog (res A E)) : Prop :=
  forall tr e, returns p tr (Err e) -> (forall x, e <> wa x) /\ (forall x, e <> ws x) \/ exists m x, returns (sign d k usb m) tr (Err x) /\ e = ws x.

Ltac fail_case :=
  repeat (match goal with
  | |- fails_as _ _ _ _ _ (Ret _) => let tr := fresh in let e := fresh in let H := fresh in intros tr e H; apply returns_ret_inv in H; destruct H as [_ H]; injection H as H; subst e; apply et_local; discriminate
  | |- fails_as _ _ _ _ _ (Panic _) => let tr := fresh in let e := fresh in let H := fresh in intros tr e H; unfold returns in H; apply steps_panic in H; destruct H as [_ H]; discriminate H
  | |- fails_late _ _ _ _ _ (Ret _) => let tr := fresh in let e := fresh in let H := fresh in intros tr e H; apply returns_ret_inv in H; destruct H as [_ H]; injection H as H; subst e; left; split; discriminate
  | |- fails_late _ _ _ _ _ (Panic _) => let tr := fresh in let e := fresh in let H := fresh in intros tr e H; unfold returns in H; apply steps_panic in H; destruct H as [_ H]; discriminate H
  | |- fails_as _ _ _ _ _ (match ?x with _ => _ end) => destruct x eqn:?
  | |- fails_late _ _ _ _ _ (match ?x with _ => _ end) => destruct x eqn:?
  end).

Lemma fails_auth {A E} d k usb (wa ws : key_error -> E) (f : str -> prog (res A E)) :
  (forall email, fails_late d k usb wa ws (f email)) -> fails_as d k usb wa ws (bind_ok wa (authorizer d k) f).
Proof.
  intros F tr e H. apply returns_bind_ok_inv in H. destruct H as [(email & t1 & t2 & H1 & H & ->)|(x & H & E')].
  - apply F in H. destruct H as [[L1 L2]|(m & x & H & ->)]; [apply et_local; assumption|]. eapply et_sign; eauto.
  - injection E' as ->. eapply et_auth; eauto.
Qed.

Lemma fails_sign {A E} d k usb (wa ws : key_error -> E) m (f : str -> prog (res A E)) :
  (forall s tr e, ~ returns (f s) tr (Err e)) -> fails_late d k usb wa ws (bind_ok ws (sign d k usb m) f).
Proof.
  intros F tr e H. apply returns_bind_ok_inv in H. destruct H as [(s & t1 & t2 & _ & H & _)|(x & H & E')]; [destruct (F _ _ _ H)|].
  injection E' as ->. right. eauto.
Qed.

Lemma build_policy_at_fails d b o t : fails_as d (so_signing_key o) (so_use_sign_blob o) FormBoundTokenAuthorizer FormSigning (build_policy_at d b o t).
Proof.
  unfold build_policy_at. fail_case. apply fails_auth. intros email. fail_case. apply fails_sign.
  intros ? ? ? H. apply returns_ret_inv in H. destruct H as [_ H]. discriminate H.
Qed.

Lemma signed_url_new_fails d scope t x r k usb : fails_as d k usb UrlSigning UrlSigning (signed_url_new d scope t x r k usb).
Proof.
  unfold signed_url_new. apply fails_auth. intros email. fail_case. apply fails_sign.
  intros ? ? ? H. apply returns_ret_inv in H. destruct H as [_ H]. discriminate H.
Qed.

Lemma convert_headers_error d l e : convert_headers d l = Err e -> forall x, e <> UrlSignedUrl x.
Proof.
  induction l as [|[n v] l IH]; cbn [convert_headers]; [discriminate|].
  match goal with |- context [match ?x with Some _ => _ | None => _ end] => destruct x end; [|intros E; injection E as <-; discriminate].
  destruct (header_value_ok v); [|intros E; injection E as <-; discriminate].
  destruct (convert_headers d l); [discriminate|]. intros E. injection E as ->. apply IH. reflexivity.
Qed.

Lemma build_signed_url_at_fails d o t :
  fails_as d (o_signing_key o) (o_use_sign_blob o) (fun x => UrlSignedUrl (UrlSigning x)) (fun x => UrlSignedUrl (UrlSigning x)) (build_signed_url_at d o t).
Proof.
  unfold build_signed_url_at. fail_case.
  - intros tr e H. apply returns_bind_ok_inv in H. destruct H as [(? & t1 & t2 & _ & H & _)|(x & H & E')].
    + apply returns_ret_inv in H. destruct H as [_ H]. discriminate H.
    + injection E' as ->. apply signed_url_new_fails in H. destruct H as [L _|y H ->|t1 t2 email m y H1 H2 -> ->].
      * apply et_local; intros y E; injection E as ->; exact (L y eq_refl).
      * eapply et_auth; eauto.
      * eapply et_sign; eauto.
  - intros tr e1 H. apply returns_ret_inv in H. destruct H as [_ H]. injection H as H. subst e1.
    match goal with C : convert_headers _ _ = Err _ |- _ => pose proof (convert_headers_error _ _ _ C) as C' end. apply et_local; intros y; apply C'.
Qed.

Lemma meta_fields_error l e : meta_fields l = Err e -> e = XGoogMetaNameEmpty.
Proof.
  induction l as [|[n v] l IH]; cbn [meta_fields]; [discriminate|]. destruct n; [intros E; injection E as <-; reflexivity|].
  destruct (meta_fields l); [discriminate|]. intros E. injection E as ->. auto.
Qed.

Lemma form_fails d b o tr e : b_signing_options b = Some o -> returns (build d b) tr (Err e) ->
  exists pre tr', tr = pre ++ tr' /\ exchanges pre = [] /\
    err_trace d (so_signing_key o) (so_use_sign_blob o) FormBoundTokenAuthorizer FormSigning tr' e.
Proof.
  intros So H. unfold build in H. apply returns_bind_ok_inv in H. destruct H as [(p & t1 & t2 & H1 & H & ->)|(e' & H & E)].
  - exists [], (t1 ++ t2). split; [reflexivity|]. split; [reflexivity|].
    destruct (b_key b) as [key|]; [destruct (meta_fields _) as [m|e'] eqn:M|]; apply returns_ret_inv in H; destruct H as [_ H]; try discriminate H;
      injection H as H; subst e; try (apply meta_fields_error in M; subst e'); apply et_local; discriminate.
  - injection E as ->. unfold build_policy in H. rewrite So in H. destruct (so_accessible_at o) as [t|].
    + apply build_policy_at_fails in H. exists [], tr. auto.
    + apply returns_act_inv in H. destruct H as (t & tr' & -> & H). apply build_policy_at_fails in H. exists [VNow t], tr'. auto.
Qed.

Lemma url_fails d o tr e : returns (build_signed_url d o) tr (Err e) ->
  exists pre tr', tr = pre ++ tr' /\ exchanges pre = [] /\
    err_trace d (o_signing_key o) (o_use_sign_blob o) (fun x => UrlSignedUrl (UrlSigning x)) (fun x => UrlSignedUrl (UrlSigning x)) tr' e.
Proof.
  intros H. unfold build_signed_url in H. destruct (o_accessible_at o) as [t|].
  - apply build_signed_url_at_fails in H. exists [], tr. auto.
  - apply returns_act_inv in H. destruct H as (t & tr' & -> & H). apply build_signed_url_at_fails in H. exists [VNow t], tr'. auto.
Qed.

Lemma sign_err d bt usb m tr x : returns (sign d (KBoundToken bt) usb m) tr (Err x) ->
  x = BoundTokenMustUseSignBlob \/ exists e, x = BoundTokenSigning e /\ returns (bound_token_sign d bt m) tr (Err e).
Proof.
  cbn [sign]. destruct usb; intros H.
  - apply returns_bind_ok_inv in H. destruct H as [(s & t1 & t2 & _ & H & _)|(e & H & E)].
    + apply returns_ret_inv in H. destruct H as [_ H]. discriminate H.
    + injection E as ->. right. eauto.
  - apply returns_ret_inv in H. destruct H as [_ H]. injection H as ->. left. reflexivity.
Qed.

(** What an error trace of a bound-token key reports. *)
Lemma err_report {E} d bt usb (wa ws : key_error -> E) pre tr e x (y : key_error) :
  exchanges pre = [] -> err_trace d (KBoundToken bt) usb wa ws tr e -> e = wa y \/ e = ws y ->
  (forall a b, wa a = wa b -> a = b) -> (forall a b, ws a = ws b -> a = b) -> (forall a b, wa a = ws b -> a = b) ->
  y = BoundTokenMustUseSignBlob \/
  exists e', y = BoundTokenAuthorizer e' /\ report d (bt_base_url bt) (oe_text x) (pre ++ tr) (bt_message e' x) \/
             y = BoundTokenSigning e' /\ report d (bt_base_url bt) (oe_text x) (pre ++ tr) (bt_message e' x).
Proof.
  intros P T Y W1 W2 W3. destruct T as [L1 L2|z H ->|t1 t2 email m z H1 H2 -> ->].
  - destruct Y as [Y|Y]; [destruct (L1 _ Y)|destruct (L2 _ Y)].
  - assert (z = y) as -> by (destruct Y; auto). apply auth_err in H. destruct H as (e' & -> & H). right. exists e'. left.
    split; [reflexivity|]. apply lookup_report; [rewrite P; constructor|apply get_err; exact H].
  - assert (z = y) as -> by (destruct Y as [Y|Y]; [symmetry in Y; apply W3 in Y|apply W2 in Y]; auto). apply sign_err in H2. destruct H2 as [->|(e' & -> & H2)]; [left; reflexivity|].
    right. exists e'. right. split; [reflexivity|]. rewrite app_assoc. eapply sign_report; [|exact H2].
    apply auth_ok in H1. destruct H1 as [token H1]. apply get_ok in H1. rewrite exchanges_app, P. eapply lookup_exchanges. exact H1.
Qed.

(** If the text of a failed call says that talking to the servers failed, then what it says is what happened: it names the
    last request of the call and quotes the answer, or a request that could not be sent after all others had been answered. *)
Theorem C76_report d c bt tr a x w : call_key c = Some (KBoundToken bt) -> returns (run_call d c) tr a -> remote_message x a w ->
  report d (bt_base_url bt) (oe_text x) tr w.
Proof.
  intros K H R. destruct c as [b|o]; cbn [run_call call_key] in *.
  - destruct (b_signing_options b) as [o|] eqn:So; [|discriminate K]. injection K as K.
    apply returns_bind_inv in H. destruct H as (r & t1 & t2 & H & H2 & ->). apply returns_ret_inv in H2. destruct H2 as [-> ->]. rewrite app_nil_r.
    inversion R as [e w' M|e w' M| |]; subst; destruct (form_fails _ _ _ _ _ So H) as (pre & tr' & -> & P & T); rewrite K in T.
    + destruct e; apply (f_equal (cut form_prefixes)) in M; rewrite form_cut in M; cbn in M; try discriminate M. injection M as M.
      destruct (err_report d bt (so_use_sign_blob o) FormBoundTokenAuthorizer FormSigning pre tr' (FormBoundTokenAuthorizer e) x e P T) as [->|(e' & [[-> Rp]|[-> Rp]])];
        try congruence; [left; reflexivity|discriminate M| |discriminate M]. cbn in M. injection M as M. rewrite <- M. exact Rp.
    + destruct e; try (apply (f_equal (cut form_prefixes)) in M; rewrite form_cut in M; cbn in M; discriminate M). cbn [form_message] in M.
      destruct (err_report d bt (so_use_sign_blob o) FormBoundTokenAuthorizer FormSigning pre tr' (FormSigning e) x e P T) as [->|(e' & [[-> Rp]|[-> Rp]])];
        try congruence; [right; reflexivity|discriminate M|discriminate M|]. cbn in M. injection M as M. rewrite <- M. exact Rp.
  - injection K as K. apply returns_bind_inv in H. destruct H as (r & t1 & t2 & H & H2 & ->). apply returns_ret_inv in H2. destruct H2 as [-> ->]. rewrite app_nil_r.
    inversion R as [| |e w' M|e w' M]; subst; destruct (url_fails _ _ _ _ H) as (pre & tr' & -> & P & T); rewrite K in T.
    + destruct e as [| | | | | | | | |[| |e]]; apply (f_equal (cut url_prefixes)) in M; rewrite url_cut in M; cbn in M; try discriminate M. injection M as M.
      destruct (err_report d bt (o_use_sign_blob o) (fun x => UrlSignedUrl (UrlSigning x)) (fun x => UrlSignedUrl (UrlSigning x)) pre tr' (UrlSignedUrl (UrlSigning e)) x e P T) as [->|(e' & [[-> Rp]|[-> Rp]])];
        try congruence; [right; reflexivity|discriminate M| |discriminate M]. cbn in M. injection M as M. rewrite <- M. exact Rp.
    + destruct e as [| | | | | | | | |[| |e]]; apply (f_equal (cut url_prefixes)) in M; rewrite url_cut in M; cbn in M; try discriminate M. injection M as M.
      destruct (err_report d bt (o_use_sign_blob o) (fun x => UrlSignedUrl (UrlSigning x)) (fun x => UrlSignedUrl (UrlSigning x)) pre tr' (UrlSignedUrl (UrlSigning e)) x e P T) as [->|(e' & [[-> Rp]|[-> Rp]])];
        try congruence; [right; reflexivity|discriminate M|discriminate M|]. cbn in M. injection M as M. rewrite <- M. exact Rp.
Qed.

(** Nothing is lost by printing only the text of the error: whatever the errors behind it say is the end of that text, except
    for what lies behind an error of another crate. *)
Theorem C76_chain a x m : answer_message a x = Some m ->
  exists own beyond, answer_chain a x = own ++ beyond /\ (beyond = [] \/ beyond = oe_sources x) /\ Forall (ends_with m) own.
Proof.
  intros M.
  assert (R : forall s, ends_with s s) by (intros s; exists []; reflexivity).
  assert (W : forall s t u, ends_with s t -> ends_with (u ++ s) t) by (intros s t u [v ->]; exists (u ++ v); rewrite app_assoc; reflexivity).
  assert (Bt : forall e, exists own beyond, bt_chain e x = own ++ beyond /\ (beyond = [] \/ beyond = oe_sources x) /\ Forall (ends_with (bt_message e x)) own).
  { intros e. unfold bt_chain. destruct (bt_wraps e) eqn:E.
    - exists [bt_message e x; oe_text x], (oe_sources x). split; [reflexivity|]. split; [auto|]. repeat constructor; [apply R|].
      destruct e; try discriminate E; eexists; reflexivity.
    - exists [bt_message e x], []. split; [reflexivity|]. split; [auto|]. repeat constructor. apply R. }
  assert (K : forall e, exists own beyond, key_sources e x = own ++ beyond /\ (beyond = [] \/ beyond = oe_sources x) /\ Forall (ends_with (key_message e x)) own).
  { intros e. destruct e as [e| |e|[]]; cbn [key_sources key_message].
    - destruct (Bt e) as (own & beyond & E & B & F). exists own, beyond. split; [exact E|]. split; [exact B|]. eapply Forall_impl; [|exact F]. intros s. apply W.
    - exists [], []. auto.
    - destruct (Bt e) as (own & beyond & E & B & F). exists own, beyond. split; [exact E|]. split; [exact B|]. eapply Forall_impl; [|exact F]. intros s. apply W.
    - exists [oe_text x], (oe_sources x). split; [reflexivity|]. split; [auto|]. repeat constructor. eexists. reflexivity.
    - exists [], []. auto.
    - exists [], []. auto. }
  destruct a as [[f|e]|[u|e]]; cbn in M; try discriminate M; injection M as <-; cbn [answer_chain].
  - unfold form_chain. destruct e as [|e| | | | |e| | |]; try (eexists [_], []; split; [reflexivity|]; split; [auto|]; repeat constructor; apply R).
    + destruct (K e) as (own & beyond & E & B & F). exists (form_message (FormBoundTokenAuthorizer e) x :: key_message e x :: own), beyond. rewrite E.
      split; [reflexivity|]. split; [exact B|]. constructor; [apply R|]. constructor; [apply W, R|]. eapply Forall_impl; [|exact F]. intros s. apply W.
    + destruct (K e) as (own & beyond & E & B & F). exists (form_message (FormSigning e) x :: own), beyond. rewrite E.
      split; [reflexivity|]. split; [exact B|]. constructor; [apply R|]. exact F.
  - exists [url_message e x], []. split; [reflexivity|]. split; [auto|]. repeat constructor. apply R.
Qed.

(** For key files this is false: what serde_json says about the text is behind the message, not in it. *)
Theorem C76_chain_refuted d : exists x e t, service_account_from_str d [] = Err e /\ In t (sa_chain e x) /\ t = oe_text x /\
  forall a b, sa_message e x <> a ++ t ++ b.
Proof.
  exists {| oe_text := B "EOF while parsing a value at line 1 column 0"; oe_sources := [] |}, JsonDeserialize, (B "EOF while parsing a value at line 1 column 0").
  split; [reflexivity|]. split; [cbn; auto|]. split; [reflexivity|]. intros a b E. cbn [sa_message] in E.
  apply (f_equal (@length byte)) in E. rewrite !app_length in E. cbn in E. lia.
Qed.

(** * Examples *)

Definition demo_outside : outside_error := {| oe_text := B "error sending request"; oe_sources := [B "connection refused"] |}.

(** The token request is answered with status 500. *)
Example C76_case : exists tr a w, call_key demo_bound_form = Some (KBoundToken demo_token) /\ returns (run_call demo_deps demo_bound_form) tr a /\
  remote_message demo_outside a w /\ w = B "bound token / token request / status error: 500 oops" /\
  report demo_deps (bt_base_url demo_token) (oe_text demo_outside) tr w.
Proof.
  assert (H : returns (run_call demo_deps demo_bound_form) (fst (play (run_call demo_deps demo_bound_form) demo_failed_run))
    (AForm (Err (FormBoundTokenAuthorizer (BoundTokenAuthorizer (TokenRequestStatus 500 (B "oops"))))))).
  { apply play_returns. vm_compute. reflexivity. }
  do 2 eexists. exists (B "bound token / token request / status error: 500 oops"). split; [reflexivity|]. split; [exact H|].
  assert (R : remote_message demo_outside (AForm (Err (FormBoundTokenAuthorizer (BoundTokenAuthorizer (TokenRequestStatus 500 (B "oops"))))))
    (B "bound token / token request / status error: 500 oops")) by (apply rm_form_account; reflexivity).
  split; [exact R|]. split; [reflexivity|]. eapply (C76_report _ demo_bound_form); [reflexivity|exact H|exact R].
Qed.

(** Texts as a user sees them. *)
Example C76_texts :
  form_message (FormBoundTokenAuthorizer (BoundTokenAuthorizer EmailRequestExecute)) demo_outside =
    B "bound token authorizer: bound token authorizer error: bound token / email request / execute error: error sending request" /\
  url_message (UrlSignedUrl (UrlSigning (BoundTokenSigning (SignBlobRequestStatus 403 (B "no"))))) demo_outside =
    B "signing error: bound token signing error: bound token / signBlob request / status error: 403 no" /\
  url_message (UrlExpiration 604801) demo_outside = B "out of range (0..=604800) : 604801" /\
  form_chain (FormSigning (BoundTokenSigning SignBlobRequestExecute)) demo_outside =
    [B "bound token signing error: bound token / signBlob request / execute error: error sending request";
     B "bound token / signBlob request / execute error: error sending request"; B "error sending request"; B "connection refused"].
Proof. repeat split; reflexivity. Qed.
