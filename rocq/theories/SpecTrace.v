(** Specification: what one lookup of a bound-token key may do, as explicit lists of events. *)
From Verif Require Import Base Time Effects Json SpecToken SpecPolicy SpecJson.
Local Open Scope Z_scope.

(** A request to the metadata server for one attribute of the default service account. *)
Definition metadata_request (base attribute : str) : request := {|
  rq_method := B "GET";
  rq_url := base ++ B "/computeMetadata/v1/instance/service-accounts/default/" ++ attribute;
  rq_headers := [(B "Metadata-Flavor", B "Google")];
  rq_body := None
|}.

Definition success_status (s : N) : Prop := (200 <= s <= 299)%N.

(** The response carries [body] with a success status. *)
Definition answered (o : http_result) (body : str) : Prop :=
  exists s, success_status s /\ o = HttpResponse s (Some body).

(** A refresh: email, then token, then one clock reading, then the cache write. *)
Definition refreshed (id : N) (base email token : str) (expires : systime) (l : list event) : Prop :=
  exists o1 o2 body n now,
    answered o1 email /\ answered o2 body /\ token_body body token n (B "Bearer") /\
    expires = now + Z.of_N n * 1000000000 /\
    l = [VHttp (metadata_request base (B "email")) o1; VHttp (metadata_request base (B "token")) o2;
         VNow now; VSet id (Some (email, token, expires))].

(** The cache content [c] read under the lock does not serve this lookup: it is empty, or expires at most
    thirty seconds after the clock reading [pre]. *)
Definition not_served (c : cache) (pre : list event) : Prop :=
  (c = None /\ pre = []) \/
  (exists email token expires now, c = Some (email, token, expires) /\ pre = [VNow now] /\
     expires <= now + 30 * 1000000000).

(** A successful lookup: a cache hit or a refresh. *)
Inductive lookup (id : N) (base : str) (email token : str) : list event -> Prop :=
| lookup_hit expires now :
    now + 30 * 1000000000 < expires ->
    lookup id base email token
      [VLock id; VGet id (Some (email, token, expires)); VNow now; VUnlock id]
| lookup_refresh c pre expires l :
    not_served c pre -> refreshed id base email token expires l ->
    lookup id base email token (VLock id :: VGet id c :: pre ++ l ++ [VUnlock id]).

(** A signBlob request for [message]. *)
Definition sign_blob_call (email token message : str) (r : request) : Prop :=
  rq_method r = B "POST" /\
  rq_url r = B "https://iamcredentials.googleapis.com/v1/projects/-/serviceAccounts/" ++ email ++ B ":signBlob" /\
  rq_headers r = [(B "authorization", B "Bearer " ++ token); (B "content-type", B "application/json")] /\
  exists body j, rq_body r = Some body /\ json_text j body /\ payload_tree message j.

(** Requests by their address: metadata server or signBlob. *)
Definition is_sign_blob (r : request) : Prop :=
  exists email, rq_url r = B "https://iamcredentials.googleapis.com/v1/projects/-/serviceAccounts/" ++ email ++ B ":signBlob".
Definition is_metadata (r : request) : Prop :=
  exists base attribute, In attribute [B "email"; B "token"] /\
    rq_url r = base ++ B "/computeMetadata/v1/instance/service-accounts/default/" ++ attribute.

(** A local trace touches no network, no clock, no lock, no cache. *)
Definition event_id (v : event) : option N :=
  match v with VLock i | VUnlock i | VGet i _ | VSet i _ => Some i | _ => None end.

(** A metadata response that cannot be used: no success status or no readable body, or a token response
    whose body is not a Bearer token. *)
Definition refresh_failed (r : request) (o : http_result) : Prop :=
  is_metadata r /\
  ((forall body, ~ answered o body) \/
   (exists base body, r = metadata_request base (B "token") /\ answered o body /\
      forall token n, ~ token_body body token n (B "Bearer"))).

(** Events that are neither lock nor cache events. *)
Definition outside (v : event) : Prop := event_id v = None.
