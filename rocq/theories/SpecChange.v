(** Specification: the service account of a platform may change while calls are running. *)
From Verif Require Import Base Effects Keys Conc SpecToken SpecTrace.

(** The metadata server at [base] has named [account]. *)
Definition named (base : str) (tr : list gevent) (account : str) : Prop :=
  exists j o, In (GDo j (VHttp (metadata_request base (B "email")) o)) tr /\ answered o account.

(** What signBlob gave to call [i] is a signature by the account that was asked to sign: [signs account m s] says that [s] is
    [account]'s signature of [m]. *)
Definition honest (signs : str -> str -> str -> Prop) (i : nat) (tr : list gevent) : Prop :=
  forall account token message r o body s, In (GDo i (VHttp r o)) tr -> sign_blob_call account token message r ->
    answered o body -> blob_body body s -> signs account message s.

(** After call [i] gave back the lock of [id] and before signBlob answered it in the name of [other], some task put an entry for
    [other] into the cache of [id], the entry whose token call [i] then showed to signBlob. *)
Definition renewed (tr : list gevent) (id : N) (i : nat) (other : str) : Prop :=
  exists before j token expires after message r o,
    tr = before ++ GDo j (VSet id (Some (other, token, expires))) :: after /\ In (GDo i (VUnlock id)) before /\
    sign_blob_call other token message r /\ In (GDo i (VHttp r o)) after.
