(** Specification: executions that differ only in the host that metadata requests go to. *)
From Verif Require Import Base Effects SpecToken SpecTrace.

(** The address of a metadata request at a host. *)
Definition metadata_url (host attribute : str) : str :=
  B "http://" ++ host ++ B "/computeMetadata/v1/instance/service-accounts/default/" ++ attribute.

(** A metadata request at one host and the same at another. *)
Inductive elsewhere (host host' : str) : request -> request -> Prop :=
| ew_moved attribute : In attribute [B "email"; B "token"] -> elsewhere host host'
    {| rq_method := B "GET"; rq_url := metadata_url host attribute; rq_headers := [(B "Metadata-Flavor", B "Google")]; rq_body := None |}
    {| rq_method := B "GET"; rq_url := metadata_url host' attribute; rq_headers := [(B "Metadata-Flavor", B "Google")]; rq_body := None |}
| ew_blob r : is_sign_blob r -> elsewhere host host' r r.

(** The same event with the same response. *)
Inductive moved (host host' : str) : event -> event -> Prop :=
| mv_same v : is_http v = false -> moved host host' v v
| mv_http r r' o : elsewhere host host' r r' -> moved host host' (VHttp r o) (VHttp r' o).
