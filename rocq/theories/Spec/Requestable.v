(* Which URIs can be requested. *)
From Verif Require Import Base.Prelude Base.Utf8 Model.Handshake Model.Uri Model.Client Spec.Http1.
Local Open Scope N_scope.

Definition visible (c : N) : Prop := 33 <= c <= 126.

(* The host and the resource name are printable ASCII characters without spaces, neither they nor the
   credentials are too long for one line, and the credentials can be encoded. *)
Record requestable (u : ws_uri) : Prop := {
  rq_host : Forall visible (uri_host u) /\ (length (uri_host u) <= 4000)%nat;
  rq_port : (0 <= uri_port u < 65536)%Z;
  rq_path : Forall visible (uri_resource_name u) /\ (length (uri_resource_name u) <= 4000)%nat;
  rq_credentials : forall username password, uri_user_info u = Some (username, password) ->
    ~ In 58 username /\ exists data, utf8_encode (username ++ s ":" ++ password) = Ok data /\ (length data <= 3000)%nat }.

(* What the library says of itself, and the date, can be sent. *)
Definition presentable (env : environment) : Prop :=
  valid_header (s "User-Agent", env_user_agent env) /\ valid_header (s "Date", env_date env) /\ valid_header (s "Server", env_user_agent env).
