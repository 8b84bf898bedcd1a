(* Model of the argument compression of connect() and serve(), in src/websockets/legacy/client.py and
   src/websockets/legacy/server.py. *)
From Verif Require Import Base.Prelude Model.Handshake Model.Server Model.Client Model.PermessageDeflate.

Section Compression.
Context {zl : zlib} {E : Type} (name_of : E -> str) (mk : pmd zl -> E).

(* legacy/client.py 427-430: the extensions of the protocol; compression is "deflate" by default (line 391) *)
Definition connect_extensions (compression : option str) (extensions : option (list (client_factory E)))
    : result (option (list (client_factory E))) :=
  match compression with
  | Some c => if str_eqb c (s "deflate") then Ok (Some (enable_client_permessage_deflate name_of mk extensions)) else Raise ValueError
  | None => Ok extensions
  end.

(* legacy/server.py 906-909: the same for serve(); compression is "deflate" by default (line 867) *)
Definition serve_extensions (compression : option str) (extensions : option (list (server_factory E)))
    : result (option (list (server_factory E))) :=
  match compression with
  | Some c => if str_eqb c (s "deflate") then Ok (Some (enable_server_permessage_deflate name_of mk extensions)) else Raise ValueError
  | None => Ok extensions
  end.
End Compression.
