(* Vocabulary for two sans-I/O connections which may use the permessage-deflate extension. *)
From Verif Require Import Base.Prelude Spec.Rfc6455 Spec.Messages Spec.Deflate Spec.Negotiated Spec.Endpoints Model.Streams Model.Frames
  Model.Connection Model.PermessageDeflate.

(* zlib does what its documentation says, and doesn't expand data too much. *)
Definition good_zlib (zl : zlib) : Prop :=
  exists sync, correct_zlib zl sync /\ expands_little zl /\ can_decompress zl.

(* Both ends have the extension, with the same settings, or none has. *)
Definition negotiated {zl} (a b : endpoint (pmd zl)) : Prop := compress_alike (c_exts (e_conn a)) (c_exts (e_conn b)).

Section Ends.
Context {E : Type} (X : ext_ops E).
Implicit Types a b e o : endpoint E.
(* e doesn't fail when it receives what o writes, and reports the data frames that the program sends at o *)
Definition delivered e o : Prop := forall fs gs rest, receives_from X e o fs gs rest ->
  no_failure (e_calls e) (e_returned e) /\
  exists later, data_sent o = data_frames (reported e) ++ later /\ (rest = [] -> later = []).
(* when a calls send_close() and b doesn't, and everything was received, both have the code and the reason and accept
   the end of the stream *)
Definition closes a b : Prop := forall fa ga fb gb code reason,
  receives_from X b a fa ga [] -> receives_from X a b fb gb [] ->
  called_send_close a code reason -> (forall code' reason', ~ In (CSendClose code' reason') (e_calls b)) ->
  forall e, e = a \/ e = b ->
    close_code e = Some (code_received code) /\ close_reason e = Some reason /\
    c_state (m_conn (e_state e)) = CLOSING /\
    exists m', do_call X (e_state e) CReceiveEof = (m', RNone) /\ c_eof_sent (m_conn m') = true /\
      c_close_code (m_conn m') = close_code e /\ c_close_reason (m_conn m') = close_reason e.
End Ends.
