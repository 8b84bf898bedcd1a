(* Vocabulary for the properties of "async for message in websocket" (legacy/protocol.py). *)
From Verif Require Import Base.Prelude Model.Frames Model.LegacyFraming Model.LegacyProtocol Model.LegacyIter.
Local Open Scope N_scope.

(* Anything happens on a connection on which a user iterates with "async for", in any order. *)
Definition iterating {E} (X : ext_ops E) (cfg : config) (exts : list E) (ls : list glabel) (g : iteration E) : Prop :=
  gexec X cfg (ginitial exts) ls = Some g.

(* Messages are received only by the iteration: recv() isn't called otherwise. *)
Definition only_receiver (ls : list glabel) : Prop := ~ In (GConn (LCall CallRecv)) ls.

(* A task of the user was cancelled while it waited for the connection. *)
Definition cancelled (ls : list glabel) : Prop := exists i, In (GConn (LCancel i)) ls.

(* The loop was left because there are no more messages, or with an exception. *)
Definition loop_ended {E} (g : iteration E) : Prop := g_pc g = GReturned.
Definition loop_raised {E} (g : iteration E) (e : pexn) : Prop := g_pc g = GRaised e.

(* the codes of a normal closure *)
Definition normal_code (code : Z) : Prop := (code = 1000 \/ code = 1001)%Z.
