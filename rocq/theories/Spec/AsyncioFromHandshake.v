(* Vocabulary for what two endpoints of this library do for each other, once the connection is open (asyncio API). *)
From Verif Require Import Base.Prelude Model.Frames Model.PermessageDeflate Model.LegacyProtocol
  Spec.Messages Spec.Deflate Spec.Asyncio Spec.AsyncioHang Spec.AsyncioCloseCodes Spec.AsyncioFailures Spec.AsyncioHandshake Properties.AsyncioCalls.
Local Open Scope N_scope.

(* What end A does is what end B sees, whatever both do, provided that fragmented messages don't overlap
   (C60) and that messages are small enough: the calls to recv() at end B return the messages given to
   send() at end A; when end B is closed, it has the code and the reason chosen by one of the ends, or 1006;
   it doesn't fail the connection because of what it receives, unless this is larger than its limit. *)
Definition understands {zl} (cfgA : config) (extsA : list (pmd zl)) (cfgB : config) (extsB : list (pmd zl)) : Prop :=
  forall lsA stA lsB stB,
    connected (pmd_ops zl) cfgA extsA cfgB extsB lsA stA lsB stB ->
    no_overlap (pmd_ops zl) cfgA extsA lsA -> Forall small_label lsA ->
    no_overlap (pmd_ops zl) cfgB extsB lsB -> Forall small_label lsB ->
    delivers lsA stA stB /\
    (p_state stB = Closed ->
     exists code reason, p_close stB = Some (code, reason) /\ from_peer lsA stA lsB stB code reason) /\
    (forall y code reason, In y (p_out stB) -> o_by y = ByFailure -> close_frame (o_frame y) code reason ->
     reason = [] /\ justified (pmd_ops zl) cfgB extsB lsB (fun max => too_big_compressed max (p_out stA)) code).

(* One end of a connection, with the frames that the other end writes: close() has a timeout, no
   fragmented messages overlap (C60), messages are smaller than 2^56 characters or bytes, nothing disturbs
   the closing handshake, and the other end doesn't send messages that are too big, before or after
   compression. *)
Definition regular_with {zl} (cfg : config) (exts : list (pmd zl)) (ls : list label) (written : list sent) : Prop :=
  (forall n, length (c_key cfg n) = 4%nat) /\ (exists t, c_close_timeout cfg = Some t /\ 0 < t) /\
  no_overlap (pmd_ops zl) cfg exts ls /\ Forall small_label ls /\ undisturbed (pmd_ops zl) cfg exts ls /\ Forall short_reason ls /\
  (forall max, c_max_size cfg = Some max -> ~ too_big_compressed max written).
(* When either end has sent a Close frame, all data has been delivered and both ends have nothing left to
   read, then the closing handshake is complete, provided that the queues of messages aren't full and that
   the last frame received isn't a ping. *)
Definition completes {zl} (cfgA : config) (extsA : list (pmd zl)) (cfgB : config) (extsB : list (pmd zl)) : Prop :=
  forall lsA stA lsB stB,
    connected (pmd_ops zl) cfgA extsA cfgB extsB lsA stA lsB stB ->
    regular_with cfgA extsA lsA (p_out stB) -> regular_with cfgB extsB lsB (p_out stA) ->
    flat_map o_bytes (p_out stA) = incoming lsB -> flat_map o_bytes (p_out stB) = incoming lsA ->
    reading_idle (pmd_ops zl) cfgA stA -> reading_idle (pmd_ops zl) cfgB stB ->
    ~ queue_full cfgA stA -> ~ queue_full cfgB stB -> ~ last_is_ping stA -> ~ last_is_ping stB ->
    wrote_close stA \/ wrote_close stB ->
    finished stA /\ finished stB /\ close_received stA stB /\ close_received stB stA.
