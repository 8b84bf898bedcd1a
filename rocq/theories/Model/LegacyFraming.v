(* Model of src/websockets/legacy/framing.py: reading and writing frames through asyncio
   streams.  asyncio.StreamReader.readexactly(n) behaves like StreamReader.read_exact of
   streams.py: it waits for n bytes and raises IncompleteReadError, a subclass of EOFError, when
   the stream ends first.  That's part of the standard library, not of this repository. *)
From Verif Require Import Base.Prelude Model.Utils Model.Streams Model.Frames.
Local Open Scope N_scope.

(* legacy/framing.py 53-87: the part of Frame.read that reads bytes *)
Definition legacy_read_wire {S} (mask : bool) (max_size : option Z) : gen S frame :=
  let* data := read_exact 2 in
  match data with
  | [x1; x2] =>
    let head1 := b2n x1 in
    let head2 := b2n x2 in
    let fin := bit head1 128 in
    let rsv1 := bit head1 64 in
    let rsv2 := bit head1 32 in
    let rsv3 := bit head1 16 in
    match opcode_of_N (N.land head1 15) with
    | None => GRaise (ProtocolError (s "invalid opcode"))
    | Some opcode =>
      if negb (Bool.eqb (bit head2 128) mask) then
        GRaise (ProtocolError (s "incorrect masking"))
      else
        let length7 := N.land head2 127 in
        let* length :=
          if length7 =? 126 then let* data := read_exact 2 in GRet (be_N data)
          else if length7 =? 127 then let* data := read_exact 8 in GRet (be_N data)
          else GRet length7 in
        let* _ :=
          match max_size with
          | Some m => if (m <? Z.of_N length)%Z then GRaise (PayloadTooBig (too_big_msg length m))
                      else GRet tt
          | None => GRet tt
          end in
        let* mask_bits := if mask then read_exact 4 else GRet [] in
        let* data := read_exact (Z.of_N length) in
        let* data := if mask then glift (apply_mask data mask_bits) else GRet data in
        GRet (Frame fin opcode data rsv1 rsv2 rsv3)
    end
  | _ => GRaise StructError
  end.

(* legacy/framing.py 28-97: Frame.read; the state is the list of extensions *)
Definition legacy_read {E} (X : ext_ops E) (mask : bool) (max_size : option Z) : gen (list E) frame :=
  let* f := legacy_read_wire mask max_size in
  let* exts := get_state in
  let '(exts', r) := decode_reversed X exts f max_size in
  let* _ := put_state exts' in
  let* f := glift r in
  let* _ := glift (check f) in
  GRet f.

(* legacy/framing.py 99-126: Frame.write calls serialize, in frames.py, and writes the result in
   one piece: see [serialize] in Model/Frames.v. *)
