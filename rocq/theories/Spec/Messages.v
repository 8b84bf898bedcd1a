(* RFC 6455 section 5.4: fragmentation.  A sequence of frames carries whole messages, one
   after the other, with control frames anywhere. *)
From Verif Require Import Base.Prelude Spec.Rfc6455 Spec.FrameSpec Model.Frames.

Definition is_data (f : frame) : Prop := f_opcode f = TEXT \/ f_opcode f = BINARY \/ f_opcode f = CONT.
Definition is_data_b (f : frame) : bool :=
  match f_opcode f with TEXT | BINARY | CONT => true | _ => false end.

(* the first fragment of a message *)
Definition opens (f : frame) : Prop := f_opcode f = TEXT \/ f_opcode f = BINARY.
Definition continues (f : frame) : Prop := f_opcode f = CONT.
Definition final (f : frame) : Prop := f_fin f = true.

(* the data frames of a message that has started and isn't finished *)
Definition unfinished_message (m : list frame) : Prop :=
  exists f rest, m = f :: rest /\ opens f /\ ~ final f /\
                 Forall (fun g => continues g /\ ~ final g) rest.

(* the data frames of a complete message *)
Definition complete_message (m : list frame) : Prop :=
  (exists f, m = [f] /\ opens f /\ final f) \/
  (exists m' g, m = m' ++ [g] /\ unfinished_message m' /\ continues g /\ final g).

Definition data_frames (l : list frame) : list frame := filter is_data_b l.

(* l is a sequence of messages, of which [current], if it isn't empty, is in progress *)
Definition message_sequence (l : list frame) (done : list (list frame)) (current : list frame) : Prop :=
  data_frames l = concat done ++ current /\
  Forall complete_message done /\
  (current = [] \/ unfinished_message current).

Definition well_formed_messages (l : list frame) : Prop :=
  exists done current, message_sequence l done current.

(* size of the payload of a message *)
Definition message_size (m : list frame) : nat := length (flat_map f_data m).
