(* RFC 6455 sections 5.2 and 5.3: what a frame looks like on the wire.
   Independent of the model: uses only bytes and numbers. *)
From Coq Require Import List Arith NArith ZArith Bool.
From Coq Require Strings.Byte.
Import ListNotations.
Local Open Scope N_scope.

Notation octet := Byte.byte.
Notation octet_value := Byte.to_N.

(* A frame as transmitted: the payload is the one before masking. *)
Record wframe : Type := {
  w_fin : bool; w_rsv1 : bool; w_rsv2 : bool; w_rsv3 : bool;
  w_opcode : N;                      (* 4 bits *)
  w_mask : option (octet * octet * octet * octet);
  w_payload : list octet }.

(* unsigned integer in network byte order *)
Fixpoint network_order (l : list octet) : N :=
  match l with
  | [] => 0
  | x :: r => octet_value x * 256 ^ N.of_nat (length r) + network_order r
  end.

(* 5.3: octet i of the transformed data is octet i of the original XOR octet i mod 4 of
   the masking key *)
Definition masking_key_octet (k : octet * octet * octet * octet) (i : nat) : N :=
  let '(a, b, c, d) := k in
  match (Nat.modulo i 4) with 0%nat => octet_value a | 1%nat => octet_value b
                    | 2%nat => octet_value c | _ => octet_value d end.
Definition masked_with (k : octet * octet * octet * octet) (plain out : list octet) : Prop :=
  length out = length plain /\
  forall i x y, nth_error plain i = Some x -> nth_error out i = Some y ->
    octet_value y = N.lxor (octet_value x) (masking_key_octet k i).

(* 5.2: the three ways to write a payload length, [minimal] asking for the shortest *)
Inductive length_field : N -> N -> list octet -> Prop :=
| len7 n : n <= 125 -> length_field n n []
| len16 n ext : length ext = 2%nat -> network_order ext = n -> length_field n 126 ext
| len64 n ext : length ext = 8%nat -> network_order ext = n -> length_field n 127 ext.

Definition minimal_length_field (n : N) (ext : list octet) : Prop :=
  length ext = if n <=? 125 then 0%nat else if n <=? 65535 then 2%nat else 8%nat.

(* 5.2: base framing protocol.  [ext] is the extended payload length. *)
Definition layout_with (f : wframe) (ext w : list octet) : Prop :=
  exists b0 b1 key body,
    w = b0 :: b1 :: ext ++ key ++ body /\
    N.testbit (octet_value b0) 7 = w_fin f /\
    N.testbit (octet_value b0) 6 = w_rsv1 f /\
    N.testbit (octet_value b0) 5 = w_rsv2 f /\
    N.testbit (octet_value b0) 4 = w_rsv3 f /\
    octet_value b0 mod 16 = w_opcode f /\
    N.testbit (octet_value b1) 7 = (match w_mask f with Some _ => true | None => false end) /\
    length_field (N.of_nat (length (w_payload f))) (octet_value b1 mod 128) ext /\
    match w_mask f with
    | None => key = [] /\ body = w_payload f
    | Some (a, b, c, d) => key = [a; b; c; d] /\ masked_with (a, b, c, d) (w_payload f) body
    end.

Definition layout (f : wframe) (w : list octet) : Prop := exists ext, layout_with f ext w.

Definition minimal_layout (f : wframe) (w : list octet) : Prop :=
  exists ext, layout_with f ext w /\
              minimal_length_field (N.of_nat (length (w_payload f))) ext.

(* 5.2, 11.8: opcodes *)
Inductive kind : Type := Continuation | Text | Binary | Close | Ping | Pong.
Definition kind_of_opcode (n : N) : option kind :=
  if n =? 0 then Some Continuation else if n =? 1 then Some Text else if n =? 2 then Some Binary
  else if n =? 8 then Some Close else if n =? 9 then Some Ping else if n =? 10 then Some Pong
  else None.

(* 5.5: control frames have a payload of at most 125 bytes and are not fragmented;
   5.2: reserved bits are 0 unless an extension is negotiated *)
Definition control_opcode (n : N) : Prop := n = 8 \/ n = 9 \/ n = 10.
Definition acceptable (f : wframe) : Prop :=
  w_rsv1 f = false /\ w_rsv2 f = false /\ w_rsv3 f = false /\
  kind_of_opcode (w_opcode f) <> None /\
  (control_opcode (w_opcode f) -> w_fin f = true /\ (length (w_payload f) <= 125)%nat).

(* 7.4: status codes allowed in a close frame: the registered ones that may be sent, and
   3000-4999.  1004, 1005, 1006 and 1015 are reserved and must not be sent. *)
Definition sendable_close_code (n : Z) : Prop :=
  (1000 <= n <= 1003 \/ 1007 <= n <= 1014 \/ 3000 <= n <= 4999)%Z.
