(* How the model's frames correspond to the wire frames of Spec/Rfc6455.v. *)
From Verif Require Import Base.Prelude Spec.Rfc6455 Model.Frames.

Definition rfc_opcode (o : opcode) : N :=
  match o with
  | CONT => 0 | TEXT => 1 | BINARY => 2 | CLOSE => 8 | PING => 9 | PONG => 10
  end%N.

(* The wire frame for a Frame object, with the masking key if there's one. *)
Definition on_wire (f : frame) (key : option (byte * byte * byte * byte)) : wframe :=
  {| w_fin := f_fin f; w_rsv1 := f_rsv1 f; w_rsv2 := f_rsv2 f; w_rsv3 := f_rsv3 f;
     w_opcode := rfc_opcode (f_opcode f); w_mask := key; w_payload := f_data f |}.

Definition is_masked (w : wframe) : bool := match w_mask w with Some _ => true | None => false end.

(* max_size isn't exceeded *)
Definition fits (max_size : option Z) (n : nat) : Prop :=
  match max_size with None => True | Some m => (Z.of_nat n <= m)%Z end.
