(* Model of src/websockets/utils.py *)
From Verif Require Import Base.Prelude Base.Utf8 Base.Base64 Base.Sha1.
Local Open Scope N_scope.

(* utils.py 10: GUID *)
Definition GUID : str := s "258EAFA5-E914-47DA-95CA-C5AB0DC85B11".

(* utils.py 13-19: generate_key.  secrets.token_bytes(16) is the argument. *)
Definition generate_key (token : bytes) : str := map b2n (b64encode token).

(* utils.py 22-30: accept_key *)
Definition accept_key (key : str) : result str :=
  let! data := utf8_encode (key ++ GUID) in
  Ok (map b2n (b64encode (sha1 data))).

(* utils.py 44: bytes(b ^ m for b, m in zip(data, itertools.cycle(mask))).
   [rest] is what remains of the current pass of cycle() over [mask]. *)
Fixpoint xor_cycle (data mask rest : bytes) : bytes :=
  match data with
  | [] => []
  | x :: data' =>
    match rest with
    | m :: rest' => bxor x m :: xor_cycle data' mask rest'
    | [] =>
      match mask with
      | m :: rest' => bxor x m :: xor_cycle data' mask rest'
      | [] => []
      end
    end
  end.

(* utils.py 33-44: apply_mask *)
Definition apply_mask (data mask : bytes) : result bytes :=
  if (lenN mask =? 4) then Ok (xor_cycle data mask mask) else Raise ValueError.

(* The accept key of RFC 6455 section 1.3 *)
Example accept_key_rfc6455 :
  accept_key (s "dGhlIHNhbXBsZSBub25jZQ==") = Ok (s "s3pPLMBiTxaQ9kYGzzhZRbK+xOo=").
Proof. vm_compute. reflexivity. Qed.
