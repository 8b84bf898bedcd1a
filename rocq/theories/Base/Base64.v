(* base64.b64encode and base64.b64decode of the Python standard library
   (Lib/base64.py, Modules/binascii.c); not part of /repo. *)
From Verif Require Import Base.Prelude.
Local Open Scope N_scope.

(* the character encoding a 6-bit value *)
Definition b64_char (v : N) : byte :=
  if v <? 26 then n2b (65 + v)
  else if v <? 52 then n2b (97 + (v - 26))
  else if v <? 62 then n2b (48 + (v - 52))
  else if v =? 62 then n2b 43 else n2b 47.

(* the 6-bit value of a character of the alphabet *)
Definition b64_val (x : byte) : option N :=
  let c := b2n x in
  if (65 <=? c) && (c <=? 90) then Some (c - 65)
  else if (97 <=? c) && (c <=? 122) then Some (c - 97 + 26)
  else if (48 <=? c) && (c <=? 57) then Some (c - 48 + 52)
  else if c =? 43 then Some 62
  else if c =? 47 then Some 63
  else None.

Definition b64_pad : byte := n2b 61.

(* base64.b64encode *)
Fixpoint b64encode (bs : bytes) : bytes :=
  match bs with
  | [] => []
  | [x] =>
      let n := b2n x in
      [b64_char (n / 4); b64_char ((n mod 4) * 16); b64_pad; b64_pad]
  | [x; y] =>
      let n := b2n x * 256 + b2n y in
      [b64_char (n / 1024); b64_char ((n / 16) mod 64); b64_char ((n mod 16) * 4); b64_pad]
  | x :: y :: z :: r =>
      let n := b2n x * 65536 + b2n y * 256 + b2n z in
      b64_char (n / 262144) :: b64_char ((n / 4096) mod 64)
        :: b64_char ((n / 64) mod 64) :: b64_char (n mod 64) :: b64encode r
  end.

(* binascii.a2b_base64 (not strict): characters outside of the alphabet are skipped *)
Fixpoint a2b (bs : bytes) (quad : nat) (left pads : N) : result bytes :=
  match bs with
  | [] => match quad with O => Ok [] | _ => Raise BinasciiError end
  | x :: r =>
    if byte_eqb x b64_pad then
      if (2 <=? N.of_nat quad) && (4 <=? N.of_nat quad + (pads + 1)) then Ok []
      else a2b r quad left (if 2 <=? N.of_nat quad then pads + 1 else pads)
    else
      match b64_val x with
      | None => a2b r quad left pads
      | Some v =>
        match quad with
        | 0%nat => a2b r 1%nat v 0
        | 1%nat => let! o := a2b r 2%nat (v mod 16) 0 in Ok (n2b (left * 4 + v / 16) :: o)
        | 2%nat => let! o := a2b r 3%nat (v mod 4) 0 in Ok (n2b (left * 16 + v / 4) :: o)
        | _ => let! o := a2b r 0%nat 0 0 in Ok (n2b (left * 64 + v) :: o)
        end
      end
  end.

(* base64.b64decode(data) *)
Definition b64decode (bs : bytes) : result bytes := a2b bs 0%nat 0 0.

(* re.fullmatch(b"[A-Za-z0-9+/]*={0,2}", data) *)
Fixpoint b64_padding (bs : bytes) (n : nat) : bool :=
  match bs, n with
  | [], _ => true
  | x :: r, S n' => byte_eqb x b64_pad && b64_padding r n'
  | _, O => false
  end.
Fixpoint b64_valid (bs : bytes) : bool :=
  match bs with
  | [] => true
  | x :: r =>
    match b64_val x with
    | Some _ => b64_valid r
    | None => b64_padding bs 2
    end
  end.

(* base64.b64decode(data, validate=True) *)
Definition b64decode_validate (bs : bytes) : result bytes :=
  if b64_valid bs then b64decode bs else Raise BinasciiError.
