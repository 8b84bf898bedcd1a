(* Values of the Python runtime used by the model: bytes, str, int, exceptions. *)
From Coq Require Export List Bool NArith ZArith Lia.
From Coq Require Export ZifyBool ZifyNat ZifyN.
From Coq Require Strings.Byte Ascii String.
Export (notations) String.
Export ListNotations.
Global Open Scope list_scope.
Global Open Scope bool_scope.

(* ---- bytes ---- *)

Notation byte := Byte.byte.
Notation bytes := (list Byte.byte).

(* int(b) for a byte b *)
Definition b2n (b : byte) : N := Byte.to_N b.

(* the byte with value n modulo 256 *)
Definition n2b (n : N) : byte :=
  match Byte.of_N (n mod 256) with Some b => b | None => Byte.x00 end.

Definition byte_eqb (a b : byte) : bool := N.eqb (b2n a) (b2n b).

Fixpoint bytes_eqb (a b : bytes) : bool :=
  match a, b with
  | [], [] => true
  | x :: a', y :: b' => byte_eqb x y && bytes_eqb a' b'
  | _, _ => false
  end.

(* a ^ b on bytes *)
Definition bxor (a b : byte) : byte := n2b (N.lxor (b2n a) (b2n b)).

(* struct.pack(">...", n) on k bytes: most significant byte first *)
Fixpoint be_bytes (k : nat) (n : N) : bytes :=
  match k with
  | O => []
  | S k' => n2b (n / 256 ^ N.of_nat k') :: be_bytes k' n
  end.

(* struct.unpack(">..."), most significant byte first *)
Definition be_N (bs : bytes) : N :=
  fold_left (fun a b => (a * 256 + b2n b)%N) bs 0%N.

(* len(data) *)
Definition lenN {A} (l : list A) : N := N.of_nat (List.length l).
Definition lenZ {A} (l : list A) : Z := Z.of_nat (List.length l).

(* ---- str: a list of code points ---- *)

Definition str := list N.

(* literals: s "text" is a str, b "text" a bytes object (ASCII text) *)
Definition s (x : String.string) : str :=
  List.map Ascii.N_of_ascii (String.list_ascii_of_string x).
Definition b (x : String.string) : bytes := String.list_byte_of_string x.

Fixpoint str_eqb (x y : str) : bool :=
  match x, y with
  | [], [] => true
  | a :: x', c :: y' => N.eqb a c && str_eqb x' y'
  | _, _ => false
  end.

(* str(n) for a non negative integer; the number of bits of n bounds the number of digits *)
Fixpoint decimal (fuel : nat) (n : N) (acc : str) : str :=
  match fuel with
  | O => acc
  | S f => let acc := (48 + n mod 10)%N :: acc in
           if (n / 10 =? 0)%N then acc else decimal f (n / 10) acc
  end.
Definition str_of_N (n : N) : str := decimal (S (N.size_nat n)) n [].

(* str(z) *)
Definition str_of_Z (z : Z) : str :=
  match z with
  | Z0 => s "0"
  | Zpos p => str_of_N (Npos p)
  | Zneg p => s "-" ++ str_of_N (Npos p)
  end.

(* s.lower() on ASCII letters.  Python lowers every cased code point; header names
   and values compared by the code are ASCII once parsed. *)
Definition lower_char (c : N) : N :=
  if (65 <=? c)%N && (c <=? 90)%N then (c + 32)%N else c.
Definition lower (x : str) : str := List.map lower_char x.

(* sep.join(l) *)
Fixpoint join (sep : str) (l : list str) : str :=
  match l with
  | [] => []
  | [x] => x
  | x :: l' => x ++ sep ++ join sep l'
  end.

(* ---- exceptions ---- *)

(* websockets/exceptions.py 38-373, datastructures.py 14-32, and the built-in
   exceptions the modelled code raises.  The message is kept when it can be observed
   (it is put in a close frame or in the body of an HTTP response). *)
Inductive exn : Type :=
| ProtocolError (msg : str)                 (* exceptions.py 366 *)
| PayloadTooBig (msg : str)                 (* exceptions.py 359 *)
| InvalidState (msg : str)                  (* exceptions.py 336 *)
| SecurityError (msg : str)                 (* exceptions.py 161 *)
| InvalidHandshakeExn (msg : str)           (* exceptions.py 154 *)
| InvalidMessage (msg : str)                (* exceptions.py 170 *)
| InvalidHeader (name : str) (value : option str)         (* exceptions.py 177 *)
| InvalidHeaderFormat (name error header : str) (pos : N) (* exceptions.py 195 *)
| InvalidHeaderValue (name : str) (value : option str)    (* exceptions.py 209 *)
| InvalidOrigin (origin : option str)       (* exceptions.py 218 *)
| InvalidUpgrade (name : str) (value : option str)        (* exceptions.py 228 *)
| InvalidStatusCode (status : Z)            (* exceptions.py 235 *)
| NegotiationError (msg : str)              (* exceptions.py 249 *)
| DuplicateParameter (name : str)           (* exceptions.py 256 *)
| InvalidParameterName (name : str)         (* exceptions.py 268 *)
| InvalidParameterValue (name : str) (value : option str) (* exceptions.py 280 *)
| InvalidURI (uri : str)                    (* exceptions.py 347 *)
| EOFError
| UnicodeDecodeError (reason : str) (start : N)
| UnicodeEncodeError
| ValueError
| BinasciiError
| TypeError
| KeyError
| MultipleValuesError (name : str)          (* datastructures.py 22 *)
| StructError
| ZlibError
| AttributeError
| AssertionError
| NotImplementedError
| RuntimeError.

Inductive result (A : Type) : Type :=
| Ok (a : A)
| Raise (e : exn).
Arguments Ok {A} a.
Arguments Raise {A} e.

Definition rbind {A B} (r : result A) (f : A -> result B) : result B :=
  match r with Ok a => f a | Raise e => Raise e end.

Notation "'let!' x := r 'in' k" := (rbind r (fun x => k))
  (at level 200, x pattern, right associativity).
