(* Model of src/websockets/streams.py, and of generator-based coroutines.

   A generator is a value of type [gen S A]: a computation which reads from a
   StreamReader, accesses a state of type S (the attributes of the Connection object), and
   returns an A or raises.  [run] executes a generator until it returns, raises or
   yields; what remains to execute when it yields is again a [gen]. *)
From Verif Require Import Base.Prelude.

Inductive gen (S A : Type) : Type :=
| GRet (a : A)                                         (* return a *)
| GRaise (e : exn)                                     (* raise e *)
| GReadLine (p : nat) (k : result bytes -> gen S A)    (* yield from read_line(); p: local variable *)
| GReadExact (n : Z) (k : result bytes -> gen S A)     (* yield from read_exact(n) *)
| GReadToEof (k : bytes -> gen S A)                    (* yield from read_to_eof() *)
| GAtEof (k : bool -> gen S A)                         (* yield from at_eof() *)
| GGet (k : S -> gen S A)                              (* read attributes *)
| GPut (x : S) (k : gen S A)                           (* assign attributes *)
| GYield (k : gen S A).                                (* yield *)
Arguments GRet {S A} a.
Arguments GRaise {S A} e.
Arguments GReadLine {S A} p k.
Arguments GReadExact {S A} n k.
Arguments GReadToEof {S A} k.
Arguments GAtEof {S A} k.
Arguments GGet {S A} k.
Arguments GPut {S A} x k.
Arguments GYield {S A} k.

(* x = yield from g; ... *)
Fixpoint gbind {S A B} (g : gen S A) (f : A -> gen S B) : gen S B :=
  match g with
  | GRet a => f a
  | GRaise e => GRaise e
  | GReadLine p k => GReadLine p (fun r => gbind (k r) f)
  | GReadExact n k => GReadExact n (fun r => gbind (k r) f)
  | GReadToEof k => GReadToEof (fun r => gbind (k r) f)
  | GAtEof k => GAtEof (fun r => gbind (k r) f)
  | GGet k => GGet (fun x => gbind (k x) f)
  | GPut x k => GPut x (gbind k f)
  | GYield k => GYield (gbind k f)
  end.

Notation "'let*' x := g 'in' k" := (gbind g (fun x => k))
  (at level 200, x pattern, right associativity).

Definition glift {S A} (r : result A) : gen S A :=
  match r with Ok a => GRet a | Raise e => GRaise e end.

(* the readers, raising in the caller *)
Definition read_line {S} : gen S bytes := GReadLine 0 glift.
Definition read_exact {S} (n : Z) : gen S bytes := GReadExact n glift.
Definition read_to_eof {S} : gen S bytes := GReadToEof GRet.
Definition at_eof {S} : gen S bool := GAtEof GRet.
Definition get_state {S} : gen S S := GGet GRet.
Definition put_state {S} (x : S) : gen S unit := GPut x (GRet tt).

(* streams.py 14-16: StreamReader.__init__ *)
Record reader : Type := { r_buffer : bytes; r_eof : bool }.
Definition reader_init : reader := {| r_buffer := []; r_eof := false |}.
Definition with_buffer (r : reader) (x : bytes) : reader :=
  {| r_buffer := x; r_eof := r_eof r |}.

(* offset of the first LF in a byte string *)
Fixpoint find_lf (bs : bytes) : option nat :=
  match bs with
  | [] => None
  | x :: r => if byte_eqb x (n2b 10) then Some 0
              else match find_lf r with Some i => Some (S i) | None => None end
  end.

(* buffer.find(b"\n", p) *)
Definition find_lf_from (p : nat) (bs : bytes) : option nat :=
  match find_lf (skipn p bs) with Some i => Some (p + i)%nat | None => None end.

Inductive outcome (S A : Type) : Type :=
| OSusp (g : gen S A) (r : reader) (x : S)    (* yielded *)
| ODone (a : A) (r : reader) (x : S)          (* returned *)
| OFail (e : exn) (r : reader) (x : S).       (* raised *)
Arguments OSusp {S A} g r x.
Arguments ODone {S A} a r x.
Arguments OFail {S A} e r x.

(* next(generator) *)
Fixpoint run {S A} (g : gen S A) (r : reader) (x : S) : outcome S A :=
  match g with
  | GRet a => ODone a r x
  | GRaise e => OFail e r x
  (* streams.py 18-41: read_line *)
  | GReadLine p k =>
      match find_lf_from p (r_buffer r) with
      | Some i =>
          let n := (i + 1)%nat in
          run (k (Ok (firstn n (r_buffer r)))) (with_buffer r (skipn n (r_buffer r))) x
      | None =>
          if r_eof r then run (k (Raise EOFError)) r x
          else OSusp (GReadLine (length (r_buffer r)) k) r x
      end
  (* streams.py 43-60: read_exact *)
  | GReadExact n k =>
      if (n <? 0)%Z then run (k (Raise AssertionError)) r x
      else if (lenZ (r_buffer r) <? n)%Z then
        if r_eof r then run (k (Raise EOFError)) r x
        else OSusp (GReadExact n k) r x
      else run (k (Ok (firstn (Z.to_nat n) (r_buffer r))))
               (with_buffer r (skipn (Z.to_nat n) (r_buffer r))) x
  (* streams.py 62-73: read_to_eof *)
  | GReadToEof k =>
      if r_eof r then run (k (r_buffer r)) (with_buffer r []) x
      else OSusp (GReadToEof k) r x
  (* streams.py 75-89: at_eof *)
  | GAtEof k =>
      match r_buffer r with
      | _ :: _ => run (k false) r x
      | [] => if r_eof r then run (k true) r x else OSusp (GAtEof k) r x
      end
  | GGet k => run (k x) r x
  | GPut y k => run k r y
  | GYield k => OSusp k r x
  end.

(* streams.py 91-102: feed_data *)
Definition feed_data (r : reader) (data : bytes) : result reader :=
  if r_eof r then Raise EOFError
  else Ok {| r_buffer := r_buffer r ++ data; r_eof := false |}.

(* streams.py 104-115: feed_eof *)
Definition feed_eof (r : reader) : result reader :=
  if r_eof r then Raise EOFError
  else Ok {| r_buffer := r_buffer r; r_eof := true |}.
