(* Python's int(x) in base 10 on ASCII text: optional surrounding whitespace, optional
   sign, digits possibly separated by single underscores.  Not part of /repo. *)
From Verif Require Import Base.Prelude.
Local Open Scope N_scope.

Definition is_digit (c : N) : bool := (48 <=? c) && (c <=? 57).
Definition is_space (c : N) : bool := (c =? 32) || ((9 <=? c) && (c <=? 13)).

Fixpoint lstrip_space (x : str) : str :=
  match x with c :: r => if is_space c then lstrip_space r else x | [] => [] end.
Definition strip_space (x : str) : str := rev (lstrip_space (rev (lstrip_space x))).

(* digits with single underscores between digits; [seen]: a digit comes just before *)
Fixpoint int_digits (x : str) (acc : N) (seen : bool) : option N :=
  match x with
  | [] => if seen then Some acc else None
  | c :: r =>
      if is_digit c then int_digits r (acc * 10 + (c - 48)) true
      else if (c =? 95) && seen then
        match r with
        | c' :: _ => if is_digit c' then int_digits r acc false else None
        | [] => None
        end
      else None
  end.

Definition py_int (x : str) : option Z :=
  match strip_space x with
  | 43 :: r => option_map Z.of_N (int_digits r 0 false)
  | 45 :: r => option_map (fun n => (- Z.of_N n)%Z) (int_digits r 0 false)
  | r => option_map Z.of_N (int_digits r 0 false)
  end.

Example py_int_101 : py_int (s "101") = Some 101%Z. Proof. reflexivity. Qed.
Example py_int_lenient : py_int (s "+1_0_1 ") = Some 101%Z. Proof. reflexivity. Qed.
Example py_int_bad : map py_int [s ""; s "_1"; s "1__0"; s "1_"; s "+"; s "1 0"; s "+-1"]
  = [None; None; None; None; None; None; None]. Proof. reflexivity. Qed.
