(* What a Headers object is: the list of (name, value) pairs set so far.  Names are compared
   case-insensitively. *)
From Verif Require Import Base.Prelude.

Definition pairs := list (str * str).

Definition same_name (k k' : str) : bool := str_eqb (lower k) (lower k').

(* the values of a header, in the order they were set *)
Definition values (l : pairs) (k : str) : list str :=
  map snd (filter (fun kv => same_name (fst kv) k) l).

(* the names in use, in lower case, in the order they were first set *)
Fixpoint distinct (seen l : list str) : list str :=
  match l with
  | [] => []
  | k :: r => if existsb (str_eqb k) seen then distinct seen r else k :: distinct (seen ++ [k]) r
  end.
Definition names (l : pairs) : list str := distinct [] (map (fun kv => lower (fst kv)) l).

(* Operations: those that change a Headers object, and the queries. *)
Inductive op : Type :=
| Set_ (k v : str)                 (* headers[k] = v *)
| Del (k : str)                    (* del headers[k] *)
| Clear                            (* headers.clear() *)
| SetDefault (k v : str)           (* headers.setdefault(k, v) *)
| Pop (k : str)                    (* headers.pop(k) *)
| Update (l : pairs)               (* headers.update(l) *)
| Get (k : str)                    (* headers[k] *)
| Contains (k : str)               (* k in headers *)
| GetAll (k : str)                 (* headers.get_all(k) *)
| Iter                             (* list(headers) *)
| Len                              (* len(headers) *)
| RawItems                         (* list(headers.raw_items()) *)
| Serialize.                       (* str(headers) *)

Inductive answer : Type :=
| ANone | AStr (v : str) | ABool (x : bool) | AStrs (l : list str) | ANat (n : nat) | APairs (l : pairs)
| ARaise (e : exn).

(* headers[k]: KeyError without a value, MultipleValuesError with several *)
Definition lookup (l : pairs) (k : str) : answer :=
  match values l k with
  | [] => ARaise KeyError
  | [v] => AStr v
  | _ => ARaise (MultipleValuesError k)
  end.

Definition without (l : pairs) (k : str) : pairs := filter (fun kv => negb (same_name (fst kv) k)) l.

Definition spec_step (l : pairs) (o : op) : pairs * answer :=
  match o with
  | Set_ k v => (l ++ [(k, v)], ANone)
  | Del k => match values l k with [] => (l, ARaise KeyError) | _ => (without l k, ANone) end
  | Clear => ([], ANone)
  | SetDefault k v => match lookup l k with ARaise KeyError => (l ++ [(k, v)], AStr v) | a => (l, a) end
  | Pop k => match lookup l k with AStr v => (without l k, AStr v) | a => (l, a) end
  | Update l' => (l ++ l', ANone)
  | Get k => (l, lookup l k)
  | Contains k => (l, ABool (existsb (fun kv => same_name (fst kv) k) l))
  | GetAll k => (l, AStrs (values l k))
  | Iter => (l, AStrs (names l))
  | Len => (l, ANat (length (names l)))
  | RawItems => (l, APairs l)
  | Serialize => (l, AStr (flat_map (fun kv => fst kv ++ s ": " ++ snd kv ++ [13; 10]%N) l ++ [13; 10]%N))
  end.

Fixpoint spec_run (l : pairs) (os : list op) : pairs * list answer :=
  match os with
  | [] => (l, [])
  | o :: os => let '(l, a) := spec_step l o in let '(l, r) := spec_run l os in (l, a :: r)
  end.
