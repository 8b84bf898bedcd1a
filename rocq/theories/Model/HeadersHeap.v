(* Model of src/websockets/datastructures.py (Headers) with the sharing of list objects.

   The values of the dict self._dict are lists, which are objects: here, addresses in a heap.
   self._list is copied by copy() and its elements are immutable tuples, so it is a plain
   value, as in Model/Datastructures.v. *)
From Verif Require Import Base.Prelude Model.Datastructures.

(* list objects; the address of an object is its index *)
Definition heap : Type := list (list str).
Record object : Type := { o_dict : list (str * nat); o_list : list (str * str) }.

(* datastructures.py 75-79: Headers() *)
Definition object_empty : object := {| o_dict := []; o_list := [] |}.

(* dict lookup *)
Fixpoint addr_get (d : list (str * nat)) (k : str) : option nat :=
  match d with
  | [] => None
  | (k', a) :: d' => if str_eqb k' k then Some a else addr_get d' k
  end.

(* del self._dict[k] *)
Fixpoint addr_del (d : list (str * nat)) (k : str) : list (str * nat) :=
  match d with
  | [] => []
  | (k', a) :: d' => if str_eqb k' k then d' else (k', a) :: addr_del d' k
  end.

(* the list at address a gets one more element *)
Fixpoint heap_append (h : heap) (a : nat) (v : str) : heap :=
  match h, a with
  | [], _ => []
  | l :: h', O => (l ++ [v]) :: h'
  | l :: h', S a' => l :: heap_append h' a' v
  end.

(* datastructures.py 117-119: __setitem__ *)
Definition object_setitem (h : heap) (o : object) (k v : str) : heap * object :=
  match addr_get (o_dict o) (lower k) with
  | Some a => (heap_append h a v, {| o_dict := o_dict o; o_list := o_list o ++ [(k, v)] |})
  | None => (h ++ [[v]], {| o_dict := o_dict o ++ [(lower k, length h)]; o_list := o_list o ++ [(k, v)] |})
  end.

(* datastructures.py 121-125: __delitem__ *)
Definition object_delitem (h : heap) (o : object) (k : str) : result object :=
  match addr_get (o_dict o) (lower k) with
  | None => Raise KeyError
  | Some _ =>
      Ok {| o_dict := addr_del (o_dict o) (lower k);
            o_list := filter (fun kv => negb (str_eqb (lower (fst kv)) (lower k))) (o_list o) |}
  end.

(* datastructures.py 132-138: clear *)
Definition object_clear (o : object) : object := object_empty.

(* datastructures.py 87-91: copy.  dict.copy() copies the addresses, not the lists. *)
Definition object_copy (o : object) : object := {| o_dict := o_dict o; o_list := o_list o |}.

(* What the methods that don't change the object see, as a Headers of Model/Datastructures.v. *)
Definition view (h : heap) (o : object) : headers :=
  {| h_dict := map (fun ka => (fst ka, nth (snd ka) h [])) (o_dict o); h_list := o_list o |}.

(* a mutation *)
Inductive mutation : Type := MSet (k v : str) | MDel (k : str) | MClear.
Definition mutate (h : heap) (o : object) (m : mutation) : heap * object :=
  match m with
  | MSet k v => object_setitem h o k v
  | MDel k => match object_delitem h o k with Ok o' => (h, o') | Raise _ => (h, o) end
  | MClear => (h, object_clear o)
  end.
Definition mutate_all (h : heap) (o : object) (ms : list mutation) : heap * object :=
  fold_left (fun ho m => mutate (fst ho) (snd ho) m) ms (h, o).
