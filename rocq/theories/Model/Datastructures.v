(* Model of src/websockets/datastructures.py (Headers).
   [h_dict] is the Python dict self._dict, in insertion order, [h_list] is self._list.
   Each dict value is the list object itself; sharing of that object between a Headers
   and its copy is modelled separately in Model/HeadersHeap.v. *)
From Verif Require Import Base.Prelude Base.Utf8.

Record headers : Type := { h_dict : list (str * list str); h_list : list (str * str) }.

Definition headers_empty : headers := {| h_dict := []; h_list := [] |}.

(* dict lookup *)
Fixpoint dict_get (d : list (str * list str)) (k : str) : option (list str) :=
  match d with
  | [] => None
  | (k', v) :: d' => if str_eqb k' k then Some v else dict_get d' k
  end.

(* self._dict.setdefault(k, []).append(v) *)
Fixpoint dict_append (d : list (str * list str)) (k v : str) : list (str * list str) :=
  match d with
  | [] => [(k, [v])]
  | (k', vs) :: d' =>
      if str_eqb k' k then (k', vs ++ [v]) :: d' else (k', vs) :: dict_append d' k v
  end.

(* del self._dict[k] *)
Fixpoint dict_del (d : list (str * list str)) (k : str) : list (str * list str) :=
  match d with
  | [] => []
  | (k', vs) :: d' => if str_eqb k' k then d' else (k', vs) :: dict_del d' k
  end.

(* datastructures.py 81-82: __str__ *)
Definition headers_str (h : headers) : str :=
  concat (map (fun kv => fst kv ++ s ": " ++ snd kv ++ [13; 10]%N) (h_list h)) ++ [13; 10]%N.

(* datastructures.py 93-95: serialize *)
Definition headers_serialize (h : headers) : result bytes := utf8_encode (headers_str h).

(* datastructures.py 99-100: __contains__ *)
Definition headers_contains (h : headers) (k : str) : bool :=
  match dict_get (h_dict h) (lower k) with Some _ => true | None => false end.

(* datastructures.py 102-103: __iter__ *)
Definition headers_iter (h : headers) : list str := map fst (h_dict h).

(* datastructures.py 105-106: __len__ *)
Definition headers_len (h : headers) : nat := length (h_dict h).

(* datastructures.py 110-115: __getitem__ *)
Definition headers_getitem (h : headers) (k : str) : result str :=
  match dict_get (h_dict h) (lower k) with
  | None => Raise KeyError
  | Some [v] => Ok v
  | Some _ => Raise (MultipleValuesError k)
  end.

(* datastructures.py 117-119: __setitem__ *)
Definition headers_setitem (h : headers) (k v : str) : headers :=
  {| h_dict := dict_append (h_dict h) (lower k) v; h_list := h_list h ++ [(k, v)] |}.

(* datastructures.py 121-125: __delitem__ *)
Definition headers_delitem (h : headers) (k : str) : result headers :=
  match dict_get (h_dict h) (lower k) with
  | None => Raise KeyError
  | Some _ =>
      Ok {| h_dict := dict_del (h_dict h) (lower k);
            h_list := filter (fun kv => negb (str_eqb (lower (fst kv)) (lower k))) (h_list h) |}
  end.

(* datastructures.py 127-130: __eq__ (between two Headers) *)
Fixpoint items_eqb (x y : list (str * str)) : bool :=
  match x, y with
  | [], [] => true
  | (k, v) :: x', (k', v') :: y' => str_eqb k k' && str_eqb v v' && items_eqb x' y'
  | _, _ => false
  end.
Definition headers_eqb (x y : headers) : bool := items_eqb (h_list x) (h_list y).

(* datastructures.py 132-138: clear *)
Definition headers_clear (h : headers) : headers := headers_empty.

(* datastructures.py 142-149: get_all *)
Definition headers_get_all (h : headers) (k : str) : list str :=
  match dict_get (h_dict h) (lower k) with None => [] | Some vs => vs end.

(* datastructures.py 151-156: raw_items *)
Definition headers_raw_items (h : headers) : list (str * str) := h_list h.

(* collections.abc.Mapping.get: only KeyError is caught *)
Definition headers_get (h : headers) (k : str) : result (option str) :=
  match headers_getitem h k with
  | Ok v => Ok (Some v)
  | Raise KeyError => Ok None
  | Raise e => Raise e
  end.

(* collections.abc.MutableMapping.pop, without default *)
Definition headers_pop (h : headers) (k : str) : result (headers * str) :=
  let! v := headers_getitem h k in
  let! h' := headers_delitem h k in
  Ok (h', v).

(* MutableMapping.update(other) when other is an iterable of pairs *)
Definition headers_update (h : headers) (items : list (str * str)) : headers :=
  fold_left (fun h kv => headers_setitem h (fst kv) (snd kv)) items h.

(* collections.abc.MutableMapping.setdefault (the returned value is never used) *)
Definition headers_setdefault (h : headers) (k v : str) : result headers :=
  match headers_getitem h k with
  | Ok _ => Ok h
  | Raise KeyError => Ok (headers_setitem h k v)
  | Raise e => Raise e
  end.

(* datastructures.py 75-79: Headers(items) for an iterable of pairs *)
Definition headers_of (items : list (str * str)) : headers :=
  headers_update headers_empty items.

(* MutableMapping.update(other) when other is a Mapping: for key in other: self[key] = other[key];
   Headers(h) for a Headers h (datastructures.py 75-79). *)
Fixpoint headers_update_keys (dst src : headers) (keys : list str) : result headers :=
  match keys with
  | [] => Ok dst
  | k :: keys' =>
      let! v := headers_getitem src k in
      headers_update_keys (headers_setitem dst k v) src keys'
  end.
Definition headers_of_headers (h : headers) : result headers :=
  headers_update_keys headers_empty h (headers_iter h).
