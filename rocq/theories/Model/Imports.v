(* Model of src/websockets/imports.py: lazy imports, with Python 3.7 or later.

   The import system (importlib/_bootstrap.py) is modelled as follows.  The files of a program are given, with the
   names that their execution binds.  Importing a module imports its parents, executes the module if it wasn't imported
   yet, and binds it in the namespace of its parent.  Simplifications: a module is executed at once, hence what it
   imports is imported by separate operations; in the namespace of a package, submodules are bound after the names
   bound by the package itself; except for the conflicts found by lazy_import(), the execution of a module doesn't fail;
   nothing is removed from sys.modules; namespaces aren't changed by other means. *)
From Verif Require Import Base.Prelude.
Local Open Scope N_scope.

(* websockets.legacy.auth is [s "websockets"; s "legacy"; s "auth"] *)
Definition path : Type := list str.
Inductive object : Type :=
| OModule (p : path)
| OObject (p : path) (name : str).     (* what module p calls name *)
Inductive failure : Type := AttributeError | ModuleNotFoundError | ImportError | AssertionError | IndexError | RecursionError.

(* A file: whether it's a package, the names bound before and after the call to lazy_import(), the last one first, and
   the arguments of this call *)
Record source : Type := {
  so_package : bool;
  so_before : list (str * object);
  so_lazy : option (list (str * str) * list (str * str));
  so_after : list (str * object) }.

Fixpoint assoc {A} (l : list (str * A)) (k : str) : option A :=
  match l with
  | [] => None
  | (k', v) :: r => if str_eqb k' k then Some v else assoc r k
  end.
Definition bound {A} (l : list (str * A)) (k : str) : bool := match assoc l k with Some _ => true | None => false end.
Fixpoint path_eqb (p q : path) : bool :=
  match p, q with
  | [], [] => true
  | x :: p, y :: q => str_eqb x y && path_eqb p q
  | _, _ => false
  end.

Section Program.
Context (files : path -> option source).

(* imports.py 57-68: conflicts *)
Definition conflict {A B} (l : list (str * A)) (l' : list (str * B)) : bool := existsb (fun kv => bound l' (fst kv)) l.
Definition lazy_conflict (src : source) : bool :=
  match so_lazy src with
  | Some (aliases, deprecated_aliases) =>
      conflict (so_before src) aliases || conflict (so_before src) deprecated_aliases || conflict aliases deprecated_aliases
  | None => false
  end.

(* the namespace of a module which has been executed; lazy_import() binds __getattr__ and __dir__ (imports.py 98, 103) *)
Definition names_of (p : path) (src : source) : list (str * object) :=
  so_after src ++
  match so_lazy src with
  | Some _ => [(s "__getattr__", OObject p (s "__getattr__")); (s "__dir__", OObject p (s "__dir__"))]
  | None => []
  end ++ so_before src.

(* imports.py 100-101: __dir__(), before sorting and removing duplicates *)
Definition lazy_dir (src : source) : option (list str) :=
  match so_lazy src with
  | Some (aliases, deprecated_aliases) => Some (map fst (so_before src) ++ map fst aliases ++ map fst deprecated_aliases)
  | None => None
  end.

(* sys.modules, with the namespaces *)
Definition modules : Type := list (path * list (str * object)).
Fixpoint module (ms : modules) (p : path) : option (list (str * object)) :=
  match ms with
  | [] => None
  | (q, ns) :: r => if path_eqb q p then Some ns else module r p
  end.
(* setattr(p, name, o) *)
Fixpoint set_attr (ms : modules) (p : path) (name : str) (o : object) : modules :=
  match ms with
  | [] => []
  | (q, ns) :: r => if path_eqb q p then (q, (name, o) :: ns) :: r else (q, ns) :: set_attr r p name o
  end.

(* importlib._bootstrap._find_and_load, for a module and its parents *)
Fixpoint load (ms : modules) (parent : path) (rest : list str) : modules * option failure :=
  match rest with
  | [] => (ms, None)
  | c :: rest =>
    let p := parent ++ [c] in
    match module ms p with
    | Some _ => load ms p rest
    | None =>
      match files p with
      | None => (ms, Some ModuleNotFoundError)
      | Some src =>
        if lazy_conflict src then (ms, Some AssertionError)
        else load (set_attr ((p, names_of p src) :: ms) parent c (OModule p)) p rest
      end
    end
  end.
Definition import_module (ms : modules) (p : path) : modules * option failure := load ms [] p.

(* imports.py 22-25 and importlib._bootstrap._resolve_name: the absolute name of a source *)
Fixpoint dots (source : str) : nat := match source with c :: r => if c =? 46 then S (dots r) else 0 | [] => 0 end.
Fixpoint split_dots (x : str) : list str :=
  match x with
  | [] => [[]]
  | c :: r => if c =? 46 then [] :: split_dots r
              else match split_dots r with w :: l => (c :: w) :: l | [] => [[c]] end
  end.
Fixpoint up (n : nat) (p : path) : path := match n with O => p | S n => up n (removelast p) end.
Definition resolve (p : path) (package : bool) (source : str) : path + failure :=
  match source with
  | [] => inr IndexError
  | _ =>
    let level := dots source in
    if (length source <=? level)%nat then inr AssertionError
    else let rest := split_dots (skipn level source) in
      match level with
      | O => inl rest
      | S n => let base := if package then p else removelast p in
               if (length base <=? n)%nat then inr ImportError else inl (up n base ++ rest)
      end
  end.

(* imports.py 9-27: import_name(name, source, namespace) in module p, given getattr().  The state, the number of
   DeprecationWarnings, and the result.  __import__ (importlib._bootstrap._handle_fromlist) calls hasattr() when the
   source is a package, and imports a submodule if needed. *)
Definition outcome : Type := modules * nat * (object + failure).
Definition import_name (get : modules -> path -> str -> outcome) (ms : modules) (p : path) (src : source) (name source : str)
  : outcome :=
  match resolve p (so_package src) source with
  | inr e => (ms, 0%nat, inr e)
  | inl target =>
    match import_module ms target with
    | (ms, Some e) => (ms, 0%nat, inr e)
    | (ms, None) =>
      match files target with
      | Some t =>
        if so_package t then
          match get ms target name with
          | (ms, w, inl _) => let '(ms, w', r) := get ms target name in (ms, (w + w')%nat, r)
          | (ms, w, inr AttributeError) =>
              match import_module ms (target ++ [name]) with
              | (ms, None) | (ms, Some ModuleNotFoundError) =>
                  let '(ms, w', r) := get ms target name in (ms, (w + w')%nat, r)
              | (ms, Some e) => (ms, w, inr e)
              end
          | (ms, w, inr e) => (ms, w, inr e)
          end
        else get ms target name
      | None => (ms, 0%nat, inr ModuleNotFoundError)
      end
    end
  end.

(* getattr(p, name), when p was imported.  When the name isn't bound, __getattr__ (imports.py 74-96) is called.  The
   depth of calls is limited. *)
Fixpoint get_attr (depth : nat) (ms : modules) (p : path) (name : str) : outcome :=
  match depth with
  | O => (ms, 0%nat, inr RecursionError)
  | S depth =>
    match module ms p, files p with
    | Some ns, Some src =>
      match assoc ns name with
      | Some o => (ms, 0%nat, inl o)
      | None =>
        match so_lazy src with
        | None => (ms, 0%nat, inr AttributeError)
        | Some (aliases, deprecated_aliases) =>
          match assoc aliases name with
          | Some source => import_name (get_attr depth) ms p src name source
          | None =>
            match assoc deprecated_aliases name with
            | Some source => let '(ms, w, r) := import_name (get_attr depth) ms p src name source in (ms, S w, r)
            | None => (ms, 0%nat, inr AttributeError)
            end
          end
        end
      end
    | _, _ => (ms, 0%nat, inr AttributeError)
    end
  end.

(* What a program does: import a module, or get an attribute of a module.  Failures leave modules imported. *)
Inductive operation : Type := Import (p : path) | Getattr (p : path) (name : str).
Definition operate (depth : nat) (ms : modules) (o : operation) : modules :=
  match o with
  | Import p => fst (import_module ms p)
  | Getattr p name => fst (fst (get_attr depth ms p name))
  end.
Definition after (depth : nat) (os : list operation) : modules := fold_left (operate depth) os [].
End Program.
