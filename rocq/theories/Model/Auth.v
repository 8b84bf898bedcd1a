(* Model of src/websockets/legacy/auth.py.  Python objects given as credentials are strings,
   tuples, lists, or objects that aren't iterable; other iterables behave like lists. *)
From Verif Require Import Base.Prelude Base.Utf8 Model.Datastructures Model.Headers Model.Server
  Model.LegacyHandshake.

Inductive pyobj : Type :=
| PyStr (x : str)
| PyTuple (l : list pyobj)
| PyList (l : list pyobj)
| PyOther.

(* list(value), None if value isn't iterable *)
Definition py_items (v : pyobj) : option (list pyobj) :=
  match v with
  | PyStr x => Some (map (fun c => PyStr [c]) x)
  | PyTuple l | PyList l => Some l
  | PyOther => None
  end.

(* auth.py 23-29: is_credentials; the unpacked pair *)
Definition as_credentials (v : pyobj) : option (str * str) :=
  match py_items v with
  | Some [PyStr username; PyStr password] => Some (username, password)
  | _ => None
  end.

(* all(is_credentials(item) for item in l), and the arguments of dict *)
Fixpoint all_credentials (l : list pyobj) : option (list (str * str)) :=
  match l with
  | [] => Some []
  | v :: l' => match as_credentials v, all_credentials l' with
               | Some c, Some cs => Some (c :: cs)
               | _, _ => None
               end
  end.

(* dict(l).get(key): the last value for this key *)
Fixpoint dict_get (l : list (str * str)) (key : str) : option str :=
  match l with
  | [] => None
  | (k, v) :: l' => match dict_get l' key with
                    | Some x => Some x
                    | None => if str_eqb k key then Some v else None
                    end
  end.

(* (username, password) == credentials, where credentials unpacks to this pair: a tuple equals
   a tuple only *)
Definition equals_pair (username password : str) (v : pyobj) : bool :=
  match v with
  | PyTuple [PyStr u; PyStr p] => str_eqb username u && str_eqb password p
  | _ => false
  end.

(* auth.py 135-156: check_credentials, for hard coded credentials; TypeError if they have the
   wrong type *)
Definition hard_coded (credentials : pyobj) : result (str -> str -> bool) :=
  match as_credentials credentials with
  | Some _ => Ok (fun username password => equals_pair username password credentials)
  | None =>
    match py_items credentials with
    | Some l =>
      match all_credentials l with
      | Some cs => Ok (fun username password =>
          match dict_get cs username with Some p => str_eqb p password | None => false end)
      | None => Raise TypeError
      end
    | None => Raise TypeError
    end
  end.

Section Auth.
(* auth.py 38-47: the arguments of BasicAuthWebSocketServerProtocol; check_credentials may be any
   coroutine.  [next] is the process_request of the parent class. *)
Context (realm : str) (check_credentials : str -> str -> result bool).
Context (next : str -> headers -> result (option http_response)).

Definition unauthorized (message : str) : result (option http_response) :=
  let! v := build_www_authenticate_basic realm in
  Ok (Some (401%Z, [(s "WWW-Authenticate", v)], map n2b (message ++ nl))).

(* exceptions.py: the subclasses of InvalidHeader *)
Definition is_invalid_header (e : exn) : bool :=
  match e with
  | InvalidHeader _ _ | InvalidHeaderFormat _ _ _ _ | InvalidHeaderValue _ _
  | InvalidOrigin _ | InvalidUpgrade _ _ => true
  | _ => false
  end.

(* auth.py 49-86: process_request.  self.username isn't modelled. *)
Definition auth_process_request (path : str) (h : headers) : result (option http_response) :=
  match headers_getitem h (s "Authorization") with
  | Raise KeyError => unauthorized (s "Missing credentials")
  | Raise e => Raise e
  | Ok authorization =>
    match parse_authorization_basic authorization with
    | Raise e => if is_invalid_header e then unauthorized (s "Unsupported credentials") else Raise e
    | Ok (username, password) =>
      let! ok := check_credentials username password in
      if ok then next path h else unauthorized (s "Invalid credentials")
    end
  end.
End Auth.
