(* Model of src/websockets/http11.py.  Messages of the exceptions raised while parsing are
   not modelled: they are never sent (connection.py 284-289). *)
From Verif Require Import Base.Prelude Base.Utf8 Base.PyInt Model.Datastructures Model.Streams.
Local Open Scope N_scope.

(* http11.py 8-9 *)
Definition MAX_HEADERS : nat := 256.
Definition MAX_LINE : N := 4110.

(* http11.py 24: a character of _token_re; also headers.py 77 *)
Definition is_tchar (c : N) : bool :=
  ((48 <=? c) && (c <=? 57)) || ((65 <=? c) && (c <=? 90)) || ((97 <=? c) && (c <=? 122))
  || existsb (N.eqb c) (s "-!#$%&'*+.^_`|~").

(* http11.py 24: _token_re.fullmatch(raw_name) *)
Definition token_fullmatch (bs : bytes) : bool :=
  match bs with [] => false | _ => forallb (fun x => is_tchar (b2n x)) bs end.

(* http11.py 37: _value_re.fullmatch(raw_value) *)
Definition is_vchar (c : N) : bool :=
  (c =? 9) || ((32 <=? c) && (c <=? 126)) || ((128 <=? c) && (c <=? 255)).
Definition value_fullmatch (bs : bytes) : bool := forallb (fun x => is_vchar (b2n x)) bs.

(* bs.split(sep, 1), None when sep isn't found *)
Fixpoint split1 (sep : byte) (bs : bytes) : option (bytes * bytes) :=
  match bs with
  | [] => None
  | x :: r =>
      if byte_eqb x sep then Some ([], r)
      else match split1 sep r with
           | Some (a, c) => Some (x :: a, c)
           | None => None
           end
  end.

(* method, raw_path, version = bs.split(b" ", 2) *)
Definition split3 (bs : bytes) : option (bytes * bytes * bytes) :=
  match split1 (n2b 32) bs with
  | Some (x, r) =>
      match split1 (n2b 32) r with
      | Some (y, z) => Some (x, y, z)
      | None => None
      end
  | None => None
  end.

(* bs.strip(b" \t") *)
Definition is_ows (x : byte) : bool := (b2n x =? 32) || (b2n x =? 9).
Fixpoint lstrip_ows (bs : bytes) : bytes :=
  match bs with x :: r => if is_ows x then lstrip_ows r else bs | [] => [] end.
Definition strip_ows (bs : bytes) : bytes := rev (lstrip_ows (rev (lstrip_ows bs))).

(* bs.endswith(b"\r\n") and bs[:-2] *)
Definition strip_crlf (bs : bytes) : option bytes :=
  match rev bs with
  | lf :: cr :: r =>
      if byte_eqb lf (n2b 10) && byte_eqb cr (n2b 13) then Some (rev r) else None
  | _ => None
  end.

(* http11.py 278-298: parse_line *)
Definition parse_line {S} : gen S bytes :=
  let* line := read_line in
  if MAX_LINE <? lenN line then GRaise (SecurityError (s "line too long"))
  else match strip_crlf line with
       | None => GRaise EOFError
       | Some r => GRet r
       end.

(* http11.py 233-275: parse_headers.  [n] is what remains of range(MAX_HEADERS + 1). *)
Fixpoint parse_headers_loop {S} (n : nat) (h : headers) : gen S headers :=
  match n with
  | O => GRaise (SecurityError (s "too many HTTP headers"))
  | Datatypes.S n' =>
    let* line := parse_line in
    match line with
    | [] => GRet h
    | _ =>
      match split1 (n2b 58) line with
      | None => GRaise ValueError
      | Some (raw_name, raw_value) =>
        if negb (token_fullmatch raw_name) then GRaise ValueError
        else
          let raw_value := strip_ows raw_value in
          if negb (value_fullmatch raw_value) then GRaise ValueError
          else
            parse_headers_loop n'
              (headers_setitem h (map b2n raw_name) (ascii_surrogateescape raw_value))
      end
    end
  end.
Definition parse_headers {S} : gen S headers :=
  parse_headers_loop (MAX_HEADERS + 1) headers_empty.

(* http11.py 43-53: Request *)
Record request : Type := { req_path : str; req_headers : headers }.

(* http11.py 55-102: Request.parse *)
Definition parse_request {S} : gen S request :=
  let* request_line := parse_line in
  match split3 request_line with
  | None => GRaise ValueError
  | Some (method, raw_path, version) =>
    if negb (bytes_eqb method (b "GET")) then GRaise ValueError
    else if negb (bytes_eqb version (b "HTTP/1.1")) then GRaise ValueError
    else
      let* h := parse_headers in
      GRet {| req_path := ascii_surrogateescape raw_path; req_headers := h |}
  end.

(* http11.py 104-113: Request.serialize *)
Definition serialize_request (r : request) : result bytes :=
  let! line := utf8_encode (s "GET " ++ req_path r ++ s " HTTP/1.1" ++ [13; 10]) in
  let! h := headers_serialize (req_headers r) in
  Ok (line ++ h).

(* http11.py 119-131: Response *)
Record response : Type := {
  resp_status : Z; resp_reason : str; resp_headers : headers;
  resp_body : option bytes; resp_exception : option exn }.

(* http11.py 133-217: Response.parse *)
Definition parse_response {S} : gen S response :=
  let* status_line := parse_line in
  match split3 status_line with
  | None => GRaise ValueError
  | Some (version, raw_status_code, raw_reason) =>
    if negb (bytes_eqb version (b "HTTP/1.1")) then GRaise ValueError
    else match py_int (map b2n raw_status_code) with
    | None => GRaise ValueError
    | Some status_code =>
      if negb ((100 <=? status_code)%Z && (status_code <? 1000)%Z) then GRaise ValueError
      else if negb (value_fullmatch raw_reason) then GRaise ValueError
      else
        let* reason := glift (utf8_decode raw_reason) in
        let* h := parse_headers in
        if headers_contains h (s "Transfer-Encoding") then GRaise NotImplementedError
        else
          let* body :=
            if ((100 <=? status_code)%Z && (status_code <? 200)%Z)
               || (status_code =? 204)%Z || (status_code =? 304)%Z
            then GRet None
            else match headers_getitem h (s "Content-Length") with
                 | Raise KeyError => let* x := read_to_eof in GRet (Some x)
                 | Raise e => GRaise e
                 | Ok raw_content_length =>
                   match py_int raw_content_length with
                   | None => GRaise ValueError
                   | Some n => let* x := read_exact n in GRet (Some x)
                   end
                 end in
          GRet {| resp_status := status_code; resp_reason := reason; resp_headers := h;
                  resp_body := body; resp_exception := None |}
    end
  end.

(* http11.py 219-230: Response.serialize *)
Definition serialize_response (r : response) : result bytes :=
  let! line := utf8_encode (s "HTTP/1.1 " ++ str_of_Z (resp_status r) ++ s " "
                              ++ resp_reason r ++ [13; 10]) in
  let! h := headers_serialize (resp_headers r) in
  Ok (line ++ h ++ match resp_body r with Some x => x | None => [] end).
