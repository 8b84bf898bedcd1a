(* Model of reading a request from an asyncio.StreamReader whose limit is half of the argument
   read_limit (legacy/protocol.py 236-243), while the request arrives in any number of pieces. *)
From Verif Require Import Base.Prelude Base.Utf8 Base.PyInt Model.Datastructures Model.Streams Model.Http11.
Local Open Scope N_scope.

(* asyncio.StreamReader: the buffer, and the pieces of data that will be received before EOF.  The
   network can't fail here. *)
Record stream : Type := { st_buffer : bytes; st_coming : list bytes }.

(* asyncio/streams.py: how StreamReader.readuntil ends, with IncompleteReadError or LimitOverrunError *)
Inductive until_result : Type :=
| UntilFound (line : bytes) (rest : stream)
| UntilEof (partial : bytes)
| UntilOverrun (rest : list bytes).

(* asyncio/streams.py 580-672: StreamReader.readuntil(b"\n").  The search starts at the beginning
   of the buffer, rather than at the offset where the previous one ended. *)
Fixpoint readuntil (limit : N) (buffer : bytes) (coming : list bytes) : until_result :=
  match find_lf buffer with
  | Some isep =>
    if limit <? N.of_nat isep then UntilOverrun coming
    else UntilFound (firstn (isep + 1)%nat buffer) {| st_buffer := skipn (isep + 1)%nat buffer; st_coming := coming |}
  | None =>
    if limit <? lenN buffer then UntilOverrun coming
    else match coming with
         | [] => UntilEof buffer
         | data :: coming => readuntil limit (buffer ++ data) coming
         end
  end.

(* asyncio/streams.py 545-578: StreamReader.readline.  What remains in the buffer when ValueError is
   raised isn't modelled: nothing is read after it. *)
Definition readline (limit : N) (x : stream) : result (bytes * stream) :=
  match readuntil limit (st_buffer x) (st_coming x) with
  | UntilFound line rest => Ok (line, rest)
  | UntilEof partial => Ok (partial, {| st_buffer := []; st_coming := [] |})
  | UntilOverrun _ => Raise ValueError
  end.

(* legacy/http.py 178-193: read_line *)
Definition stream_read_line (limit : N) (x : stream) : result (bytes * stream) :=
  let! (line, x) := readline limit x in
  if MAX_LINE <? lenN line then Raise (SecurityError (s "line too long"))
  else match strip_crlf line with
       | None => Raise EOFError
       | Some r => Ok (r, x)
       end.

(* legacy/http.py 137-175: read_headers.  [n] is what remains of range(MAX_HEADERS + 1). *)
Fixpoint stream_read_headers (limit : N) (n : nat) (h : headers) (x : stream) : result headers :=
  match n with
  | O => Raise (SecurityError (s "too many HTTP headers"))
  | S n =>
    let! (line, x) := stream_read_line limit x in
    match line with
    | [] => Ok h
    | _ =>
      match split1 (n2b 58) line with
      | None => Raise ValueError
      | Some (raw_name, raw_value) =>
        if negb (token_fullmatch raw_name) then Raise ValueError
        else
          let raw_value := strip_ows raw_value in
          if negb (value_fullmatch raw_value) then Raise ValueError
          else stream_read_headers limit n (headers_setitem h (map b2n raw_name) (ascii_surrogateescape raw_value)) x
      end
    end
  end.

(* legacy/http.py 43-87: read_request *)
Definition stream_read_request (limit : N) (x : stream) : result request :=
  let! (request_line, x) := stream_read_line limit x in
  match split3 request_line with
  | None => Raise ValueError
  | Some (method, raw_path, version) =>
    if negb (bytes_eqb method (b "GET")) then Raise ValueError
    else if negb (bytes_eqb version (b "HTTP/1.1")) then Raise ValueError
    else
      let! h := stream_read_headers limit (MAX_HEADERS + 1)%nat headers_empty x in
      Ok {| req_path := ascii_surrogateescape raw_path; req_headers := h |}
  end.

(* legacy/server.py 233-258: read_http_request, with legacy/protocol.py 243: the limit of the stream
   is read_limit // 2 *)
Definition stream_read_http_request (read_limit : N) (x : stream) : result request :=
  match stream_read_request (read_limit / 2) x with
  | Ok req => Ok req
  | Raise _ => Raise (InvalidMessage (s "did not receive a valid HTTP request"))
  end.

(* legacy/http.py 90-134: read_response *)
Definition stream_read_response (limit : N) (x : stream) : result (Z * str * headers) :=
  let! (status_line, x) := stream_read_line limit x in
  match split3 status_line with
  | None => Raise ValueError
  | Some (version, raw_status_code, raw_reason) =>
    if negb (bytes_eqb version (b "HTTP/1.1")) then Raise ValueError
    else match py_int (map b2n raw_status_code) with
    | None => Raise ValueError
    | Some status_code =>
      if negb ((100 <=? status_code)%Z && (status_code <? 1000)%Z) then Raise ValueError
      else if negb (value_fullmatch raw_reason) then Raise ValueError
      else
        let! reason := utf8_decode raw_reason in
        let! h := stream_read_headers limit (MAX_HEADERS + 1)%nat headers_empty x in
        Ok (status_code, reason, h)
    end
  end.

(* legacy/client.py 87-116: read_http_response *)
Definition stream_read_http_response (read_limit : N) (x : stream) : result (Z * headers) :=
  match stream_read_response (read_limit / 2) x with
  | Ok (status_code, _, h) => Ok (status_code, h)
  | Raise _ => Raise (InvalidMessage (s "did not receive a valid HTTP response"))
  end.
