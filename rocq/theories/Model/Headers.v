(* Model of src/websockets/headers.py.
   A position [pos] in [header] is represented by what follows it, header[pos:]; the
   position is then len(header) - len(header[pos:]).  Loops have a bound on their number of
   iterations, which is never reached (Proofs/HeadersFacts.v). *)
From Verif Require Import Base.Prelude Base.Utf8 Base.Base64 Model.Http11.
Local Open Scope N_scope.

(* InvalidHeaderFormat(header_name, error, header, pos) *)
Definition bad_format (header_name error header rest : str) : exn :=
  InvalidHeaderFormat header_name error header (lenN header - lenN rest).

(* headers.py 47-56: peek_ahead(header, pos) == c *)
Definition peek_is (c : N) (rest : str) : bool :=
  match rest with [] => false | x :: _ => x =? c end.

(* headers.py 59-74: parse_OWS *)
Fixpoint parse_OWS (rest : str) : str :=
  match rest with
  | c :: r => if (c =? 9) || (c =? 32) then parse_OWS r else rest
  | [] => []
  end.

(* the longest prefix of characters in a class, and what follows: [class]* *)
Fixpoint span (class : N -> bool) (rest : str) : str * str :=
  match rest with
  | c :: r => if class c then let '(x, y) := span class r in (c :: x, y) else ([], rest)
  | [] => ([], [])
  end.

Section Parse.
Context (header header_name : str).

(* headers.py 77-92: parse_token *)
Definition parse_token (rest : str) : result (str * str) :=
  match span is_tchar rest with
  | ([], _) => Raise (bad_format header_name (s "expected token") header rest)
  | (x, y) => Ok (x, y)
  end.

(* headers.py 95-97: a character of _quoted_string_re outside of quoted pairs *)
Definition is_qdtext (c : N) : bool :=
  (c =? 9) || ((32 <=? c) && (c <=? 33)) || ((35 <=? c) && (c <=? 91)) || ((93 <=? c) && (c <=? 126)).
(* headers.py 96, 100, 118: [\x09\x20-\x7e\x80-\xff] *)
Definition is_quotable (c : N) : bool :=
  (c =? 9) || ((32 <=? c) && (c <=? 126)) || ((128 <=? c) && (c <=? 255)).

(* headers.py 95-97, 112-115: after the opening quote, what _unquote_re.sub makes of the
   content, and what follows the closing quote.  The alternatives of the regular expression
   exclude each other, so matching never backtracks. *)
Fixpoint quoted_tail (rest : str) : option (str * str) :=
  match rest with
  | [] => None
  | c :: r =>
    if c =? 34 then Some ([], r)
    else if c =? 92 then
      match r with
      | d :: r' =>
        if is_quotable d then
          match quoted_tail r' with Some (v, y) => Some (d :: v, y) | None => None end
        else None
      | [] => None
      end
    else if is_qdtext c then
      match quoted_tail r with Some (v, y) => Some (c :: v, y) | None => None end
    else None
  end.

(* headers.py 103-115: parse_quoted_string *)
Definition parse_quoted_string (rest : str) : result (str * str) :=
  match rest with
  | 34 :: r =>
    match quoted_tail r with
    | Some vy => Ok vy
    | None => Raise (bad_format header_name (s "expected quoted string") header rest)
    end
  | _ => Raise (bad_format header_name (s "expected quoted string") header rest)
  end.

(* headers.py 164-165, 184-185: while peek_ahead(header, pos) == ",": pos = parse_OWS(header, pos + 1) *)
Fixpoint skip_commas (fuel : nat) (rest : str) : str :=
  match fuel with
  | O => rest
  | S f => match rest with
           | c :: r => if c =? 44 then skip_commas f (parse_OWS r) else rest
           | [] => []
           end
  end.

(* headers.py 168-189: the loop of parse_list *)
Fixpoint parse_list_loop {A} (parse_item : str -> result (A * str)) (fuel : nat) (rest : str)
  : result (list A) :=
  match fuel with
  | O => Raise NotImplementedError   (* unreachable *)
  | S f =>
    let! (item, rest) := parse_item rest in
    let rest := parse_OWS rest in
    match rest with
    | [] => Ok [item]
    | _ =>
      if peek_is 44 rest then
        let rest := skip_commas (length rest) rest in
        match rest with
        | [] => Ok [item]
        | _ => let! items := parse_list_loop parse_item f rest in Ok (item :: items)
        end
      else Raise (bad_format header_name (s "expected comma") header rest)
    end
  end.

(* headers.py 137-199: parse_list(parse_item, header, 0, header_name) *)
Definition parse_list {A} (parse_item : str -> result (A * str)) : result (list A) :=
  parse_list_loop parse_item (S (length header)) (skip_commas (length header) header).

(* headers.py 225-243: parse_upgrade_protocol.  [_protocol_re] matches a token, then a slash
   and a token if there is one after the slash. *)
Definition parse_upgrade_protocol (rest : str) : result (str * str) :=
  match span is_tchar rest with
  | ([], _) => Raise (bad_format header_name (s "expected protocol") header rest)
  | (x, 47 :: r) =>
    match span is_tchar r with
    | ([], _) => Ok (x, 47 :: r)
    | (y, r') => Ok (x ++ [47] ++ y, r')
    end
  | (x, r) => Ok (x, r)
  end.

(* headers.py 265-296: parse_extension_item_param *)
Definition parse_extension_item_param (rest : str) : result ((str * option str) * str) :=
  let! (name, rest) := parse_token rest in
  let rest := parse_OWS rest in
  if peek_is 61 rest then
    let rest := parse_OWS (tl rest) in
    let! (value, rest) :=
      if peek_is 34 rest then
        let! (value, rest') := parse_quoted_string rest in
        match span is_tchar value with
        | (_ :: _, []) => Ok (value, rest')
        | _ => Raise (bad_format header_name (s "invalid quoted header content") header rest)
        end
      else parse_token rest in
    Ok ((name, Some value), parse_OWS rest)
  else Ok ((name, None), rest).

(* headers.py 315-319: the loop of parse_extension_item *)
Fixpoint parse_params (fuel : nat) (rest : str) : result (list (str * option str) * str) :=
  match fuel with
  | O => Raise NotImplementedError   (* unreachable *)
  | S f =>
    if peek_is 59 rest then
      let! (param, rest) := parse_extension_item_param (parse_OWS (tl rest)) in
      let! (params, rest) := parse_params f rest in
      Ok (param :: params, rest)
    else Ok ([], rest)
  end.

(* headers.py 299-320: parse_extension_item *)
Definition parse_extension_item (rest : str) : result ((str * list (str * option str)) * str) :=
  let! (name, rest) := parse_token rest in
  let rest := parse_OWS rest in
  let! (params, rest) := parse_params (S (length rest)) rest in
  Ok ((name, params), rest).

(* headers.py 441-456: parse_token68 *)
Definition is_token68_char (c : N) : bool :=
  ((65 <=? c) && (c <=? 90)) || ((97 <=? c) && (c <=? 122)) || ((48 <=? c) && (c <=? 57))
  || existsb (N.eqb c) (s "-._~+/").
Definition parse_token68 (rest : str) : result (str * str) :=
  match span is_token68_char rest with
  | ([], _) => Raise (bad_format header_name (s "expected token68") header rest)
  | (x, r) => let '(y, r') := span (N.eqb 61) r in Ok (x ++ y, r')
  end.

(* headers.py 459-465: parse_end *)
Definition parse_end (rest : str) : result unit :=
  match rest with
  | [] => Ok tt
  | _ => Raise (bad_format header_name (s "trailing data") header rest)
  end.
End Parse.

(* headers.py 202-222: parse_connection_option, parse_connection *)
Definition parse_connection (header : str) : result (list str) :=
  parse_list header (s "Connection") (parse_token header (s "Connection")).

(* headers.py 246-255: parse_upgrade *)
Definition parse_upgrade (header : str) : result (list str) :=
  parse_list header (s "Upgrade") (parse_upgrade_protocol header (s "Upgrade")).

Definition ext_header : Type := str * list (str * option str).

(* headers.py 323-347: parse_extension *)
Definition parse_extension (header : str) : result (list ext_header) :=
  parse_list header (s "Sec-WebSocket-Extensions")
    (parse_extension_item header (s "Sec-WebSocket-Extensions")).

(* headers.py 351-367: build_extension_item *)
Definition build_param (p : str * option str) : str :=
  match snd p with None => fst p | Some v => fst p ++ s "=" ++ v end.
Definition build_extension_item (e : ext_header) : str :=
  join (s "; ") (fst e :: map build_param (snd e)).

(* headers.py 370-379: build_extension *)
Definition build_extension (l : list ext_header) : str := join (s ", ") (map build_extension_item l).

(* headers.py 385-409: parse_subprotocol_item, parse_subprotocol *)
Definition parse_subprotocol (header : str) : result (list str) :=
  parse_list header (s "Sec-WebSocket-Protocol") (parse_token header (s "Sec-WebSocket-Protocol")).

(* headers.py 415-422: build_subprotocol *)
Definition build_subprotocol (l : list str) : str := join (s ", ") l.

(* headers.py 118-134: build_quoted_string *)
Definition quote_char (c : N) : str := if (c =? 34) || (c =? 92) then [92; c] else [c].
Definition build_quoted_string (value : str) : result str :=
  if forallb is_quotable value then Ok (s """" ++ flat_map quote_char value ++ s """")
  else Raise ValueError.

(* headers.py 428-438: build_www_authenticate_basic *)
Definition build_www_authenticate_basic (realm : str) : result str :=
  let! realm := build_quoted_string realm in
  let! charset := build_quoted_string (s "UTF-8") in
  Ok (s "Basic realm=" ++ realm ++ s ", charset=" ++ charset).

(* user_pass.split(":", 1), None when there's no colon *)
Fixpoint split_colon (x : str) : option (str * str) :=
  match x with
  | [] => None
  | c :: r => if c =? 58 then Some ([], r)
              else match split_colon r with Some (u, p) => Some (c :: u, p) | None => None end
  end.

(* headers.py 468-505: parse_authorization_basic.  UnicodeDecodeError isn't caught. *)
Definition parse_authorization_basic (header : str) : result (str * str) :=
  let name := s "Authorization" in
  let! (scheme, rest) := parse_token header name header in
  if negb (str_eqb (lower scheme) (s "basic")) then
    Raise (InvalidHeaderValue name (Some (s "unsupported scheme: " ++ scheme)))
  else if negb (peek_is 32 rest) then
    Raise (bad_format name (s "expected space after scheme") header rest)
  else
    let! (basic_credentials, rest) := parse_token68 header name (tl rest) in
    let! _ := parse_end header name rest in
    let! data := utf8_encode basic_credentials in
    match b64decode data with
    | Raise BinasciiError =>
        Raise (InvalidHeaderValue name (Some (s "expected base64-encoded credentials")))
    | Raise e => Raise e
    | Ok raw =>
      let! user_pass := utf8_decode raw in
      match split_colon user_pass with
      | None => Raise (InvalidHeaderValue name (Some (s "expected username:password credentials")))
      | Some up => Ok up
      end
    end.

(* headers.py 508-519: build_authorization_basic *)
Definition build_authorization_basic (username password : str) : result str :=
  if existsb (N.eqb 58) username then Raise AssertionError
  else
    let! user_pass := utf8_encode (username ++ s ":" ++ password) in
    Ok (s "Basic " ++ map b2n (b64encode user_pass)).
