(* Model of src/websockets/uri.py, and of the parts of urllib.parse (CPython 3.11) it uses.
   Earlier versions of Python don't strip and remove control characters, and don't check
   addresses between brackets. *)
From Verif Require Import Base.Prelude Base.PyInt Base.Utf8 Model.Client.

(* What is provided by the standard library for non-ASCII text and IP addresses. *)
Record uri_env : Type := {
  (* _check_bracketed_host (urllib/parse.py 441-448) accepts what is between brackets *)
  ue_bracketed : str -> bool;
  (* _checknetloc (urllib/parse.py 421-437) accepts the authority; only for non-ASCII text *)
  ue_nfkc_ok : str -> bool;
  (* str.lower *)
  ue_lower : str -> str;
  (* host.encode("idna").decode() *)
  ue_idna : str -> result str }.

(* x.partition(c), with None when c isn't found *)
Fixpoint partition (c : N) (x : str) : str * option str :=
  match x with
  | [] => ([], None)
  | d :: x' => if (d =? c)%N then ([], Some x')
               else let '(before, after) := partition c x' in (d :: before, after)
  end.

(* x.rpartition(c): None when c isn't found *)
Fixpoint rpartition (c : N) (x : str) : option (str * str) :=
  match x with
  | [] => None
  | d :: x' => match rpartition c x' with
               | Some (before, after) => Some (d :: before, after)
               | None => if (d =? c)%N then Some ([], x') else None
               end
  end.

Definition contains (c : N) (x : str) : bool := existsb (N.eqb c) x.
Definition is_ascii (x : str) : bool := forallb (fun c => c <? 128)%N x.

(* urllib/parse.py 83-87: scheme_chars *)
Definition is_alpha (c : N) : bool :=
  ((65 <=? c) && (c <=? 90) || (97 <=? c) && (c <=? 122))%N.
Definition is_scheme_char (c : N) : bool :=
  (is_alpha c || is_digit c || (c =? 43) || (c =? 45) || (c =? 46))%N.

(* urllib/parse.py 477-482: url.lstrip(_WHATWG_C0_CONTROL_OR_SPACE), then remove tab, CR, LF *)
Fixpoint lstrip_control (x : str) : str :=
  match x with c :: x' => if (c <=? 32)%N then lstrip_control x' else x | [] => [] end.
Definition clean (x : str) : str :=
  filter (fun c => negb ((c =? 9) || (c =? 10) || (c =? 13))%N) (lstrip_control x).

(* urllib/parse.py 486-492: scheme and rest *)
Definition split_scheme (url : str) : str * str :=
  match partition 58 url with
  | (c :: sc, Some rest) =>
      if is_alpha c && forallb is_scheme_char (c :: sc) then (lower (c :: sc), rest) else ([], url)
  | _ => ([], url)
  end.

(* urllib/parse.py 413-419: _splitnetloc *)
Fixpoint split_netloc (url : str) : str * str :=
  match url with
  | [] => ([], [])
  | c :: url' => if ((c =? 47) || (c =? 63) || (c =? 35))%N then ([], url)
                 else let '(netloc, rest) := split_netloc url' in (c :: netloc, rest)
  end.

Section Uri.
Context (ue : uri_env).

(* urllib/parse.py 495-500 *)
Definition check_brackets (netloc : str) : bool :=
  let opening := contains 91 netloc in
  let closing := contains 93 netloc in
  if opening && negb closing || closing && negb opening then false
  else if opening && closing then
    match snd (partition 91 netloc) with
    | Some r => ue_bracketed ue (fst (partition 93 r))
    | None => true   (* unreachable *)
    end
  else true.

(* urllib/parse.py 505, 421-437: _checknetloc *)
Definition check_netloc (netloc : str) : bool :=
  match netloc with
  | [] => true
  | _ => is_ascii netloc || ue_nfkc_ok ue netloc
  end.

(* urllib/parse.py 453-507: urlsplit: scheme, netloc, path, query, fragment.  For the schemes ws
   and wss, urlparse (374-402) returns params = "". *)
Definition urlsplit (url : str) : result (str * str * str * str * str) :=
  let url := clean url in
  let '(scheme, url) := split_scheme url in
  let! (netloc, url) :=
    match url with
    | 47%N :: 47%N :: url' =>
        let '(netloc, rest) := split_netloc url' in
        if check_brackets netloc then Ok (netloc, rest) else Raise ValueError
    | _ => Ok ([], url)
    end in
  let '(url, fragment) := match partition 35 url with (u, Some f) => (u, f) | (u, None) => (u, []) end in
  let '(url, query) := match partition 63 url with (u, Some q) => (u, q) | (u, None) => (u, []) end in
  if check_netloc netloc then Ok (scheme, netloc, url, query, fragment) else Raise ValueError.

(* urllib/parse.py 194-205: _userinfo *)
Definition userinfo (netloc : str) : option (str * option str) :=
  match rpartition 64 netloc with
  | None => None
  | Some (info, _) => Some (partition 58 info)
  end.

(* urllib/parse.py 207-219: _hostinfo; an empty port is None *)
Definition hostinfo (netloc : str) : str * option str :=
  let info := match rpartition 64 netloc with Some (_, x) => x | None => netloc end in
  let '(hostname, port) :=
    match partition 91 info with
    | (_, Some bracketed) =>
        let '(hostname, rest) := partition 93 bracketed in
        (hostname, match rest with Some r => snd (partition 58 r) | None => None end)
    | (_, None) => partition 58 info
    end in
  (hostname, match port with Some [] => None | _ => port end).

(* urllib/parse.py 164-173: hostname *)
Definition hostname (netloc : str) : option str :=
  match fst (hostinfo netloc) with
  | [] => None
  | h => match partition 37 h with
         | (x, Some zone) => Some (ue_lower ue x ++ s "%" ++ zone)
         | (x, None) => Some (ue_lower ue x)
         end
  end.

(* int(port) for a str of ASCII digits *)
Definition int_of_digits (x : str) : Z :=
  fold_left (fun n c => 10 * n + (Z.of_N c - 48))%Z x 0%Z.

(* urllib/parse.py 175-185: port; isdigit is false for the empty string, which was replaced *)
Definition port (netloc : str) : result (option Z) :=
  match snd (hostinfo netloc) with
  | None => Ok None
  | Some p =>
    if forallb is_digit p then
      let n := int_of_digits p in
      if (n <=? 65535)%Z then Ok (Some n) else Raise ValueError
    else Raise ValueError
  end.

(* urllib/parse.py 811-814: _ALWAYS_SAFE, and uri.py 55: DELIMS *)
Definition safe_char (c : N) : bool :=
  is_alpha c || is_digit c || existsb (N.eqb c) (s "_.-~") || existsb (N.eqb c) (s ":/?#[]@!$&'()*+,;=").

(* '%{:02X}'.format *)
Definition hex_digit (n : N) : N := if (n <? 10)%N then (48 + n)%N else (55 + n)%N.
Definition percent (c : N) : str := [37; hex_digit (c / 16); hex_digit (c mod 16)]%N.

(* urllib/parse.py 853-899: quote(x, safe=DELIMS) *)
Definition quote (x : str) : result str :=
  let! data := utf8_encode x in
  Ok (flat_map (fun b => let c := b2n b in if safe_char c then [c] else percent c) data).

(* uri.py 58-100: parse_uri.  The assertions are checked: Python isn't run with -O. *)
Definition parse_uri (uri : str) : result ws_uri :=
  let! (scheme, netloc, path, query, fragment) := urlsplit uri in
  if negb (str_eqb scheme (s "ws") || str_eqb scheme (s "wss")) then Raise (InvalidURI uri)
  else match fragment with
  | _ :: _ => Raise (InvalidURI uri)
  | [] =>
    match hostname netloc with
    | None => Raise (InvalidURI uri)
    | Some host =>
      let secure := str_eqb scheme (s "wss") in
      let! parsed_port := port netloc in
      let default := if secure then 443%Z else 80%Z in
      let port := match parsed_port with
                  | Some p => if (p =? 0)%Z then default else p
                  | None => default
                  end in
      let resource_name := match path with [] => s "/" | _ => path end in
      let resource_name := match query with [] => resource_name | _ => resource_name ++ s "?" ++ query end in
      let! user_info :=
        match userinfo netloc with
        | None => Ok None
        | Some (_, None) => Raise (InvalidURI uri)
        | Some (username, Some password) => Ok (Some (username, password))
        end in
      if is_ascii uri then
        Ok {| uri_secure := secure; uri_host := host; uri_port := port;
              uri_resource_name := resource_name; uri_user_info := user_info |}
      else
        let! host := ue_idna ue host in
        let! resource_name := quote resource_name in
        let! user_info :=
          match user_info with
          | None => Ok None
          | Some (username, password) =>
              let! username := quote username in
              let! password := quote password in
              Ok (Some (username, password))
          end in
        Ok {| uri_secure := secure; uri_host := host; uri_port := port;
              uri_resource_name := resource_name; uri_user_info := user_info |}
    end
  end.
End Uri.
