(* HTTP Basic Authentication (RFC 7617), as far as this library supports it. *)
From Verif Require Import Base.Prelude Base.Base64 Spec.Utf8Spec Spec.Rfc7230 Model.Auth.
Local Open Scope N_scope.

(* token68 = 1*( ALPHA / DIGIT / "-" / "." / "_" / "~" / "+" / "/" ) *"=" *)
Definition token68_char (c : N) : Prop :=
  65 <= c <= 90 \/ 97 <= c <= 122 \/ 48 <= c <= 57 \/ In c (s "-._~+/").
Definition token68 (x : str) : Prop :=
  exists y n, x = y ++ repeat 61 n /\ y <> [] /\ Forall token68_char y.

(* The value of an Authorization header: the scheme, in any case, a space, and base64 of some
   data.  Decoding is that of base64.b64decode, which skips characters that aren't base64
   digits. *)
Definition basic_header (h : str) (data : bytes) : Prop :=
  exists scheme x, h = scheme ++ [32] ++ x /\ lower scheme = s "basic" /\ token scheme /\ token68 x /\
    b64decode (map n2b x) = Ok data.

(* ... and that data is user ":" password, in UTF-8. *)
Definition basic_credentials (h : str) (username password : str) : Prop :=
  exists data, basic_header h data /\ utf8_text (username ++ s ":" ++ password) data /\ ~ In 58 username.

(* The credentials argument of basic_auth_protocol_factory: a pair, or a list of pairs. *)
Definition pair_of (c : str * str) : pyobj := PyTuple [PyStr (fst c); PyStr (snd c)].
Definition gives (v : pyobj) (cs : list (str * str)) : Prop :=
  (exists c, v = pair_of c /\ cs = [c]) \/ v = PyList (map pair_of cs) \/ v = PyTuple (map pair_of cs).
(* The last pair for a username counts. *)
Definition configured (cs : list (str * str)) (username password : str) : Prop :=
  exists pre post, cs = pre ++ (username, password) :: post /\ ~ In username (map fst post).
