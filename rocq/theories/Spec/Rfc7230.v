(* Grammars of HTTP header fields.
   RFC 7230 section 3.2.6 (tokens, quoted strings), section 7 (lists), section 6.7 (Upgrade);
   RFC 6455 section 9.1 (Sec-WebSocket-Extensions). *)
From Verif Require Import Base.Prelude.
Local Open Scope N_scope.

(* optional whitespace *)
Definition ows (w : str) : Prop := Forall (fun c => c = 32 \/ c = 9) w.

(* tchar = "!" / "#" / "$" / "%" / "&" / "'" / "*" / "+" / "-" / "." / "^" / "_" / "`" / "|"
         / "~" / DIGIT / ALPHA *)
Definition tchar (c : N) : Prop :=
  48 <= c <= 57 \/ 65 <= c <= 90 \/ 97 <= c <= 122 \/ In c (s "!#$%&'*+-.^_`|~").
Definition token (x : str) : Prop := x <> [] /\ Forall tchar x.

(* 1#item = *( "," OWS ) item *( OWS "," [ OWS item ] ), with the values of the items *)
Section List.
Context {A : Type} (item : str -> A -> Prop).
Inductive more : str -> list A -> Prop :=
| more_nil : more [] []
| more_empty w r l : ows w -> more r l -> more (w ++ s "," ++ r) l
| more_item w w' x a r l : ows w -> ows w' -> item x a -> more r l ->
    more (w ++ s "," ++ w' ++ x ++ r) (a :: l).
Inductive list1 : str -> list A -> Prop :=
| list1_comma w r l : ows w -> list1 r l -> list1 (s "," ++ w ++ r) l
| list1_item x a r l : item x a -> more r l -> list1 (x ++ r) (a :: l).
End List.

(* a token is its own value *)
Definition token_item (x : str) (a : str) : Prop := token x /\ a = x.

(* protocol = protocol-name ["/" protocol-version] *)
Definition protocol_item (x : str) (a : str) : Prop :=
  a = x /\ (token x \/ exists y z, token y /\ token z /\ x = y ++ s "/" ++ z).

(* quoted-string = DQUOTE *( qdtext / quoted-pair ) DQUOTE, with its value; obs-text isn't
   allowed in qdtext *)
Definition qdtext (c : N) : Prop := c = 9 \/ 32 <= c <= 33 \/ 35 <= c <= 91 \/ 93 <= c <= 126.
Definition quotable (c : N) : Prop := c = 9 \/ 32 <= c <= 126 \/ 128 <= c <= 255.
Inductive quoted_content : str -> str -> Prop :=
| qc_nil : quoted_content [] []
| qc_text c x v : qdtext c -> quoted_content x v -> quoted_content (c :: x) (c :: v)
| qc_pair c x v : quotable c -> quoted_content x v -> quoted_content (92 :: c :: x) (c :: v).
Definition quoted_string (x v : str) : Prop := exists y, x = s """" ++ y ++ s """" /\ quoted_content y v.

(* extension-param = token [ "=" (token | quoted-string) ]: the value of the quoted string
   must be a token.  Whitespace is allowed around "=" and ";" (RFC 2616 section 2.1). *)
Inductive param_item : str -> str * option str -> Prop :=
| param_name x : token x -> param_item x (x, None)
| param_token x w w' v : token x -> ows w -> ows w' -> token v ->
    param_item (x ++ w ++ s "=" ++ w' ++ v) (x, Some v)
| param_quoted x w w' q v : token x -> ows w -> ows w' -> quoted_string q v -> token v ->
    param_item (x ++ w ++ s "=" ++ w' ++ q) (x, Some v).

(* extension = extension-token *( ";" extension-param ) *)
Inductive params : str -> list (str * option str) -> Prop :=
| params_nil : params [] []
| params_cons w w' x p r l : ows w -> ows w' -> param_item x p -> params r l ->
    params (w ++ s ";" ++ w' ++ x ++ r) (p :: l).
Definition extension_item (x : str) (e : str * list (str * option str)) : Prop :=
  exists y r, x = y ++ r /\ token y /\ fst e = y /\ params r (snd e).

(* field values: surrounding whitespace isn't part of the value, but it does no harm at the
   end *)
Definition field_value {A} (item : str -> A -> Prop) (h : str) (l : list A) : Prop :=
  exists x w, h = x ++ w /\ ows w /\ list1 item x l.
