(* WebSocket URIs: RFC 6455 section 3, with the components of RFC 3986. *)
From Verif Require Import Base.Prelude.

(* RFC 3986 section 2.2 and 2.3 *)
Definition alpha (c : N) : Prop := (65 <= c <= 90 \/ 97 <= c <= 122)%N.
Definition digit (c : N) : Prop := (48 <= c <= 57)%N.
Definition unreserved (c : N) : Prop := alpha c \/ digit c \/ In c (s "-._~").
Definition sub_delim (c : N) : Prop := In c (s "!$&'()*+,;=").

(* the characters of each component; for pct-encoded, % is a character like others *)
Definition name_char (c : N) : Prop := unreserved c \/ sub_delim c.
Definition user_char (c : N) : Prop := name_char c \/ c = 37%N.
Definition password_char (c : N) : Prop := user_char c \/ c = 58%N.
Definition path_char (c : N) : Prop := user_char c \/ In c (s ":@/").
Definition query_char (c : N) : Prop := path_char c \/ c = 63%N.

(* a host: a name, or an IP address between brackets.  In names, pct-encoded isn't considered. *)
Inductive host : Type :=
| HName (x : str)
| HBrackets (x : str).

Record components : Type := {
  co_scheme : str;
  co_user : option (str * str);
  co_host : host;
  co_port : option str;
  co_path : str;
  co_query : option str }.

Definition opt {A} (o : option A) (f : A -> str) : str := match o with Some x => f x | None => [] end.

(* RFC 3986 section 3 and 3.2 *)
Definition host_text (h : host) : str := match h with HName x => x | HBrackets x => s "[" ++ x ++ s "]" end.
Definition uri_text (u : components) : str :=
  co_scheme u ++ s "://" ++
  opt (co_user u) (fun up => fst up ++ s ":" ++ snd up ++ s "@") ++
  host_text (co_host u) ++
  opt (co_port u) (fun p => s ":" ++ p) ++
  co_path u ++
  opt (co_query u) (fun q => s "?" ++ q).

(* the number written with these digits *)
Inductive digits_value : str -> Z -> Prop :=
| DvNil : digits_value [] 0
| DvSnoc x c n : digits_value x n -> digit c -> digits_value (x ++ [c]) (10 * n + (Z.of_N c - 48)).

Definition insensitive (x y : str) : Prop := lower x = lower y.

Record valid_components (is_ip : str -> bool) (u : components) : Prop := {
  vc_scheme : insensitive (co_scheme u) (s "ws") \/ insensitive (co_scheme u) (s "wss");
  vc_user : forall name pw, co_user u = Some (name, pw) -> Forall user_char name /\ Forall password_char pw;
  vc_host : match co_host u with
            | HName x => x <> [] /\ Forall name_char x
            | HBrackets x => x <> [] /\ is_ip x = true /\ Forall (fun c => name_char c \/ c = 58%N) x
            end;
  vc_port : forall p, co_port u = Some p -> exists n, digits_value p n /\ (n <= 65535)%Z;
  vc_path : Forall path_char (co_path u) /\ (co_path u = [] \/ exists r, co_path u = s "/" ++ r);
  vc_query : forall q, co_query u = Some q -> Forall query_char q }.

(* RFC 6455 section 3: the default ports *)
Definition is_secure (u : components) : bool := str_eqb (lower (co_scheme u)) (s "wss").
Definition default_port (secure : bool) : Z := if secure then 443 else 80.

(* the port: the default one if it's absent or empty (RFC 3986 section 3.2.3) *)
Definition has_port (u : components) (port : Z) : Prop :=
  match co_port u with
  | None | Some [] => port = default_port (is_secure u)
  | Some p => digits_value p port
  end.

(* RFC 6455 section 3: the resource name *)
Definition resource_name (u : components) : str :=
  (match co_path u with [] => s "/" | p => p end) ++
  (match co_query u with None | Some [] => [] | Some q => s "?" ++ q end).

Definition bare_host (h : host) : str := match h with HName x => lower x | HBrackets x => lower x end.
