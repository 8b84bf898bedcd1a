(* RFC 3629: UTF-8. Independent of the model. *)
From Coq Require Import List NArith.
From Coq Require Strings.Byte.
Import ListNotations.
Local Open Scope N_scope.

Local Notation v := Byte.to_N.

(* Table of section 3: [x] is the number made of the payload bits. *)
Inductive utf8_char : N -> list Byte.byte -> Prop :=
| utf8_1 c a : c <= 127 -> v a = c -> utf8_char c [a]
| utf8_2 c a b x y : 128 <= c <= 2047 -> c = x * 64 + y -> y < 64 ->
    v a = 192 + x -> v b = 128 + y -> utf8_char c [a; b]
| utf8_3 c a b d x y z : 2048 <= c <= 65535 -> ~ (55296 <= c <= 57343) ->
    c = (x * 64 + y) * 64 + z -> y < 64 -> z < 64 ->
    v a = 224 + x -> v b = 128 + y -> v d = 128 + z -> utf8_char c [a; b; d]
| utf8_4 c a b d e x y z t : 65536 <= c <= 1114111 ->
    c = ((x * 64 + y) * 64 + z) * 64 + t -> y < 64 -> z < 64 -> t < 64 ->
    v a = 240 + x -> v b = 128 + y -> v d = 128 + z -> v e = 128 + t -> utf8_char c [a; b; d; e].

Inductive utf8_text : list N -> list Byte.byte -> Prop :=
| utf8_nil : utf8_text [] []
| utf8_cons c t l r : utf8_char c l -> utf8_text t r -> utf8_text (c :: t) (l ++ r).

Definition valid_utf8 (l : list Byte.byte) : Prop := exists t, utf8_text t l.
