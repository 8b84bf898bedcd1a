(* bytes.decode("utf-8"), str.encode("utf-8") and the incremental UTF-8 decoder of the
   Python standard library (strict error handling), ASCII with surrogateescape.
   These are not part of /repo; they follow CPython's documented behaviour
   (Objects/stringlib/codecs.h utf8_decode): same accepted language, same error reason,
   same error position. *)
From Verif Require Import Base.Prelude.
Local Open Scope N_scope.

Definition is_cont (x : byte) : bool := (128 <=? b2n x) && (b2n x <? 192).
Definition cbits (x : byte) : N := b2n x - 128.

(* How a scan of a byte string ends. *)
Inductive uend : Type :=
| UDone                    (* the whole input was decoded *)
| UTrunc (rest : bytes)    (* the input ends inside a sequence that is valid so far *)
| UBad (reason : str).     (* ill-formed sequence *)

Definition invalid_start : str := s "invalid start byte".
Definition invalid_cont : str := s "invalid continuation byte".
Definition unexpected_end : str := s "unexpected end of data".

(* second byte of a three (four) byte sequence starting with b0 *)
Definition ok3 (b0 b1 : N) : bool :=
  if b1 <? 160 then negb (b0 =? 224) else negb (b0 =? 237).
Definition ok4 (b0 b1 : N) : bool :=
  if b1 <? 144 then negb (b0 =? 240) else negb (b0 =? 244).

Record uscan : Type := { u_text : str; u_pos : N; u_end : uend }.

Definition ucons (c len : N) (r : uscan) : uscan :=
  {| u_text := c :: u_text r; u_pos := len + u_pos r; u_end := u_end r |}.
Definition ustop (e : uend) : uscan := {| u_text := []; u_pos := 0; u_end := e |}.

(* u_pos is the offset of the first byte that was not decoded. *)
Fixpoint utf8_scan (bs : bytes) : uscan :=
  match bs with
  | [] => ustop UDone
  | c0 :: r0 =>
    let b0 := b2n c0 in
    if b0 <? 128 then ucons b0 1 (utf8_scan r0)
    else if b0 <? 194 then ustop (UBad invalid_start)
    else if b0 <? 224 then
      match r0 with
      | [] => ustop (UTrunc bs)
      | c1 :: r1 =>
        if is_cont c1 then ucons ((b0 - 192) * 64 + cbits c1) 2 (utf8_scan r1)
        else ustop (UBad invalid_cont)
      end
    else if b0 <? 240 then
      match r0 with
      | [] => ustop (UTrunc bs)
      | c1 :: r1 =>
        if negb (is_cont c1) || negb (ok3 b0 (b2n c1)) then ustop (UBad invalid_cont)
        else match r1 with
        | [] => ustop (UTrunc bs)
        | c2 :: r2 =>
          if is_cont c2
          then ucons ((b0 - 224) * 4096 + cbits c1 * 64 + cbits c2) 3 (utf8_scan r2)
          else ustop (UBad invalid_cont)
        end
      end
    else if b0 <? 245 then
      match r0 with
      | [] => ustop (UTrunc bs)
      | c1 :: r1 =>
        if negb (is_cont c1) || negb (ok4 b0 (b2n c1)) then ustop (UBad invalid_cont)
        else match r1 with
        | [] => ustop (UTrunc bs)
        | c2 :: r2 =>
          if negb (is_cont c2) then ustop (UBad invalid_cont)
          else match r2 with
          | [] => ustop (UTrunc bs)
          | c3 :: r3 =>
            if is_cont c3
            then ucons ((b0 - 240) * 262144 + cbits c1 * 4096 + cbits c2 * 64 + cbits c3)
                       4 (utf8_scan r3)
            else ustop (UBad invalid_cont)
          end
        end
      end
    else ustop (UBad invalid_start)
  end.

(* bs.decode("utf-8") *)
Definition utf8_decode (bs : bytes) : result str :=
  let r := utf8_scan bs in
  match u_end r with
  | UDone => Ok (u_text r)
  | UTrunc _ => Raise (UnicodeDecodeError unexpected_end (u_pos r))
  | UBad why => Raise (UnicodeDecodeError why (u_pos r))
  end.

(* codecs.getincrementaldecoder("utf-8")(errors="strict").decode(chunk, final):
   the state is the list of pending bytes. *)
Definition utf8_inc_decode (pending chunk : bytes) (final : bool)
  : bytes * result str :=
  let r := utf8_scan (pending ++ chunk) in
  match u_end r with
  | UDone => ([], Ok (u_text r))
  | UTrunc rest =>
      if final then (pending, Raise (UnicodeDecodeError unexpected_end (u_pos r)))
      else (rest, Ok (u_text r))
  | UBad why => (pending, Raise (UnicodeDecodeError why (u_pos r)))
  end.

(* one code point; None for surrogates and values above 0x10FFFF *)
Definition utf8_encode_char (c : N) : option bytes :=
  if c <? 128 then Some [n2b c]
  else if c <? 2048 then Some [n2b (192 + c / 64); n2b (128 + c mod 64)]
  else if (55296 <=? c) && (c <? 57344) then None
  else if c <? 65536 then
    Some [n2b (224 + c / 4096); n2b (128 + (c / 64) mod 64); n2b (128 + c mod 64)]
  else if c <? 1114112 then
    Some [n2b (240 + c / 262144); n2b (128 + (c / 4096) mod 64);
          n2b (128 + (c / 64) mod 64); n2b (128 + c mod 64)]
  else None.

(* text.encode() *)
Fixpoint utf8_encode (t : str) : result bytes :=
  match t with
  | [] => Ok []
  | c :: t' =>
    match utf8_encode_char c with
    | None => Raise UnicodeEncodeError
    | Some e =>
      match utf8_encode t' with
      | Ok r => Ok (e ++ r)
      | Raise x => Raise x
      end
    end
  end.

(* bs.decode("ascii", "surrogateescape") *)
Definition ascii_surrogateescape_char (x : byte) : N :=
  if b2n x <? 128 then b2n x else 56320 + b2n x.
Definition ascii_surrogateescape (bs : bytes) : str := map ascii_surrogateescape_char bs.
