(* Model of src/websockets/speedups.c, apply_mask (60-178).
   Pointers are offsets in byte strings; a load or store of a multi-byte word is an
   integer built from the bytes in little or big endian order (parameter [le]).
   Argument parsing and memory allocation (81-122) are not modelled. *)
From Verif Require Import Base.Prelude.
Local Open Scope N_scope.

(* load of a word from memory in the given byte order *)
Definition load (le : bool) (bs : bytes) : N := if le then be_N (rev bs) else be_N bs.
(* store of a k-byte word to memory *)
Definition store (le : bool) (k : nat) (n : N) : bytes :=
  if le then rev (be_bytes k n) else be_bytes k n.

(* *(uintXX_t * )(input + i) : the [k] bytes at offset [i] *)
Definition slice (bs : bytes) (i k : nat) : bytes := firstn k (skipn i bs).

(* 141-146 and 158-161: for (; i < limit; i += k) { out[i..] = in[i..] ^ maskw }.
   Returns what was stored and the final i; [fuel] bounds the iterations. *)
Fixpoint word_loop (fuel : nat) (le : bool) (k : nat) (input : bytes) (maskw : N)
    (i limit : nat) : bytes * nat :=
  match fuel with
  | O => ([], i)
  | S f =>
    if Nat.ltb i limit then
      let out := store le k (N.lxor (load le (slice input i k)) maskw) in
      let '(rest, j) := word_loop f le k input maskw (i + k) limit in
      (out ++ rest, j)
    else ([], i)
  end.

(* 168-171: for (; i < input_len; i++) output[i] = input[i] ^ mask[i & (MASK_LEN - 1)] *)
Fixpoint byte_loop (fuel : nat) (input mask : bytes) (i input_len : nat) : bytes :=
  match fuel with
  | O => []
  | S f =>
    if Nat.ltb i input_len then
      bxor (nth i input Byte.x00) (nth (Nat.land i 3) mask Byte.x00)
        :: byte_loop f input mask (S i) input_len
    else []
  end.

(* 108-171 with SSE2: 16-byte blocks.  _mm_set1_epi32 broadcasts the 32-bit mask to the
   four lanes; SSE2 implies a little endian machine. *)
Definition apply_mask_sse2 (input mask : bytes) : result bytes :=
  if negb (lenN mask =? 4) then Raise ValueError
  else
    let input_len := length input in
    let input_len_128 := N.to_nat (N.ldiff (N.of_nat input_len) 15) in
    let m := load true mask in
    let mask_128 := N.lor (N.shiftl m 96) (N.lor (N.shiftl m 64) (N.lor (N.shiftl m 32) m)) in
    let '(out, i) := word_loop input_len true 16 input mask_128 0 input_len_128 in
    Ok (out ++ byte_loop input_len input mask i input_len).

(* 108-171 without SSE2: 8-byte blocks. *)
Definition apply_mask_64 (le : bool) (input mask : bytes) : result bytes :=
  if negb (lenN mask =? 4) then Raise ValueError
  else
    let input_len := length input in
    let input_len_64 := N.to_nat (N.ldiff (N.of_nat input_len) 7) in
    let mask_32 := load le mask in
    let mask_64 := N.lor (N.shiftl mask_32 32) mask_32 in
    let '(out, i) := word_loop input_len le 8 input mask_64 0 input_len_64 in
    Ok (out ++ byte_loop input_len input mask i input_len).
