(* hashlib.sha1 (FIPS 180-4); not part of /repo.  Checked against test vectors below. *)
From Verif Require Import Base.Prelude.
Local Open Scope N_scope.

Definition w32 (n : N) : N := n mod 4294967296.
Definition rotl (k x : N) : N := w32 (N.lor (N.shiftl x k) (N.shiftr x (32 - k))).
Definition not32 (x : N) : N := N.lxor x 4294967295.

Fixpoint words (fuel : nat) (bs : bytes) : list N :=
  match fuel with
  | O => []
  | S f => be_N (firstn 4 bs) :: words f (skipn 4 bs)
  end.

(* message schedule: the 16 words of the block, newest first, extended to 80 *)
Fixpoint schedule (n : nat) (rev_w : list N) : list N :=
  match n with
  | O => rev rev_w
  | S n' =>
    let x := N.lxor (N.lxor (nth 2 rev_w 0) (nth 7 rev_w 0))
                    (N.lxor (nth 13 rev_w 0) (nth 15 rev_w 0)) in
    schedule n' (rotl 1 x :: rev_w)
  end.

Definition st : Type := N * N * N * N * N.

Definition round (t : N) (x : st) (w : N) : st :=
  let '(a, b, c, d, e) := x in
  let '(f, k) :=
    if t <? 20 then (N.lor (N.land b c) (N.land (not32 b) d), 1518500249)
    else if t <? 40 then (N.lxor b (N.lxor c d), 1859775393)
    else if t <? 60 then (N.lor (N.lor (N.land b c) (N.land b d)) (N.land c d), 2400959708)
    else (N.lxor b (N.lxor c d), 3395469782) in
  (w32 (rotl 5 a + f + e + k + w), a, rotl 30 b, c, d).

Fixpoint rounds (t : N) (ws : list N) (x : st) : st :=
  match ws with
  | [] => x
  | w :: ws' => rounds (t + 1) ws' (round t x w)
  end.

Definition block (h : st) (bs : bytes) : st :=
  let '(a, b, c, d, e) := h in
  let ws := schedule 64 (rev (words 16 bs)) in
  let '(a', b', c', d', e') := rounds 0 ws h in
  (w32 (a + a'), w32 (b + b'), w32 (c + c'), w32 (d + d'), w32 (e + e')).

Fixpoint blocks (n : nat) (bs : bytes) (h : st) : st :=
  match n with
  | O => h
  | S n' => blocks n' (skipn 64 bs) (block h (firstn 64 bs))
  end.

Definition pad (bs : bytes) : bytes :=
  let l := lenN bs in
  let z := (119 - l mod 64) mod 64 in
  bs ++ [n2b 128] ++ repeat (n2b 0) (N.to_nat z) ++ be_bytes 8 (l * 8).

Definition sha1 (bs : bytes) : bytes :=
  let p := pad bs in
  let '(a, b, c, d, e) :=
    blocks (List.length p / 64) p
      (1732584193, 4023233417, 2562383102, 271733878, 3285377520) in
  be_bytes 4 a ++ be_bytes 4 b ++ be_bytes 4 c ++ be_bytes 4 d ++ be_bytes 4 e.

(* FIPS 180-4 test vectors *)
Example sha1_empty :
  be_N (sha1 []) = 0xda39a3ee5e6b4b0d3255bfef95601890afd80709.
Proof. vm_compute. reflexivity. Qed.
Example sha1_abc : be_N (sha1 (b "abc")) = 0xa9993e364706816aba3e25717850c26c9cd0d89d.
Proof. vm_compute. reflexivity. Qed.
Example sha1_448 :
  be_N (sha1 (b "abcdbcdecdefdefgefghfghighijhijkijkljklmklmnlmnomnopnopq"))
  = 0x84983e441c3bd26ebaae4aa1f95129e5e54670f1.
Proof. vm_compute. reflexivity. Qed.
