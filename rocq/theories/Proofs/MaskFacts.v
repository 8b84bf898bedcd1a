(* Facts about Model/Utils.v (apply_mask) and Model/Speedups.v *)
From Verif Require Import Base.Prelude Base.PreludeFacts Model.Utils Model.Speedups.
Local Open Scope N_scope.

Fixpoint map2 (x y : bytes) : bytes :=
  match x, y with
  | a :: x', c :: y' => bxor a c :: map2 x' y'
  | _, _ => []
  end.

Lemma map2_app x x' y y' : length x = length y ->
  map2 (x ++ x') (y ++ y') = map2 x y ++ map2 x' y'.
Proof.
  revert y; induction x as [|a x IH]; intros [|c y] H; simpl in *; try discriminate; auto.
  rewrite IH by congruence. reflexivity.
Qed.

Lemma map2_rev x y : length x = length y -> rev (map2 x y) = map2 (rev x) (rev y).
Proof.
  revert y; induction x as [|a x IH]; intros [|c y] H; simpl in *; try discriminate; auto.
  rewrite map2_app by (rewrite !rev_length; congruence). simpl. rewrite IH by congruence. reflexivity.
Qed.

Lemma map2_length x y : length (map2 x y) = Nat.min (length x) (length y).
Proof. revert y; induction x as [|a x IH]; intros [|c y]; simpl; auto. Qed.

Lemma n2b_lxor x y : n2b (N.lxor x y) = bxor (n2b x) (n2b y).
Proof.
  apply b2n_inj. rewrite b2n_bxor, !b2n_n2b.
  change 256 with (2 ^ 8). rewrite <- !N.land_ones.
  apply N.bits_inj; intro i.
  repeat (rewrite N.land_spec || rewrite N.lxor_spec).
  destruct (N.testbit x i), (N.testbit y i), (N.testbit (N.ones 8) i); reflexivity.
Qed.

Lemma be_bytes_lxor k x y : be_bytes k (N.lxor x y) = map2 (be_bytes k x) (be_bytes k y).
Proof.
  induction k as [|k IH]; simpl; auto.
  rewrite IH. f_equal. rewrite <- n2b_lxor. f_equal.
  replace (256 ^ N.of_nat k) with (2 ^ (8 * N.of_nat k)) by (rewrite N.pow_mul_r; reflexivity).
  rewrite <- !N.shiftr_div_pow2. apply N.shiftr_lxor.
Qed.

Lemma be_bytes_app j k x y : y < 256 ^ N.of_nat k ->
  be_bytes (j + k) (x * 256 ^ N.of_nat k + y) = be_bytes j x ++ be_bytes k y.
Proof.
  intros Hy. induction j as [|j IH]; simpl.
  - rewrite <- (be_bytes_mod k (x * _ + y) k) by lia.
    rewrite N.add_comm, N.mod_add by (apply N.pow_nonzero; discriminate).
    rewrite N.mod_small by exact Hy. reflexivity.
  - rewrite IH. f_equal. rewrite Nat2N.inj_add, N.pow_add_r.
    rewrite (N.mul_comm (256 ^ N.of_nat j)), <- N.div_div by (apply N.pow_nonzero; discriminate).
    f_equal. f_equal. rewrite N.div_add_l by (apply N.pow_nonzero; discriminate).
    rewrite (N.div_small y) by exact Hy. lia.
Qed.

(* ---- load / store ---- *)

Lemma load_lt le bs : load le bs < 256 ^ N.of_nat (length bs).
Proof. unfold load. destruct le; [rewrite <- rev_length|]; apply be_N_lt. Qed.

Lemma store_load le bs : store le (length bs) (load le bs) = bs.
Proof.
  unfold store, load. destruct le.
  - rewrite <- (rev_length bs), be_bytes_be_N. apply rev_involutive.
  - apply be_bytes_be_N.
Qed.

Lemma store_length le k n : length (store le k n) = k.
Proof. unfold store. destruct le; rewrite ?rev_length; apply be_bytes_length. Qed.

Lemma store_lxor le k x y : store le k (N.lxor x y) = map2 (store le k x) (store le k y).
Proof.
  unfold store. destruct le; rewrite be_bytes_lxor; auto.
  apply map2_rev. now rewrite !be_bytes_length.
Qed.

Lemma lor_shiftl x y k : y < 256 ^ N.of_nat k ->
  N.lor (N.shiftl x (8 * N.of_nat k)) y = x * 256 ^ N.of_nat k + y.
Proof.
  intros H.
  replace (256 ^ N.of_nat k) with (2 ^ (8 * N.of_nat k)) in * by (rewrite N.pow_mul_r; reflexivity).
  set (n := 8 * N.of_nat k) in *.
  rewrite <- N.shiftl_mul_pow2.
  assert (L : N.land (N.shiftl x n) y = 0).
  { apply N.bits_inj_0. intro i. rewrite N.land_spec.
    destruct (N.lt_ge_cases i n).
    - rewrite N.shiftl_spec_low by assumption. reflexivity.
    - destruct (N.eq_dec y 0) as [->|Hy]; [now rewrite N.bits_0, andb_false_r|].
      rewrite (N.bits_above_log2 y i), andb_false_r; auto.
      apply N.lt_le_trans with n; auto. apply N.log2_lt_pow2; lia. }
  rewrite N.add_nocarry_lxor by exact L. now rewrite N.lxor_lor.
Qed.

(* the mask repeated in a word of 8 or 16 bytes *)
Lemma store_mask64 le mask : length mask = 4%nat ->
  store le 8 (N.lor (N.shiftl (load le mask) 32) (load le mask)) = mask ++ mask.
Proof.
  intros Hm. pose proof (load_lt le mask) as L. rewrite Hm in L.
  change 32 with (8 * N.of_nat 4). rewrite lor_shiftl by exact L.
  unfold store. pose proof (store_load le mask) as SL. rewrite Hm in SL. unfold store in SL.
  change 8%nat with (4 + 4)%nat. rewrite be_bytes_app by exact L.
  destruct le; [rewrite rev_app_distr|]; now rewrite SL.
Qed.

Lemma store_mask128 mask : length mask = 4%nat ->
  let m := load true mask in
  store true 16 (N.lor (N.shiftl m 96) (N.lor (N.shiftl m 64) (N.lor (N.shiftl m 32) m)))
  = mask ++ mask ++ mask ++ mask.
Proof.
  intros Hm m. pose proof (load_lt true mask) as L. rewrite Hm in L. fold m in L.
  pose proof (store_load true mask) as SL. rewrite Hm in SL. fold m in SL. unfold store in SL.
  change 96 with (8 * N.of_nat 12). change 64 with (8 * N.of_nat 8). change 32 with (8 * N.of_nat 4).
  change (256 ^ N.of_nat 4) with 4294967296 in L.
  rewrite (lor_shiftl m m 4) by exact L.
  rewrite (lor_shiftl m _ 8)
    by (change (256 ^ N.of_nat 8) with (4294967296 * 4294967296);
        change (256 ^ N.of_nat 4) with 4294967296; nia).
  rewrite (lor_shiftl m _ 12)
    by (change (256 ^ N.of_nat 12) with (4294967296 * 4294967296 * 4294967296);
        change (256 ^ N.of_nat 8) with (4294967296 * 4294967296);
        change (256 ^ N.of_nat 4) with 4294967296; nia).
  unfold store. change 16%nat with (4 + 12)%nat.
  rewrite be_bytes_app
    by (change (256 ^ N.of_nat 12) with (4294967296 * 4294967296 * 4294967296);
        change (256 ^ N.of_nat 8) with (4294967296 * 4294967296);
        change (256 ^ N.of_nat 4) with 4294967296; nia).
  change 12%nat with (4 + 8)%nat at 1.
  rewrite be_bytes_app
    by (change (256 ^ N.of_nat 8) with (4294967296 * 4294967296);
        change (256 ^ N.of_nat 4) with 4294967296; nia).
  change 8%nat with (4 + 4)%nat at 1.
  rewrite be_bytes_app by exact L.
  rewrite !rev_app_distr, SL, <- !app_assoc. reflexivity.
Qed.

(* ---- xor_cycle ---- *)

Lemma xor_cycle_empty mask data : data = [] -> xor_cycle data mask mask = [].
Proof. intros ->. reflexivity. Qed.

Lemma xor_cycle_nil_rest data mask : mask <> [] -> xor_cycle data mask [] = xor_cycle data mask mask.
Proof. destruct data, mask; intros H; try reflexivity. Qed.

Lemma xor_cycle_rest x y mask rest : mask <> [] ->
  length x = length rest ->
  xor_cycle (x ++ y) mask rest = map2 x rest ++ xor_cycle y mask mask.
Proof.
  intros Hm. revert x. induction rest as [|m rest IH]; intros [|a x] H; simpl in *; try discriminate.
  - now apply xor_cycle_nil_rest.
  - rewrite IH by congruence. reflexivity.
Qed.

Lemma xor_cycle_block x y mask : mask <> [] -> length x = length mask ->
  xor_cycle (x ++ y) mask mask = map2 x mask ++ xor_cycle y mask mask.
Proof. intros; now apply xor_cycle_rest. Qed.

Lemma split_block {A} n (x : list A) : (n <= length x)%nat ->
  x = firstn n x ++ skipn n x /\ length (firstn n x) = n.
Proof. intros H. split; [symmetry; apply firstn_skipn | apply firstn_length_le; exact H]. Qed.

(* a word made of copies of the mask *)
Lemma xor_cycle_word q : forall x y mask, mask <> [] ->
  length x = (q * length mask)%nat ->
  xor_cycle (x ++ y) mask mask = map2 x (concat (repeat mask q)) ++ xor_cycle y mask mask.
Proof.
  induction q as [|q IH]; intros x y mask Hm Hx; simpl in *.
  - destruct x; [reflexivity|discriminate].
  - destruct (split_block (length mask) x ltac:(lia)) as [E L].
    assert (L2 : length (skipn (length mask) x) = (q * length mask)%nat)
      by (rewrite skipn_length; lia).
    rewrite E at 1. rewrite <- app_assoc, xor_cycle_block by assumption.
    rewrite IH by assumption. rewrite app_assoc. f_equal.
    rewrite <- map2_app by assumption. now rewrite <- E.
Qed.

(* ---- the C loops ---- *)

Lemma skipn_cons_nth i (x : bytes) d : (i < length x)%nat ->
  skipn i x = nth i x d :: skipn (S i) x.
Proof.
  revert x. induction i as [|i IH]; intros [|a x] H; simpl in *; try lia; auto.
  apply IH. lia.
Qed.

Lemma land_3 i : Nat.land i 3 = (i mod 4)%nat.
Proof. exact (Nat.land_ones i 2). Qed.

Lemma xor_cycle_step x data i a c d e :
  let mask := [a; c; d; e] in
  xor_cycle (x :: data) mask (skipn (i mod 4) mask)
  = bxor x (nth (Nat.land i 3) mask Byte.x00) :: xor_cycle data mask (skipn (S i mod 4) mask).
Proof.
  intros mask.
  rewrite land_3.
  assert (H : (i mod 4 = 0 \/ i mod 4 = 1 \/ i mod 4 = 2 \/ i mod 4 = 3)%nat).
  { pose proof (Nat.mod_upper_bound i 4 ltac:(discriminate)). lia. }
  assert (Sm : (S i mod 4 = (S (i mod 4)) mod 4)%nat).
  { rewrite <- (Nat.add_1_r i), <- (Nat.add_1_r (i mod 4)). now rewrite Nat.add_mod_idemp_l. }
  rewrite Sm. destruct H as [->|[->|[->| ->]]]; try reflexivity.
  cbn [skipn mask nth xor_cycle]. simpl (4 mod 4)%nat. f_equal.
  apply xor_cycle_nil_rest. discriminate.
Qed.

Lemma byte_loop_spec fuel input a c d e i :
  let mask := [a; c; d; e] in
  (length input - i <= fuel)%nat ->
  byte_loop fuel input mask i (length input)
  = xor_cycle (skipn i input) mask (skipn (i mod 4) mask).
Proof.
  intros mask. revert i. induction fuel as [|f IH]; intros i H; simpl byte_loop.
  - rewrite skipn_all2 by lia. reflexivity.
  - destruct (Nat.ltb_spec i (length input)) as [Hi|Hi].
    + rewrite IH by lia. rewrite (skipn_cons_nth i input Byte.x00) by assumption.
      symmetry. apply xor_cycle_step.
    + rewrite skipn_all2 by lia. reflexivity.
Qed.

Lemma slice_split input i k : (i + k <= length input)%nat ->
  skipn i input = slice input i k ++ skipn (i + k) input /\ length (slice input i k) = k.
Proof.
  intros H. unfold slice. split.
  - replace (skipn (i + k) input) with (skipn k (skipn i input)).
    + symmetry; apply firstn_skipn.
    + apply skipn_skipn'.
  - apply firstn_length_le. rewrite skipn_length. lia.
Qed.

Lemma word_loop_spec fuel le k q input mask maskw i n :
  mask <> [] -> (0 < k)%nat -> k = (q * length mask)%nat ->
  store le k maskw = concat (repeat mask q) ->
  (n * k <= length input - i)%nat -> (i <= length input)%nat -> (n <= fuel)%nat ->
  exists out,
    word_loop fuel le k input maskw i (i + n * k) = (out, (i + n * k)%nat) /\
    forall j, j = (i + n * k)%nat ->
    xor_cycle (skipn i input) mask mask = out ++ xor_cycle (skipn j input) mask mask.
Proof.
  intros Hm Hk Hq Hw. revert i n. induction fuel as [|f IH]; intros i n Hn Hi Hf; simpl word_loop.
  - assert (n = 0%nat) by lia. subst n. exists []. simpl. rewrite Nat.add_0_r.
    split; auto. intros j ->. reflexivity.
  - destruct n as [|n].
    + simpl. rewrite Nat.add_0_r, Nat.ltb_irrefl. exists []. split; auto. intros j ->. reflexivity.
    + destruct (Nat.ltb_spec i (i + S n * k)) as [_|Hbad]; [|simpl in Hbad; lia].
      simpl in Hn.
      destruct (IH (i + k)%nat n) as (out & Hout & Hspec); try lia.
      replace (i + S n * k)%nat with (i + k + n * k)%nat by (simpl; lia).
      rewrite Hout. eexists; split; [reflexivity|]. intros j ->.
      destruct (slice_split input i k ltac:(lia)) as [E L].
      rewrite E, (xor_cycle_word q) by (try assumption; lia).
      rewrite (Hspec _ eq_refl), app_assoc. f_equal. f_equal.
      rewrite store_lxor, Hw. f_equal.
      pose proof (store_load le (slice input i k)) as SL. rewrite L in SL. now symmetry.
Qed.

Lemma ldiff_low n k : N.ldiff n (N.ones k) = n / 2 ^ k * 2 ^ k.
Proof. rewrite N.ldiff_ones_r, N.shiftr_div_pow2, N.shiftl_mul_pow2. reflexivity. Qed.

Lemma mod4_mul n k q : k = (q * 4)%nat -> ((n * k) mod 4 = 0)%nat.
Proof. intros ->. rewrite Nat.mul_assoc. apply Nat.mod_mul. discriminate. Qed.

Theorem apply_mask_64_correct le input mask : apply_mask_64 le input mask = apply_mask input mask.
Proof.
  unfold apply_mask_64, apply_mask. destruct (lenN mask =? 4) eqn:Hl; simpl negb; [|reflexivity].
  apply N.eqb_eq in Hl. unfold lenN in Hl.
  assert (Hl' : length mask = 4%nat) by lia. clear Hl.
  destruct mask as [|a [|c [|d [|e [|]]]]]; try discriminate Hl'.
  set (mask := [a; c; d; e]) in *. cbv iota.
  change 7 with (N.ones 3). rewrite ldiff_low. change (2 ^ 3) with 8.
  set (n := N.to_nat (N.of_nat (length input) / 8)).
  replace (N.to_nat (N.of_nat (length input) / 8 * 8)) with (0 + n * 8)%nat
    by (unfold n; rewrite N2Nat.inj_mul; reflexivity).
  assert (Hn : (n * 8 <= length input)%nat).
  { unfold n. zify. Z.div_mod_to_equations. lia. }
  destruct (word_loop_spec (length input) le 8 2 input mask
              (N.lor (N.shiftl (load le mask) 32) (load le mask)) 0 n)
    as (out & Hout & Hspec); try lia.
  - discriminate.
  - rewrite store_mask64 by reflexivity. unfold mask. reflexivity.
  - rewrite Hout. f_equal. simpl skipn in Hspec at 1. rewrite (Hspec _ eq_refl). f_equal.
    unfold mask. rewrite byte_loop_spec by lia. simpl plus.
    rewrite (mod4_mul n 8 2) by reflexivity. reflexivity.
Qed.

Theorem apply_mask_sse2_correct input mask : apply_mask_sse2 input mask = apply_mask input mask.
Proof.
  unfold apply_mask_sse2, apply_mask. destruct (lenN mask =? 4) eqn:Hl; simpl negb; [|reflexivity].
  apply N.eqb_eq in Hl. unfold lenN in Hl.
  assert (Hl' : length mask = 4%nat) by lia. clear Hl.
  destruct mask as [|a [|c [|d [|e [|]]]]]; try discriminate Hl'.
  set (mask := [a; c; d; e]) in *. cbv iota.
  change 15 with (N.ones 4). rewrite ldiff_low. change (2 ^ 4) with 16.
  set (n := N.to_nat (N.of_nat (length input) / 16)).
  replace (N.to_nat (N.of_nat (length input) / 16 * 16)) with (0 + n * 16)%nat
    by (unfold n; rewrite N2Nat.inj_mul; reflexivity).
  assert (Hn : (n * 16 <= length input)%nat).
  { unfold n. zify. Z.div_mod_to_equations. lia. }
  match goal with |- context [word_loop _ _ _ _ ?w _ _] =>
    destruct (word_loop_spec (length input) true 16 4 input mask w 0 n)
      as (out & Hout & Hspec); try lia end.
  - discriminate.
  - rewrite store_mask128 by reflexivity. unfold mask. reflexivity.
  - rewrite Hout. f_equal. simpl skipn in Hspec at 1. rewrite (Hspec _ eq_refl). f_equal.
    unfold mask. rewrite byte_loop_spec by lia. simpl plus.
    rewrite (mod4_mul n 16 4) by reflexivity. reflexivity.
Qed.

(* ---- properties of apply_mask ---- *)

Lemma xor_cycle_length data mask rest : mask <> [] -> length (xor_cycle data mask rest) = length data.
Proof.
  intros Hm. revert rest. induction data as [|x data IH]; intros rest; simpl; auto.
  destruct rest; [destruct mask; [congruence|]|]; simpl; now rewrite IH.
Qed.

Lemma xor_cycle_invol data mask rest : mask <> [] ->
  xor_cycle (xor_cycle data mask rest) mask rest = data.
Proof.
  intros Hm. revert rest. induction data as [|x data IH]; intros rest; simpl; auto.
  destruct rest as [|m rest].
  - destruct mask as [|m mask'] eqn:E; [congruence|]. simpl. rewrite bxor_invol. now rewrite IH.
  - simpl. rewrite bxor_invol. now rewrite IH.
Qed.

Lemma xor_cycle_nth a c d e : forall data k i x y,
  let mask := [a; c; d; e] in
  nth_error data i = Some x ->
  nth_error (xor_cycle data mask (skipn (k mod 4) mask)) i = Some y ->
  y = bxor x (nth ((k + i) mod 4) mask Byte.x00).
Proof.
  intros data k i x y mask. revert k i. induction data as [|z data IH]; intros k i H1 H2.
  - destruct i; discriminate.
  - unfold mask in H2. rewrite xor_cycle_step in H2. fold mask in H2. destruct i as [|i].
    + simpl in H1, H2. apply some_inj in H1, H2. subst z y.
      now rewrite land_3, Nat.add_0_r.
    + simpl in H1, H2. rewrite (IH (S k) i H1 H2). do 3 f_equal. lia.
Qed.
