(* Facts about Base/Prelude.v *)
From Verif Require Import Base.Prelude.
From Coq Require Import Strings.Byte.

Lemma some_inj {A} (x y : A) : Some x = Some y -> x = y.
Proof. congruence. Qed.
Lemma ok_inj {A} (x y : A) : Ok x = Ok y -> x = y.
Proof. congruence. Qed.

Lemma b2n_lt x : (b2n x < 256)%N.
Proof. pose proof (Byte.to_N_bounded x). unfold b2n. lia. Qed.

Lemma n2b_b2n x : n2b (b2n x) = x.
Proof.
  unfold n2b. rewrite N.mod_small by apply b2n_lt.
  unfold b2n. now rewrite Byte.of_to_N.
Qed.

Lemma b2n_n2b n : b2n (n2b n) = (n mod 256)%N.
Proof.
  unfold n2b. destruct (Byte.of_N (n mod 256)) eqn:E.
  - apply Byte.to_of_N in E. exact E.
  - apply Byte.of_N_None_iff in E.
    pose proof (N.mod_lt n 256). lia.
Qed.

Lemma b2n_n2b_small n : (n < 256)%N -> b2n (n2b n) = n.
Proof. intros; rewrite b2n_n2b; now apply N.mod_small. Qed.

Lemma b2n_inj x y : b2n x = b2n y -> x = y.
Proof. intros H. rewrite <- (n2b_b2n x), <- (n2b_b2n y). now rewrite H. Qed.

Lemma n2b_mod n : n2b (n mod 256) = n2b n.
Proof. unfold n2b. now rewrite N.mod_mod by lia. Qed.

Lemma byte_eqb_eq x y : byte_eqb x y = true <-> x = y.
Proof.
  unfold byte_eqb. rewrite N.eqb_eq. split; [apply b2n_inj | now intros ->].
Qed.

Lemma byte_eqb_refl x : byte_eqb x x = true.
Proof. now apply byte_eqb_eq. Qed.

Lemma bytes_eqb_eq x y : bytes_eqb x y = true <-> x = y.
Proof.
  revert y; induction x as [|a x IH]; destruct y as [|c y]; simpl; try (split; congruence).
  rewrite andb_true_iff, byte_eqb_eq, IH. split; [intros []; congruence | intros E; inversion E; auto].
Qed.

Lemma str_eqb_eq x y : str_eqb x y = true <-> x = y.
Proof.
  revert y; induction x as [|a x IH]; destruct y as [|c y]; simpl; try (split; congruence).
  rewrite andb_true_iff, N.eqb_eq, IH. split; [intros []; congruence | intros E; inversion E; auto].
Qed.

Lemma str_eqb_refl x : str_eqb x x = true.
Proof. now apply str_eqb_eq. Qed.

Lemma str_eqb_neq x y : str_eqb x y = false <-> x <> y.
Proof.
  destruct (str_eqb x y) eqn:E; split; try congruence.
  - apply str_eqb_eq in E. congruence.
  - intros _ H. subst. rewrite str_eqb_refl in E. discriminate.
Qed.

(* ---- xor ---- *)

Lemma lxor_lt_256 x y : (x < 256 -> y < 256 -> N.lxor x y < 256)%N.
Proof.
  intros Hx Hy.
  destruct (N.eq_dec (N.lxor x y) 0) as [->|Hz]; [lia|].
  change 256%N with (2 ^ 8)%N.
  apply N.log2_lt_pow2; [lia|].
  destruct (N.eq_dec x 0) as [->|Hx0].
  { rewrite N.lxor_0_l in *. apply N.log2_lt_pow2; simpl; lia. }
  destruct (N.eq_dec y 0) as [->|Hy0].
  { rewrite N.lxor_0_r in *. apply N.log2_lt_pow2; simpl; lia. }
  eapply N.le_lt_trans; [apply N.log2_lxor|].
  apply N.max_lub_lt; apply N.log2_lt_pow2; simpl; lia.
Qed.

Lemma b2n_bxor x y : b2n (bxor x y) = N.lxor (b2n x) (b2n y).
Proof.
  unfold bxor. apply b2n_n2b_small, lxor_lt_256; apply b2n_lt.
Qed.

Lemma bxor_invol x m : bxor (bxor x m) m = x.
Proof.
  apply b2n_inj. rewrite !b2n_bxor, N.lxor_assoc, N.lxor_nilpotent. apply N.lxor_0_r.
Qed.

Lemma bxor_comm x y : bxor x y = bxor y x.
Proof. unfold bxor. now rewrite N.lxor_comm. Qed.

(* ---- big endian ---- *)

Lemma be_bytes_length k n : List.length (be_bytes k n) = k.
Proof. induction k; simpl; congruence. Qed.

Lemma be_N_acc bs a :
  fold_left (fun a b => (a * 256 + b2n b)%N) bs a
  = (a * 256 ^ N.of_nat (List.length bs) + be_N bs)%N.
Proof.
  unfold be_N. revert a. induction bs as [|x bs IH]; intros a.
  - simpl. lia.
  - cbn [fold_left List.length]. rewrite IH. rewrite (IH (0 * 256 + b2n x)%N).
    rewrite Nat2N.inj_succ, N.pow_succ_r'. lia.
Qed.

Lemma be_N_cons x bs :
  be_N (x :: bs) = (b2n x * 256 ^ N.of_nat (List.length bs) + be_N bs)%N.
Proof. unfold be_N at 1. cbn [fold_left]. rewrite be_N_acc. lia. Qed.

Lemma be_N_nil : be_N [] = 0%N.
Proof. reflexivity. Qed.

Lemma be_N_lt bs : (be_N bs < 256 ^ N.of_nat (List.length bs))%N.
Proof.
  induction bs as [|x bs IH].
  - rewrite be_N_nil. simpl. lia.
  - rewrite be_N_cons. cbn [List.length]. rewrite Nat2N.inj_succ, N.pow_succ_r'.
    pose proof (b2n_lt x). nia.
Qed.

Lemma be_N_be_bytes k n : be_N (be_bytes k n) = (n mod 256 ^ N.of_nat k)%N.
Proof.
  induction k as [|k IH].
  - simpl be_bytes. rewrite be_N_nil. now rewrite N.mod_1_r.
  - cbn [be_bytes]. rewrite be_N_cons, be_bytes_length, IH, b2n_n2b.
    rewrite Nat2N.inj_succ, N.pow_succ_r'.
    set (P := (256 ^ N.of_nat k)%N).
    assert (P <> 0)%N by (unfold P; apply N.pow_nonzero; lia).
    rewrite (N.mul_comm 256 P), N.mod_mul_r by lia. lia.
Qed.

Lemma be_N_be_bytes_small k n :
  (n < 256 ^ N.of_nat k)%N -> be_N (be_bytes k n) = n.
Proof. intros H. rewrite be_N_be_bytes. now apply N.mod_small. Qed.

Lemma be_bytes_mod k n j :
  (k <= j)%nat -> be_bytes k (n mod 256 ^ N.of_nat j) = be_bytes k n.
Proof.
  revert j. induction k as [|k IH]; intros j Hj; [reflexivity|].
  cbn [be_bytes]. rewrite IH by lia. f_equal.
  rewrite <- (n2b_mod (_ / _)), <- (n2b_mod (n / _)). f_equal.
  set (P := (256 ^ N.of_nat k)%N).
  assert (HP : (P <> 0)%N) by (unfold P; apply N.pow_nonzero; lia).
  assert (E : (256 ^ N.of_nat j = P * (256 * 256 ^ N.of_nat (j - S k)))%N).
  { unfold P. replace j with (k + S (j - S k))%nat at 1 by lia.
    rewrite Nat2N.inj_add, N.pow_add_r, Nat2N.inj_succ, N.pow_succ_r'. reflexivity. }
  rewrite E. set (Q := (256 ^ N.of_nat (j - S k))%N).
  assert (HQ : (Q <> 0)%N) by (unfold Q; apply N.pow_nonzero; lia).
  rewrite N.mod_mul_r by lia.
  rewrite (N.mul_comm P), N.div_add by lia.
  rewrite N.div_small by (apply N.mod_lt; lia).
  rewrite N.add_0_l. rewrite N.mod_mul_r by lia.
  rewrite (N.mul_comm 256), N.mod_add by lia. now rewrite N.mod_mod by lia.
Qed.

Lemma be_bytes_be_N bs : be_bytes (List.length bs) (be_N bs) = bs.
Proof.
  induction bs as [|x bs IH]; [reflexivity|].
  cbn [List.length be_bytes]. rewrite be_N_cons.
  set (P := (256 ^ N.of_nat (List.length bs))%N).
  assert (P <> 0)%N by (unfold P; apply N.pow_nonzero; lia).
  pose proof (be_N_lt bs) as Hlt. fold P in Hlt.
  f_equal.
  - rewrite N.div_add_l by lia. rewrite (N.div_small (be_N bs)) by lia.
    rewrite N.add_0_r. apply n2b_b2n.
  - rewrite <- (be_bytes_mod (List.length bs) _ (List.length bs)) by lia.
    fold P. rewrite N.add_comm, N.mod_add by lia.
    rewrite N.mod_small by lia. exact IH.
Qed.

Lemma lenN_app {A} (x y : list A) : lenN (x ++ y) = (lenN x + lenN y)%N.
Proof. unfold lenN. rewrite app_length. lia. Qed.
Lemma lenN_cons {A} (x : A) (y : list A) : lenN (x :: y) = (1 + lenN y)%N.
Proof. unfold lenN. simpl List.length. lia. Qed.
Lemma lenN_nil {A} : lenN (@nil A) = 0%N.
Proof. reflexivity. Qed.
Lemma lenZ_lenN {A} (x : list A) : lenZ x = Z.of_N (lenN x).
Proof. unfold lenZ, lenN. lia. Qed.

Lemma skipn_skipn' {A} n m (l : list A) : skipn n (skipn m l) = skipn (m + n) l.
Proof.
  revert l. induction m as [|m IH]; intros l; [reflexivity|].
  destruct l; [now rewrite !skipn_nil|]. simpl. apply IH.
Qed.

Lemma nth_error_ext_len {A} (x y : list A) :
  length x = length y ->
  (forall i u v, nth_error x i = Some u -> nth_error y i = Some v -> u = v) -> x = y.
Proof.
  revert y. induction x as [|a x IH]; intros [|c y] L H; try discriminate; auto.
  f_equal; [apply (H 0%nat); reflexivity|]. apply IH; [now injection L|].
  intros i u v Hu Hv. apply (H (S i)); assumption.
Qed.
