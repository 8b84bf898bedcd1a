(* str(n) and int(str(n)) *)
From Verif Require Import Base.Prelude Base.PreludeFacts Base.PyInt.
Local Open Scope N_scope.

Lemma decimal_fuel_ok n : n < 2 ^ N.of_nat (N.size_nat n).
Proof.
  destruct n as [|p]; [reflexivity|]. simpl N.size_nat.
  replace (N.of_nat (Pos.size_nat p)) with (N.size (Npos p)).
  - apply N.size_gt.
  - cbn [N.size]. induction p as [p IH|p IH|]; cbn [Pos.size Pos.size_nat]; lia.
Qed.

(* the digits of n, most significant first *)
Lemma decimal_acc fuel : forall n acc, decimal fuel n acc = decimal fuel n [] ++ acc.
Proof.
  induction fuel as [|f IH]; intros n acc; cbn [decimal]; [reflexivity|].
  destruct (n / 10 =? 0); [reflexivity|].
  rewrite (IH (n / 10) (_ :: acc)), (IH (n / 10) [_]), <- app_assoc. reflexivity.
Qed.

Lemma decimal_digits fuel : forall n, Forall (fun c => 48 <= c <= 57) (decimal fuel n []).
Proof.
  induction fuel as [|f IH]; intros n; cbn [decimal]; [constructor|].
  assert (48 <= 48 + n mod 10 <= 57).
  { pose proof (N.mod_lt n 10 ltac:(discriminate)). lia. }
  destruct (n / 10 =? 0); [constructor; [lia|constructor]|].
  rewrite decimal_acc. apply Forall_app. split; [apply IH|constructor; [lia|constructor]].
Qed.

Lemma decimal_length fuel : forall n k, (0 < k)%nat -> n < 10 ^ N.of_nat k ->
  (length (decimal fuel n []) <= k)%nat.
Proof.
  induction fuel as [|f IH]; intros n k Hk Hn; cbn [decimal length]; [lia|].
  destruct (N.eqb_spec (n / 10) 0) as [E|E]; [simpl; lia|].
  rewrite decimal_acc, app_length. simpl length.
  destruct k as [|[|k]]; [lia| |].
  - exfalso. apply E. apply N.div_small. exact Hn.
  - specialize (IH (n / 10) (S k) ltac:(lia)).
    assert (n / 10 < 10 ^ N.of_nat (S k)).
    { apply N.div_lt_upper_bound; [discriminate|].
      rewrite <- N.pow_succ_r', <- Nat2N.inj_succ. exact Hn. }
    specialize (IH H). lia.
Qed.

Lemma str_of_N_digits n : Forall (fun c => 48 <= c <= 57) (str_of_N n).
Proof. apply decimal_digits. Qed.

Lemma str_of_N_length n k : (0 < k)%nat -> n < 10 ^ N.of_nat k -> (length (str_of_N n) <= k)%nat.
Proof. apply decimal_length. Qed.

Lemma str_of_N_nonempty n : str_of_N n <> [].
Proof.
  unfold str_of_N. cbn [decimal]. destruct (n / 10 =? 0); [discriminate|].
  rewrite decimal_acc. intros E. apply app_eq_nil in E as [_ E]. discriminate.
Qed.

Lemma int_digits_app x y acc seen :
  Forall (fun c => 48 <= c <= 57) x ->
  int_digits (x ++ y) acc seen =
  match x with
  | [] => int_digits y acc seen
  | _ => int_digits y (fold_left (fun a c => a * 10 + (c - 48)) x acc) true
  end.
Proof.
  revert acc seen. induction x as [|c x IH]; intros acc seen H; [reflexivity|].
  inversion H; subst. cbn [app int_digits].
  assert (D : is_digit c = true) by (unfold is_digit; lia). rewrite D.
  rewrite IH by assumption. destruct x; reflexivity.
Qed.

Lemma fold_digits fuel : forall n, n < 2 ^ N.of_nat fuel ->
  fold_left (fun a c => a * 10 + (c - 48)) (decimal (S fuel) n []) 0 = n.
Proof.
  induction fuel as [|f IH]; intros n Hn.
  - assert (n = 0) by (simpl in Hn; lia). subst. reflexivity.
  - remember (S f) as f'. cbn [decimal]. subst f'.
    destruct (N.eqb_spec (n / 10) 0) as [E|E].
    + cbn [fold_left]. pose proof (N.div_mod n 10 ltac:(discriminate)). lia.
    + rewrite decimal_acc, fold_left_app, IH.
      * cbn [fold_left]. pose proof (N.div_mod n 10 ltac:(discriminate)). lia.
      * apply N.div_lt_upper_bound; [discriminate|].
        rewrite Nat2N.inj_succ, N.pow_succ_r' in Hn. lia.
Qed.

Lemma str_of_N_value n : fold_left (fun a c => a * 10 + (c - 48)) (str_of_N n) 0 = n.
Proof. apply fold_digits, decimal_fuel_ok. Qed.

Lemma int_digits_str_of_N n : int_digits (str_of_N n) 0 false = Some n.
Proof.
  rewrite <- (app_nil_r (str_of_N n)), int_digits_app by apply str_of_N_digits.
  destruct (str_of_N n) eqn:E; [now apply str_of_N_nonempty in E|].
  rewrite <- E, str_of_N_value. reflexivity.
Qed.

Lemma lstrip_digits x : Forall (fun c => 48 <= c <= 57) x -> lstrip_space x = x.
Proof.
  destruct x as [|c x]; intros H; [reflexivity|]. inversion H; subst. simpl.
  replace (is_space c) with false by (unfold is_space; lia). reflexivity.
Qed.

Lemma strip_digits x : Forall (fun c => 48 <= c <= 57) x -> strip_space x = x.
Proof.
  intros H. unfold strip_space. rewrite (lstrip_digits x H).
  rewrite (lstrip_digits (rev x)) by (apply Forall_rev; exact H). apply rev_involutive.
Qed.

Theorem py_int_str_of_N n : py_int (str_of_N n) = Some (Z.of_N n).
Proof.
  unfold py_int. rewrite strip_digits by apply str_of_N_digits.
  pose proof (str_of_N_digits n) as D. pose proof (int_digits_str_of_N n) as V.
  destruct (str_of_N n) as [|c x]; [discriminate V|].
  inversion D as [|? ? Hc Hx]; subst.
  assert (c <> 43 /\ c <> 45) as [N1 N2] by lia.
  destruct c as [|p]; [lia|].
  do 6 (destruct p as [p|p|]; try (rewrite V; reflexivity); try congruence).
Qed.
