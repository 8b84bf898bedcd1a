(* Facts about Model/Streams.v *)
From Verif Require Import Base.Prelude Base.PreludeFacts Model.Streams.

Definition obind {S A B} (o : outcome S A) (f : A -> gen S B) : outcome S B :=
  match o with
  | OSusp g r x => OSusp (gbind g f) r x
  | ODone a r x => run (f a) r x
  | OFail e r x => OFail e r x
  end.

Lemma run_gbind {S A B} (g : gen S A) (f : A -> gen S B) r x :
  run (gbind g f) r x = obind (run g r x) f.
Proof.
  revert r x. induction g as [a|e|p k IH|n k IH|k IH|k IH|k IH|y k IH|k IH]; intros r x; simpl; auto.
  - destruct (find_lf_from p (r_buffer r)); simpl; auto. destruct (r_eof r); simpl; auto.
  - destruct (n <? 0)%Z; auto. destruct (lenZ (r_buffer r) <? n)%Z; auto.
    destruct (r_eof r); auto.
  - destruct (r_eof r); auto.
  - destruct (r_buffer r); auto. destruct (r_eof r); auto.
Qed.

Lemma run_glift {S A} (a : result A) r (x : S) :
  run (glift a) r x = match a with Ok v => ODone v r x | Raise e => OFail e r x end.
Proof. destruct a; reflexivity. Qed.

Lemma reader_eta r : {| r_buffer := r_buffer r; r_eof := r_eof r |} = r.
Proof. now destruct r. Qed.

Lemma firstn_app_exact {A} n (x y : list A) : length x = n -> firstn n (x ++ y) = x.
Proof. intros <-. rewrite firstn_app, firstn_all, Nat.sub_diag. simpl. apply app_nil_r. Qed.
Lemma skipn_app_exact {A} n (x y : list A) : length x = n -> skipn n (x ++ y) = y.
Proof. intros <-. rewrite skipn_app, skipn_all, Nat.sub_diag. reflexivity. Qed.

Lemma run_read_exact_app {S} n a rest r (x : S) :
  lenZ a = n -> r_buffer r = a ++ rest ->
  run (read_exact n) r x = ODone a (with_buffer r rest) x.
Proof.
  intros Hn Hb. unfold read_exact. simpl. rewrite Hb. unfold lenZ in *. rewrite app_length.
  destruct (Z.ltb_spec n 0); [lia|]. destruct (Z.ltb_spec (Z.of_nat (length a + length rest)) n); [lia|].
  rewrite firstn_app_exact, skipn_app_exact by lia. reflexivity.
Qed.

(* Without EOF, read_exact returns only when the buffer contains enough bytes. *)
Lemma run_read_exact_inv {S} n r (x : S) :
  match run (read_exact n) r x with
  | ODone a r' x' => x' = x /\ r_eof r' = r_eof r /\ (0 <= n)%Z /\ lenZ a = n /\ r_buffer r = a ++ r_buffer r'
  | OSusp g r' x' => r_eof r = false /\ g = read_exact n /\ r' = r /\ x' = x /\ (lenZ (r_buffer r) < n)%Z
  | OFail e r' x' => r' = r /\ x' = x /\ (e = AssertionError /\ (n < 0)%Z \/
                     e = EOFError /\ r_eof r = true /\ (lenZ (r_buffer r) < n)%Z)
  end.
Proof.
  unfold read_exact. simpl. destruct (Z.ltb_spec n 0); simpl; [auto|].
  destruct (Z.ltb_spec (lenZ (r_buffer r)) n).
  - destruct (r_eof r) eqn:E; simpl; auto 10.
  - simpl. unfold lenZ in *. repeat split; auto.
    + rewrite firstn_length. lia.
    + symmetry. apply firstn_skipn.
Qed.

(* ---- feeding data in several times ---- *)

(* a generator which doesn't yield explicitly before EOF *)
Fixpoint live {S A} (g : gen S A) : Prop :=
  match g with
  | GRet _ | GRaise _ => True
  | GReadLine p k => p = 0 /\ forall x, live (k x)
  | GReadExact _ k => forall x, live (k x)
  | GReadToEof k => forall x, live (k x)
  | GAtEof k => live (k false)
  | GGet k => forall x, live (k x)
  | GPut _ k => live k
  | GYield _ => False
  end.

(* the same, suspended with n bytes in the buffer *)
Definition live_at {S A} (n : nat) (g : gen S A) : Prop :=
  match g with GReadLine p k => p <= n /\ forall x, live (k x) | _ => live g end.

Lemma live_live_at {S A} n (g : gen S A) : live g -> live_at n g.
Proof. destruct g; simpl; auto. intros [-> H]. split; [lia|exact H]. Qed.

Definition grow (r : reader) (d : bytes) : reader :=
  {| r_buffer := r_buffer r ++ d; r_eof := r_eof r |}.

Lemma grow_nil r : grow r [] = r.
Proof. unfold grow. rewrite app_nil_r. now destruct r. Qed.
Lemma grow_grow r d e : grow (grow r d) e = grow r (d ++ e).
Proof. unfold grow. simpl. now rewrite app_assoc. Qed.

Lemma find_lf_app x y :
  find_lf (x ++ y) = match find_lf x with
                     | Some i => Some i
                     | None => match find_lf y with Some i => Some (length x + i) | None => None end
                     end.
Proof.
  induction x as [|a x IH]; cbn [app find_lf length].
  - destruct (find_lf y); reflexivity.
  - destruct (byte_eqb a (n2b 10)); [reflexivity|]. rewrite IH.
    destruct (find_lf x); [reflexivity|]. destruct (find_lf y); reflexivity.
Qed.

Lemma find_lf_bound x i : find_lf x = Some i -> i < length x.
Proof.
  revert i. induction x as [|a x IH]; intros i H; [discriminate|]. cbn [find_lf] in H.
  destruct (byte_eqb a (n2b 10)); [injection H as <-; simpl; lia|].
  destruct (find_lf x); [|discriminate]. injection H as <-. simpl. specialize (IH n eq_refl). lia.
Qed.

Lemma find_lf_from_app p x y : p <= length x ->
  find_lf_from p (x ++ y) = match find_lf_from p x with
                            | Some i => Some i
                            | None => find_lf_from (length x) (x ++ y)
                            end.
Proof.
  intros Hp. unfold find_lf_from. rewrite !skipn_app, skipn_all, Nat.sub_diag.
  replace (p - length x) with 0 by lia. cbn [skipn app]. rewrite find_lf_app, skipn_length.
  destruct (find_lf (skipn p x)); [reflexivity|]. destruct (find_lf y); [|reflexivity].
  f_equal. lia.
Qed.

Lemma find_lf_from_bound p x i : find_lf_from p x = Some i -> p <= length x -> i + 1 <= length x.
Proof.
  unfold find_lf_from. destruct (find_lf (skipn p x)) eqn:E; [|discriminate].
  intros H Hp. injection H as <-. apply find_lf_bound in E. rewrite skipn_length in E. lia.
Qed.

Lemma firstn_app_le {A} n (x y : list A) : n <= length x -> firstn n (x ++ y) = firstn n x.
Proof. intros H. rewrite firstn_app. replace (n - length x) with 0 by lia. simpl. apply app_nil_r. Qed.
Lemma skipn_app_le {A} n (x y : list A) : n <= length x -> skipn n (x ++ y) = skipn n x ++ y.
Proof. intros H. rewrite skipn_app. replace (n - length x) with 0 by lia. reflexivity. Qed.

(* What a generator does on a buffer extended with more data. *)
Theorem run_feed {S A} (g : gen S A) : forall r x d,
  live_at (length (r_buffer r)) g -> r_eof r = false ->
  match run g r x with
  | OSusp g' r' x' => run g (grow r d) x = run g' (grow r' d) x' /\
                      live_at (length (r_buffer r')) g' /\ r_eof r' = false
  | ODone a r' x' => run g (grow r d) x = ODone a (grow r' d) x' /\ r_eof r' = false
  | OFail e r' x' => run g (grow r d) x = OFail e (grow r' d) x' /\ r_eof r' = false
  end.
Proof.
  induction g as [a|e|p k IH|n k IH|k IH|k IH|k IH|y k IH|k IH]; intros r x d L E; simpl in *; auto.
  - destruct L as [Hp L]. rewrite find_lf_from_app by exact Hp.
    destruct (find_lf_from p (r_buffer r)) as [i|] eqn:F.
    + apply find_lf_from_bound in F; [|exact Hp].
      rewrite firstn_app_le, skipn_app_le by exact F.
      specialize (IH (Ok (firstn (i + 1) (r_buffer r))) (with_buffer r (skipn (i + 1) (r_buffer r))) x d).
      apply IH; [apply live_live_at, L|exact E].
    + rewrite E. cbn [run]. cbn [grow r_buffer r_eof]. rewrite E. simpl. auto.
  - destruct (n <? 0)%Z eqn:N0.
    + apply IH; [apply live_live_at, L|exact E].
    + unfold lenZ. rewrite app_length. destruct (Z.ltb_spec (Z.of_nat (length (r_buffer r))) n) as [H|H].
      * rewrite E. cbn [run]. unfold lenZ. cbn [grow r_buffer r_eof]. rewrite app_length, E, N0. auto.
      * destruct (Z.ltb_spec (Z.of_nat (length (r_buffer r) + length d)) n); [lia|].
        rewrite firstn_app_le, skipn_app_le by lia.
        specialize (IH (Ok (firstn (Z.to_nat n) (r_buffer r)))
                      (with_buffer r (skipn (Z.to_nat n) (r_buffer r))) x d).
        apply IH; [apply live_live_at, L|exact E].
  - rewrite E. cbn [run]. cbn [grow r_eof]. rewrite E. auto.
  - destruct (r_buffer r) as [|c buf] eqn:B.
    + rewrite E. cbn [run]. cbn [grow r_eof r_buffer]. rewrite B, E. auto.
    + specialize (IH false r x d). rewrite B in IH. apply IH; [apply live_live_at, L|exact E].
  - apply IH; [apply live_live_at, L|exact E].
  - apply IH; [apply live_live_at, L|exact E].
  - contradiction.
Qed.

(* Running never loses or invents bytes: what remains is a suffix of what was there. *)
Lemma run_suffix {S A} (g : gen S A) : forall r x,
  exists pre, r_buffer r = pre ++ r_buffer (match run g r x with
                                             | OSusp _ r' _ | ODone _ r' _ | OFail _ r' _ => r' end).
Proof.
  induction g as [a|e|p k IH|n k IH|k IH|k IH|k IH|y k IH|k IH]; intros r x; simpl;
    try (exists []; reflexivity).
  - destruct (find_lf_from p (r_buffer r)) as [i|].
    + match goal with |- context [run (k ?v) ?r' x] => destruct (IH v r' x) as [pre H] end.
      exists (firstn (i + 1) (r_buffer r) ++ pre). rewrite <- app_assoc, <- H. simpl.
      symmetry. apply firstn_skipn.
    + destruct (r_eof r); [apply IH|exists []; reflexivity].
  - destruct (n <? 0)%Z; [apply IH|]. destruct (lenZ (r_buffer r) <? n)%Z.
    + destruct (r_eof r); [apply IH|exists []; reflexivity].
    + match goal with |- context [run (k ?v) ?r' x] => destruct (IH v r' x) as [pre H] end.
      exists (firstn (Z.to_nat n) (r_buffer r) ++ pre). rewrite <- app_assoc, <- H. simpl.
      symmetry. apply firstn_skipn.
  - destruct (r_eof r); [|exists []; reflexivity].
    match goal with |- context [run (k ?v) ?r' x] => destruct (IH v r' x) as [pre H] end.
    exists (r_buffer r ++ pre). rewrite <- app_assoc, <- H. simpl. now rewrite app_nil_r.
  - destruct (r_buffer r) eqn:B.
    + destruct (r_eof r); [rewrite <- B; apply IH|exists []; simpl; now rewrite B].
    + rewrite <- B. apply IH.
  - apply IH.
  - apply IH.
Qed.

Lemma live_gbind {S A B} (g : gen S A) (f : A -> gen S B) :
  live g -> (forall a, live (f a)) -> live (gbind g f).
Proof.
  intros L H. induction g; simpl in *; auto.
  destruct L; auto.
Qed.
Lemma live_glift {S A} (r : result A) : live (@glift S A r).
Proof. destruct r; exact I. Qed.
Lemma live_read_exact {S} n : live (@read_exact S n).
Proof. simpl. intros. apply live_glift. Qed.
Lemma live_read_line {S} : live (@read_line S).
Proof. simpl. split; auto. intros. apply live_glift. Qed.
