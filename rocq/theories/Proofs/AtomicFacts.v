(* The parser of Model/Connection.v acts on the connection only once a whole frame (or
   handshake message) is there: a rule to prove invariants of all histories of a
   connection. *)
From Verif Require Import Base.Prelude Base.PreludeFacts Model.Utils Model.Streams Model.Frames
  Model.Http11 Model.Connection Proofs.StreamsFacts Proofs.FramesFacts Proofs.ParserFacts.

(* ---- generators which read first, then access the state ---- *)

Fixpoint noread {S A} (g : gen S A) : Prop :=
  match g with
  | GRet _ | GRaise _ | GYield _ => True
  | GReadLine _ _ | GReadExact _ _ | GReadToEof _ | GAtEof _ => False
  | GGet k => forall x, noread (k x)
  | GPut _ k => noread k
  end.

(* F x: what of the state reads may depend on *)
Fixpoint reads_first {S A T} (F : S -> T) (g : gen S A) : Prop :=
  match g with
  | GRet _ | GRaise _ | GYield _ | GReadToEof _ => True
  | GReadLine _ k => forall r, reads_first F (k r)
  | GReadExact _ k => forall r, reads_first F (k r)
  | GAtEof k => reads_first F (k false)
  | GGet k => ((forall x y, F x = F y -> k x = k y) /\ forall x, reads_first F (k x))
              \/ (forall x, noread (k x))
  | GPut _ k => noread k
  end.

Definition later (r : reader) (d : bytes) (e : bool) : reader :=
  {| r_buffer := r_buffer r ++ d; r_eof := e |}.

Lemma noread_no_susp {S A} (g : gen S A) : forall r x g' r' x',
  noread g -> live g -> run g r x <> OSusp g' r' x'.
Proof.
  induction g as [a|e|p k IH|n k IH|k IH|k IH|k IH|y k IH|k IH]; intros r x g' r' x' N L; simpl in *;
    try discriminate; try contradiction; auto.
Qed.

Theorem run_atomic {S A T} (F : S -> T) (g : gen S A) : forall r x g' r' x',
  reads_first F g -> live_at (length (r_buffer r)) g -> r_eof r = false ->
  run g r x = OSusp g' r' x' ->
  x' = x /\ r_eof r' = false /\ live_at (length (r_buffer r')) g' /\
  forall d e y, F y = F x -> run g (later r d e) y = run g' (later r' d e) y.
Proof.
  induction g as [a|e|p k IH|n k IH|k IH|k IH|k IH|y k IH|k IH]; intros r x g' r' x' R L Er H;
    cbn [reads_first live_at live run] in *; try discriminate.
  - destruct L as [Hp L].
    destruct (find_lf_from p (r_buffer r)) as [i|] eqn:Fi.
    + pose proof (find_lf_from_bound _ _ _ Fi Hp) as Hi.
      apply IH in H; [|apply R|apply live_live_at, L|exact Er].
      destruct H as (H1 & H2 & H3 & H4). split; [exact H1|]. split; [exact H2|]. split; [exact H3|].
      intros d e y Hy. specialize (H4 d e y Hy). cbn [later r_buffer r_eof].
      rewrite find_lf_from_app, Fi by exact Hp.
      rewrite firstn_app_le, skipn_app_le by exact Hi. exact H4.
    + rewrite Er in H. injection H as <- <- <-. split; [reflexivity|]. split; [exact Er|]. split; [split; [lia|auto]|].
      intros d e y Hy. cbn [later r_buffer r_eof run].
      rewrite find_lf_from_app, Fi by exact Hp. reflexivity.
  - destruct (n <? 0)%Z eqn:N0.
    + apply IH in H; [|apply R|apply live_live_at, L|exact Er].
      destruct H as (H1 & H2 & H3 & H4). split; [exact H1|]. split; [exact H2|]. split; [exact H3|]. exact H4.
    + destruct (Z.ltb_spec (lenZ (r_buffer r)) n) as [Hn|Hn].
      * rewrite Er in H. injection H as <- <- <-. split; [reflexivity|]. split; [exact Er|]. split; [apply live_live_at; cbn [live]; auto|].
        intros d e y Hy. cbn [run]. rewrite N0. reflexivity.
      * apply IH in H; [|apply R|apply live_live_at, L|exact Er].
        destruct H as (H1 & H2 & H3 & H4). split; [exact H1|]. split; [exact H2|]. split; [exact H3|].
        intros d e y Hy. specialize (H4 d e y Hy). cbn [later r_buffer r_eof].
        unfold lenZ in *. rewrite app_length.
        destruct (Z.ltb_spec (Z.of_nat (length (r_buffer r) + length d)) n); [lia|].
        rewrite firstn_app_le, skipn_app_le by lia. exact H4.
  - rewrite Er in H. injection H as <- <- <-. split; [reflexivity|]. split; [exact Er|]. split; [apply live_live_at; cbn [live]; auto|]. reflexivity.
  - destruct (r_buffer r) as [|c buf] eqn:B.
    + rewrite Er in H. injection H as <- <- <-. split; [reflexivity|]. split; [exact Er|]. split; [apply live_live_at; cbn [live]; auto|]. reflexivity.
    + apply IH in H; [|apply R|apply live_live_at, L|exact Er].
      destruct H as (H1 & H2 & H3 & H4). split; [exact H1|]. split; [exact H2|]. split; [exact H3|].
      intros d e y Hy. specialize (H4 d e y Hy).
      unfold later at 1. cbn [r_buffer]. rewrite B. cbn [app].
      exact H4.
  - destruct R as [[R1 R2]|R].
    + apply IH in H; [|apply R2|apply live_live_at, L|exact Er].
      destruct H as (H1 & H2 & H3 & H4). split; [exact H1|]. split; [exact H2|]. split; [exact H3|].
      intros d e y Hy. rewrite <- (H4 d e y Hy). rewrite (R1 y x Hy). reflexivity.
    + exfalso. eapply noread_no_susp; [apply R|apply L|exact H].
  - exfalso. eapply noread_no_susp; [apply R|apply L|exact H].
  - contradiction.
Qed.

(* generators which don't access the state *)
Fixpoint pure_reads {S A} (g : gen S A) : Prop :=
  match g with
  | GRet _ | GRaise _ => True
  | GReadLine _ k => forall r, pure_reads (k r)
  | GReadExact _ k => forall r, pure_reads (k r)
  | GReadToEof k => forall r, pure_reads (k r)
  | GAtEof k => forall r, pure_reads (k r)
  | _ => False
  end.

Lemma pure_gbind {S A B} (g : gen S A) (f : A -> gen S B) :
  pure_reads g -> (forall a, pure_reads (f a)) -> pure_reads (gbind g f).
Proof. intros H K. induction g; simpl in *; auto; contradiction. Qed.
Lemma pure_glift {S A} (r : result A) : pure_reads (@glift S A r).
Proof. destruct r; exact I. Qed.
Lemma pure_read_exact {S} n : pure_reads (@read_exact S n).
Proof. simpl. intros. apply pure_glift. Qed.
Lemma pure_read_line {S} : pure_reads (@read_line S).
Proof. simpl. intros. apply pure_glift. Qed.

Lemma reads_first_bind {S A B T} (F : S -> T) (g : gen S A) (f : A -> gen S B) :
  pure_reads g -> (forall a, reads_first F (f a)) -> reads_first F (gbind g f).
Proof. intros H K. induction g; simpl in *; auto; contradiction. Qed.

Lemma noread_reads_first {S A T} (F : S -> T) (g : gen S A) : noread g -> reads_first F g.
Proof.
  induction g as [a|e|p k IH|n k IH|k IH|k IH|k IH|y k IH|k IH]; cbn [noread reads_first];
    auto; contradiction.
Qed.

Lemma noread_gbind {S A B} (g : gen S A) (f : A -> gen S B) :
  noread g -> (forall a, noread (f a)) -> noread (gbind g f).
Proof. intros H K. induction g; simpl in *; auto. Qed.
Lemma noread_glift {S A} (r : result A) : noread (@glift S A r).
Proof. destruct r; exact I. Qed.

Lemma pure_parse_wire {S} mask max : pure_reads (@parse_wire S mask max).
Proof.
  unfold parse_wire. apply pure_gbind; [apply pure_read_exact|].
  intros [|x1 [|x2 [|]]]; try exact I.
  destruct (opcode_of_N _); [|exact I]. destruct (negb _); [exact I|].
  apply pure_gbind.
  { destruct (_ =? 126)%N; [|destruct (_ =? 127)%N]; try exact I;
    (apply pure_gbind; [apply pure_read_exact|intros; exact I]). }
  intros n. apply pure_gbind.
  { destruct max as [m|]; [|exact I]. destruct (m <? Z.of_N n)%Z; exact I. }
  intros _. apply pure_gbind.
  { destruct mask; [apply pure_read_exact|exact I]. }
  intros k. apply pure_gbind; [apply pure_read_exact|].
  intros d. apply pure_gbind; [|intros; exact I].
  destruct mask; [apply pure_glift|exact I].
Qed.

Section Rule.
Context {E : Type} (X : ext_ops E).
Implicit Type c : conn E.

(* the attributes only the parser assigns *)
Definition frozen c : side * option Z * option Z := (c_side c, c_max_size c, c_cur_size c).

Lemma noread_gmeth (m : @meth E) : noread (gmeth m).
Proof. simpl. intros c. destruct (m c). simpl. apply noread_glift. Qed.

Lemma reads_first_parse_body : reads_first frozen (parse_body X).
Proof.
  unfold parse_body. cbn [gbind at_eof get_state reads_first]. left. split.
  - intros x y H. unfold frozen in H. unfold next_max_size.
    assert (c_side x = c_side y) as -> by congruence.
    assert (c_max_size x = c_max_size y) as -> by congruence.
    assert (c_cur_size x = c_cur_size y) as -> by congruence. reflexivity.
  - intros c. unfold parse_frame.
    assert (N : forall f, noread
      (let* f := (let* st := get_state in
        let '(exts', r) := decode_reversed X (c_exts st) f (next_max_size c) in
        let* _ := put_state (set_exts st exts') in
        let* f := glift r in
        let* _ := glift (check f) in GRet f) in
       let* _ := gmeth (process_frame X f) in
       gmeth (mupd (fun c => set_events c (c_events c ++ [EvFrame f]))))).
    { intros f. apply noread_gbind.
      - cbn [gbind get_state noread]. intros x. destruct (decode_reversed _ _ _ _). cbn [gbind put_state noread].
        apply noread_gbind; [apply noread_glift|]. intros. apply noread_gbind; [apply noread_glift|].
        intros; exact I.
      - intros f'. apply noread_gbind; [apply noread_gmeth|]. intros _. apply noread_gmeth. }
    assert (A : forall A B C (g : gen (conn E) A) (f : A -> gen (conn E) B) (h : B -> gen (conn E) C),
              pure_reads g -> (forall a, noread (gbind (f a) h)) -> reads_first frozen (gbind (gbind g f) h)).
    { intros A B C g f h P Q. induction g; simpl in *; auto; try contradiction.
      apply noread_reads_first. apply Q. }
    apply A; [apply pure_parse_wire|exact N].
Qed.

(* ---- histories ---- *)

(* [hist M Z m0 pe pw m]: the machine m is reached from m0 by receiving data, the end of the
   stream if Z, calling methods in M, and draining events and writes; pe and pw are what
   was drained. *)
Inductive hist (M : @meth E -> Prop) (Z : Prop) (m0 : machine E) : list event -> list bytes -> machine E -> Prop :=
| h_refl : hist M Z m0 [] [] m0
| h_data pe pw m d : hist M Z m0 pe pw m -> hist M Z m0 pe pw (fst (receive_data X m d))
| h_eof pe pw m : Z -> hist M Z m0 pe pw m -> hist M Z m0 pe pw (fst (receive_eof X m))
| h_meth pe pw m f : hist M Z m0 pe pw m -> M f -> hist M Z m0 pe pw (fst (on_conn m f))
| h_events pe pw m : hist M Z m0 pe pw m ->
    hist M Z m0 (pe ++ c_events (m_conn m)) pw
      (Machine (set_events (m_conn m) []) (m_reader m) (m_parser m) (m_exc m))
| h_writes pe pw m : hist M Z m0 pe pw m ->
    hist M Z m0 pe (pw ++ c_writes (m_conn m))
      (Machine (set_writes (m_conn m) []) (m_reader m) (m_parser m) (m_exc m)).

(* the parser waits for more of the message g reads, having read buf *)
Definition waits (G : gen (conn E) unit -> Prop) (m : machine E) : Prop :=
  match m_parser m with
  | PDead => True
  | PRun g =>
    m_exc m = None /\
    (r_eof (m_reader m) = false ->
    live_at (length (r_buffer (m_reader m))) g /\
    exists g0 buf, (G g0 \/ g0 = parse_body X) /\
      forall d e c, frozen c = frozen (m_conn m) ->
        run g0 {| r_buffer := buf ++ d; r_eof := e |} c = run g (later (m_reader m) d e) c)
  end.

(* P is preserved by complete executions of g, and Q e holds when g raises e *)
Definition preserved (Z : Prop) (P : conn E -> Prop) (Q : exn -> conn E -> Prop)
    (g : gen (conn E) unit) : Prop :=
  forall r c, (r_eof r = true -> Z) -> P c ->
  match run g r c with
  | ODone _ _ c' => P c'
  | OFail e _ c' => Q e c'
  | OSusp _ _ c' => r_eof r = true -> P c'
  end.

Lemma eof_stays {S A} (g : gen S A) : forall r x,
  r_eof (match run g r x with OSusp _ r' _ | ODone _ r' _ | OFail _ r' _ => r' end) = r_eof r.
Proof.
  induction g as [a|e|p k IH|n k IH|k IH|k IH|k IH|y k IH|k IH]; intros r x; simpl; auto.
  - destruct (find_lf_from p (r_buffer r)); [rewrite IH; reflexivity|].
    destruct (r_eof r) eqn:Er; [rewrite IH|]; exact Er.
  - destruct (n <? 0)%Z; [apply IH|]. destruct (lenZ (r_buffer r) <? n)%Z; [|rewrite IH; reflexivity].
    destruct (r_eof r) eqn:Er; [rewrite IH|]; exact Er.
  - destruct (r_eof r) eqn:Er; [rewrite IH|]; exact Er.
  - destruct (r_buffer r); [|apply IH]. destruct (r_eof r) eqn:Er; [rewrite IH|]; exact Er.
Qed.

Lemma run_parser_eof f : forall g r c,
  match run_parser X f g r c with
  | Some (OSusp _ r' _) | Some (ODone _ r' _) | Some (OFail _ r' _) => r_eof r' = r_eof r
  | None => True
  end.
Proof.
  induction f as [|f IH]; intros g r c; [exact I|]. cbn [run_parser].
  pose proof (eof_stays g r c) as H. destruct (run g r c) as [g' r' c'|a r' c'|e r' c']; auto.
  specialize (IH (parse_body X) r' c'). destruct (run_parser X f (parse_body X) r' c') as [[]|]; congruence.
Qed.

Lemma run_parser_preserved (Z : Prop) (P : conn E -> Prop) (Q : exn -> conn E -> Prop)
      (G : gen (conn E) unit -> Prop)
      (GP : forall g, G g -> preserved Z P Q g) (BP : preserved Z P Q (parse_body X))
      (GR : forall g, G g -> live g /\ reads_first frozen g) f :
  forall g r c o, (r_eof r = true -> Z) -> (G g \/ g = parse_body X) -> P c ->
  run_parser X f g r c = Some o ->
  match o with
  | OSusp g' r' c' => P c' /\ waits G (Machine c' r' (PRun g') None)
  | OFail e _ c' => Q e c'
  | ODone _ _ _ => False
  end.
Proof.
  induction f as [|f IH]; intros g r c o Hz Hg Pc H; [discriminate|]. cbn [run_parser] in H.
  assert (PG : preserved Z P Q g) by (destruct Hg as [Hg| ->]; auto).
  assert (LR : live g /\ reads_first frozen g).
  { destruct Hg as [Hg| ->]; [auto|]. split; [apply live_parse_body|apply reads_first_parse_body]. }
  destruct LR as [L R]. specialize (PG r c Hz Pc).
  pose proof (eof_stays g r c) as Es.
  destruct (run g r c) as [g' r' c'|a r' c'|e r' c'] eqn:Rn.
  - injection H as <-. destruct (r_eof r) eqn:Er.
    + split; [auto|]. unfold waits. simpl. split; [reflexivity|congruence].
    + destruct (run_atomic frozen g r c g' r' c' R (live_live_at _ _ L) Er Rn) as (-> & Er' & L' & K).
      split; [exact Pc|]. unfold waits. simpl. split; [reflexivity|]. intros _. split; [exact L'|].
      exists g, (r_buffer r). split; [exact Hg|]. intros d e c1 Hc. apply K, Hc.
  - eapply IH; [|right; reflexivity|exact PG|exact H]. rewrite Es. exact Hz.
  - injection H as <-. exact PG.
Qed.

Section Preserve.
Variables (M : @meth E -> Prop) (Z : Prop) (G : gen (conn E) unit -> Prop).
(* P while the parser runs, Q when it fails, D once it has failed *)
Variable P : list event -> list bytes -> conn E -> Prop.
Variable Q : exn -> list event -> list bytes -> conn E -> Prop.
Variable D : option exn -> list event -> list bytes -> conn E -> Prop.
Hypothesis GR : forall g, G g -> live g /\ reads_first frozen g.
Hypothesis GP : forall pe pw g, G g -> preserved Z (P pe pw) (fun e => Q e pe pw) g.
Hypothesis BP : forall pe pw, preserved Z (P pe pw) (fun e => Q e pe pw) (parse_body X).
Hypothesis FP : forall pe pw e c, Q e pe pw c ->
  let '(code, reason) := close_code_for e in
  let '(c', r) := fail_connection X code reason c in
  D (match r with Ok _ => Some e | Raise _ => None end) pe pw c'.
Hypothesis MP : forall pe pw f c, M f -> P pe pw c -> P pe pw (fst (f c)).
Hypothesis MD : forall x pe pw f c, M f -> D x pe pw c -> D x pe pw (fst (f c)).
Hypothesis MF : forall f c, M f -> frozen (fst (f c)) = frozen c.
Hypothesis EP : forall pe pw c, P pe pw c -> P (pe ++ c_events c) pw (set_events c []).
Hypothesis WP : forall pe pw c, P pe pw c -> P pe (pw ++ c_writes c) (set_writes c []).
Hypothesis ED : forall x pe pw c, D x pe pw c -> D x (pe ++ c_events c) pw (set_events c []).
Hypothesis WD : forall x pe pw c, D x pe pw c -> D x pe (pw ++ c_writes c) (set_writes c []).

Definition holds pe pw (m : machine E) : Prop :=
  match m_parser m with
  | PRun _ => P pe pw (m_conn m)
  | PDead => D (m_exc m) pe pw (m_conn m)
  end.

(* stepping the parser when it waits, after adding data or EOF *)
Lemma step_preserved pe pw m d e :
  (e = true -> Z) -> waits G m -> r_eof (m_reader m) = false -> holds pe pw m ->
  let m' := fst (step_parser X (Machine (m_conn m) (later (m_reader m) d e) (m_parser m) (m_exc m))) in
  waits G m' /\ holds pe pw m'.
Proof.
  intros Hz W Er Pm. rewrite step_parser_eq. cbn [m_parser m_reader m_conn m_exc]. unfold waits in W.
  unfold holds in Pm.
  destruct (m_parser m) as [g|] eqn:Pg; [|split; [exact I|exact Pm]].
  destruct W as (-> & W). destruct (W Er) as (_ & g0 & buf & Hg & K).
  assert (S : exists f, run_parser X f g0 {| r_buffer := buf ++ d; r_eof := e |} (m_conn m) =
              parse_all X g (later (m_reader m) d e) (m_conn m)).
  { unfold parse_all. exists (parser_fuel (later (m_reader m) d e)).
    unfold parser_fuel. rewrite Nat.add_comm. cbn [run_parser Nat.add]. now rewrite (K d e _ eq_refl). }
  destruct S as [f S].
  destruct (parse_all_total X g (later (m_reader m) d e) (m_conn m)) as [(g' & r' & c' & H)|(x & r' & c' & H)];
    rewrite H in *;
    apply run_parser_preserved with (Z := Z) (P := P pe pw) (Q := fun e => Q e pe pw) (G := G) in S; auto.
  - destruct S as [S1 S2]. split; [apply S2|exact S1].
  - assert (Pf := FP _ _ _ _ S). destruct (close_code_for x) as [code reason].
    destruct (fail_connection X code reason c') as [c'' [u|x']]; (split; [exact I|exact Pf]).
Qed.

Theorem hist_preserved m0 pe pw m :
  waits G m0 -> holds [] [] m0 ->
  hist M Z m0 pe pw m -> waits G m /\ holds pe pw m.
Proof.
  intros W0 P0 H. induction H as [|pe pw m d H [W Pm]|pe pw m Hz H [W Pm]|pe pw m f H [W Pm] Mf
                                 |pe pw m H [W Pm]|pe pw m H [W Pm]].
  - auto.
  - rewrite receive_data_eq. destruct (r_eof (m_reader m)) eqn:Er; [auto|].
    assert (K := step_preserved pe pw m d false ltac:(discriminate) W Er Pm). unfold later in K. rewrite <- Er in K. exact K.
  - unfold receive_eof, feed_eof. destruct (r_eof (m_reader m)) eqn:Er; [auto|].
    assert (K := step_preserved pe pw m [] true (fun _ => Hz) W Er Pm). unfold later in K. now rewrite app_nil_r in K.
  - unfold on_conn. pose proof (MP pe pw f (m_conn m) Mf) as MP'.
    pose proof (fun x => MD x pe pw f (m_conn m) Mf) as MD'.
    specialize (MF f (m_conn m) Mf).
    destruct (f (m_conn m)) as [c r]. cbn [fst m_conn] in *. split.
    + unfold waits in *. cbn [m_parser m_reader m_conn m_exc]. rewrite MF. exact W.
    + unfold holds in *. cbn [m_parser m_conn m_exc]. destruct (m_parser m); auto.
  - split; [exact W|]. unfold holds in *. cbn [m_parser m_conn m_exc]. destruct (m_parser m); auto.
  - split; [exact W|]. unfold holds in *. cbn [m_parser m_conn m_exc]. destruct (m_parser m); auto.
Qed.
End Preserve.

(* waits holds after a connection is created *)
Lemma start_waits (G : gen (conn E) unit -> Prop) g c :
  (forall g, G g -> live g /\ reads_first frozen g) -> (G g \/ g = parse_body X) ->
  waits G (start X g c).
Proof.
  intros GR Hg. unfold start.
  assert (W : waits G (Machine c reader_init (PRun g) None)).
  { split; [reflexivity|]. intros _.
    split; [apply live_live_at; destruct Hg as [Hg| ->]; [apply GR, Hg|apply live_parse_body]|].
    exists g, []. split; [exact Hg|]. intros; reflexivity. }
  assert (T : forall g, preserved True (fun _ => True) (fun _ _ => True) g).
  { intros g1 r1 c1 _ _. destruct (run g1 r1 c1); auto. }
  refine (proj1 (step_preserved True G (fun _ _ _ => True) (fun _ _ _ _ => True) (fun _ _ _ _ => True)
              GR (fun _ _ g _ => T g) (fun _ _ => T _) _ [] [] _ [] false (fun _ => I) W eq_refl I)).
  intros _ _ e c1 _. destruct (close_code_for e) as [code reason].
  destruct (fail_connection X code reason c1). exact I.
Qed.

(* a connection which hasn't received anything waits for the first byte *)
Lemma start_parse_body c : start X (parse_body X) c = Machine c reader_init (PRun (parse_body X)) None.
Proof. reflexivity. Qed.
End Rule.
