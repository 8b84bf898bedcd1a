(* Parsing HTTP/1.1 messages. *)
From Verif Require Import Base.Prelude Base.PreludeFacts Base.Utf8 Base.Utf8Facts Base.PyInt
  Model.Datastructures Model.Streams Model.Http11 Spec.Rfc7230 Spec.Multimap Spec.Http1
  Proofs.StreamsFacts Proofs.MultimapFacts Proofs.HeadersFacts.
Local Open Scope N_scope.

(* ---- chunking ---- *)

Lemma receive_all_live {S A} (g : gen S A) x : live g -> forall ds,
  receive_all g x ds = run g {| r_buffer := concat ds; r_eof := false |} x.
Proof.
  intros L.
  assert (G : forall ds (g : gen S A) r x, live_at (length (r_buffer r)) g -> r_eof r = false ->
     fold_left receive ds (run g r x) = run g (grow r (concat ds)) x).
  { induction ds as [|d ds IH]; intros g0 r x0 Lg Er; [cbn [fold_left concat]; now rewrite grow_nil|].
    cbn [fold_left concat]. pose proof (run_feed g0 r x0 d Lg Er) as F.
    assert (Q : receive (run g0 r x0) d = run g0 (grow r d) x0).
    { destruct (run g0 r x0); cbn [receive]; destruct F as [F _]; rewrite F; reflexivity. }
    rewrite Q. rewrite IH; [now rewrite grow_grow| |].
    - unfold grow. cbn [r_buffer]. destruct g0; cbn [live_at] in *; auto. rewrite app_length. split; [lia|tauto].
    - exact Er. }
  intros ds. unfold receive_all. rewrite G; [reflexivity| |reflexivity]. now apply live_live_at.
Qed.

(* ---- lines ---- *)

Lemma find_lf_spec x rest : ~ In LF x -> find_lf (x ++ LF :: rest) = Some (length x).
Proof.
  induction x as [|c x IH]; intros H; cbn [app find_lf length]; [reflexivity|].
  destruct (byte_eqb c (n2b 10)) eqn:E; [apply byte_eqb_eq in E; exfalso; apply H; left; exact E|].
  rewrite IH; [reflexivity|]. intros I. apply H. now right.
Qed.
Lemma find_lf_some bs : forall i, find_lf bs = Some i -> exists x rest, bs = x ++ LF :: rest /\ ~ In LF x /\ length x = i.
Proof.
  induction bs as [|c bs IH]; intros i; cbn [find_lf]; [discriminate|].
  destruct (byte_eqb c (n2b 10)) eqn:E.
  - intros [= <-]. apply byte_eqb_eq in E. subst. exists [], bs. auto.
  - destruct (find_lf bs) as [j|]; [|discriminate]. intros [= <-]. destruct (IH j eq_refl) as (x & rest & -> & N & L).
    exists (c :: x), rest. split; [reflexivity|]. split; [|cbn; congruence]. intros [H|H]; [|auto].
    rewrite H in E. unfold LF in E. rewrite byte_eqb_refl in E. discriminate.
Qed.
Lemma find_lf_none bs : find_lf bs = None <-> ~ In LF bs.
Proof.
  induction bs as [|c bs IH]; cbn [find_lf In]; [tauto|].
  destruct (byte_eqb c (n2b 10)) eqn:E; [apply byte_eqb_eq in E; split; [discriminate|intros H; exfalso; apply H; now left]|].
  destruct (find_lf bs); split; try discriminate.
  - intros H. exfalso. apply H. right. apply Decidable.not_not; [|intros X; apply IH in X; discriminate].
    destruct (in_dec Byte.byte_eq_dec LF bs); [left|right]; assumption.
  - intros _ [H|H]; [|now apply IH in H]. rewrite H in E. unfold LF in E. rewrite byte_eqb_refl in E. discriminate.
  - auto.
Qed.

Lemma run_read_line {S A} (k : bytes -> gen S A) r x :
  run (gbind read_line k) r x =
    match find_lf (r_buffer r) with
    | Some i => run (k (firstn (i + 1) (r_buffer r))) (with_buffer r (skipn (i + 1) (r_buffer r))) x
    | None => if r_eof r then OFail EOFError r x
              else OSusp (GReadLine (length (r_buffer r)) (fun l => gbind (glift l) k)) r x
    end.
Proof.
  unfold read_line. cbn [gbind run]. unfold find_lf_from. cbn [skipn].
  destruct (find_lf (r_buffer r)) as [i|]; cbn [Nat.add glift gbind]; [reflexivity|]. reflexivity.
Qed.

Lemma run_line {S A} (k : bytes -> gen S A) r x l rest : r_buffer r = l ++ LF :: rest -> ~ In LF l ->
  run (gbind read_line k) r x = run (k (l ++ [LF])) (with_buffer r rest) x.
Proof.
  intros E N. rewrite run_read_line, E, (find_lf_spec l rest N).
  replace (l ++ LF :: rest) with ((l ++ [LF]) ++ rest) by (rewrite <- app_assoc; reflexivity).
  rewrite firstn_app_exact, skipn_app_exact by (rewrite app_length; reflexivity). reflexivity.
Qed.

Lemma strip_crlf_iff w c : strip_crlf w = Some c <-> w = c ++ crlf.
Proof.
  unfold strip_crlf, crlf. cbn [map]. split.
  - destruct (rev w) as [|lf [|cr r]] eqn:E; try discriminate.
    destruct (byte_eqb lf (n2b 10) && byte_eqb cr (n2b 13)) eqn:B; [|discriminate]. intros [= <-].
    apply andb_true_iff in B as [B1 B2]. apply byte_eqb_eq in B1, B2. subst.
    apply (f_equal (@rev _)) in E. rewrite rev_involutive in E. subst w. cbn [rev]. now rewrite <- app_assoc.
  - intros ->. rewrite rev_app_distr. cbn [rev app]. rewrite !byte_eqb_refl. cbn [andb]. now rewrite rev_involutive.
Qed.

Lemma parse_line_ok {S A} (k : bytes -> gen S A) r x w content rest : r_buffer r = w ++ rest -> line w content ->
  run (gbind parse_line k) r x = run (k content) (with_buffer r rest) x.
Proof.
  intros E (-> & N & L). unfold parse_line. unfold crlf in *. cbn [map] in *.
  change (n2b 10) with LF in *.
  assert (E' : r_buffer r = (content ++ [n2b 13]) ++ LF :: rest) by (rewrite E, <- !app_assoc; reflexivity).
  assert (N' : ~ In LF (content ++ [n2b 13])) by (rewrite in_app_iff; intros [H|[H|[]]]; [auto|discriminate]).
  rewrite run_gbind. rewrite (run_line _ r x _ _ E' N'). rewrite <- app_assoc. cbn [app].
  destruct (N.ltb_spec MAX_LINE (lenN (content ++ [n2b 13; LF]))) as [H|H].
  - exfalso. unfold MAX_LINE, lenN in H. lia.
  - destruct (strip_crlf (content ++ [n2b 13; LF])) as [c|] eqn:C.
    + apply strip_crlf_iff in C. apply app_inv_tail in C. subst. reflexivity.
    + pose proof (proj2 (strip_crlf_iff (content ++ [n2b 13; LF]) content) eq_refl) as C'. congruence.
Qed.

(* the three ways parse_line ends when the buffer has a line *)
Inductive line_result {S A} (k : bytes -> gen S A) (r : reader) (x : S) : outcome S A -> Prop :=
| lr_ok w content rest : r_buffer r = w ++ rest -> line w content ->
    line_result k r x (run (k content) (with_buffer r rest) x)
| lr_long l rest : r_buffer r = l ++ LF :: rest -> ~ In LF l -> (4110 < length l + 1)%nat ->
    line_result k r x (OFail (SecurityError (s "line too long")) (with_buffer r rest) x)
| lr_bad l rest : r_buffer r = l ++ LF :: rest -> ~ In LF l -> (forall c, l ++ [LF] <> c ++ crlf) ->
    line_result k r x (OFail EOFError (with_buffer r rest) x)
| lr_eof : ~ In LF (r_buffer r) -> r_eof r = true -> line_result k r x (OFail EOFError r x)
| lr_susp g : ~ In LF (r_buffer r) -> r_eof r = false -> line_result k r x (OSusp g r x).

Lemma parse_line_view {S A} (k : bytes -> gen S A) r x : line_result k r x (run (gbind parse_line k) r x).
Proof.
  destruct (find_lf (r_buffer r)) as [i|] eqn:F.
  - apply find_lf_some in F as (l & rest & E & N & _). 
    destruct (Nat.leb_spec (length l + 1) 4110) as [H|H].
    + destruct (strip_crlf (l ++ [LF])) as [c|] eqn:C.
      * apply strip_crlf_iff in C.
        assert (E' : r_buffer r = (l ++ [LF]) ++ rest) by (rewrite E, <- app_assoc; reflexivity).
        assert (L : line (l ++ [LF]) c).
        { split; [exact C|]. split; [|rewrite app_length; exact H]. intros I.
          assert (X : l ++ [LF] = (c ++ [n2b 13]) ++ [LF]) by (rewrite C; unfold crlf; cbn [map]; now rewrite <- app_assoc).
          apply app_inj_tail in X as [-> _]. apply N, in_app_iff. now left. }
        rewrite (parse_line_ok k r x _ _ _ E' L). eapply lr_ok; eauto.
      * unfold parse_line. rewrite run_gbind, (run_line _ r x _ _ E N).
        destruct (N.ltb_spec MAX_LINE (lenN (l ++ [LF]))) as [H'|_].
        { exfalso. unfold MAX_LINE, lenN in H'. rewrite app_length in H'. cbn [length] in H'. lia. }
        rewrite C. cbn [run]. apply (lr_bad k r x l rest); auto. intros c Hc. apply strip_crlf_iff in Hc. congruence.
    + unfold parse_line. rewrite run_gbind, (run_line _ r x _ _ E N).
      destruct (N.ltb_spec MAX_LINE (lenN (l ++ [LF]))) as [_|H'].
      * cbn [run]. now apply (lr_long k r x l rest).
      * exfalso. unfold MAX_LINE, lenN in H'. rewrite app_length in H'. cbn [length] in H'. lia.
  - apply find_lf_none in F. pose proof F as F'. apply find_lf_none in F'. unfold parse_line.
    rewrite run_gbind, run_read_line, F'. destruct (r_eof r) eqn:E; [now apply lr_eof|]. now apply lr_susp.
Qed.

(* ---- splitting ---- *)

Lemma split1_iff sep bs a c : split1 sep bs = Some (a, c) <-> bs = a ++ sep :: c /\ ~ In sep a.
Proof.
  revert a c. induction bs as [|x bs IH]; intros a c; cbn [split1].
  - split; [discriminate|]. intros [E _]. destruct a; discriminate.
  - destruct (byte_eqb x sep) eqn:E.
    + apply byte_eqb_eq in E. subst. split.
      * intros [= <- <-]. auto.
      * intros [E N]. destruct a as [|y a]; cbn [app] in E; [now injection E as ->|]. injection E as -> E. exfalso. apply N. now left.
    + assert (Ne : x <> sep) by (intros ->; rewrite byte_eqb_refl in E; discriminate).
      split.
      * destruct (split1 sep bs) as [[a' c']|]; [|discriminate]. intros [= <- <-].
        destruct (proj1 (IH a' c') eq_refl) as [-> N]. split; [reflexivity|]. intros [H|H]; auto.
      * intros [H N]. destruct a as [|y a]; cbn [app] in H; [congruence|]. injection H as -> H.
        assert (X : split1 sep bs = Some (a, c)) by (apply IH; split; [exact H|]; intros I; apply N; now right).
        now rewrite X.
Qed.

Lemma split3_iff bs a c d : split3 bs = Some (a, c, d) <->
  bs = a ++ n2b 32 :: c ++ n2b 32 :: d /\ ~ In (n2b 32) a /\ ~ In (n2b 32) c.
Proof.
  unfold split3. split.
  - destruct (split1 (n2b 32) bs) as [[x r]|] eqn:E1; [|discriminate]. destruct (split1 (n2b 32) r) as [[y z]|] eqn:E2; [|discriminate].
    intros [= <- <- <-]. apply split1_iff in E1 as [-> N1]. apply split1_iff in E2 as [-> N2]. auto.
  - intros (-> & N1 & N2). 
    rewrite (proj2 (split1_iff (n2b 32) _ a (c ++ n2b 32 :: d)) (conj eq_refl N1)).
    rewrite (proj2 (split1_iff (n2b 32) _ c d) (conj eq_refl N2)). reflexivity.
Qed.

(* ---- whitespace ---- *)

Lemma is_ows_iff x : is_ows x = true <-> blank x.
Proof. unfold is_ows, blank. rewrite orb_true_iff, !N.eqb_eq. reflexivity. Qed.

Lemma lstrip_view bs : exists w, bs = w ++ lstrip_ows bs /\ Forall blank w /\ (forall x r, lstrip_ows bs = x :: r -> ~ blank x).
Proof.
  induction bs as [|c bs IH]; cbn [lstrip_ows].
  - exists []. split; [reflexivity|]. split; [constructor|]. discriminate.
  - destruct (is_ows c) eqn:E.
    + destruct IH as (w & H1 & H2 & H3). exists (c :: w). split; [cbn [app]; congruence|]. split; [constructor; [now apply is_ows_iff|exact H2]|exact H3].
    + exists []. split; [reflexivity|]. split; [constructor|]. intros x r [= <- <-] B. apply is_ows_iff in B. congruence.
Qed.
Lemma lstrip_skip w bs : Forall blank w -> lstrip_ows (w ++ bs) = lstrip_ows bs.
Proof. induction 1 as [|x w Hx H IH]; [reflexivity|]. cbn [app lstrip_ows]. apply is_ows_iff in Hx. now rewrite Hx. Qed.
Lemma lstrip_id bs : (forall x r, bs = x :: r -> ~ blank x) -> lstrip_ows bs = bs.
Proof.
  intros H. destruct bs as [|c bs]; cbn [lstrip_ows]; [reflexivity|]. destruct (is_ows c) eqn:E; [|reflexivity].
  apply is_ows_iff in E. exfalso. now apply (H c bs).
Qed.

Lemma strip_ows_view bs : exists w w', bs = w ++ strip_ows bs ++ w' /\ Forall blank w /\ Forall blank w' /\ trimmed (strip_ows bs).
Proof.
  unfold strip_ows. destruct (lstrip_view bs) as (w & E & F & H). destruct (lstrip_view (rev (lstrip_ows bs))) as (w' & E' & F' & H').
  exists w, (rev w'). set (m := lstrip_ows bs) in *. set (t := lstrip_ows (rev m)) in *.
  assert (Em : m = rev t ++ rev w') by (rewrite <- rev_app_distr, <- E', rev_involutive; reflexivity).
  split; [congruence|]. split; [exact F|]. split; [now apply Forall_rev|]. split.
  - intros x r Hr. apply (H x (r ++ rev w')). rewrite Em, Hr. reflexivity.
  - intros x r Hr. apply (H' x (rev r)). apply (f_equal (@rev _)) in Hr. rewrite rev_involutive, rev_app_distr in Hr. exact Hr.
Qed.
Lemma strip_ows_exact w v w' : Forall blank w -> Forall blank w' -> trimmed v -> strip_ows (w ++ v ++ w') = v.
Proof.
  intros F F' [T1 T2]. unfold strip_ows. rewrite lstrip_skip by exact F. destruct v as [|x v].
  - cbn [app]. rewrite <- (app_nil_r w'), lstrip_skip by exact F'. reflexivity.
  - rewrite (lstrip_id ((x :: v) ++ w')) by (intros y r [= <- _]; eapply T1; reflexivity).
    rewrite rev_app_distr, lstrip_skip by now apply Forall_rev. rewrite lstrip_id.
    + apply rev_involutive.
    + intros y r Hr. apply (T2 y (rev r)). apply (f_equal (@rev _)) in Hr. rewrite rev_involutive in Hr. exact Hr.
Qed.

Lemma value_fullmatch_iff v : value_fullmatch v = true <-> Forall text_byte v.
Proof.
  unfold value_fullmatch, text_byte. rewrite forallb_forall, Forall_forall.
  split; intros H x Hx; specialize (H x Hx); unfold is_vchar in *; pose proof (b2n_lt x);
    rewrite ?orb_true_iff, ?andb_true_iff, ?N.eqb_eq, ?N.leb_le in *; lia.
Qed.
Lemma token_fullmatch_iff v : token_fullmatch v = true <-> v <> [] /\ Forall tchar_byte v.
Proof.
  unfold token_fullmatch, tchar_byte. destruct v as [|c v]; [split; [discriminate|tauto]|].
  rewrite forallb_forall, Forall_forall. split.
  - intros H. split; [discriminate|]. intros x Hx. apply is_tchar_iff. auto.
  - intros [_ H] x Hx. apply is_tchar_iff. auto.
Qed.

Lemma as_str_ascii v : as_str v = ascii_surrogateescape v.
Proof. reflexivity. Qed.
Lemma tchar_ascii c : tchar c -> 32 < c < 127.
Proof.
  intros [H|[H|[H|H]]]; [lia|lia|lia|]. cbn in H. repeat (destruct H as [<-|H]; [vm_compute; auto|]). contradiction.
Qed.
Lemma as_str_tchar v : Forall tchar_byte v -> as_str v = map b2n v.
Proof.
  unfold as_str. induction 1 as [|x v H F IH]; cbn [map]; [reflexivity|]. rewrite IH. f_equal.
  apply tchar_ascii in H. destruct (N.ltb_spec (b2n x) 128); [reflexivity|lia].
Qed.
Lemma tchar_not_colon v : Forall tchar_byte v -> ~ In (n2b 58) v.
Proof.
  intros F H. rewrite Forall_forall in F. specialize (F _ H). unfold tchar_byte in F. apply is_tchar_iff in F. vm_compute in F. discriminate.
Qed.

(* what the loop of parse_headers does with a line *)
Definition parsed_field (content : bytes) : option (str * str) :=
  match split1 (n2b 58) content with
  | None => None
  | Some (n, v) => if token_fullmatch n && value_fullmatch (strip_ows v)
                   then Some (map b2n n, ascii_surrogateescape (strip_ows v)) else None
  end.
Lemma parsed_field_iff content k v : parsed_field content = Some (k, v) <->
  exists name value, field content name value /\ k = as_str name /\ v = as_str value.
Proof.
  unfold parsed_field. split.
  - destruct (split1 (n2b 58) content) as [[n w]|] eqn:E; [|discriminate]. apply split1_iff in E as [-> N].
    destruct (token_fullmatch n && value_fullmatch (strip_ows w)) eqn:B; [|discriminate]. apply andb_true_iff in B as [B1 B2].
    intros [= <- <-]. apply token_fullmatch_iff in B1 as [Nn Ft]. apply value_fullmatch_iff in B2.
    exists n, (strip_ows w). destruct (strip_ows_view w) as (w1 & w2 & E & F1 & F2 & T).
    split; [|split; [now rewrite as_str_tchar|reflexivity]].
    split; [exact Nn|]. split; [exact Ft|]. split; [exact B2|]. split; [exact T|]. exists w1, w2. split; [exact F1|]. split; [exact F2|].
    rewrite E at 1. reflexivity.
  - intros (name & value & (Nn & Ft & Fv & T & w & w' & F & F' & ->) & -> & ->). cbn [map app].
    rewrite (proj2 (split1_iff (n2b 58) _ name (w ++ value ++ w')) (conj eq_refl (tchar_not_colon _ Ft))).
    rewrite strip_ows_exact by assumption. rewrite (proj2 (token_fullmatch_iff name) (conj Nn Ft)), (proj2 (value_fullmatch_iff value) Fv).
    cbn [andb]. rewrite (as_str_tchar name Ft). reflexivity.
Qed.

Lemma line_crlf : line crlf [].
Proof. split; [reflexivity|]. split; [auto|]. cbn. lia. Qed.

Lemma loop_eq {S} n h : @parse_headers_loop S (Datatypes.S n) h = gbind parse_line (fun line => match line with
    | [] => GRet h
    | _ => match split1 (n2b 58) line with
      | None => GRaise ValueError
      | Some (raw_name, raw_value) =>
        if negb (token_fullmatch raw_name) then GRaise ValueError
        else if negb (value_fullmatch (strip_ows raw_value)) then GRaise ValueError
        else parse_headers_loop n (headers_setitem h (map b2n raw_name) (ascii_surrogateescape (strip_ows raw_value)))
      end
    end).
Proof. reflexivity. Qed.

Definition on_field {S} n h (line : bytes) : gen S headers :=
  match line with
  | [] => GRet h
  | _ => match parsed_field line with
         | None => GRaise ValueError
         | Some (k, v) => parse_headers_loop n (headers_setitem h k v)
         end
  end.
Lemma on_field_eq {S} n h line : (match line with
    | [] => GRet h
    | _ => match split1 (n2b 58) line with
      | None => GRaise ValueError
      | Some (raw_name, raw_value) =>
        if negb (token_fullmatch raw_name) then GRaise ValueError
        else if negb (value_fullmatch (strip_ows raw_value)) then GRaise ValueError
        else parse_headers_loop n (headers_setitem h (map b2n raw_name) (ascii_surrogateescape (strip_ows raw_value)))
      end
    end) = @on_field S n h line.
Proof.
  unfold on_field, parsed_field. destruct line; [reflexivity|]. destruct (split1 (n2b 58) _) as [[a c]|]; [|reflexivity].
  destruct (token_fullmatch a), (value_fullmatch (strip_ows c)); reflexivity.
Qed.

Lemma field_nonempty content name value : field content name value -> content <> [].
Proof. intros (N & _ & _ & _ & w & w' & _ & _ & ->). destruct name; [contradiction|discriminate]. Qed.

Lemma loop_field {S} n h r (x : S) w content name value rest :
  r_buffer r = w ++ rest -> line w content -> field content name value ->
  run (parse_headers_loop (Datatypes.S n) h) r x =
  run (parse_headers_loop n (headers_setitem h (as_str name) (as_str value))) (with_buffer r rest) x.
Proof.
  intros E L F. rewrite loop_eq, (parse_line_ok _ r x _ _ _ E L), on_field_eq. unfold on_field.
  destruct content as [|c content]; [exfalso; eapply field_nonempty; eauto|].
  rewrite (proj2 (parsed_field_iff _ (as_str name) (as_str value))); [reflexivity|]. eauto.
Qed.

Lemma headers_complete {S} : forall w l, fields w l -> forall n h r (x : S) rest, (length l <= n)%nat ->
  r_buffer r = w ++ crlf ++ rest ->
  run (parse_headers_loop (Datatypes.S n) h) r x = ODone (headers_update h l) (with_buffer r rest) x.
Proof.
  induction 1 as [|w content name value w' l L F Fs IH]; intros n h r x rest Ln E.
  - rewrite loop_eq, (parse_line_ok _ r x crlf [] rest E line_crlf). reflexivity.
  - cbn [length] in Ln. destruct n as [|n]; [lia|]. rewrite <- app_assoc in E.
    rewrite (loop_field _ _ _ _ _ _ _ _ _ E L F). rewrite (IH n _ _ x rest); [reflexivity|lia|reflexivity].
Qed.

Lemma headers_too_many {S} : forall w l, fields w l -> forall h r (x : S) rest,
  r_buffer r = w ++ rest ->
  run (parse_headers_loop (length l) h) r x = OFail (SecurityError (s "too many HTTP headers")) (with_buffer r rest) x.
Proof.
  induction 1 as [|w content name value w' l L F Fs IH]; intros h r x rest E.
  - cbn [length parse_headers_loop run]. f_equal. destruct r. unfold with_buffer. cbn in *. congruence.
  - cbn [length]. rewrite <- app_assoc in E. rewrite (loop_field _ _ _ _ _ _ _ _ _ E L F). now rewrite (IH _ _ x rest).
Qed.

Lemma with_buffer_twice r a c : with_buffer (with_buffer r a) c = with_buffer r c.
Proof. reflexivity. Qed.

Lemma headers_sound {S} : forall n h r (x : S) h' r' x',
  run (parse_headers_loop n h) r x = ODone h' r' x' ->
  exists w l, fields w l /\ (length l < n)%nat /\ r_buffer r = w ++ crlf ++ r_buffer r' /\
    h' = headers_update h l /\ r' = with_buffer r (r_buffer r') /\ x' = x.
Proof.
  induction n as [|n IH]; intros h r x h' r' x' R; [discriminate|].
  rewrite loop_eq in R. pose proof (@parse_line_view S headers (fun line => @on_field S n h line) r x) as V.
  assert (Q : run (gbind parse_line (fun line => @on_field S n h line)) r x = ODone h' r' x').
  { rewrite <- R, !run_gbind. destruct (run parse_line r x) eqn:P; cbn [obind]; try reflexivity.
    - rewrite run_gbind, P in R. discriminate.
    - now rewrite on_field_eq. }
  rewrite Q in V. clear R Q. inversion V as [w content rest E L Eq| | | |]; subst; clear V.
  destruct content as [|c content].
  - cbn [on_field run] in Eq. injection Eq as <- <- <-. exists [], []. split; [constructor|]. cbn [length].
    destruct L as (-> & _ & _). split; [lia|]. split; [exact E|]. auto.
  - unfold on_field in Eq. destruct (parsed_field (c :: content)) as [[k v]|] eqn:P; [|discriminate].
    apply parsed_field_iff in P as (name & value & F & -> & ->). apply IH in Eq as (w' & l & Fs & Ln & E' & -> & -> & ->).
    exists (w ++ w'), ((as_str name, as_str value) :: l). split; [econstructor; eauto|]. cbn [length]. split; [lia|].
    split; [cbn [with_buffer r_buffer] in *; rewrite E, E', <- !app_assoc; reflexivity|]. auto.
Qed.

(* ---- requests ---- *)

Lemma live_parse_line {S} : live (@parse_line S).
Proof.
  apply live_gbind; [apply live_read_line|]. intros l. destruct (MAX_LINE <? lenN l); [exact I|]. destruct (strip_crlf l); exact I.
Qed.
Lemma live_headers_loop {S} n : forall h, live (@parse_headers_loop S n h).
Proof.
  induction n as [|n IH]; intros h; [exact I|]. rewrite loop_eq. apply live_gbind; [apply live_parse_line|].
  intros [|c l]; [exact I|]. destruct (split1 (n2b 58) (c :: l)) as [[a v]|]; [|exact I].
  destruct (negb (token_fullmatch a)); [exact I|]. destruct (negb _); [exact I|apply IH].
Qed.
Lemma live_parse_request {S} : live (@parse_request S).
Proof.
  apply live_gbind; [apply live_parse_line|]. intros l. destruct (split3 l) as [[[m p] v]|]; [|exact I].
  destruct (negb _); [exact I|]. destruct (negb _); [exact I|]. apply live_gbind; [apply live_headers_loop|]. intros h. exact I.
Qed.
Lemma live_parse_response {S} : live (@parse_response S).
Proof.
  apply live_gbind; [apply live_parse_line|]. intros l. destruct (split3 l) as [[[m p] v]|]; [|exact I].
  destruct (negb _); [exact I|]. destruct (py_int _); [|exact I]. destruct (negb _); [exact I|]. destruct (negb _); [exact I|].
  apply live_gbind; [apply live_glift|]. intros reason. apply live_gbind; [apply live_headers_loop|]. intros h.
  destruct (headers_contains h _); [exact I|]. apply live_gbind; [|intros; exact I].
  destruct (_ || _); [exact I|]. destruct (headers_getitem h _) as [c|e].
  - destruct (py_int c); [|exact I]. apply live_gbind; [apply live_read_exact|intros; exact I].
  - destruct e; try exact I; apply live_gbind; try (intros; exact I); cbn; auto.
Qed.

Lemma request_complete {S} w path l : request_message w path l -> forall r (x : S) rest, r_buffer r = w ++ rest ->
  run parse_request r x = ODone {| req_path := path; req_headers := headers_of l |} (with_buffer r rest) x.
Proof.
  intros (w0 & p & w1 & -> & L & Np & -> & Fs & Ln) r x rest E. rewrite <- !app_assoc in E.
  unfold parse_request. rewrite (parse_line_ok _ r x _ _ _ E L).
  assert (Sp : split3 (b "GET " ++ p ++ b " HTTP/1.1") = Some (b "GET", p, b "HTTP/1.1")).
  { apply split3_iff. split; [reflexivity|]. split; [|exact Np]. cbn. intuition discriminate. }
  rewrite Sp. change (negb (bytes_eqb (b "GET") (b "GET"))) with false. cbn iota.
  change (negb (bytes_eqb (b "HTTP/1.1") (b "HTTP/1.1"))) with false. cbn iota.
  rewrite run_gbind. unfold parse_headers, MAX_HEADERS. change (256 + 1)%nat with (Datatypes.S 256).
  rewrite (headers_complete w1 l Fs 256 headers_empty (with_buffer r (w1 ++ crlf ++ rest)) x rest Ln eq_refl).
  reflexivity.
Qed.

Lemma bytes_eqb_neg x y : negb (bytes_eqb x y) = false -> x = y.
Proof. rewrite negb_false_iff. apply bytes_eqb_eq. Qed.

Lemma request_sound {S} r (x : S) req r' x' : run parse_request r x = ODone req r' x' ->
  exists w l, request_message w (req_path req) l /\ r_buffer r = w ++ r_buffer r' /\ req_headers req = headers_of l /\
    r' = with_buffer r (r_buffer r') /\ x' = x.
Proof.
  unfold parse_request. intros R.
  match type of R with run (gbind parse_line ?k) r x = _ => remember k as kk eqn:Ek end.
  pose proof (parse_line_view kk r x) as V. rewrite R in V. clear R.
  inversion V as [w content rest E L Eq| | | |]; clear V. rewrite ?Eq. rewrite Ek in Eq. clear kk Ek. cbn beta in Eq.
  destruct (split3 content) as [[[m p] v]|] eqn:Sp; [|discriminate]. apply split3_iff in Sp as (-> & Nm & Np).
  destruct (negb (bytes_eqb m _)) eqn:Em; [discriminate|]. apply bytes_eqb_neg in Em. subst m.
  destruct (negb (bytes_eqb v _)) eqn:Ev; [discriminate|]. apply bytes_eqb_neg in Ev. subst v.
  rewrite run_gbind in Eq. destruct (run parse_headers (with_buffer r rest) x) as [| h r1 x1 |] eqn:Ph; cbn [obind run] in Eq; try discriminate.
  injection Eq as <- <- <-. apply headers_sound in Ph as (w1 & l & Fs & Ln & E1 & -> & -> & ->).
  exists (w ++ w1 ++ crlf), l. cbn [req_path req_headers]. split; [|split; [|split; [reflexivity|split; reflexivity]]].
  - exists w, p, w1. split; [reflexivity|]. split; [exact L|]. split; [exact Np|]. split; [reflexivity|]. split; [exact Fs|].
    unfold MAX_HEADERS in Ln. lia.
  - cbn [with_buffer r_buffer] in *. rewrite E, E1, <- !app_assoc. reflexivity.
Qed.

(* ---- responses ---- *)

(* what follows the headers *)
Definition parse_body_of {S} (status : Z) (reason : str) (h : headers) : gen S response :=
  if headers_contains h (s "Transfer-Encoding") then GRaise NotImplementedError
  else
    let* body :=
      if bodyless status then GRet None
      else match headers_getitem h (s "Content-Length") with
           | Raise KeyError => let* x := read_to_eof in GRet (Some x)
           | Raise e => GRaise e
           | Ok raw_content_length =>
             match py_int raw_content_length with
             | None => GRaise ValueError
             | Some n => let* x := read_exact n in GRet (Some x)
             end
           end in
    GRet {| resp_status := status; resp_reason := reason; resp_headers := h; resp_body := body; resp_exception := None |}.

Lemma response_complete {S} w status reason l : response_head w status reason l -> forall r (x : S) rest, r_buffer r = w ++ rest ->
  run parse_response r x = run (parse_body_of status reason (headers_of l)) (with_buffer r rest) x.
Proof.
  intros (w0 & st & raw & w1 & -> & L & Ns & Pi & Rg & Ft & Ud & Fs & Ln) r x rest E. rewrite <- !app_assoc in E.
  unfold parse_response. rewrite (parse_line_ok _ r x _ _ _ E L).
  assert (Sp : split3 (b "HTTP/1.1 " ++ st ++ b " " ++ raw) = Some (b "HTTP/1.1", st, raw)).
  { apply split3_iff. split; [reflexivity|]. split; [|exact Ns]. cbn. intuition discriminate. }
  rewrite Sp. change (negb (bytes_eqb (b "HTTP/1.1") (b "HTTP/1.1"))) with false. cbn iota. rewrite Pi.
  assert (Rb : negb ((100 <=? status)%Z && (status <? 1000)%Z) = false).
  { apply negb_false_iff, andb_true_iff. rewrite Z.leb_le, Z.ltb_lt. lia. }
  rewrite Rb. rewrite (proj2 (value_fullmatch_iff raw) Ft). cbn [negb]. rewrite Ud. cbn [glift gbind].
  rewrite run_gbind. unfold parse_headers, MAX_HEADERS. change (256 + 1)%nat with (Datatypes.S 256).
  rewrite (headers_complete w1 l Fs 256 headers_empty (with_buffer r (w1 ++ crlf ++ rest)) x rest Ln eq_refl).
  reflexivity.
Qed.

(* a response that was parsed starts with a head within the limits *)
Lemma response_sound {S} r (x : S) resp r' x' : run parse_response r x = ODone resp r' x' ->
  exists w l rest, response_head w (resp_status resp) (resp_reason resp) l /\ r_buffer r = w ++ rest /\
    resp_headers resp = headers_of l /\
    run (parse_body_of (resp_status resp) (resp_reason resp) (headers_of l)) (with_buffer r rest) x = ODone resp r' x'.
Proof.
  unfold parse_response. intros R.
  match type of R with run (gbind parse_line ?k) r x = _ => remember k as kk eqn:Ek end.
  pose proof (parse_line_view kk r x) as V. rewrite R in V. clear R.
  inversion V as [w content rest E L Eq| | | |]; clear V. rewrite ?Eq. rewrite Ek in Eq. clear kk Ek. cbn beta in Eq.
  destruct (split3 content) as [[[v st] raw]|] eqn:Sp; [|discriminate]. apply split3_iff in Sp as (-> & Nm & Np).
  destruct (negb (bytes_eqb v _)) eqn:Ev; [discriminate|]. apply bytes_eqb_neg in Ev. subst v.
  destruct (py_int (map b2n st)) as [status|] eqn:Pi; [|discriminate].
  destruct (negb ((100 <=? status)%Z && (status <? 1000)%Z)) eqn:Rb; [discriminate|].
  apply negb_false_iff, andb_true_iff in Rb. rewrite Z.leb_le, Z.ltb_lt in Rb.
  destruct (negb (value_fullmatch raw)) eqn:Vf; [discriminate|]. apply negb_false_iff, value_fullmatch_iff in Vf.
  destruct (utf8_decode raw) as [reason|] eqn:Ud; [|discriminate]. cbn [glift gbind] in Eq.
  rewrite run_gbind in Eq. destruct (run parse_headers (with_buffer r rest) x) as [| h r1 x1 |] eqn:Ph; cbn [obind run] in Eq; try discriminate.
  apply headers_sound in Ph as (w1 & l & Fs & Ln & E1 & -> & Er & ->). rewrite Er in Eq.
  change (run (parse_body_of status reason (headers_of l)) (with_buffer (with_buffer r rest) (r_buffer r1)) x = ODone resp r' x') in Eq.
  assert (Q : resp_status resp = status /\ resp_reason resp = reason /\ resp_headers resp = headers_of l).
  { unfold parse_body_of in Eq. destruct (headers_contains _ _); [discriminate|]. rewrite run_gbind in Eq.
    match type of Eq with obind ?o _ = _ => destruct o; cbn [obind run] in Eq; try discriminate end.
    injection Eq as <- <- <-. auto. }
  destruct Q as (-> & -> & Hh). exists (w ++ w1 ++ crlf), l, (r_buffer r1). split; [|split; [|split; [exact Hh|exact Eq]]].
  - exists w, st, raw, w1. unfold MAX_HEADERS in Ln. repeat (split; [first [reflexivity|assumption|lia]|]). lia.
  - cbn [with_buffer r_buffer] in *. rewrite E, E1, <- !app_assoc. reflexivity.
Qed.

(* ---- serialization ---- *)

Lemma ascii_app x y : ascii (x ++ y) <-> ascii x /\ ascii y.
Proof. apply Forall_app. Qed.
Lemma as_str_map x : ascii x -> as_str (map n2b x) = x.
Proof.
  unfold as_str. induction 1 as [|c x H F IH]; cbn [map]; [reflexivity|]. rewrite IH, b2n_n2b_small by lia.
  destruct (N.ltb_spec c 128); [reflexivity|lia].
Qed.

Lemma map_n2b_in c x : ascii x -> c < 256 -> In (n2b c) (map n2b x) -> In c x.
Proof.
  intros F Hc I. apply in_map_iff in I as (d & E & I). unfold ascii in F. rewrite Forall_forall in F. specialize (F _ I). cbn in F.
  apply (f_equal b2n) in E. rewrite !b2n_n2b_small in E by lia. now subst.
Qed.

Lemma token_ascii k : token k -> ascii k.
Proof. intros [_ F]. revert F. apply Forall_impl. intros c H. apply tchar_ascii in H. lia. Qed.
Lemma text_ascii v : Forall text_char v -> ascii v.
Proof. apply Forall_impl. intros c H. unfold text_char in H. lia. Qed.

Lemma header_line k v : valid_header (k, v) ->
  ascii (k ++ s ": " ++ v ++ [13; 10]) /\
  exists content, line (map n2b (k ++ s ": " ++ v ++ [13; 10])) content /\ field content (map n2b k) (map n2b v).
Proof.
  intros (Tk & Fv & T1 & T2 & Ln). cbn [fst snd] in *. pose proof (token_ascii k Tk) as Ak. pose proof (text_ascii v Fv) as Av.
  assert (Ac : ascii (k ++ s ": " ++ v)).
  { apply ascii_app. split; [exact Ak|]. apply ascii_app. split; [repeat constructor|exact Av]. }
  assert (A : ascii (k ++ s ": " ++ v ++ [13; 10])).
  { rewrite (app_assoc (s ": ")), app_assoc. apply ascii_app. split; [exact Ac|repeat constructor]. }
  split; [exact A|]. exists (map n2b (k ++ s ": " ++ v)). split.
  - split; [|split].
    + unfold crlf. rewrite <- map_app, <- !app_assoc. reflexivity.
    + intros I. apply map_n2b_in in I; [|exact Ac|reflexivity]. rewrite !in_app_iff in I. destruct I as [I|[I|I]].
      * destruct Tk as [_ F]. rewrite Forall_forall in F. apply F, tchar_ascii in I. lia.
      * cbn in I. intuition discriminate.
      * rewrite Forall_forall in Fv. apply Fv in I. unfold text_char in I. lia.
    + rewrite map_length, !app_length. cbn [length s]. change (length (s ": ")) with 2%nat. lia.
  - split; [destruct Tk as [N _]; destruct k; [contradiction|discriminate]|]. split; [|split; [|split]].
    + destruct Tk as [_ F]. apply Forall_map. unfold tchar_byte. revert F. apply Forall_impl. intros c H.
      pose proof (tchar_ascii c H). now rewrite b2n_n2b_small by lia.
    + apply Forall_map. revert Fv. apply Forall_impl. intros c H. unfold text_byte, text_char in *. rewrite b2n_n2b_small by lia. lia.
    + split.
      * intros x r E B. destruct v as [|c v]; [discriminate|]. injection E as <- <-. unfold blank in B.
        apply Forall_inv in Av. cbn in Av. rewrite b2n_n2b_small in B by lia. destruct (T1 c v eq_refl). tauto.
      * intros x r E B. destruct v as [|c v _] using rev_ind; [destruct r; discriminate|]. rewrite map_app in E. cbn [map] in E.
        apply app_inj_tail in E as [<- <-]. unfold blank in B. apply ascii_app in Av as [_ Av]. apply Forall_inv in Av. cbn in Av.
        rewrite b2n_n2b_small in B by lia. destruct (T2 c v eq_refl). tauto.
    + exists (map n2b [32]), []. split; [repeat constructor|]. split; [constructor|]. rewrite app_nil_r, <- !map_app. reflexivity.
Qed.

Lemma headers_str_update h l : headers_str (headers_update h l) =
  flat_map (fun kv => fst kv ++ s ": " ++ snd kv ++ [13; 10]) (h_list h ++ l) ++ [13; 10].
Proof.
  unfold headers_str. rewrite flat_map_concat_map. f_equal. f_equal. f_equal.
  revert h. induction l as [|[k v] l IH]; intros h; [now rewrite app_nil_r|]. unfold headers_update. cbn [fold_left].
  change (h_list (headers_update (headers_setitem h (fst (k, v)) (snd (k, v))) l) = h_list h ++ (k, v) :: l).
  rewrite IH. cbn [headers_setitem h_list fst snd]. now rewrite <- app_assoc.
Qed.

Lemma serialized_headers l : Forall valid_header l ->
  exists w, headers_serialize (headers_of l) = Ok (w ++ crlf) /\ fields w l.
Proof.
  intros F. unfold headers_serialize, headers_of. rewrite headers_str_update. cbn [headers_empty h_list app].
  set (t := flat_map (fun kv => fst kv ++ s ": " ++ snd kv ++ [13; 10]) l).
  assert (G : ascii t /\ fields (map n2b t) l).
  { subst t. induction F as [|[k v] l H F IH]; [split; constructor|]. cbn [flat_map fst snd]. destruct IH as [A Fs].
    destruct (header_line k v H) as (A' & content & L & Fi). split; [now apply ascii_app|].
    rewrite map_app. destruct H as (Tk & Fv & _). cbn [fst snd] in *.
    rewrite <- (as_str_map k) at 2 by now apply token_ascii. rewrite <- (as_str_map v) at 2 by now apply text_ascii.
    econstructor; eauto. }
  destruct G as [A Fs]. exists (map n2b t). split; [|exact Fs]. rewrite utf8_encode_ascii; [now rewrite map_app|].
  apply ascii_app. split; [exact A|repeat constructor].
Qed.

Lemma serialized_request path l :
  ascii path -> ~ In 32 path -> ~ In 10 path -> (length path + 15 <= 4110)%nat -> Forall valid_header l -> (length l <= 256)%nat ->
  exists w, serialize_request {| req_path := path; req_headers := headers_of l |} = Ok w /\ request_message w path l.
Proof.
  intros Ap Ns Nl Lp F Ln. destruct (serialized_headers l F) as (w & E & Fs).
  unfold serialize_request. cbn [req_path req_headers]. rewrite E.
  assert (A : ascii (s "GET " ++ path ++ s " HTTP/1.1" ++ [13; 10])).
  { apply ascii_app. split; [repeat constructor|]. apply ascii_app. split; [exact Ap|repeat constructor]. }
  rewrite utf8_encode_ascii by exact A. cbn [rbind]. eexists. split; [reflexivity|].
  exists (map n2b (s "GET " ++ path ++ s " HTTP/1.1" ++ [13; 10])), (map n2b path), w. split; [reflexivity|].
  split; [|split; [|split; [symmetry; now apply as_str_map|split; assumption]]].
  - split; [|split].
    + rewrite !map_app, <- !app_assoc. reflexivity.
    + rewrite !in_app_iff. intros [I|[I|I]]; [cbn in I; intuition discriminate| |cbn in I; intuition discriminate].
      apply map_n2b_in in I; [contradiction|exact Ap|reflexivity].
    + rewrite map_length, !app_length. change (length (s "GET ")) with 4%nat. change (length (s " HTTP/1.1")) with 9%nat. cbn [length]. lia.
  - intros I. apply map_n2b_in in I; [contradiction|exact Ap|reflexivity].
Qed.
