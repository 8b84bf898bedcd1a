(* C103: a server reads the same request however it's split by the network, if read_limit isn't
   too small; it buffers a bounded amount of data. *)
From Verif Require Import Base.Prelude Base.PreludeFacts Base.Utf8 Base.PyInt Spec.Http1 Model.Datastructures Model.Streams Model.Http11 Model.LegacyHandshake Model.StreamLimit
  Proofs.StreamsFacts Proofs.Http11Facts.
Local Open Scope N_scope.

(* All the data of a stream *)
Definition data_of (x : stream) : bytes := st_buffer x ++ concat (st_coming x).

Lemma first_split l rest l' rest' : l ++ LF :: rest = l' ++ LF :: rest' -> ~ In LF l -> ~ In LF l' -> l = l' /\ rest = rest'.
Proof.
  intros E N N'. assert (F : Some (length l) = Some (length l')) by (rewrite <- (find_lf_spec l rest N), <- (find_lf_spec l' rest' N'), E; reflexivity).
  apply some_inj in F. assert (L : l = l').
  { apply (f_equal (firstn (length l))) in E. rewrite firstn_app, Nat.sub_diag, firstn_all, firstn_O, app_nil_r in E.
    rewrite F, firstn_app, Nat.sub_diag, firstn_all, firstn_O, app_nil_r in E. exact E. }
  split; [exact L|]. rewrite <- L in E. apply app_inv_head in E. now injection E.
Qed.
(* How readuntil ends *)
Inductive until_view (limit : N) (buffer : bytes) (coming : list bytes) : until_result -> Prop :=
| Until_found l rest : ~ In LF l -> N.of_nat (length l) <= limit -> buffer ++ concat coming = l ++ LF :: data_of rest ->
    until_view limit buffer coming (UntilFound (l ++ [LF]) rest)
| Until_eof : ~ In LF (buffer ++ concat coming) -> until_view limit buffer coming (UntilEof (buffer ++ concat coming))
| Until_overrun l more rest : ~ In LF l -> limit < lenN l -> buffer ++ concat coming = l ++ more ->
    until_view limit buffer coming (UntilOverrun rest).
Lemma readuntil_view limit buffer coming : until_view limit buffer coming (readuntil limit buffer coming).
Proof.
  revert buffer. induction coming as [|c coming IH]; intros buffer; cbn [readuntil];
    (destruct (find_lf buffer) as [i|] eqn:F;
     [apply find_lf_some in F as (l & rest & -> & Nl & <-); destruct (N.ltb_spec limit (N.of_nat (length l))) as [H|H];
      [eapply (Until_overrun _ _ _ l); [exact Nl|unfold lenN; lia|now rewrite <- app_assoc]
      |replace (firstn (length l + 1) (l ++ LF :: rest)) with (l ++ [LF]) by (rewrite firstn_app_2; reflexivity);
       replace (skipn (length l + 1) (l ++ LF :: rest)) with rest
         by (rewrite skipn_app, skipn_all2, Nat.add_comm, Nat.add_sub by lia; reflexivity);
       apply Until_found; [exact Nl|lia|unfold data_of; cbn [st_buffer st_coming]; now rewrite <- app_assoc]]
     |apply find_lf_none in F; destruct (N.ltb_spec limit (lenN buffer)) as [H|H];
      [eapply (Until_overrun _ _ _ buffer); [exact F|exact H|reflexivity]|]]).
  - pose proof (Until_eof limit buffer []) as E. cbn [concat] in E. rewrite app_nil_r in E. now apply E.
  - specialize (IH (buffer ++ c)). assert (A : (buffer ++ c) ++ concat coming = buffer ++ concat (c :: coming)) by (cbn [concat]; now rewrite app_assoc).
    inversion IH as [l rest H1 H2 H3 E|H1 E|l more rest H1 H2 H3 E]; rewrite A in *.
    + now apply Until_found.
    + now apply Until_eof.
    + now apply (Until_overrun _ _ _ l more).
Qed.

Definition at_end (d : bytes) : reader := {| r_buffer := d; r_eof := true |}.
Definition fails {S A} (o : outcome S A) : Prop := exists e r x, o = OFail e r x.
(* read_line of the legacy code and that of the Sans-I/O code read the same line. *)
Inductive same_line (d : bytes) : result (bytes * stream) -> Prop :=
| Same_ok w c rest : line w c -> d = w ++ data_of rest -> same_line d (Ok (c, rest))
| Same_raise e : (forall S A (k : bytes -> gen S A) x, fails (run (gbind parse_line k) (at_end d) x)) -> same_line d (Raise e).
Lemma no_line_fails d : (forall w c rest, line w c -> d <> w ++ rest) ->
  forall S A (k : bytes -> gen S A) x, fails (run (gbind parse_line k) (at_end d) x).
Proof.
  intros N S A k x. pose proof (parse_line_view k (at_end d) x) as V.
  inversion V as [w c rest E L|l rest E Nl H|l rest E Nl H|Nl H|g Nl H]; try (unfold fails; eauto; fail).
  - now destruct (N w c rest L).
  - discriminate H.
Qed.
Lemma line_in w c : line w c -> In LF w.
Proof. intros (-> & _). apply in_app_iff. right. right. now left. Qed.
Lemma read_line_same limit x : 4109 <= limit -> same_line (data_of x) (stream_read_line limit x).
Proof.
  intros Hl. unfold stream_read_line, readline.
  pose proof (readuntil_view limit (st_buffer x) (st_coming x)) as V. fold (data_of x) in V.
  inversion V as [l rest H1 H2 H3 E|H1 E|l more rest H1 H2 H3 E]; fold (data_of x) in *; cbn [rbind].
  - destruct (N.ltb_spec MAX_LINE (lenN (l ++ [LF]))) as [H|H]; [|destruct (strip_crlf (l ++ [LF])) as [c|] eqn:C].
    + apply Same_raise, no_line_fails. intros w c r L D. unfold MAX_LINE, lenN in H. rewrite app_length in H. cbn [length] in H.
      destruct L as (-> & Nc & L). rewrite H3 in D. assert (X : l ++ LF :: data_of rest = (c ++ [n2b 13]) ++ LF :: r) by (rewrite D, <- !app_assoc; reflexivity).
      apply first_split in X as [X _]; auto.
      * subst l. rewrite !app_length in *. assert (length crlf = 2%nat) by reflexivity. cbn [length] in *. lia.
      * rewrite in_app_iff. intros [I|[I|[]]]; [auto|discriminate].
    + apply strip_crlf_iff in C. apply (Same_ok _ (l ++ [LF])); [|now rewrite H3, <- app_assoc]. split; [exact C|]. split.
      * intros I. assert (X : l ++ [LF] = (c ++ [n2b 13]) ++ [LF]) by (rewrite C, <- app_assoc; reflexivity). apply app_inj_tail in X as [-> _]. apply H1, in_app_iff. now left.
      * unfold MAX_LINE, lenN in H. lia.
    + apply Same_raise, no_line_fails. intros w c r (-> & Nc & L) D. rewrite H3 in D.
      assert (X : l ++ LF :: data_of rest = (c ++ [n2b 13]) ++ LF :: r) by (rewrite D, <- !app_assoc; reflexivity).
      apply first_split in X as [X _]; auto.
      * subst l. rewrite <- app_assoc in C. change ([n2b 13] ++ [LF]) with crlf in C. rewrite (proj2 (strip_crlf_iff _ c) eq_refl) in C. discriminate.
      * rewrite in_app_iff. intros [I|[I|[]]]; [auto|discriminate].
  - assert (Nf : forall S A (k : bytes -> gen S A) y, fails (run (gbind parse_line k) (at_end (data_of x)) y)).
    { apply no_line_fails. intros w c r L D. apply H1. rewrite D. apply in_app_iff. left. eapply line_in; eauto. }
    destruct (MAX_LINE <? lenN (data_of x)); [now apply Same_raise|].
    destruct (strip_crlf (data_of x)) as [c|] eqn:C; [|now apply Same_raise].
    exfalso. apply strip_crlf_iff in C. apply H1. rewrite C. apply in_app_iff. right. right. now left.
  - apply Same_raise, no_line_fails. intros w c r L D. pose proof (line_in _ _ L) as I. destruct L as (_ & _ & L).
    rewrite H3 in D. apply H1. rewrite <- (firstn_skipn (length w) l). apply in_app_iff. left.
    replace (firstn (length w) l) with w; [exact I|].
    assert (Z : (length w - length l = 0)%nat) by (unfold lenN in H2; lia).
    apply (f_equal (firstn (length w))) in D. rewrite (firstn_app _ l), (firstn_app _ w), Z, Nat.sub_diag, firstn_all, !firstn_O, !app_nil_r in D. now symmetry.
Qed.

(* What a run gives, up to the exception *)
Definition done {S A} (o : outcome S A) : option A := match o with ODone a _ _ => Some a | _ => None end.
Definition value {A} (r : result A) : option A := match r with Ok a => Some a | Raise _ => None end.
Lemma fails_done {S A} (o : outcome S A) : fails o -> done o = None.
Proof. now intros (e & r & x & ->). Qed.
Lemma headers_same limit n h x : 4109 <= limit ->
  value (stream_read_headers limit n h x) = done (run (S := unit) (parse_headers_loop n h) (at_end (data_of x)) tt).
Proof.
  intros Hl. revert h x. induction n as [|n IH]; intros h x; [reflexivity|]. rewrite loop_eq. cbn [stream_read_headers].
  destruct (read_line_same limit x Hl) as [w c rest L D|e F]; cbn [rbind]; [|symmetry; apply fails_done, F].
  rewrite (parse_line_ok _ (at_end (data_of x)) tt w c (data_of rest) D L). unfold with_buffer. cbn [r_eof at_end]. fold (at_end (data_of rest)).
  destruct c as [|c0 c]; [reflexivity|]. destruct (split1 (n2b 58) (c0 :: c)) as [[name v]|]; [|reflexivity].
  destruct (negb (token_fullmatch name)); [reflexivity|]. destruct (negb (value_fullmatch (strip_ows v))); [reflexivity|]. apply IH.
Qed.
Theorem C103_any_pieces : forall read_limit x, 8218 <= read_limit ->
  stream_read_http_request read_limit x = read_http_request (data_of x).
Proof.
  intros read_limit x Hr. assert (Hl : 4109 <= read_limit / 2) by (apply N.div_le_lower_bound; lia).
  assert (V : value (stream_read_request (read_limit / 2) x) = done (run (S := unit) parse_request (at_end (data_of x)) tt)).
  { unfold stream_read_request, parse_request. set (limit := read_limit / 2) in *.
    destruct (read_line_same limit x Hl) as [w c rest L D|e F]; cbn [rbind]; [|symmetry; apply fails_done, F].
    rewrite (parse_line_ok _ (at_end (data_of x)) tt w c (data_of rest) D L). unfold with_buffer. cbn [r_eof at_end]. fold (at_end (data_of rest)).
    destruct (split3 c) as [[[m p] v]|]; [|reflexivity]. destruct (negb (bytes_eqb m (b "GET"))); [reflexivity|]. destruct (negb (bytes_eqb v (b "HTTP/1.1"))); [reflexivity|].
    unfold parse_headers. rewrite run_gbind. pose proof (headers_same limit (MAX_HEADERS + 1)%nat headers_empty rest Hl) as E.
    destruct (stream_read_headers limit (MAX_HEADERS + 1)%nat headers_empty rest) as [h|e], (run (parse_headers_loop (MAX_HEADERS + 1) headers_empty) (at_end (data_of rest)) tt);
      cbn [value done rbind obind run] in *; try discriminate E; try reflexivity. now apply some_inj in E as ->. }
  unfold stream_read_http_request, read_http_request. fold (at_end (data_of x)).
  destruct (stream_read_request (read_limit / 2) x), (run parse_request (at_end (data_of x)) tt); cbn [value done] in V; try discriminate V; try reflexivity.
  now apply some_inj in V as ->.
Qed.
(* The same for the response that a client reads *)
Theorem C103_any_pieces_client : forall read_limit x, 8218 <= read_limit ->
  stream_read_http_response read_limit x = read_http_response (data_of x).
Proof.
  intros read_limit x Hr. assert (Hl : 4109 <= read_limit / 2) by (apply N.div_le_lower_bound; lia).
  assert (V : value (stream_read_response (read_limit / 2) x) = done (run (S := unit) read_response (at_end (data_of x)) tt)).
  { unfold stream_read_response, read_response. set (limit := read_limit / 2) in *.
    destruct (read_line_same limit x Hl) as [w c rest L D|e F]; cbn [rbind]; [|symmetry; apply fails_done, F].
    rewrite (parse_line_ok _ (at_end (data_of x)) tt w c (data_of rest) D L). unfold with_buffer. cbn [r_eof at_end]. fold (at_end (data_of rest)).
    destruct (split3 c) as [[[v p] m]|]; [|reflexivity]. destruct (negb (bytes_eqb v (b "HTTP/1.1"))); [reflexivity|].
    destruct (py_int (map b2n p)) as [status|]; [|reflexivity]. destruct (negb _); [reflexivity|]. destruct (negb (value_fullmatch m)); [reflexivity|].
    destruct (utf8_decode m) as [reason|]; cbn [rbind glift gbind]; [|reflexivity].
    unfold parse_headers. rewrite run_gbind. pose proof (headers_same limit (MAX_HEADERS + 1)%nat headers_empty rest Hl) as E.
    destruct (stream_read_headers limit (MAX_HEADERS + 1)%nat headers_empty rest) as [h|e], (run (parse_headers_loop (MAX_HEADERS + 1) headers_empty) (at_end (data_of rest)) tt);
      cbn [value done rbind obind run] in *; try discriminate E; try reflexivity. now apply some_inj in E as ->. }
  unfold stream_read_http_response, read_http_response. fold (at_end (data_of x)).
  destruct (stream_read_response (read_limit / 2) x) as [[[st re] h]|], (run read_response (at_end (data_of x)) tt) eqn:R; cbn [value done] in V; try discriminate V; try reflexivity.
  apply some_inj in V. now subst.
Qed.
(* Two streams with the same data *)
Theorem C103_same_request : forall read_limit pieces pieces', 8218 <= read_limit -> concat pieces = concat pieces' ->
  stream_read_http_request read_limit {| st_buffer := []; st_coming := pieces |} = stream_read_http_request read_limit {| st_buffer := []; st_coming := pieces' |}.
Proof. intros read_limit p p' H E. rewrite !C103_any_pieces by exact H. unfold data_of. cbn [st_buffer st_coming]. now rewrite E. Qed.

(* While a line is read, the server only waits for more data when it has buffered at most
   read_limit // 2 bytes: the pieces that it uses before the last one are that small. *)
Theorem C103_bounded : forall limit buffer coming rest,
  (exists l, readuntil limit buffer coming = UntilFound l rest) \/ readuntil limit buffer coming = UntilOverrun (st_coming rest) ->
  exists used, coming = used ++ st_coming rest /\ forall before last, used = before ++ [last] -> lenN (buffer ++ concat before) <= limit.
Proof.
  intros limit buffer coming rest. revert buffer.
  assert (Z : forall buffer coming, coming = st_coming rest ->
    exists used, coming = used ++ st_coming rest /\ forall before last, used = before ++ [last] -> lenN (buffer ++ concat before) <= limit).
  { intros buffer c ->. exists []. split; [reflexivity|]. intros [|? ?] ? E; discriminate E. }
  induction coming as [|c coming IH]; intros buffer; cbn [readuntil];
    (destruct (find_lf buffer) as [i|] eqn:F; [destruct (limit <? N.of_nat i)|destruct (N.ltb_spec limit (lenN buffer)) as [Hb|Hb]]);
    try (intros [[l H]|H]; try discriminate H; injection H as; subst; now apply Z).
  - intros H. destruct (IH _ H) as (used & E & B). exists (c :: used). split; [cbn [app]; now rewrite <- E|].
    intros [|c' before] last U; injection U as -> U.
    + cbn [concat]. now rewrite app_nil_r.
    + rewrite <- (B before last U). cbn [concat]. now rewrite app_assoc.
Qed.

(* With a smaller read_limit, a server refuses requests that it accepts with the default value. *)
Definition long_request : bytes := b "GET /" ++ repeat (n2b 97) 4094 ++ b " HTTP/1.1" ++ crlf ++ crlf.
Theorem C103_small_limit_refuted : forall read_limit, read_limit < 8218 ->
  exists e, stream_read_http_request read_limit {| st_buffer := []; st_coming := [long_request] |} = Raise e.
Proof.
  intros read_limit H. assert (Hl : read_limit / 2 < 4109) by (apply N.div_lt_upper_bound; lia).
  assert (O : readuntil (read_limit / 2) [] [long_request] = UntilOverrun []).
  { cbn [readuntil find_lf]. replace (read_limit / 2 <? lenN []) with false by (symmetry; apply N.ltb_ge; unfold lenN; cbn; lia).
    cbn [app]. replace (find_lf long_request) with (Some 4109%nat) by (vm_compute; reflexivity).
    replace (read_limit / 2 <? N.of_nat 4109) with true; [reflexivity|]. symmetry. apply N.ltb_lt. lia. }
  unfold stream_read_http_request, stream_read_request, stream_read_line, readline. cbn [st_buffer st_coming]. rewrite O. cbn [rbind]. eauto.
Qed.

Example C103_applies :
  (exists req, stream_read_http_request 65536 {| st_buffer := []; st_coming := [long_request] |} = Ok req) /\
  (exists req, stream_read_http_request 65536 {| st_buffer := []; st_coming := map (fun x => [x]) long_request |} = Ok req) /\
  stream_read_http_request 65536 {| st_buffer := b "GE"; st_coming := [b "T /ws HT"; []; b "TP/1.1" ++ crlf ++ b "A: b" ++ [n2b 13]; [n2b 10] ++ crlf; b "data"] |} =
    read_http_request (b "GET /ws HTTP/1.1" ++ crlf ++ b "A: b" ++ crlf ++ crlf ++ b "data") /\
  exists h, stream_read_http_response 65536 {| st_buffer := []; st_coming := [b "HTTP/1.1 10"; b "1 OK" ++ crlf ++ [n2b 13]; [n2b 10]] |} = Ok (101%Z, h).
Proof.
  split; [|split; [|split; [|eexists; vm_compute; reflexivity]]].
  - rewrite C103_any_pieces by lia. eexists. vm_compute. reflexivity.
  - rewrite C103_any_pieces by lia. eexists. vm_compute. reflexivity.
  - vm_compute. reflexivity.
Qed.

Print Assumptions C103_any_pieces.
Print Assumptions C103_any_pieces_client.
Print Assumptions C103_same_request.
Print Assumptions C103_bounded.
Print Assumptions C103_small_limit_refuted.
