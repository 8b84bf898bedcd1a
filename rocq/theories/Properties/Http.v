(* C24-C27, C30: reading and writing handshake requests and responses. *)
From Verif Require Import Base.Prelude Base.PreludeFacts Base.Utf8 Base.Utf8Facts Base.PyInt Base.DecimalFacts
  Model.Datastructures Model.Streams Model.Http11 Model.Headers Spec.Rfc7230 Spec.Multimap Spec.Http1
  Proofs.StreamsFacts Proofs.MultimapFacts Proofs.HeadersFacts Proofs.Http11Facts.
Local Open Scope N_scope.

(* ---- C27 ---- *)

Inductive read : Type := Line | Exactly (n : nat).

(* reads(rs, data, results, rest): reading [rs] from [data] gives [results] and leaves [rest] *)
Inductive reads : list read -> bytes -> list bytes -> bytes -> Prop :=
| reads_nil data : reads [] data [] data
| reads_line l rs data res rest : ~ In LF l -> reads rs data res rest ->
    reads (Line :: rs) ((l ++ [LF]) ++ data) ((l ++ [LF]) :: res) rest
| reads_exactly x rs data res rest : reads rs data res rest ->
    reads (Exactly (length x) :: rs) (x ++ data) (x :: res) rest.

(* the reads are made one after the other on a stream reader *)
Fixpoint read_all (rs : list read) : gen unit (list bytes) :=
  match rs with
  | [] => GRet []
  | Line :: rs => let* x := read_line in let* l := read_all rs in GRet (x :: l)
  | Exactly n :: rs => let* x := read_exact (Z.of_nat n) in let* l := read_all rs in GRet (x :: l)
  end.

Lemma live_read_all rs : live (read_all rs).
Proof.
  induction rs as [|[|n] rs IH]; [exact I| |]; apply live_gbind; try apply live_read_line; try apply live_read_exact;
    intros x; apply live_gbind; auto; intros; exact I.
Qed.

Lemma read_all_complete rs data res rest : reads rs data res rest -> forall r, r_buffer r = data ->
  run (read_all rs) r tt = ODone res (with_buffer r rest) tt.
Proof.
  induction 1 as [data|l rs data res rest N R IH|x rs data res rest R IH]; intros r E; cbn [read_all].
  - cbn [run]. f_equal. destruct r. cbn in E. now subst.
  - rewrite <- app_assoc in E. rewrite (run_line _ r tt _ _ E N), run_gbind, (IH (with_buffer r data) eq_refl). reflexivity.
  - unfold read_exact. rewrite run_gbind. cbn [run]. destruct (Z.ltb_spec (Z.of_nat (length x)) 0); [lia|].
    unfold lenZ. rewrite E, app_length. destruct (Z.ltb_spec (Z.of_nat (length x + length data)) (Z.of_nat (length x))); [lia|].
    rewrite Nat2Z.id, firstn_app_exact, skipn_app_exact by reflexivity. cbn [glift run obind].
    rewrite run_gbind, (IH (with_buffer r data) eq_refl). reflexivity.
Qed.

Lemma read_all_view rs : forall r,
  (exists res rest, reads rs (r_buffer r) res rest) \/
  (r_eof r = false /\ exists g r', run (read_all rs) r tt = OSusp g r' tt) \/
  (r_eof r = true /\ exists r', run (read_all rs) r tt = OFail EOFError r' tt).
Proof.
  induction rs as [|[|n] rs IH]; intros r; [left; eexists _, _; constructor| |].
  - destruct (find_lf (r_buffer r)) as [i|] eqn:F.
    + apply find_lf_some in F as (l & rest & E & N & _). destruct (IH (with_buffer r rest)) as [(res & rest' & R)|[(Er & g & r' & R)|(Er & r' & R)]].
      * left. exists ((l ++ [LF]) :: res), rest'. rewrite E. change (LF :: rest) with ([LF] ++ rest). rewrite app_assoc. now constructor.
      * right; left. split; [exact Er|]. cbn [read_all]. rewrite (run_line _ r tt _ _ E N), run_gbind, R. cbn [obind]. eauto.
      * right; right. split; [exact Er|]. cbn [read_all]. rewrite (run_line _ r tt _ _ E N), run_gbind, R. cbn [obind]. eauto.
    + right. cbn [read_all]. rewrite run_read_line, F. destruct (r_eof r) eqn:Er; [right|left]; eauto.
  - cbn [read_all]. destruct (Nat.leb_spec n (length (r_buffer r))) as [H|H].
    + rewrite <- (firstn_skipn n (r_buffer r)). assert (Ln : length (firstn n (r_buffer r)) = n) by (apply firstn_length_le; exact H).
      destruct (IH (with_buffer r (skipn n (r_buffer r)))) as [(res & rest' & R)|D].
      * left. exists (firstn n (r_buffer r) :: res), rest'. rewrite <- Ln at 1. now constructor.
      * right.
        assert (Q : run (let* x := read_exact (Z.of_nat n) in let* l := read_all rs in GRet (x :: l)) r tt =
                    run (let* l := read_all rs in GRet (firstn n (r_buffer r) :: l)) (with_buffer r (skipn n (r_buffer r))) tt).
        { unfold read_exact. rewrite run_gbind. cbn [run]. destruct (Z.ltb_spec (Z.of_nat n) 0); [lia|].
          unfold lenZ. destruct (Z.ltb_spec (Z.of_nat (length (r_buffer r))) (Z.of_nat n)); [lia|]. rewrite Nat2Z.id. reflexivity. }
        rewrite Q, run_gbind. destruct D as [(Er & g & r' & R)|(Er & r' & R)]; rewrite R; cbn [obind]; [left|right]; eauto.
    + right. unfold read_exact. rewrite run_gbind. cbn [run]. destruct (Z.ltb_spec (Z.of_nat n) 0); [lia|].
      unfold lenZ. destruct (Z.ltb_spec (Z.of_nat (length (r_buffer r))) (Z.of_nat n)); [|lia].
      destruct (r_eof r) eqn:Er; cbn [glift run obind]; [right|left]; eauto.
Qed.

Lemma reads_fun rs data res rest : reads rs data res rest -> forall res' rest', reads rs data res' rest' -> res = res' /\ rest = rest'.
Proof.
  intros R res' rest' R'.
  pose proof (read_all_complete _ _ _ _ R {| r_buffer := data; r_eof := false |} eq_refl) as E.
  rewrite (read_all_complete _ _ _ _ R' {| r_buffer := data; r_eof := false |} eq_refl) in E. now injection E as <- <-.
Qed.

(* However the data arrives, the reads return the results of cutting the whole data. *)
Theorem C27_reads_exact : forall rs datas res rest,
  receive_all (read_all rs) tt datas = ODone res {| r_buffer := rest; r_eof := false |} tt <->
  reads rs (concat datas) res rest.
Proof.
  intros rs datas res rest. rewrite receive_all_live by apply live_read_all. split.
  - intros H. destruct (read_all_view rs {| r_buffer := concat datas; r_eof := false |}) as [(res' & rest' & R)|[(_ & g & r' & R)|(_ & r' & R)]].
    + cbn [r_buffer] in R. pose proof (read_all_complete _ _ _ _ R {| r_buffer := concat datas; r_eof := false |} eq_refl) as E.
      rewrite E in H. now injection H as <- <-.
    + congruence.
    + congruence.
  - intros R. now rewrite (read_all_complete _ _ _ _ R {| r_buffer := concat datas; r_eof := false |} eq_refl).
Qed.

(* If there isn't enough data, reading waits for more; at the end of the stream, it raises
   EOFError. *)
Theorem C27_reads_wait : forall rs datas,
  (forall res rest, ~ reads rs (concat datas) res rest) ->
  (exists g r, receive_all (read_all rs) tt datas = OSusp g r tt) /\
  (exists r, receive_eof (receive_all (read_all rs) tt datas) = OFail EOFError r tt).
Proof.
  intros rs datas N. rewrite receive_all_live by apply live_read_all.
  destruct (read_all_view rs {| r_buffer := concat datas; r_eof := false |}) as [(res' & rest' & R)|[(_ & g & r' & R)|(X & _)]];
    [exfalso; now apply N in R| |discriminate]. split; [eauto|]. rewrite R. cbn [receive_eof].
  (* running from the start with the end of the stream gives the same result *)
  assert (G : forall (g : gen unit (list bytes)) r x g' r' x', live_at (length (r_buffer r)) g -> r_eof r = false -> run g r x = OSusp g' r' x' ->
     run g' {| r_buffer := r_buffer r'; r_eof := true |} x' = run g {| r_buffer := r_buffer r; r_eof := true |} x).
  { clear. induction g as [a|e|p k IH|n k IH|k IH|k IH|k IH|y k IH|k IH]; intros r x g' r' x' L E H; cbn [run] in *; try discriminate.
    - destruct L as [Hp L]. unfold find_lf_from. destruct (find_lf_from p (r_buffer r)) as [i|] eqn:F.
      + unfold find_lf_from in F. cbn [r_buffer]. destruct (find_lf (skipn p (r_buffer r))) as [j|]; [|discriminate]. injection F as <-.
        apply (IH _ (with_buffer r _) _ _ _ _ (live_live_at _ _ (L _)) E H).
      + rewrite E in H. injection H as <- <- <-. cbn [run r_buffer r_eof]. unfold find_lf_from in *. cbn [r_buffer].
        destruct (find_lf (skipn p (r_buffer r))); [discriminate|]. rewrite skipn_all. reflexivity.
    - cbn [r_buffer r_eof]. destruct (n <? 0)%Z eqn:N0; [apply (IH _ r _ _ _ _ (live_live_at _ _ (L _)) E H)|].
      destruct (lenZ (r_buffer r) <? n)%Z eqn:Z1.
      + rewrite E in H. injection H as <- <- <-. cbn [run r_buffer r_eof]. now rewrite N0, Z1.
      + apply (IH _ (with_buffer r _) _ _ _ _ (live_live_at _ _ (L _)) E H).
    - rewrite E in H. injection H as <- <- <-. reflexivity.
    - cbn [r_buffer r_eof]. destruct (r_buffer r) as [|c bf] eqn:B.
      + rewrite E in H. injection H as <- <- <-. cbn [run r_buffer r_eof]. rewrite B. reflexivity.
      + rewrite <- B. apply (IH false r _ _ _ _ (live_live_at _ (k false) L) E H).
    - apply (IH _ r _ _ _ _ (live_live_at _ _ (L _)) E H).
    - apply (IH r _ _ _ _ (live_live_at _ k L) E H).
    - contradiction. }
  rewrite (G _ {| r_buffer := concat datas; r_eof := false |} _ _ _ _ (live_live_at _ _ (live_read_all rs)) eq_refl R). cbn [r_buffer].
  destruct (read_all_view rs {| r_buffer := concat datas; r_eof := true |}) as [(res' & rest' & R')|[(X & _)|(_ & r2 & R2)]];
    [exfalso; now apply N in R'|discriminate|eauto].
Qed.

Example C27_applies :
  reads [Line; Exactly 3; Line] (concat [b "a"; map n2b [13; 10; 98]; map n2b [10; 10; 10]])
    [map n2b [97; 13; 10]; map n2b [98; 10; 10]; map n2b [10]] [].
Proof.
  apply (reads_line (map n2b [97; 13]) [Exactly 3; Line] (map n2b [98; 10; 10; 10])); [cbn; intuition discriminate|].
  apply (reads_exactly (map n2b [98; 10; 10]) [Line] (map n2b [10])). apply (reads_line [] [] []); [auto|constructor].
Qed.

(* ---- C26 ---- *)

(* A request is accepted if and only if it follows the grammar, which includes the limits. *)
Theorem C26_request_accepted_exactly : forall datas path headers rest,
  receive_all parse_request tt datas =
    ODone {| req_path := path; req_headers := headers |} {| r_buffer := rest; r_eof := false |} tt <->
  exists w l, request_message w path l /\ concat datas = w ++ rest /\ headers = headers_of l.
Proof.
  intros datas path hs rest. rewrite receive_all_live by apply live_parse_request. split.
  - intros H. apply request_sound in H as (w & l & M & E & Hh & _ & _). cbn [req_path req_headers r_buffer] in *. eauto.
  - intros (w & l & M & E & ->). now rewrite (request_complete w path l M {| r_buffer := concat datas; r_eof := false |} tt rest E).
Qed.

(* A response that was accepted has a head within the limits. *)
Theorem C26_response_within_limits : forall datas resp r,
  receive_all parse_response tt datas = ODone resp r tt ->
  exists w l rest, response_head w (resp_status resp) (resp_reason resp) l /\ concat datas = w ++ rest /\ resp_headers resp = headers_of l.
Proof.
  intros datas resp r. rewrite receive_all_live by apply live_parse_response. intros H.
  apply response_sound in H as (w & l & rest & Rh & E & Hh & _). cbn [r_buffer] in *. eauto 6.
Qed.

(* More than 256 headers: a security error. *)
Theorem C26_too_many_headers : forall datas w0 p w1 l rest,
  line w0 (b "GET " ++ p ++ b " HTTP/1.1") -> ~ In (n2b 32) p -> fields w1 l -> length l = 257%nat ->
  concat datas = w0 ++ w1 ++ rest ->
  exists msg r, receive_all parse_request tt datas = OFail (SecurityError msg) r tt.
Proof.
  intros datas w0 p w1 l rest L Np Fs Ln E. rewrite receive_all_live by apply live_parse_request.
  unfold parse_request. rewrite (parse_line_ok _ {| r_buffer := concat datas; r_eof := false |} tt _ _ _ E L).
  assert (Sp : split3 (b "GET " ++ p ++ b " HTTP/1.1") = Some (b "GET", p, b "HTTP/1.1")).
  { apply split3_iff. split; [reflexivity|]. split; [|exact Np]. cbn. intuition discriminate. }
  rewrite Sp. change (negb (bytes_eqb (b "GET") (b "GET"))) with false. cbn iota.
  change (negb (bytes_eqb (b "HTTP/1.1") (b "HTTP/1.1"))) with false. cbn iota.
  rewrite run_gbind. unfold parse_headers, MAX_HEADERS. change (256 + 1)%nat with 257%nat. rewrite <- Ln.
  rewrite (headers_too_many w1 l Fs headers_empty (with_buffer _ (w1 ++ rest)) tt rest eq_refl).
  cbn [obind]. eauto.
Qed.

(* A line longer than 4110 bytes: a security error. *)
Theorem C26_request_line_too_long : forall datas l rest,
  concat datas = l ++ LF :: rest -> ~ In LF l -> (4110 < length l + 1)%nat ->
  exists msg r, receive_all parse_request tt datas = OFail (SecurityError msg) r tt.
Proof.
  intros datas l rest E N Ln. rewrite receive_all_live by apply live_parse_request. unfold parse_request.
  rewrite run_gbind. unfold parse_line at 1. rewrite (run_line _ {| r_buffer := concat datas; r_eof := false |} tt l rest E N).
  destruct (N.ltb_spec MAX_LINE (lenN (l ++ [LF]))) as [_|H].
  - cbn [run obind]. eauto.
  - exfalso. unfold MAX_LINE, lenN in H. rewrite app_length in H. cbn [length] in H. lia.
Qed.
Theorem C26_header_line_too_long : forall datas w0 p w1 l long rest,
  line w0 (b "GET " ++ p ++ b " HTTP/1.1") -> ~ In (n2b 32) p -> fields w1 l -> (length l <= 256)%nat ->
  ~ In LF long -> (4110 < length long + 1)%nat ->
  concat datas = w0 ++ w1 ++ long ++ LF :: rest ->
  exists msg r, receive_all parse_request tt datas = OFail (SecurityError msg) r tt.
Proof.
  intros datas w0 p w1 l long rest L Np Fs Ln Nl Lo E. rewrite receive_all_live by apply live_parse_request.
  unfold parse_request. rewrite (parse_line_ok _ {| r_buffer := concat datas; r_eof := false |} tt _ _ _ E L).
  assert (Sp : split3 (b "GET " ++ p ++ b " HTTP/1.1") = Some (b "GET", p, b "HTTP/1.1")).
  { apply split3_iff. split; [reflexivity|]. split; [|exact Np]. cbn. intuition discriminate. }
  rewrite Sp. change (negb (bytes_eqb (b "GET") (b "GET"))) with false. cbn iota.
  change (negb (bytes_eqb (b "HTTP/1.1") (b "HTTP/1.1"))) with false. cbn iota. rewrite run_gbind.
  assert (G : forall w1 l, fields w1 l -> forall n h r, (length l <= n)%nat -> r_buffer r = w1 ++ long ++ LF :: rest ->
     exists msg r', run (@parse_headers_loop unit (S n) h) r tt = OFail (SecurityError msg) r' tt).
  { clear - Nl Lo. induction 1 as [|w content name value w' l L F Fs IH]; intros n h r Ln E.
    - rewrite loop_eq. rewrite run_gbind. unfold parse_line. rewrite (run_line _ r tt long rest E Nl).
      destruct (N.ltb_spec MAX_LINE (lenN (long ++ [LF]))) as [_|H]; [cbn [run obind]; eauto|].
      exfalso. unfold MAX_LINE, lenN in H. rewrite app_length in H. cbn [length] in H. lia.
    - cbn [length] in Ln. destruct n as [|n]; [lia|]. rewrite <- app_assoc in E.
      rewrite (loop_field _ _ _ _ _ _ _ _ _ E L F). apply IH; [lia|reflexivity]. }
  unfold parse_headers, MAX_HEADERS. change (256 + 1)%nat with (S 256).
  destruct (G w1 l Fs 256%nat headers_empty (with_buffer {| r_buffer := concat datas; r_eof := false |} (w1 ++ long ++ LF :: rest)) Ln eq_refl) as (msg & r' & R).
  rewrite R. cbn [obind]. eauto.
Qed.

(* lines as long as allowed, and a too long one *)
Definition long_value (n : nat) : str := repeat 97 n.
Lemma long_valid n : (n <= 4105)%nat -> valid_header (s "A", long_value n).
Proof.
  intros H. split; [split; [discriminate|]; constructor; [|constructor]; unfold tchar; right; left; cbn; lia|].
  cbn [fst snd]. unfold long_value. split; [|split; [|split]].
  - apply Forall_forall. intros c Hc. apply repeat_spec in Hc. subst. right. lia.
  - intros c r E. assert (I : In c (repeat 97 n)) by (rewrite E; now left). apply repeat_spec in I. subst. split; discriminate.
  - intros c r E. assert (I : In c (repeat 97 n)) by (rewrite E; apply in_app_iff; right; now left). apply repeat_spec in I. subst. split; discriminate.
  - rewrite repeat_length. cbn [length s]. change (length (s "A")) with 1%nat. lia.
Qed.
Example C26_applies : exists w, fields w (repeat (s "A", s "b") 257) /\
  exists long, ~ In LF long /\ (length long + 1 = 4111)%nat.
Proof.
  destruct (serialized_headers (repeat (s "A", s "b") 257)) as (w & _ & Fs).
  - apply Forall_forall. intros kv H. apply repeat_spec in H. subst. split; [split; [discriminate|]; constructor; [|constructor]; unfold tchar; right; left; cbn; lia|].
    cbn [fst snd]. split; [constructor; [right; split; vm_compute; discriminate|constructor]|]. split; [intros c r [= <- <-]; split; discriminate|].
    split; [intros c [|? [|]] [= <-]; split; discriminate|]. cbn. lia.
  - exists w. split; [exact Fs|]. exists (repeat (n2b 97) 4110). rewrite repeat_length. split; [|reflexivity].
    intros H. apply repeat_spec in H. discriminate.
Qed.

(* ---- C24 ---- *)

Theorem C24_request_round_trip : forall path l,
  ascii path -> ~ In 32 path -> ~ In 10 path -> (length path + 15 <= 4110)%nat ->
  Forall valid_header l -> (length l <= 256)%nat ->
  exists w, serialize_request {| req_path := path; req_headers := headers_of l |} = Ok w /\
    forall datas rest, concat datas = w ++ rest ->
      receive_all parse_request tt datas =
        ODone {| req_path := path; req_headers := headers_of l |} {| r_buffer := rest; r_eof := false |} tt.
Proof.
  intros path l A N1 N2 Lp F Ln. destruct (serialized_request path l A N1 N2 Lp F Ln) as (w & E & M).
  exists w. split; [exact E|]. intros datas rest Ed. apply C26_request_accepted_exactly. eauto.
Qed.
(* 256 headers, and lines of 4110 bytes *)
Example C24_applies : ascii (s "/") /\ Forall valid_header (repeat (s "A", long_value 4105) 256) /\
  length (repeat (s "A", long_value 4105) 256) = 256%nat.
Proof.
  split; [repeat constructor|]. split; [|apply repeat_length].
  apply Forall_forall. intros kv H. apply repeat_spec in H. subst. apply long_valid. lia.
Qed.

(* ---- C25 ---- *)

(* characters allowed in a reason phrase *)
Definition reason_char (c : N) : Prop :=
  (c = 9 \/ 32 <= c) /\ c <> 127 /\ c < 1114112 /\ ~ (55296 <= c < 57344).

Lemma reason_encodes t : Forall reason_char t -> exists e, utf8_encode t = Ok e /\ Forall text_byte e /\ ~ In LF e.
Proof.
  induction 1 as [|c t Hc F (e & E & Ft & Nl)]; [exists []; split; [reflexivity|]; split; [constructor|auto]|].
  cbn [utf8_encode]. rewrite E.
  assert (G : exists u, utf8_encode_char c = Some u /\ Forall text_byte u).
  { destruct Hc as (H1 & H2 & H3 & H4). unfold utf8_encode_char.
    assert (T : forall n, 128 <= n -> n < 256 -> text_byte (n2b n)) by (intros n ? ?; unfold text_byte; rewrite b2n_n2b_small by lia; lia).
    assert (D64 : c / 64 < 1114112 / 64 + 1) by (apply N.div_lt_upper_bound; lia).
    pose proof (N.mod_lt c 64). pose proof (N.mod_lt (c / 64) 64). pose proof (N.mod_lt (c / 4096) 64).
    destruct (N.ltb_spec c 128).
    { eexists. split; [reflexivity|]. constructor; [|constructor]. unfold text_byte. rewrite b2n_n2b_small by lia. lia. }
    destruct (N.ltb_spec c 2048).
    { eexists. split; [reflexivity|]. assert (c / 64 < 32) by (apply N.div_lt_upper_bound; lia). repeat (constructor; [apply T; lia|]); constructor. }
    destruct ((55296 <=? c) && (c <? 57344)) eqn:Sg.
    { apply andb_true_iff in Sg as [S1 S2]. apply N.leb_le in S1. apply N.ltb_lt in S2. exfalso. auto. }
    destruct (N.ltb_spec c 65536).
    { eexists. split; [reflexivity|]. assert (c / 4096 < 16) by (apply N.div_lt_upper_bound; lia). repeat (constructor; [apply T; lia|]); constructor. }
    destruct (N.ltb_spec c 1114112); [|lia].
    eexists. split; [reflexivity|]. assert (c / 262144 < 5) by (apply N.div_lt_upper_bound; lia). repeat (constructor; [apply T; lia|]); constructor. }
  destruct G as (u & -> & Fu). eexists. split; [reflexivity|].
  assert (Fa : Forall text_byte (u ++ e)) by (apply Forall_app; auto). split; [exact Fa|].
  intros I. rewrite Forall_forall in Fa. apply Fa in I. unfold text_byte, LF in I. rewrite b2n_n2b_small in I by reflexivity. lia.
Qed.

Lemma str_of_Z_digits z : (0 <= z)%Z -> exists n, z = Z.of_N n /\ str_of_Z z = str_of_N n.
Proof. intros H. exists (Z.to_N z). split; [now rewrite Z2N.id|]. destruct z; [reflexivity|reflexivity|lia]. Qed.

Lemma status_length z : (100 <= z < 1000)%Z -> length (str_of_Z z) = 3%nat.
Proof.
  intros H.
  assert (A : forallb (fun k => (length (str_of_Z (Z.of_nat k)) =? 3)%nat) (seq 100 900) = true) by (vm_compute; reflexivity).
  rewrite forallb_forall in A. specialize (A (Z.to_nat z)). rewrite Z2Nat.id in A by lia. apply Nat.eqb_eq, A, in_seq. lia.
Qed.

Lemma encode_app x y : utf8_encode (x ++ y) =
  (let! a := utf8_encode x in let! c := utf8_encode y in Ok (a ++ c)).
Proof.
  induction x as [|c x IH]; cbn [app utf8_encode rbind]; [now destruct (utf8_encode y)|].
  destruct (utf8_encode_char c) as [e|]; [|reflexivity]. rewrite IH. destruct (utf8_encode x); cbn [rbind]; [|reflexivity].
  destruct (utf8_encode y); cbn [rbind]; [now rewrite app_assoc|reflexivity].
Qed.

Lemma serialized_head status reason l body : (100 <= status < 1000)%Z -> Forall reason_char reason ->
  Forall valid_header l -> (length l <= 256)%nat ->
  (forall e, utf8_encode reason = Ok e -> (length e + 15 <= 4110)%nat) ->
  exists w, response_head w status reason l /\
    serialize_response {| resp_status := status; resp_reason := reason; resp_headers := headers_of l; resp_body := body; resp_exception := None |}
    = Ok (w ++ match body with Some x => x | None => [] end).
Proof.
  intros St Re F Ln Lr. destruct (serialized_headers l F) as (w & E & Fs). destruct (reason_encodes reason Re) as (e & Ee & Ft & Nl).
  destruct (str_of_Z_digits status ltac:(lia)) as (n & En & Es). pose proof (str_of_N_digits n) as D.
  unfold serialize_response. cbn [resp_status resp_reason resp_headers resp_body]. rewrite E.
  assert (Ad : ascii (str_of_Z status)) by (rewrite Es; revert D; apply Forall_impl; lia).
  assert (A1 : ascii (s "HTTP/1.1 " ++ str_of_Z status ++ s " ")).
  { apply ascii_app. split; [repeat constructor|]. apply ascii_app. split; [exact Ad|repeat constructor]. }
  replace (s "HTTP/1.1 " ++ str_of_Z status ++ s " " ++ reason ++ [13; 10])
    with ((s "HTTP/1.1 " ++ str_of_Z status ++ s " ") ++ reason ++ [13; 10]) by (rewrite <- !app_assoc; reflexivity).
  rewrite encode_app, (utf8_encode_ascii _ A1), encode_app, Ee. cbn [rbind].
  change (utf8_encode [13; 10]) with (Ok crlf). cbn [rbind].
  exists (map n2b (s "HTTP/1.1 " ++ str_of_Z status ++ s " ") ++ e ++ crlf ++ w ++ crlf). split.
  - exists (map n2b (s "HTTP/1.1 " ++ str_of_Z status ++ s " ") ++ e ++ crlf), (map n2b (str_of_Z status)), e, w.
    split; [rewrite <- !app_assoc; reflexivity|].
    assert (Nn : forall c, (c < 48 \/ 57 < c) -> c < 256 -> ~ In (n2b c) (map n2b (str_of_Z status))).
    { intros c Hc Hs I. apply map_n2b_in in I; [|exact Ad|exact Hs]. rewrite Es in I. rewrite Forall_forall in D. apply D in I. lia. }
    split; [|split; [apply Nn; [left; reflexivity|reflexivity]|split; [|split; [exact St|split; [exact Ft|split; [|split; assumption]]]]]].
    + split; [rewrite !map_app, <- !app_assoc; reflexivity|]. split.
      * rewrite !in_app_iff. intros [I|[I|[I|I]]]; [cbn in I; intuition discriminate| |cbn in I; intuition discriminate|contradiction].
        revert I. apply Nn; [left; reflexivity|reflexivity].
      * rewrite !app_length, map_length, !app_length, (status_length status St). specialize (Lr e Ee).
        change (length (s "HTTP/1.1 ")) with 9%nat. change (length (s " ")) with 1%nat. cbn [crlf length map]. lia.
    + rewrite map_map. erewrite map_ext_in with (g := fun x => x); [rewrite map_id, Es, En; apply py_int_str_of_N|].
      intros c Hc. unfold ascii in Ad. rewrite Forall_forall in Ad. apply Ad in Hc. cbn in Hc. apply b2n_n2b_small. lia.
    + now apply utf8_decode_encode.
  - f_equal. rewrite <- !app_assoc. reflexivity.
Qed.

(* Content-Length: the header appears once, with the length of the body *)
Definition content_length (l : pairs) (n : nat) : Prop := values l (s "Content-Length") = [str_of_N (N.of_nat n)].

Theorem C25_response_round_trip : forall status reason l body,
  (100 <= status < 1000)%Z -> Forall reason_char reason ->
  (forall e, utf8_encode reason = Ok e -> (length e + 15 <= 4110)%nat) ->
  Forall valid_header l -> (length l <= 256)%nat ->
  values l (s "Transfer-Encoding") = [] ->
  (if ((100 <=? status)%Z && (status <? 200)%Z) || (status =? 204)%Z || (status =? 304)%Z
   then body = None else exists x, body = Some x /\ content_length l (length x)) ->
  let r := {| resp_status := status; resp_reason := reason; resp_headers := headers_of l; resp_body := body; resp_exception := None |} in
  exists w, serialize_response r = Ok w /\
    forall datas rest, concat datas = w ++ rest ->
      receive_all parse_response tt datas = ODone r {| r_buffer := rest; r_eof := false |} tt.
Proof.
  intros status reason l body St Re Lr F Ln Te Bd r. destruct (serialized_head status reason l body St Re F Ln Lr) as (w & Rh & E).
  exists (w ++ match body with Some x => x | None => [] end). split; [exact E|]. intros datas rest Ed.
  rewrite receive_all_live by apply live_parse_response. rewrite <- app_assoc in Ed.
  rewrite (response_complete _ _ _ _ Rh {| r_buffer := concat datas; r_eof := false |} tt _ Ed). unfold parse_body_of.
  rewrite (rep_contains _ l _ (rep_of l)).
  assert (C : existsb (fun kv => same_name (fst kv) (s "Transfer-Encoding")) l = false).
  { destruct (existsb _ l) eqn:Q; [|reflexivity]. apply existsb_exists in Q as (kv & I & Q). unfold values in Te.
    apply map_eq_nil in Te. assert (X : In kv (filter (fun kv => same_name (fst kv) (s "Transfer-Encoding")) l)) by now apply filter_In.
    rewrite Te in X. contradiction. }
  rewrite C. fold (bodyless status) in Bd. destruct (bodyless status).
  - subst body. reflexivity.
  - destruct Bd as (x & -> & Cl). rewrite (rep_getitem _ l _ (rep_of l)). unfold content_length in Cl. rewrite Cl.
    rewrite py_int_str_of_N. rewrite run_gbind. unfold read_exact. rewrite run_gbind. cbn [run].
    destruct (Z.ltb_spec (Z.of_N (N.of_nat (length x))) 0); [lia|]. cbn [with_buffer r_buffer]. unfold lenZ. rewrite app_length.
    destruct (Z.ltb_spec (Z.of_nat (length x + length rest)) (Z.of_N (N.of_nat (length x)))); [lia|].
    replace (Z.to_nat (Z.of_N (N.of_nat (length x)))) with (length x) by lia.
    rewrite firstn_app_exact, skipn_app_exact by reflexivity. cbn [glift run obind]. reflexivity.
Qed.

(* Without Content-Length, the body extends to the end of the stream. *)
Theorem C25_response_until_eof : forall status reason l x,
  (100 <= status < 1000)%Z -> Forall reason_char reason ->
  (forall e, utf8_encode reason = Ok e -> (length e + 15 <= 4110)%nat) ->
  Forall valid_header l -> (length l <= 256)%nat ->
  values l (s "Transfer-Encoding") = [] -> values l (s "Content-Length") = [] ->
  ((100 <=? status)%Z && (status <? 200)%Z) || (status =? 204)%Z || (status =? 304)%Z = false ->
  let r := {| resp_status := status; resp_reason := reason; resp_headers := headers_of l; resp_body := Some x; resp_exception := None |} in
  exists w, serialize_response r = Ok w /\
    forall datas, concat datas = w ->
      receive_eof (receive_all parse_response tt datas) = ODone r {| r_buffer := []; r_eof := true |} tt.
Proof.
  intros status reason l x St Re Lr F Ln Te Cl Bl r. destruct (serialized_head status reason l (Some x) St Re F Ln Lr) as (w & Rh & E).
  exists (w ++ x). split; [exact E|]. intros datas Ed.
  rewrite receive_all_live by apply live_parse_response.
  rewrite (response_complete _ _ _ _ Rh {| r_buffer := concat datas; r_eof := false |} tt _ Ed). unfold parse_body_of.
  rewrite (rep_contains _ l _ (rep_of l)).
  assert (C : existsb (fun kv => same_name (fst kv) (s "Transfer-Encoding")) l = false).
  { destruct (existsb _ l) eqn:Q; [|reflexivity]. apply existsb_exists in Q as (kv & I & Q). unfold values in Te.
    apply map_eq_nil in Te. assert (X : In kv (filter (fun kv => same_name (fst kv) (s "Transfer-Encoding")) l)) by now apply filter_In.
    rewrite Te in X. contradiction. }
  rewrite C. fold (bodyless status) in Bl. rewrite Bl, (rep_getitem _ l _ (rep_of l)), Cl. reflexivity.
Qed.

Example C25_applies :
  let l := [(s "Content-Length", s "5"); (s "Connection", s "close")] in
  Forall reason_char (s "Not Found") /\ values l (s "Transfer-Encoding") = [] /\ content_length l (length (b "hello")) /\
  exists w, serialize_response {| resp_status := 404; resp_reason := s "Not Found"; resp_headers := headers_of l;
                                  resp_body := Some (b "hello"); resp_exception := None |} = Ok w /\ w <> [].
Proof.
  cbn zeta. split; [apply Forall_forall; intros c H; cbn in H; repeat (destruct H as [<-|H]; [unfold reason_char; lia|]); contradiction|]. split; [reflexivity|]. split; [reflexivity|].
  eexists. split; [vm_compute; reflexivity|discriminate].
Qed.

(* ---- C30 ---- *)

(* The value of a header can contain CR LF and another header: the bytes are those of two
   headers. *)
Theorem C30_injection_refuted : forall path k v k2 v2,
  ascii path -> ~ In 32 path -> ~ In 10 path -> (length path + 15 <= 4110)%nat ->
  valid_header (k, v) -> valid_header (k2, v2) ->
  let evil := v ++ [13; 10] ++ k2 ++ s ": " ++ v2 in
  exists w, serialize_request {| req_path := path; req_headers := headers_of [(k, evil)] |} = Ok w /\
    forall datas rest, concat datas = w ++ rest ->
      receive_all parse_request tt datas =
        ODone {| req_path := path; req_headers := headers_of [(k, v); (k2, v2)] |} {| r_buffer := rest; r_eof := false |} tt.
Proof.
  intros path k v k2 v2 A N1 N2 Lp V1 V2 evil.
  assert (Fv : Forall valid_header [(k, v); (k2, v2)]) by (constructor; [exact V1|constructor; [exact V2|constructor]]).
  destruct (C24_request_round_trip path [(k, v); (k2, v2)] A N1 N2 Lp Fv ltac:(cbn; lia)) as (w & E & R).
  exists w. split; [|exact R]. rewrite <- E. unfold serialize_request. cbn [req_path req_headers]. f_equal.
  unfold headers_serialize, headers_of. rewrite !headers_str_update. cbn [headers_empty h_list app flat_map fst snd].
  subst evil. rewrite <- !app_assoc. reflexivity.
Qed.
Example C30_refuted_applies : valid_header (s "User-Agent", s "x") /\ valid_header (s "Origin", s "https://example.com").
Proof.
  assert (T : forall k v, token k -> Forall text_char v -> match v with [] => True | c :: _ => c <> 32 /\ c <> 9 end ->
     match rev v with [] => True | c :: _ => c <> 32 /\ c <> 9 end -> (length k + length v + 4 <= 4110)%nat -> valid_header (k, v)).
  { intros k v Hk Hv H1 H2 Hl. split; [exact Hk|]. split; [exact Hv|]. cbn [fst snd]. split; [intros c r ->; exact H1|]. split; [|exact Hl].
    intros c r ->. rewrite rev_app_distr in H2. exact H2. }
  assert (K : forall x, match Headers.span is_tchar x with (_ :: _, []) => True | _ => False end -> token x).
  { intros x. destruct (Headers.span _ x) as [y z] eqn:Sp. apply span_view in Sp as (-> & F & _).
    destruct y; [contradiction|]. destruct z; [|contradiction]. intros _. rewrite app_nil_r. apply token_class. split; [discriminate|exact F]. }
  split; apply T; try (apply K; exact I); try (cbn; lia); try (cbn; split; discriminate); repeat (constructor; [right; split; vm_compute; discriminate|]); constructor.
Qed.

Lemma encode_no_lf v e : utf8_encode v = Ok e -> ~ In 10 v -> ~ In LF e.
Proof.
  revert e. induction v as [|c v IH]; intros e E N; cbn [utf8_encode] in E; [apply ok_inj in E; subst; auto|].
  destruct (utf8_encode_char c) as [u|] eqn:U; [|discriminate]. destruct (utf8_encode v) as [e'|]; [|discriminate]. apply ok_inj in E. subst e.
  rewrite in_app_iff. intros [I|I]; [|now apply (IH e' eq_refl); [intros X; apply N; now right|]].
  assert (Hc : c <> 10) by (intros ->; apply N; now left). clear -U I Hc. apply (in_map b2n) in I. unfold LF in I. rewrite b2n_n2b_small in I by reflexivity.
  unfold utf8_encode_char in U.
  assert (T : forall n, 128 <= n -> b2n (n2b (n mod 64 + 128)) <> 10).
  { intros n _. pose proof (N.mod_lt n 64). rewrite b2n_n2b_small by lia. lia. }
  assert (D1 : c < 1114112 -> c / 262144 < 5) by (intros; apply N.div_lt_upper_bound; lia).
  assert (D2 : c < 65536 -> c / 4096 < 16) by (intros; apply N.div_lt_upper_bound; lia).
  assert (D3 : c < 2048 -> c / 64 < 32) by (intros; apply N.div_lt_upper_bound; lia).
  pose proof (N.mod_lt c 64). pose proof (N.mod_lt (c / 64) 64). pose proof (N.mod_lt (c / 4096) 64).
  destruct (N.ltb_spec c 128); [|destruct (N.ltb_spec c 2048); [|destruct ((55296 <=? c) && (c <? 57344)); [discriminate|destruct (N.ltb_spec c 65536); [|destruct (N.ltb_spec c 1114112); [|discriminate]]]]];
    apply some_inj in U; subst u; cbn [map In] in I; repeat (destruct I as [I|I]; [rewrite b2n_n2b_small in I by lia; lia|]); contradiction.
Qed.

(* Without line feeds in values, and with valid names, nothing can be injected: if the request
   is accepted, it has the same path and the same header names, with the values that were set,
   up to whitespace at both ends (bytes of characters that aren't ASCII appear as surrogates). *)
Theorem C30_no_injection_partial : forall path l w datas rest req r,
  ascii path -> ~ In 32 path -> ~ In 10 path ->
  Forall (fun kv => token (fst kv) /\ ~ In 10 (snd kv)) l ->
  serialize_request {| req_path := path; req_headers := headers_of l |} = Ok w ->
  concat datas = w ++ rest ->
  receive_all parse_request tt datas = ODone req r tt ->
  req_path req = path /\ r_buffer r = rest /\
  exists l', req_headers req = headers_of l' /\
    Forall2 (fun kv kv' => fst kv' = fst kv /\ exists raw w1 v w2,
               utf8_encode (snd kv) = Ok raw /\ raw = w1 ++ v ++ w2 /\ Forall blank w1 /\ Forall blank w2 /\ snd kv' = as_str v) l l'.
Proof.
  intros path l w datas rest req r Ap Ns Nl F E Ed R. rewrite receive_all_live in R by apply live_parse_request.
  unfold serialize_request in E. cbn [req_path req_headers] in E.
  assert (A : ascii (s "GET " ++ path ++ s " HTTP/1.1" ++ [13; 10])).
  { apply ascii_app. split; [repeat constructor|]. apply ascii_app. split; [exact Ap|repeat constructor]. }
  rewrite utf8_encode_ascii in E by exact A. cbn [rbind] in E.
  destruct (headers_serialize (headers_of l)) as [wh|] eqn:Eh; [|discriminate]. cbn [rbind] in E. apply ok_inj in E. subst w.
  unfold headers_serialize, headers_of in Eh. rewrite headers_str_update in Eh. cbn [headers_empty h_list app] in Eh.
  (* the request line *)
  unfold parse_request in R.
  match type of R with run (gbind parse_line ?k) ?r0 ?x = _ => remember k as kk eqn:Ek; pose proof (parse_line_view kk r0 x) as V end.
  rewrite R in V. clear R. inversion V as [w0 content rest0 E0 L0 Eq| | | |]; clear V. rewrite Ek in Eq. clear kk Ek. cbn beta in Eq.
  cbn [r_buffer] in E0.
  assert (Lf1 : forall x y x' y', x ++ LF :: y = x' ++ LF :: y' -> ~ In LF x -> ~ In LF x' -> x = x' /\ y = y').
  { clear. induction x as [|c x IH]; intros y x' y' E N N'; destruct x' as [|c' x']; cbn [app] in E.
    - now injection E as ->.
    - injection E as <- E. exfalso. apply N'. now left.
    - injection E as -> E. exfalso. apply N. now left.
    - injection E as <- E. apply IH in E as [-> ->]; [auto| |]; intros I; [apply N|apply N']; now right. }
  assert (C0 : content = b "GET " ++ map n2b path ++ b " HTTP/1.1" /\ rest0 = wh ++ rest).
  { destruct L0 as (-> & Nc & _). rewrite E0 in Ed. rewrite !map_app, <- !app_assoc in Ed. unfold crlf in Ed. cbn [map] in Ed.
    change (n2b 10) with LF in Ed.
    assert (Ed' : (content ++ [n2b 13]) ++ LF :: rest0 = (b "GET " ++ map n2b path ++ b " HTTP/1.1" ++ [n2b 13]) ++ LF :: (wh ++ rest)).
    { rewrite <- !app_assoc. cbn [app]. exact Ed. }
    apply Lf1 in Ed' as [E1 E2].
    - split; [|exact E2]. replace (b "GET " ++ map n2b path ++ b " HTTP/1.1" ++ [n2b 13]) with ((b "GET " ++ map n2b path ++ b " HTTP/1.1") ++ [n2b 13]) in E1 by (rewrite <- !app_assoc; reflexivity).
      apply app_inj_tail in E1. tauto.
    - rewrite in_app_iff. intros [I|[I|[]]]; [auto|discriminate].
    - rewrite !in_app_iff. intros [I|[I|[I|I]]]; try (cbn in I; intuition discriminate).
      apply map_n2b_in in I; [contradiction|exact Ap|reflexivity]. }
  destruct C0 as [-> ->].
  assert (Sp : split3 (b "GET " ++ map n2b path ++ b " HTTP/1.1") = Some (b "GET", map n2b path, b "HTTP/1.1")).
  { apply split3_iff. split; [reflexivity|]. split; [cbn; intuition discriminate|]. intros I. apply map_n2b_in in I; [contradiction|exact Ap|reflexivity]. }
  rewrite Sp in Eq. change (negb (bytes_eqb (b "GET") (b "GET"))) with false in Eq. cbn iota in Eq.
  change (negb (bytes_eqb (b "HTTP/1.1") (b "HTTP/1.1"))) with false in Eq. cbn iota in Eq. rewrite run_gbind in Eq.
  match type of Eq with obind (run parse_headers ?r0 tt) _ = _ => destruct (run parse_headers r0 tt) as [|h r1 x1|] eqn:Ph end; cbn [obind run] in Eq; try discriminate.
  injection Eq as <- <- Ex. cbn [req_path req_headers]. split; [rewrite <- as_str_ascii; now apply as_str_map|].
  apply headers_sound in Ph as (w1 & l' & Fs & _ & E1 & -> & _ & _). cbn [with_buffer r_buffer] in E1. clear E0 L0 Ed Sp A.
  (* the headers, line by line *)
  enough (G : r_buffer r1 = rest /\ Forall2 (fun kv kv' => fst kv' = fst kv /\ exists raw w1 v w2,
               utf8_encode (snd kv) = Ok raw /\ raw = w1 ++ v ++ w2 /\ Forall blank w1 /\ Forall blank w2 /\ snd kv' = as_str v) l l').
  { destruct G as [G1 G2]. split; [exact G1|]. exists l'. split; [reflexivity|exact G2]. }
  clear x1 Ex. revert wh Eh w1 l' Fs E1. induction F as [|[k v] l [Tk Nv] F IH]; intros wh Eh w1 l' Fs E1; cbn [fst snd flat_map app] in *.
  - change (utf8_encode [13; 10]) with (Ok crlf) in Eh. apply ok_inj in Eh. subst wh. destruct Fs as [|w c n va w' l' L Fi Fs].
    + cbn [app] in E1. apply app_inv_head in E1. split; [auto|constructor].
    + exfalso. pose proof (field_nonempty _ _ _ Fi) as Nn. destruct L as (-> & Nc & _). unfold crlf in E1. cbn [map app] in E1. change (n2b 10) with LF in E1.
      assert (X : [n2b 13] ++ LF :: rest = (c ++ [n2b 13]) ++ LF :: (w' ++ n2b 13 :: LF :: r_buffer r1)) by (rewrite <- !app_assoc; rewrite <- ?app_assoc in E1; exact E1).
      apply Lf1 in X as [X _]; [destruct c as [|? [|]]; [contradiction|discriminate|discriminate]|cbn; intuition discriminate|].
      rewrite in_app_iff. intros [I|[I|[]]]; [auto|discriminate].
  - replace ((k ++ s ": " ++ v ++ [13; 10]) ++ flat_map (fun kv => fst kv ++ s ": " ++ snd kv ++ [13; 10]) l)
      with ((k ++ s ": ") ++ v ++ [13; 10] ++ flat_map (fun kv => fst kv ++ s ": " ++ snd kv ++ [13; 10]) l) in Eh by (rewrite <- !app_assoc; reflexivity).
    rewrite <- !app_assoc in Eh. rewrite (app_assoc k) in Eh.
    rewrite encode_app in Eh. assert (Ak : ascii (k ++ s ": ")) by (apply ascii_app; split; [now apply token_ascii|repeat constructor]).
    rewrite (utf8_encode_ascii _ Ak) in Eh. cbn [rbind] in Eh. rewrite encode_app in Eh. destruct (utf8_encode v) as [raw|] eqn:Ev; [|discriminate].
    cbn [rbind] in Eh. rewrite encode_app in Eh. change (utf8_encode [13; 10]) with (Ok crlf) in Eh. cbn [rbind] in Eh.
    match type of Eh with context [utf8_encode (?f ++ ?y)] => destruct (utf8_encode (f ++ y)) as [wh'|] eqn:Eh' end; [|discriminate]. cbn [rbind] in Eh. apply ok_inj in Eh. subst wh.
    specialize (IH wh' eq_refl).
    assert (Nr : ~ In LF (map n2b (k ++ s ": ") ++ raw ++ [n2b 13])).
    { rewrite !in_app_iff. intros [I|[I|[I|[]]]]; [|revert I; eapply encode_no_lf; eauto|discriminate].
      apply map_n2b_in in I; [|exact Ak|reflexivity]. apply in_app_iff in I as [I|I]; [|cbn in I; intuition discriminate].
      destruct Tk as [_ Fk]. rewrite Forall_forall in Fk. apply Fk, tchar_ascii in I. lia. }
    destruct Fs as [|w c n va w' l' L Fi Fs].
    + exfalso. unfold crlf in E1. cbn [map app] in E1. change (n2b 10) with LF in E1.
      assert (X : [n2b 13] ++ LF :: r_buffer r1 = (map n2b (k ++ s ": ") ++ raw ++ [n2b 13]) ++ LF :: (wh' ++ rest)) by (rewrite <- !app_assoc; rewrite <- ?app_assoc in E1; symmetry; exact E1).
      apply Lf1 in X as [X _]; [|cbn; intuition discriminate|exact Nr]. destruct Tk as [Nk _]. destruct k as [|c1 k]; [contradiction|].
      cbn [app map] in X. injection X as _ X. destruct k; discriminate.
    + destruct L as (-> & Nc & _). unfold crlf in E1. cbn [map app] in E1. change (n2b 10) with LF in E1.
      assert (X : (c ++ [n2b 13]) ++ LF :: (w' ++ n2b 13 :: LF :: r_buffer r1) = (map n2b (k ++ s ": ") ++ raw ++ [n2b 13]) ++ LF :: (wh' ++ rest)) by (rewrite <- !app_assoc; rewrite <- ?app_assoc in E1; symmetry; exact E1).
      apply Lf1 in X as [X Y]; [|rewrite in_app_iff; intros [I|[I|[]]]; [auto|discriminate]|exact Nr].
      rewrite !app_assoc in X. apply app_inj_tail in X as [-> _].
      destruct (IH w' l' Fs) as [G1 G2]; [unfold crlf; cbn [map app]; symmetry; exact Y|]. split; [exact G1|]. constructor; [|exact G2].
      cbn [fst snd]. destruct Fi as (Nn & Fn & Fv & T & wa & wb & Fa & Fb & Ec).
      assert (Kc : split1 (n2b 58) (map n2b (k ++ s ": ") ++ raw) = Some (map n2b k, n2b 32 :: raw)).
      { apply split1_iff. split; [rewrite map_app, <- app_assoc; reflexivity|]. intros I. apply map_n2b_in in I; [|now apply token_ascii|reflexivity].
        destruct Tk as [_ Fk]. rewrite Forall_forall in Fk. apply Fk, is_tchar_iff in I. vm_compute in I. discriminate. }
      assert (Kn : split1 (n2b 58) (map n2b (k ++ s ": ") ++ raw) = Some (n, wa ++ va ++ wb)).
      { rewrite Ec. apply split1_iff. split; [reflexivity|]. now apply tchar_not_colon. }
      rewrite Kc in Kn. injection Kn as <- Ew. split; [apply as_str_map, token_ascii, Tk|].
      destruct wa as [|c0 wa].
      * cbn [app] in Ew. destruct va as [|c1 va].
        -- cbn [app] in Ew. exists raw, [], [], raw. split; [exact Ev|]. split; [reflexivity|]. split; [constructor|]. split; [|reflexivity].
           rewrite <- Ew in Fb. now inversion Fb.
        -- exfalso. cbn [app] in Ew. injection Ew as <- _. destruct T as [T _]. apply (T _ _ eq_refl). left. reflexivity.
      * cbn [app] in Ew. injection Ew as <- Ew. exists raw, wa, va, wb. inversion Fa; subst. auto 6.
Qed.
Example C30_applies : exists w req r,
  serialize_request {| req_path := s "/"; req_headers := headers_of [(s "A", s " x: ")] |} = Ok w /\
  receive_all parse_request tt [w] = ODone req r tt /\ req_headers req = headers_of [(s "A", s "x:")].
Proof. eexists _, _, _. split; [vm_compute; reflexivity|]. split; [vm_compute; reflexivity|]. reflexivity. Qed.

Print Assumptions C24_request_round_trip.
Print Assumptions C25_response_round_trip.
Print Assumptions C25_response_until_eof.
Print Assumptions C26_request_accepted_exactly.
Print Assumptions C26_response_within_limits.
Print Assumptions C26_too_many_headers.
Print Assumptions C26_request_line_too_long.
Print Assumptions C26_header_line_too_long.
Print Assumptions C27_reads_exact.
Print Assumptions C27_reads_wait.
Print Assumptions C30_injection_refuted.
Print Assumptions C30_no_injection_partial.
