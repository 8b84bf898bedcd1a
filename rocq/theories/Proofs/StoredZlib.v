(* A concrete zlib: a compressor that makes uncompressed blocks of one byte (RFC 1951 section
   3.2.4), and a decompressor for uncompressed blocks and for runs.

   A run is 02, a count and a byte; it's followed by the rest of an uncompressed block.  It
   stands for a match in compressed blocks of RFC 1951: like zlib, the decompressor consumes
   the input that describes it before it has output all of it, when the output is limited. *)
From Verif Require Import Base.Prelude Base.PreludeFacts Model.Utils Model.Frames Model.Handshake Model.PermessageDeflate Spec.Deflate.
Local Open Scope N_scope.

Inductive inflate_state : Type :=
| IHead | ILen1 | ILen2 (a : N) | INlen1 (len : N) | INlen2 (len a : N) | ICopy (len : N)
| IRun1 | IRun2 (n : nat) | IRun (n : nat) (x : byte).
(* Returns the new state, the output and the unconsumed input.  room: bytes that may be
   output; None: no limit. *)
Definition run_now (n : nat) (room : option nat) : nat := match room with Some r => Nat.min n r | None => n end.
Definition less_room (room : option nat) (k : nat) : option nat := match room with Some r => Some (r - k)%nat | None => None end.
Fixpoint inflate (st : inflate_state) (input : bytes) (room : option nat) : result (inflate_state * bytes * bytes) :=
  match input with
  | [] => Ok (st, [], [])
  | x :: r =>
    match st with
    | IHead => if N.land (b2n x) 7 =? 0 then inflate ILen1 r room else if b2n x =? 2 then inflate IRun1 r room else Raise ZlibError
    | ILen1 => inflate (ILen2 (b2n x)) r room
    | ILen2 a => inflate (INlen1 (a + 256 * b2n x)) r room
    | INlen1 len => inflate (INlen2 len (b2n x)) r room
    | INlen2 len a => if a + 256 * b2n x + len =? 65535 then inflate (if len =? 0 then IHead else ICopy len) r room else Raise ZlibError
    | ICopy len =>
      match room with
      | Some O => Ok (st, [], input)
      | _ =>
        let room' := match room with Some n => Some (Nat.pred n) | None => None end in
        let! (st', out, tail) := inflate (if len =? 1 then IHead else ICopy (len - 1)) r room' in
        Ok (st', x :: out, tail)
      end
    | IRun1 => inflate (IRun2 (N.to_nat (b2n x))) r room
    | IRun2 n =>
      let k := run_now n room in
      if (k <? n)%nat then Ok (IRun (n - k) x, repeat x k, r)
      else let! (st', out, tail) := inflate ILen1 r (less_room room k) in Ok (st', repeat x k ++ out, tail)
    | IRun _ _ => Raise ZlibError
    end
  end.
(* Continue a run, if any. *)
Definition resume (st : inflate_state) (input : bytes) (room : option nat) : result (inflate_state * bytes * bytes) :=
  match st with
  | IRun n x =>
    let k := run_now n room in
    if (k <? n)%nat then Ok (IRun (n - k) x, repeat x k, input)
    else let! (st', out, tail) := inflate ILen1 input (less_room room k) in Ok (st', repeat x k ++ out, tail)
  | _ => inflate st input room
  end.
Definition stored_zlib : zlib := {|
  z_settings := unit; z_comp := unit; z_decomp := inflate_state * bytes;
  z_compressobj := fun n _ => if (9 <=? n)%Z && (n <=? 15)%Z then Ok tt else Raise ValueError;
  z_decompressobj := fun n => if (8 <=? n)%Z && (n <=? 15)%Z then Ok (IHead, []) else Raise ValueError;
  z_compress := fun c data => (c, flat_map (fun x => [Byte.x00; Byte.x01; Byte.x00; Byte.xfe; Byte.xff; x]) data);
  z_flush := fun c => (c, Byte.x00 :: empty_block);
  z_decompress := fun d data limit =>
    match resume (fst d) data (if (limit =? 0)%Z then None else Some (Z.to_nat limit)) with
    | Ok (st, out, tail) => ((st, tail), Ok out)
    | Raise e => (d, Raise e)
    end;
  z_unconsumed := snd |}.

Definition stored_sync (c : unit) (d : inflate_state * bytes) : Prop := fst d = IHead.
Lemma inflate_stored data : forall room, match room with Some n => (length data <= n)%nat | None => True end ->
  inflate IHead (flat_map (fun x => [Byte.x00; Byte.x01; Byte.x00; Byte.xfe; Byte.xff; x]) data ++ Byte.x00 :: empty_block) room = Ok (IHead, data, []).
Proof.
  induction data as [|x data IH]; intros room Hr; [reflexivity|]. cbn [flat_map app].
  destruct room as [n|].
  - destruct n as [|n]; [cbn in Hr; lia|].
    change (inflate IHead _ (Some (S n))) with
      (let! (st', out, tail) := inflate IHead (flat_map (fun x => [Byte.x00; Byte.x01; Byte.x00; Byte.xfe; Byte.xff; x]) data ++ Byte.x00 :: empty_block) (Some n) in
       Ok (st', x :: out, tail)).
    rewrite IH; [reflexivity|cbn in Hr; lia].
  - change (inflate IHead _ None) with
      (let! (st', out, tail) := inflate IHead (flat_map (fun x => [Byte.x00; Byte.x01; Byte.x00; Byte.xfe; Byte.xff; x]) data ++ Byte.x00 :: empty_block) None in
       Ok (st', x :: out, tail)).
    rewrite IH; [reflexivity|exact Logic.I].
Qed.
Lemma inflate_limit input : forall st n st' out tail, inflate st input (Some n) = Ok (st', out, tail) -> (length out <= n)%nat.
Proof.
  induction input as [|x input IH]; intros st n st' out tail H; cbn [inflate] in H.
  - apply ok_inj, pair_equal_spec in H as [H _]. apply pair_equal_spec in H as [_ <-]. cbn. lia.
  - destruct st.
    + destruct (N.land (b2n x) 7 =? 0); [eauto|]. destruct (b2n x =? 2); [eauto|discriminate].
    + eauto.
    + eauto.
    + eauto.
    + destruct (_ =? 65535); [eauto|discriminate].
    + destruct n as [|n].
      * apply ok_inj, pair_equal_spec in H as [H _]. apply pair_equal_spec in H as [_ <-]. cbn. lia.
      * destruct (inflate _ input (Some (Nat.pred (S n)))) as [[[st2 out2] tail2]|] eqn:E; [|discriminate]. cbn [rbind] in H.
        apply ok_inj, pair_equal_spec in H as [H _]. apply pair_equal_spec in H as [_ <-]. apply IH in E. cbn [length Nat.pred] in *. lia.
    + eauto.
    + cbn [run_now less_room] in H. destruct (Nat.ltb_spec (Nat.min n0 n) n0).
      * apply ok_inj, pair_equal_spec in H as [H _]. apply pair_equal_spec in H as [_ <-]. rewrite repeat_length. lia.
      * destruct (inflate _ input _) as [[[st2 out2] tail2]|] eqn:E; [|discriminate]. cbn [rbind] in H.
        apply ok_inj, pair_equal_spec in H as [H _]. apply pair_equal_spec in H as [_ <-]. apply IH in E. rewrite app_length, repeat_length. lia.
    + discriminate.
Qed.
Lemma resume_limit input st n st' out tail : resume st input (Some n) = Ok (st', out, tail) -> (length out <= n)%nat.
Proof.
  destruct st; cbn [resume]; try apply inflate_limit. intros H.
  cbn [run_now less_room] in H. destruct (Nat.ltb_spec (Nat.min n0 n) n0).
  - apply ok_inj, pair_equal_spec in H as [H _]. apply pair_equal_spec in H as [_ <-]. rewrite repeat_length. lia.
  - destruct (inflate _ input _) as [[[st2 out2] tail2]|] eqn:E; [|discriminate]. cbn [rbind] in H.
    apply ok_inj, pair_equal_spec in H as [H _]. apply pair_equal_spec in H as [_ <-]. apply inflate_limit in E. rewrite app_length, repeat_length. lia.
Qed.
Lemma stored_correct : correct_zlib stored_zlib stored_sync.
Proof.
  constructor.
  - intros n n' st c d Hc Hd _. cbn in Hd. destruct ((8 <=? n')%Z && (n' <=? 15)%Z); [|discriminate]. apply ok_inj in Hd. subst d. reflexivity.
  - intros c d data c1 x c2 y S0 Hc Hf. cbn in Hc, Hf. apply pair_equal_spec in Hc as [<- <-]. apply pair_equal_spec in Hf as [<- <-].
    split; [eexists (_ ++ [Byte.x00]); rewrite <- app_assoc; reflexivity|].
    intros limit Hl. exists (IHead, []). cbn [z_decompress stored_zlib fst snd z_unconsumed]. unfold stored_sync in S0. rewrite S0.
    cbn [resume]. rewrite inflate_stored; [repeat split|]. destruct (limit =? 0)%Z eqn:L; [exact Logic.I|]. unfold lenZ in Hl. lia.
Qed.
Lemma stored_limits : limits_output stored_zlib.
Proof.
  intros d data limit d' out Hl H. cbn in H. destruct (Z.eqb_spec limit 0); [lia|].
  destruct (resume (fst d) data (Some (Z.to_nat limit))) as [[[st o] tail]|] eqn:E; [|apply pair_equal_spec in H as [_ H]; discriminate].
  apply pair_equal_spec in H as [_ H]. apply ok_inj in H. subst o. apply resume_limit in E. unfold lenZ. lia.
Qed.
Lemma inflate_short data : forall n st out tail, (n < length data)%nat ->
  inflate IHead (flat_map (fun x => [Byte.x00; Byte.x01; Byte.x00; Byte.xfe; Byte.xff; x]) data ++ Byte.x00 :: empty_block) (Some n) = Ok (st, out, tail) ->
  tail <> [].
Proof.
  induction data as [|x data IH]; intros n st out tail Hn; [cbn in Hn; lia|]. cbn [flat_map app]. destruct n as [|n].
  - set (more := flat_map _ data ++ _).
    change (inflate IHead _ (Some 0%nat)) with (Ok (ICopy 1, @nil byte, x :: more)). intros H.
    apply ok_inj, pair_equal_spec in H as [_ <-]. discriminate.
  - change (inflate IHead _ (Some (S n))) with
      (let! (st', out, tail) := inflate IHead (flat_map (fun x => [Byte.x00; Byte.x01; Byte.x00; Byte.xfe; Byte.xff; x]) data ++ Byte.x00 :: empty_block) (Some n) in
       Ok (st', x :: out, tail)).
    destruct (inflate IHead _ (Some n)) as [[[st2 out2] tail2]|] eqn:Q; cbn [rbind]; [|discriminate]. intros H.
    apply ok_inj, pair_equal_spec in H as [_ <-]. cbn [length] in Hn. apply (IH n st2 out2 tail2); [lia|exact Q].
Qed.
Lemma stored_reports : reports_limit stored_zlib stored_sync.
Proof.
  intros c d data c1 x c2 y limit d' out S0 Hc Hf Hl H. cbn in Hc, Hf. apply pair_equal_spec in Hc as [<- <-]. apply pair_equal_spec in Hf as [<- <-].
  cbn [z_decompress stored_zlib] in H. unfold stored_sync in S0. rewrite S0 in H. cbn [resume] in H. destruct (Z.eqb_spec limit 0); [lia|].
  destruct (inflate IHead _ _) as [[[st o] tail]|] eqn:Q; apply pair_equal_spec in H as [<- H]; [|discriminate]. cbn [z_unconsumed stored_zlib snd].
  apply inflate_short in Q; [exact Q|]. unfold lenZ in Hl. lia.
Qed.
Lemma stored_expands : expands_little stored_zlib.
Proof.
  intros c data c1 x c2 y Hc Hf. cbn in Hc, Hf. apply pair_equal_spec in Hc as [<- <-]. apply pair_equal_spec in Hf as [<- <-].
  unfold lenZ. rewrite app_length.
  assert (L : forall l : bytes, length (flat_map (fun x => [Byte.x00; Byte.x01; Byte.x00; Byte.xfe; Byte.xff; x]) l) = (6 * length l)%nat)
    by (induction l as [|? l IH]; [reflexivity|]; cbn [flat_map app length]; rewrite IH; lia).
  rewrite L. cbn [length empty_block]. lia.
Qed.
Lemma stored_can_decompress : can_decompress stored_zlib.
Proof. intros n Hn. cbn. replace ((8 <=? n)%Z && (n <=? 15)%Z) with true by lia. eauto. Qed.
Lemma stored_can_compress n st : (9 <= n <= 15)%Z -> can_compress stored_zlib n st.
Proof. intros Hn. exists tt. cbn. now replace ((9 <=? n)%Z && (n <=? 15)%Z) with true by lia. Qed.
