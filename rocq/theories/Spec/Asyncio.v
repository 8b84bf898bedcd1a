(* Vocabulary for the properties of the asyncio API (legacy/protocol.py). *)
From Verif Require Import Base.Prelude Spec.Rfc6455 Spec.Utf8Spec Spec.Messages Model.Frames Model.LegacyFraming
  Model.LegacyProtocol.
Local Open Scope N_scope.

(* The connection states, in the order in which a connection goes through them *)
Definition rank (x : pstate) : nat :=
  match x with Connecting => 0 | Open => 1 | Closing => 2 | Closed => 3 end.

(* RFC 6455 sections 5.5.1 and 7.1.5: the code and the reason in the payload of a close frame;
   1005 means that there's none *)
Definition close_payload (data : bytes) (code : Z) (reason : str) : Prop :=
  (data = [] /\ code = 1005%Z /\ reason = []) \/
  (sendable_close_code code /\
   exists hi lo text, data = hi :: lo :: text /\
     Z.of_N (octet_value hi * 256 + octet_value lo) = code /\ utf8_text reason text).
Definition close_frame (f : frame) (code : Z) (reason : str) : Prop :=
  f_opcode f = CLOSE /\ close_payload (f_data f) code reason.

(* ConnectionClosedOK is for codes 1000 and 1001, ConnectionClosedError for other codes *)
Definition connection_closed (e : pexn) (code : Z) (reason : str) : Prop :=
  ((code = 1000 \/ code = 1001)%Z /\ e = ConnectionClosedOK code reason) \/
  (~ (code = 1000 \/ code = 1001)%Z /\ e = ConnectionClosedError code reason).

(* A future *)
Definition pending (futs : list fut) (w : nat) : Prop := nth_error futs w = Some FPending.
Definition succeeded (futs : list fut) (w : nat) : Prop := nth_error futs w = Some FResult.
Definition failed (futs : list fut) (w : nat) (e : pexn) : Prop := nth_error futs w = Some (FExn e).

(* The frames of a message carry m: its type is given by the first frame, its content is the
   concatenation of the payloads, in UTF-8 for text *)
Definition carries (frames : list frame) (m : message) : Prop :=
  match frames, m with
  | f :: _, MText t => f_opcode f = TEXT /\ utf8_text t (flat_map f_data frames)
  | f :: _, MBinary d => f_opcode f = BINARY /\ d = flat_map f_data frames
  | [], _ => False
  end.

(* waiting st j w: the j-th call waits for a message in recv(); future w wakes it up *)
Definition waiting {E} (st : conn E) (j w : nat) : Prop :=
  exists c, nth_error (p_users st) j = Some (URecvWait w, c).
(* A call to recv() starts while another call has been woken up but hasn't run yet. *)
Definition overtakes {E} (st : conn E) (l : label) : Prop :=
  exists i a c j w, l = LUser i a /\ nth_error (p_users st) i = Some (UStart CallRecv, c) /\
    waiting st j w /\ ~ pending (p_pops st) w.

(* The data frames among the frames written *)
Definition datas (l : list sent) : list sent := filter (fun x => is_data_b (o_frame x)) l.
(* The frames of a message are written by one call, in one piece or in fragments. *)
Definition all_by (w : writer) (m : list sent) : Prop := Forall (fun x => o_by x = w) m.
Definition whole (m : list sent) : Prop :=
  complete_message (map o_frame m) /\ exists w, all_by w m.
Definition begun (w : writer) (m : list sent) : Prop :=
  unfinished_message (map o_frame m) /\ all_by w m.
(* The call is in the middle of a fragmented message. *)
Definition fragmenting (pc : upc) : Prop :=
  match pc with UFragDrain _ _ | UFragLast | UFragEnsure | UANext (Some _) => True | _ => False end.
(* The first item of an asynchronous iterable arrives while another fragmented message is sent. *)
Definition overlaps {E} (st : conn E) (l : label) : Prop :=
  exists i d c, l = LUser i (Next (Item d)) /\ nth_error (p_users st) i = Some (UANext None, c) /\ p_frag st <> None.
(* A call is cancelled in the middle of a fragmented message. *)
Definition interrupts {E} (st : conn E) (l : label) : Prop :=
  exists i pc c, l = LCancel i /\ nth_error (p_users st) i = Some (pc, c) /\ fragmenting pc.

(** Time *)
(* Steps which the event loop takes as soon as they're possible: a task which isn't waiting any more
   runs, and a timeout fires.  Steps which depend on the transport or on the peer aren't included. *)
Definition ready {E} (X : ext_ops E) (cfg : config) (st : conn E) : Prop :=
  exists l, (l = LT Go \/ l = LC Go \/ l = LC Timeout \/ (exists i, l = LUser i Go) \/ (exists i, l = LUser i Timeout)) /\
            step X cfg st l <> None.
(* d units of time may pass: no task could run before that; and if the transport was aborted, then
   connection_lost is called within A units of time. *)
Definition may_pass {E} (X : ext_ops E) (cfg : config) (A : N) (st : conn E) (d : N) : Prop :=
  (forall x, x < d -> ~ ready X cfg (set_now (p_now st + x) st)) /\
  (forall ta, p_aborted st = Some ta -> p_lost st = None -> p_now st + d <= ta + A).
(* Executions where time passes only that way *)
Fixpoint punctual {E} (X : ext_ops E) (cfg : config) (A : N) (st : conn E) (ls : list label) : Prop :=
  match ls with
  | [] => True
  | l :: ls =>
      (forall d, l = LTick d -> may_pass X cfg A st d) /\
      match step X cfg st l with Some st' => punctual X cfg A st' ls | None => False end
  end.

(** Calls to send() *)
Definition writer_eq_dec (x y : writer) : {x = y} + {x <> y}.
Proof. decide equality. apply Nat.eq_dec. Defined.
(* The frames that a task or a call wrote *)
Definition written_by {E} (w : writer) (st : conn E) : list frame :=
  map o_frame (filter (fun x => if writer_eq_dec (o_by x) w then true else false) (p_out st)).
(* A str is sent in a text frame, in UTF-8; a bytes-like object, in a binary frame. *)
Definition content (d : py_data) (op : opcode) (data : bytes) : Prop :=
  match d with
  | PStr t => op = TEXT /\ utf8_text t data
  | PBytes x => op = BINARY /\ data = x
  | POther => False
  end.
(* RFC 6455 section 5.4: the first frames of a fragmented message, one for each item *)
Definition fragments (op : opcode) (items : list py_data) (fs : list frame) : Prop :=
  match items, fs with
  | d :: items, f :: fs =>
      (exists data, content d op data /\ f = mkframe false op data) /\
      Forall2 (fun d f => exists data, content d op data /\ f = mkframe false CONT data) items fs
  | _, _ => False
  end.
(* The items that the asynchronous iterable given to the i-th call yielded *)
Definition yielded (i : nat) (ls : list label) : list py_data :=
  flat_map (fun l => match l with
                     | LUser j (Next (Item d)) => if Nat.eq_dec j i then [d] else []
                     | _ => []
                     end) ls.
Definition items_of (m : sendable) (i : nat) (ls : list label) : list py_data :=
  match m with SIter items _ => items | SAsync => yielded i ls | _ => [] end.
(* fs are the frames of a message; an empty iterable doesn't send anything. *)
Definition sends_all (m : sendable) (items : list py_data) (fs : list frame) : Prop :=
  match m with
  | SData d => exists op data, content d op data /\ fs = [mkframe true op data]
  | SIter _ _ | SAsync =>
      (items = [] /\ fs = []) \/
      (exists op first, fragments op items first /\ fs = first ++ [mkframe true CONT []])
  | _ => False
  end.
(* fs are the first frames of a message. *)
Definition sends_part (m : sendable) (items : list py_data) (fs : list frame) : Prop :=
  fs = [] \/ sends_all m items fs \/
  (match m with SIter _ _ | SAsync => True | _ => False end /\
   exists op done rest, items = done ++ rest /\ fragments op done fs).

(* The calls made, in order *)
Definition calls (ls : list label) : list call :=
  flat_map (fun l => match l with LCall c => [c] | _ => [] end) ls.
(* The message which send(m) sends; items are those of the iterable *)
Definition means (m : sendable) (items : list py_data) (msg : message) : Prop :=
  match m with
  | SData (PStr t) => msg = MText t
  | SData (PBytes x) => msg = MBinary x
  | SIter _ _ | SAsync =>
      items <> [] /\
      ((exists ts, items = map PStr ts /\ msg = MText (concat ts)) \/
       (exists xs, items = map PBytes xs /\ msg = MBinary (concat xs)))
  | _ => False
  end.
(* The messages that recv() returned or that it may return on connection B are those that calls to
   send() sent on connection A, in the order in which these calls wrote them, without gap.
   order lists these calls; each call is there once. *)
Definition delivers {E E'} (lsA : list label) (stA : conn E) (stB : conn E') : Prop :=
  exists order rest,
    map o_frame (datas (p_out stA)) = flat_map (fun i => written_by (ByCall i) stA) order ++ rest /\
    NoDup order /\
    Forall2 (fun i msg => exists m, nth_error (calls lsA) i = Some (CallSend m) /\ means m (items_of m i lsA) msg)
      order (map snd (p_delivered stB) ++ p_messages stB).

(* The data given to send() has a reasonable size. *)
Definition small_item (d : py_data) : Prop :=
  match d with PStr t => (lenN t < 2 ^ 56)%N | PBytes x => (lenN x < 2 ^ 56)%N | POther => True end.
Definition small_label (l : label) : Prop :=
  match l with
  | LCall (CallSend (SData d)) => small_item d
  | LCall (CallSend (SIter items _)) => Forall small_item items
  | LUser _ (Next (Item d)) => small_item d
  | _ => True
  end.

(** Pings and pongs *)
(* The payloads of the pings that were read *)
Definition pings_read {E} (st : conn E) : list bytes :=
  map f_data (filter (fun f => opcode_eqb (f_opcode f) PING) (p_in st)).
(* The payloads of the pongs that transfer_data wrote: those written by calls to pong() aren't included. *)
Definition pongs_sent {E} (st : conn E) : list bytes :=
  map f_data (filter (fun f => opcode_eqb (f_opcode f) PONG) (written_by ByTransfer st)).
