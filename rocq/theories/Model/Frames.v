(* Model of src/websockets/frames.py *)
From Verif Require Import Base.Prelude Base.Utf8 Model.Utils Model.Streams.
Local Open Scope N_scope.

(* frames.py 40-50: Opcode *)
Inductive opcode : Type := CONT | TEXT | BINARY | CLOSE | PING | PONG.

Definition opcode_N (o : opcode) : N :=
  match o with CONT => 0 | TEXT => 1 | BINARY => 2 | CLOSE => 8 | PING => 9 | PONG => 10 end.

(* Opcode(n): ValueError (None) for other values *)
Definition opcode_of_N (n : N) : option opcode :=
  match n with
  | 0 => Some CONT | 1 => Some TEXT | 2 => Some BINARY
  | 8 => Some CLOSE | 9 => Some PING | 10 => Some PONG
  | _ => None
  end.

Definition opcode_eqb (x y : opcode) : bool := N.eqb (opcode_N x) (opcode_N y).

(* frames.py 52-53: CTRL_OPCODES *)
Definition is_ctrl (o : opcode) : bool :=
  match o with CLOSE | PING | PONG => true | _ => false end.

(* frames.py 76-97: Frame *)
Record frame : Type := Frame {
  f_fin : bool; f_opcode : opcode; f_data : bytes;
  f_rsv1 : bool; f_rsv2 : bool; f_rsv3 : bool }.

(* Frame(fin, opcode, data) with the default reserved bits *)
Definition mkframe (fin : bool) (o : opcode) (data : bytes) : frame :=
  Frame fin o data false false false.

(* extensions/base.py 20-48: Extension.  The state of an extension is a value of type E;
   encode and decode return the new state, also when they raise. *)
Record ext_ops (E : Type) : Type := {
  ext_name : E -> str;
  ext_decode : E -> frame -> option Z -> E * result frame;
  ext_encode : E -> frame -> E * result frame }.
Arguments ext_name {E} _ _.
Arguments ext_decode {E} _ _ _ _.
Arguments ext_encode {E} _ _ _.

(* frames.py 231-246: check *)
Definition check (f : frame) : result unit :=
  if f_rsv1 f || f_rsv2 f || f_rsv3 f then
    Raise (ProtocolError (s "reserved bits must be 0"))
  else if is_ctrl (f_opcode f) then
    if 125 <? lenN (f_data f) then Raise (ProtocolError (s "control frame too long"))
    else if negb (f_fin f) then Raise (ProtocolError (s "fragmented control frame"))
    else Ok tt
  else Ok tt.

(* frames.py 164-165: for extension in reversed(extensions): frame = extension.decode(frame) *)
Fixpoint decode_reversed {E} (X : ext_ops E) (exts : list E) (f : frame) (max_size : option Z)
  : list E * result frame :=
  match exts with
  | [] => ([], Ok f)
  | e :: exts' =>
    let '(exts'', r) := decode_reversed X exts' f max_size in
    match r with
    | Raise x => (e :: exts'', Raise x)
    | Ok f' => let '(e', r') := ext_decode X e f' max_size in (e' :: exts'', r')
    end
  end.

(* frames.py 194-195: for extension in extensions: self = extension.encode(self) *)
Fixpoint encode_in_order {E} (X : ext_ops E) (exts : list E) (f : frame)
  : list E * result frame :=
  match exts with
  | [] => ([], Ok f)
  | e :: exts' =>
    let '(e', r) := ext_encode X e f in
    match r with
    | Raise x => (e' :: exts', Raise x)
    | Ok f' => let '(exts'', r') := encode_in_order X exts' f' in (e' :: exts'', r')
    end
  end.

(* bool(n & m) *)
Definition bit (n m : N) : bool := negb (N.land n m =? 0).

(* frames.py 151: f"over size limit ({length} > {max_size} bytes)" *)
Definition too_big_msg (length : N) (max_size : Z) : str :=
  s "over size limit (" ++ str_of_N length ++ s " > " ++ str_of_Z max_size ++ s " bytes)".

Section Parse.
Context {E S : Type} (X : ext_ops E).
(* self.extensions in the state *)
Context (get_exts : S -> list E) (set_exts : S -> list E -> S).

(* frames.py 125-160: reading a frame, before extensions are applied *)
Definition parse_wire (mask : bool) (max_size : option Z) : gen S frame :=
  let* data := read_exact 2 in
  match data with
  | [x1; x2] =>
    let head1 := b2n x1 in
    let head2 := b2n x2 in
    let fin := bit head1 128 in
    let rsv1 := bit head1 64 in
    let rsv2 := bit head1 32 in
    let rsv3 := bit head1 16 in
    match opcode_of_N (N.land head1 15) with
    | None => GRaise (ProtocolError (s "invalid opcode"))
    | Some op =>
      if negb (Bool.eqb (bit head2 128) mask) then
        GRaise (ProtocolError (s "incorrect masking"))
      else
        let length7 := N.land head2 127 in
        let* length :=
          if length7 =? 126 then let* d := read_exact 2 in GRet (be_N d)
          else if length7 =? 127 then let* d := read_exact 8 in GRet (be_N d)
          else GRet length7 in
        let* _ :=
          match max_size with
          | Some m => if (m <? Z.of_N length)%Z then GRaise (PayloadTooBig (too_big_msg length m))
                      else GRet tt
          | None => GRet tt
          end in
        let* mask_bytes := if mask then read_exact 4 else GRet [] in
        let* data := read_exact (Z.of_N length) in
        let* data := if mask then glift (apply_mask data mask_bytes) else GRet data in
        GRet (Frame fin op data rsv1 rsv2 rsv3)
    end
  | _ => GRaise StructError
  end.

(* frames.py 99-169: Frame.parse.  The extensions are those of the state when the frame is
   complete; the code evaluates self.extensions when it starts to wait for a frame. *)
Definition parse_frame (mask : bool) (max_size : option Z) : gen S frame :=
  let* f := parse_wire mask max_size in
  let* st := get_state in
  let '(exts', r) := decode_reversed X (get_exts st) f max_size in
  let* _ := put_state (set_exts st exts') in
  let* f := glift r in
  let* _ := glift (check f) in
  GRet f.
End Parse.

(* frames.py 197-229: the bytes written for a frame once extensions are applied;
   [key] is what secrets.token_bytes(4) returns. *)
Definition wire (f : frame) (mask : bool) (key : bytes) : result bytes :=
  let head1 :=
    N.lor (if f_fin f then 128 else 0)
   (N.lor (if f_rsv1 f then 64 else 0)
   (N.lor (if f_rsv2 f then 32 else 0)
   (N.lor (if f_rsv3 f then 16 else 0) (opcode_N (f_opcode f))))) in
  let head2 := if mask then 128 else 0 in
  let length := lenN (f_data f) in
  let! head :=
    if length <? 126 then Ok [n2b head1; n2b (N.lor head2 length)]
    else if length <? 65536 then Ok ([n2b head1; n2b (N.lor head2 126)] ++ be_bytes 2 length)
    else if length <? 2 ^ 64 then Ok ([n2b head1; n2b (N.lor head2 127)] ++ be_bytes 8 length)
    else Raise StructError in
  if mask then
    let! data := apply_mask (f_data f) key in
    Ok (head ++ key ++ data)
  else Ok (head ++ f_data f).

(* frames.py 171-229: serialize.  Returns the new state of the extensions. *)
Definition serialize {E} (X : ext_ops E) (exts : list E) (f : frame) (mask : bool) (key : bytes)
  : list E * result bytes :=
  match check f with
  | Raise e => (exts, Raise e)
  | Ok _ =>
    let '(exts', r) := encode_in_order X exts f in
    match r with
    | Raise e => (exts', Raise e)
    | Ok f' => (exts', wire f' mask key)
    end
  end.

(* frames.py 57-70: EXTERNAL_CLOSE_CODES *)
Definition EXTERNAL_CLOSE_CODES : list Z :=
  [1000; 1001; 1002; 1003; 1007; 1008; 1009; 1010; 1011; 1012; 1013; 1014]%Z.

(* frames.py 328-337: check_close *)
Definition check_close (code : Z) : result unit :=
  if existsb (Z.eqb code) EXTERNAL_CLOSE_CODES || ((3000 <=? code)%Z && (code <? 5000)%Z)
  then Ok tt
  else Raise (ProtocolError (s "invalid status code")).

(* frames.py 294-314: parse_close *)
Definition parse_close (data : bytes) : result (Z * str) :=
  if 2 <=? lenN data then
    let code := Z.of_N (be_N (firstn 2 data)) in
    let! _ := check_close code in
    let! reason := utf8_decode (skipn 2 data) in
    Ok (code, reason)
  else if lenN data =? 0 then Ok (1005%Z, [])
  else Raise (ProtocolError (s "close frame too short")).

(* frames.py 317-325: serialize_close *)
Definition serialize_close (code : Z) (reason : str) : result bytes :=
  let! _ := check_close code in
  let! r := utf8_encode reason in
  Ok (be_bytes 2 (Z.to_N code) ++ r).

(* frames.py 249-269: prepare_data; the argument is a str or a bytes-like object *)
Inductive py_data : Type := PStr (x : str) | PBytes (x : bytes) | POther.
Definition prepare_data (d : py_data) : result (opcode * bytes) :=
  match d with
  | PStr x => let! e := utf8_encode x in Ok (TEXT, e)
  | PBytes x => Ok (BINARY, x)
  | POther => Raise TypeError
  end.

(* frames.py 272-291: prepare_ctrl *)
Definition prepare_ctrl (d : py_data) : result bytes :=
  match d with
  | PStr x => utf8_encode x
  | PBytes x => Ok x
  | POther => Raise TypeError
  end.
