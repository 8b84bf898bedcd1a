(* Handshake messages on the wire: HTTP/1.1 requests and responses (RFC 7230 section 3), with
   the limits of this library: 256 headers, lines of 4110 bytes. *)
From Verif Require Import Base.Prelude Base.PyInt Base.Utf8 Spec.Rfc7230 Spec.Multimap.
Local Open Scope N_scope.

Definition crlf : bytes := map n2b [13; 10].
Definition LF : byte := n2b 10.

(* a line, and its content *)
Definition line (w content : bytes) : Prop :=
  w = content ++ crlf /\ ~ In LF content /\ (length w <= 4110)%nat.

Definition tchar_byte (x : byte) : Prop := tchar (b2n x).
Definition blank (x : byte) : Prop := b2n x = 32 \/ b2n x = 9.
(* HTAB, SP, VCHAR or obs-text *)
Definition text_byte (x : byte) : Prop := b2n x = 9 \/ 32 <= b2n x <= 126 \/ 128 <= b2n x.
(* no whitespace at either end *)
Definition trimmed (v : bytes) : Prop :=
  (forall x r, v = x :: r -> ~ blank x) /\ (forall x r, v = r ++ [x] -> ~ blank x).

(* header-field = field-name ":" OWS field-value OWS *)
Definition field (content name value : bytes) : Prop :=
  name <> [] /\ Forall tchar_byte name /\ Forall text_byte value /\ trimmed value /\
  exists w w', Forall blank w /\ Forall blank w' /\ content = name ++ map n2b [58] ++ w ++ value ++ w'.

(* names are ASCII; other bytes, which are allowed in values, are represented by surrogates *)
Definition as_str (x : bytes) : str := map (fun c => if b2n c <? 128 then b2n c else 56320 + b2n c) x.

Inductive fields : bytes -> pairs -> Prop :=
| fields_nil : fields [] []
| fields_cons w content name value r l :
    line w content -> field content name value -> fields r l ->
    fields (w ++ r) ((as_str name, as_str value) :: l).

(* request-line *( header-field CRLF ) CRLF *)
Definition request_message (w : bytes) (path : str) (l : pairs) : Prop :=
  exists w0 p w1,
    w = w0 ++ w1 ++ crlf /\ line w0 (b "GET " ++ p ++ b " HTTP/1.1") /\ ~ In (n2b 32) p /\ path = as_str p /\
    fields w1 l /\ (length l <= 256)%nat.

(* The start of a response: status-line *( header-field CRLF ) CRLF, without the body *)
Definition response_head (w : bytes) (status : Z) (reason : str) (l : pairs) : Prop :=
  exists w0 st raw w1,
    w = w0 ++ w1 ++ crlf /\ line w0 (b "HTTP/1.1 " ++ st ++ b " " ++ raw) /\ ~ In (n2b 32) st /\
    py_int (map b2n st) = Some status /\ (100 <= status < 1000)%Z /\
    Forall text_byte raw /\ utf8_decode raw = Ok reason /\ fields w1 l /\ (length l <= 256)%nat.

Definition bodyless (status : Z) : bool :=
  ((100 <=? status)%Z && (status <? 200)%Z) || (status =? 204)%Z || (status =? 304)%Z.

Definition ascii (x : str) : Prop := Forall (fun c => c < 128) x.

(* a character allowed in the value of a header, in a handshake made by this library *)
Definition text_char (c : N) : Prop := c = 9 \/ 32 <= c <= 126.

(* headers that can be sent and parsed back *)
Definition valid_header (kv : str * str) : Prop :=
  token (fst kv) /\ Forall text_char (snd kv) /\
  (forall c r, snd kv = c :: r -> c <> 32 /\ c <> 9) /\ (forall c r, snd kv = r ++ [c] -> c <> 32 /\ c <> 9) /\
  (length (fst kv) + length (snd kv) + 4 <= 4110)%nat.

(* A generator is run each time data is received. *)
From Verif Require Import Model.Streams.
Definition receive {S A} (o : outcome S A) (data : bytes) : outcome S A :=
  let more r := {| r_buffer := r_buffer r ++ data; r_eof := r_eof r |} in
  match o with
  | OSusp g r x => run g (more r) x
  | ODone a r x => ODone a (more r) x
  | OFail e r x => OFail e (more r) x
  end.
Definition receive_all {S A} (g : gen S A) (x : S) (datas : list bytes) : outcome S A :=
  fold_left receive datas (run g reader_init x).
(* then the end of the stream is received *)
Definition receive_eof {S A} (o : outcome S A) : outcome S A :=
  let ended r := {| r_buffer := r_buffer r; r_eof := true |} in
  match o with
  | OSusp g r x => run g (ended r) x
  | ODone a r x => ODone a (ended r) x
  | OFail e r x => OFail e (ended r) x
  end.
