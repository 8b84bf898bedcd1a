(* RFC 7692: parameters of permessage-deflate, and what is expected of zlib. *)
From Verif Require Import Base.Prelude Model.Frames Model.Handshake Model.PermessageDeflate Spec.Messages.
Local Open Scope Z_scope.

(* ---- parameters (RFC 7692 section 7.1) ---- *)

(* A window size is written in decimal, without leading zeros. *)
Definition window (v : str) (n : Z) : Prop := 8 <= n <= 15 /\ v = str_of_Z n.

(* The parameters that make sense; only an offer may have client_max_window_bits without a
   value. *)
Definition param_ok (offer : bool) (p : str * option str) : Prop :=
  p = (s "server_no_context_takeover", None) \/
  p = (s "client_no_context_takeover", None) \/
  (exists v n, p = (s "server_max_window_bits", Some v) /\ window v n) \/
  (exists v n, p = (s "client_max_window_bits", Some v) /\ window v n) \/
  (offer = true /\ p = (s "client_max_window_bits", None)).
Definition params_ok (offer : bool) (l : params) : Prop :=
  Forall (param_ok offer) l /\ NoDup (map fst l).

(* Demands of a list of parameters on the settings of an extension *)
Definition demands_bits (l : params) (name : str) (bits : Z) : Prop :=
  forall v n, In (name, Some v) l -> window v n -> bits <= n.
Definition demands_flag (l : params) (name : str) (flag : bool) : Prop :=
  In (name, None) l -> flag = true.

(* ---- settings of the two sides ---- *)

(* What one side does to compress is what the other side expects to decompress. *)
Definition mirrored {zl} (p q : pmd zl) : Prop :=
  p_remote_nct p = p_local_nct q /\ p_remote_bits p = p_local_bits q /\
  p_local_nct p = p_remote_nct q /\ p_local_bits p = p_remote_bits q.

(* A window size within a configured limit *)
Definition within (o : option Z) (n : Z) : Prop := match o with Some m => n <= m | None => True end.
Definition within_bits (o : option bits) (n : Z) : Prop := match o with Some (Bits m) => n <= m | _ => True end.

(* zlib accepts a window size and settings for compression. *)
Definition can_compress (zl : zlib) (bits : Z) (settings : option (z_settings zl)) : Prop :=
  exists c, z_compressobj zl bits settings = Ok c.
(* zlib decompresses all window sizes. *)
Definition can_decompress (zl : zlib) : Prop :=
  forall n, 8 <= n <= 15 -> exists d, z_decompressobj zl n = Ok d.

(* ---- compressed data ---- *)

(* What is expected of zlib.  [sync c d]: the decompressor d has received all that the
   compressor c has produced, and returned all that it was given.
   - A new decompressor whose window isn't smaller is in sync with a new compressor.
   - What compress and then flush(Z_SYNC_FLUSH) return ends with an empty uncompressed
     block, and the decompressor turns it into the data that was compressed, if there's no
     limit or if the limit allows it. *)
Record correct_zlib (zl : zlib) (sync : z_comp zl -> z_decomp zl -> Prop) : Prop := {
  zc_start : forall bits bits' settings c d,
    z_compressobj zl bits settings = Ok c -> z_decompressobj zl bits' = Ok d -> bits <= bits' -> sync c d;
  zc_round_trip : forall c d data c1 x c2 y,
    sync c d -> z_compress zl c data = (c1, x) -> z_flush zl c1 = (c2, y) ->
    (exists z, x ++ y = z ++ empty_block) /\
    forall limit, limit = 0 \/ lenZ data <= limit ->
    exists d', z_decompress zl d (x ++ y) limit = (d', Ok data) /\ z_unconsumed zl d' = [] /\ sync c2 d' }.

(* zlib doesn't return more than max_length bytes, if max_length isn't 0. *)
Definition limits_output (zl : zlib) : Prop :=
  forall d data limit d' out, 0 < limit -> z_decompress zl d data limit = (d', Ok out) -> lenZ out <= limit.

(* When max_length isn't enough, zlib says so: it doesn't consume all its input. *)
Definition reports_limit (zl : zlib) (sync : z_comp zl -> z_decomp zl -> Prop) : Prop :=
  forall c d data c1 x c2 y limit d' out,
    sync c d -> z_compress zl c data = (c1, x) -> z_flush zl c1 = (c2, y) -> 0 < limit < lenZ data ->
    z_decompress zl d (x ++ y) limit = (d', Ok out) -> z_unconsumed zl d' <> [].
(* Compressed data isn't more than 15 times larger than the data, plus 15 bytes. *)
Definition expands_little (zl : zlib) : Prop :=
  forall c data c1 x c2 y, z_compress zl c data = (c1, x) -> z_flush zl c1 = (c2, y) ->
    lenZ (x ++ y) <= 15 * lenZ data + 15.

(* What an extension does over its life: it encodes the frames sent and decodes the frames
   received, in some order. *)
Inductive use : Type := Encode (f : frame) | Decode (f : frame) (max_size : option Z).
Fixpoint uses {E} (X : ext_ops E) (p : E) (l : list use) : list (result frame) :=
  match l with
  | [] => []
  | Encode f :: l' => let '(p', r) := ext_encode X p f in r :: uses X p' l'
  | Decode f n :: l' => let '(p', r) := ext_decode X p f n in r :: uses X p' l'
  end.
Definition is_encode (u : use) : bool := match u with Encode _ => true | _ => false end.
(* the results of the calls to encode, and to decode *)
Definition results_of (kind : bool) (l : list use) (rs : list (result frame)) : list (result frame) :=
  map snd (filter (fun ur => Bool.eqb (is_encode (fst ur)) kind) (combine l rs)).
Definition encoded (l : list use) : list frame := flat_map (fun u => match u with Encode f => [f] | _ => [] end) l.
Definition decoded (l : list use) : list (frame * option Z) := flat_map (fun u => match u with Decode f n => [(f, n)] | _ => [] end) l.

(* frames as the library makes them: no reserved bits *)
Definition no_rsv (f : frame) : Prop := f_rsv1 f = false /\ f_rsv2 f = false /\ f_rsv3 f = false.
(* a limit that allows the data of a frame *)
Definition allows (n : option Z) (f : frame) : Prop := match n with None => True | Some m => lenZ (f_data f) <= m end.

(* A list of parameters states these settings; the default window size is 15 bits. *)
Definition states_flag (l : params) (name : str) (flag : bool) : Prop := In (name, None) l <-> flag = true.
Definition states_bits (l : params) (name : str) (n : Z) : Prop :=
  In (name, Some (str_of_Z n)) l \/ ((forall v, ~ In (name, v) l) /\ n = 15).

(* Which frames belong to messages that are compressed, i.e. whose first frame has RSV1;
   [cur]: a compressed message is in progress. *)
Fixpoint in_compressed (cur : bool) (l : list frame) : list bool :=
  match l with
  | [] => []
  | f :: r =>
    match f_opcode f with
    | TEXT | BINARY => f_rsv1 f :: in_compressed (f_rsv1 f && negb (f_fin f)) r
    | CONT => cur :: in_compressed (cur && negb (f_fin f)) r
    | _ => false :: in_compressed cur r
    end
  end.

(* A message is within the limit, or it exceeds it after fragments that reach it exactly. *)
Definition limited (max_size : Z) (m : list frame) : Prop :=
  Z.of_nat (message_size m) <= max_size \/
  exists pre post, m = pre ++ post /\ post <> [] /\ Z.of_nat (message_size pre) = max_size.
