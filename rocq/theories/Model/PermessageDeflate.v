(* Model of src/websockets/extensions/permessage_deflate.py *)
From Verif Require Import Base.Prelude Base.PyInt Model.Utils Model.Frames Model.Handshake.
Local Open Scope Z_scope.

(* Python's zlib module, which isn't part of the library.
   - z_compressobj bits settings: zlib.compressobj(wbits=-bits, **settings);
   - z_decompressobj bits: zlib.decompressobj(wbits=-bits);
   - z_compress, z_flush: compress(data) and flush(zlib.Z_SYNC_FLUSH) of a compressor;
   - z_decompress: decompress(data, max_length), where 0 means no limit;
   - z_unconsumed: the unconsumed_tail attribute.
   Objects are mutable: methods return the new state, also when they raise. *)
Record zlib : Type := {
  z_settings : Type;
  z_comp : Type;
  z_decomp : Type;
  z_compressobj : Z -> option z_settings -> result z_comp;
  z_decompressobj : Z -> result z_decomp;
  z_compress : z_comp -> bytes -> z_comp * bytes;
  z_flush : z_comp -> z_comp * bytes;
  z_decompress : z_decomp -> bytes -> Z -> z_decomp * result bytes;
  z_unconsumed : z_decomp -> bytes }.

(* permessage_deflate.py 30: _EMPTY_UNCOMPRESSED_BLOCK *)
Definition empty_block : bytes := [Byte.x00; Byte.x00; Byte.xff; Byte.xff].

(* permessage_deflate.py 32: _MAX_WINDOW_BITS_VALUES *)
Definition max_window_bits_values : list str := map str_of_Z [8; 9; 10; 11; 12; 13; 14; 15].

(* permessage_deflate.py 41, 282, 478: name *)
Definition pmd_name : str := s "permessage-deflate".

Section Deflate.
Context (zl : zlib).

(* permessage_deflate.py 35-83: PerMessageDeflate.  An attribute that isn't set is None.
   compress_settings is None instead of {}. *)
Record pmd : Type := {
  p_remote_nct : bool;
  p_local_nct : bool;
  p_remote_bits : Z;
  p_local_bits : Z;
  p_settings : option (z_settings zl);
  p_decoder : option (z_decomp zl);
  p_encoder : option (z_comp zl);
  p_decode_cont : bool }.

Definition set_decoder (p : pmd) (d : option (z_decomp zl)) : pmd :=
  {| p_remote_nct := p_remote_nct p; p_local_nct := p_local_nct p; p_remote_bits := p_remote_bits p;
     p_local_bits := p_local_bits p; p_settings := p_settings p; p_decoder := d; p_encoder := p_encoder p;
     p_decode_cont := p_decode_cont p |}.
Definition set_encoder (p : pmd) (c : option (z_comp zl)) : pmd :=
  {| p_remote_nct := p_remote_nct p; p_local_nct := p_local_nct p; p_remote_bits := p_remote_bits p;
     p_local_bits := p_local_bits p; p_settings := p_settings p; p_decoder := p_decoder p; p_encoder := c;
     p_decode_cont := p_decode_cont p |}.
Definition set_decode_cont (p : pmd) (v : bool) : pmd :=
  {| p_remote_nct := p_remote_nct p; p_local_nct := p_local_nct p; p_remote_bits := p_remote_bits p;
     p_local_bits := p_local_bits p; p_settings := p_settings p; p_decoder := p_decoder p; p_encoder := p_encoder p;
     p_decode_cont := v |}.

(* permessage_deflate.py 43-83: __init__.  The settings never include wbits: the
   constructors of factories check it; the assertion isn't modelled. *)
Definition pmd_init (remote_nct local_nct : bool) (remote_bits local_bits : Z)
  (settings : option (z_settings zl)) : result pmd :=
  if negb ((8 <=? remote_bits) && (remote_bits <=? 15)) then Raise AssertionError
  else if negb ((8 <=? local_bits) && (local_bits <=? 15)) then Raise AssertionError
  else
    let! decoder := if remote_nct then Ok None
                    else let! d := z_decompressobj zl remote_bits in Ok (Some d) in
    let! encoder := if local_nct then Ok None
                    else let! c := z_compressobj zl local_bits settings in Ok (Some c) in
    Ok {| p_remote_nct := remote_nct; p_local_nct := local_nct; p_remote_bits := remote_bits;
          p_local_bits := local_bits; p_settings := settings; p_decoder := decoder;
          p_encoder := encoder; p_decode_cont := false |}.

Definition replace_data (f : frame) (data : bytes) : frame :=
  Frame (f_fin f) (f_opcode f) data (f_rsv1 f) (f_rsv2 f) (f_rsv3 f).
Definition replace_rsv1 (f : frame) (v : bool) : frame :=
  Frame (f_fin f) (f_opcode f) (f_data f) v (f_rsv2 f) (f_rsv3 f).

(* zlib: decompress(data, max_length) raises ValueError if max_length is negative *)
Definition decompress (d : z_decomp zl) (data : bytes) (max_length : Z) : z_decomp zl * result bytes :=
  if max_length <? 0 then (d, Raise ValueError) else z_decompress zl d data max_length.

(* permessage_deflate.py 126-141: the end of decode *)
Definition decode_data (p : pmd) (f : frame) (max_size : option Z) : pmd * result frame :=
  let data := if f_fin f then f_data f ++ empty_block else f_data f in
  let max_length := match max_size with None => 0 | Some n => n end in
  match p_decoder p with
  | None => (p, Raise AttributeError)
  | Some d =>
    let '(d', r) := decompress d data max_length in
    let p' := set_decoder p (Some d') in
    match r with
    | Raise e => (p', Raise e)
    | Ok data' =>
      match z_unconsumed zl d' with
      | [] =>
        let p'' := if f_fin f && p_remote_nct p then set_decoder p' None else p' in
        (p'', Ok (replace_data f data'))
      | _ => (p', Raise (PayloadTooBig (s "over size limit (? > " ++
                match max_size with Some n => str_of_Z n | None => s "None" end ++ s " bytes)")))
      end
    end
  end.

(* permessage_deflate.py 93-141: decode *)
Definition pmd_decode (p : pmd) (f : frame) (max_size : option Z) : pmd * result frame :=
  if is_ctrl (f_opcode f) then (p, Ok f)
  else if opcode_eqb (f_opcode f) CONT then
    if negb (p_decode_cont p) then (p, Ok f)
    else decode_data (if f_fin f then set_decode_cont p false else p) f max_size
  else if negb (f_rsv1 f) then (p, Ok f)
  else
    let f' := replace_rsv1 f false in
    let p1 := if negb (f_fin f') then set_decode_cont p true else p in
    if p_remote_nct p1 then
      match z_decompressobj zl (p_remote_bits p1) with
      | Raise e => (p1, Raise e)
      | Ok d => decode_data (set_decoder p1 (Some d)) f' max_size
      end
    else decode_data p1 f' max_size.

(* data.endswith(x) *)
Definition ends_with (data x : bytes) : bool :=
  (length x <=? length data)%nat && bytes_eqb (skipn (length data - length x) data) x.

(* permessage_deflate.py 164-173: the end of encode *)
Definition encode_data (p : pmd) (f : frame) : pmd * result frame :=
  match p_encoder p with
  | None => (p, Raise AttributeError)
  | Some c =>
    let '(c1, x) := z_compress zl c (f_data f) in
    let '(c2, y) := z_flush zl c1 in
    let data := x ++ y in
    let data := if f_fin f && ends_with data empty_block then firstn (length data - 4) data else data in
    let p1 := set_encoder p (Some c2) in
    (if f_fin f && p_local_nct p then set_encoder p1 None else p1, Ok (replace_data f data))
  end.

(* permessage_deflate.py 143-173: encode *)
Definition pmd_encode (p : pmd) (f : frame) : pmd * result frame :=
  if is_ctrl (f_opcode f) then (p, Ok f)
  else if negb (opcode_eqb (f_opcode f) CONT) then
    let f' := replace_rsv1 f true in
    if p_local_nct p then
      match z_compressobj zl (p_local_bits p) (p_settings p) with
      | Raise e => (p, Raise e)
      | Ok c => encode_data (set_encoder p (Some c)) f'
      end
    else encode_data p f'
  else encode_data p f.

(* the extension, for Model/Frames.v *)
Definition pmd_ops : ext_ops pmd :=
  {| ext_name := fun _ => pmd_name; ext_decode := pmd_decode; ext_encode := pmd_encode |}.

(* client_max_window_bits is an integer or True *)
Inductive bits : Type := BTrue | Bits (n : Z).
Definition settings4 : Type := (bool * bool * option Z * option bits)%type.

(* permessage_deflate.py 176-197: _build_parameters *)
Definition build_parameters (t : settings4) : params :=
  let '(snct, cnct, smwb, cmwb) := t in
  (if snct : bool then [(s "server_no_context_takeover", None)] else []) ++
  (if cnct : bool then [(s "client_no_context_takeover", None)] else []) ++
  (match smwb with
   | Some n => if n =? 0 then [] else [(s "server_max_window_bits", Some (str_of_Z n))]
   | None => []
   end) ++
  (match cmwb with
   | Some BTrue => [(s "client_max_window_bits", None)]
   | Some (Bits n) => if n =? 0 then [] else [(s "client_max_window_bits", Some (str_of_Z n))]
   | None => []
   end).

(* value in _MAX_WINDOW_BITS_VALUES, and int(value) *)
Definition window_bits (value : option str) : option Z :=
  match value with
  | Some v => if existsb (str_eqb v) max_window_bits_values then py_int v else None
  | None => None
  end.
Definition present {A} (o : option A) : bool := match o with Some _ => true | None => false end.

(* permessage_deflate.py 200-259: _extract_parameters; [t] holds the local variables *)
Fixpoint extract_loop (is_server : bool) (l : params) (t : settings4) : result settings4 :=
  match l with
  | [] => Ok t
  | (name, value) :: l' =>
    let '(snct, cnct, smwb, cmwb) := t in
    if str_eqb name (s "server_no_context_takeover") then
      if snct : bool then Raise (DuplicateParameter name)
      else if present value then Raise (InvalidParameterValue name value)
      else extract_loop is_server l' (true, cnct, smwb, cmwb)
    else if str_eqb name (s "client_no_context_takeover") then
      if cnct : bool then Raise (DuplicateParameter name)
      else if present value then Raise (InvalidParameterValue name value)
      else extract_loop is_server l' (snct, true, smwb, cmwb)
    else if str_eqb name (s "server_max_window_bits") then
      if present smwb then Raise (DuplicateParameter name)
      else match window_bits value with
           | Some n => extract_loop is_server l' (snct, cnct, Some n, cmwb)
           | None => Raise (InvalidParameterValue name value)
           end
    else if str_eqb name (s "client_max_window_bits") then
      if present cmwb then Raise (DuplicateParameter name)
      else if is_server && negb (present value) then extract_loop is_server l' (snct, cnct, smwb, Some BTrue)
      else match window_bits value with
           | Some n => extract_loop is_server l' (snct, cnct, smwb, Some (Bits n))
           | None => Raise (InvalidParameterValue name value)
           end
    else Raise (InvalidParameterName name)
  end.
Definition extract_parameters (l : params) (is_server : bool) : result settings4 :=
  extract_loop is_server l (false, false, None, None).

(* the instance variables of factories, permessage_deflate.py 303-307 and 499-503 *)
Record pmd_config : Type := {
  g_snct : bool; g_cnct : bool; g_smwb : option Z; g_cmwb : option bits;
  g_settings : option (z_settings zl) }.

(* permessage_deflate.py 284-307: ClientPerMessageDeflateFactory.__init__; the check of
   compress_settings isn't modelled *)
Definition client_pmd_config (snct cnct : bool) (smwb : option Z) (cmwb : option bits)
  (settings : option (z_settings zl)) : result pmd_config :=
  if negb (match smwb with None => true | Some n => (8 <=? n) && (n <=? 15) end) then Raise ValueError
  else if negb (match cmwb with None | Some BTrue => true | Some (Bits n) => (8 <=? n) && (n <=? 15) end) then Raise ValueError
  else Ok {| g_snct := snct; g_cnct := cnct; g_smwb := smwb; g_cmwb := cmwb; g_settings := settings |}.

(* permessage_deflate.py 482-503: ServerPerMessageDeflateFactory.__init__.
   8 <= True <= 15 is false in Python. *)
Definition server_pmd_config (snct cnct : bool) (smwb : option Z) (cmwb : option bits)
  (settings : option (z_settings zl)) : result pmd_config :=
  if negb (match smwb with None => true | Some n => (8 <=? n) && (n <=? 15) end) then Raise ValueError
  else if negb (match cmwb with None => true | Some BTrue => false | Some (Bits n) => (8 <=? n) && (n <=? 15) end) then Raise ValueError
  else Ok {| g_snct := snct; g_cnct := cnct; g_smwb := smwb; g_cmwb := cmwb; g_settings := settings |}.

(* x or 15 *)
Definition or_15 (o : option Z) : Z := match o with Some n => if n =? 0 then 15 else n | None => 15 end.
Definition bits_or_15 (o : option bits) : Z :=
  match o with Some (Bits n) => if n =? 0 then 15 else n | Some BTrue => 1 | None => 15 end.

(* Extension objects of all kinds have type E. *)
Section Factories.
Context {E : Type} (name_of : E -> str) (mk : pmd -> E).

Definition is_duplicate (accepted : list E) : bool := existsb (fun e => str_eqb (name_of e) pmd_name) accepted.

(* permessage_deflate.py 321-430: process_response_params *)
Definition process_response_params (cfg : pmd_config) (l : params) (accepted : list E) : result E :=
  if is_duplicate accepted then Raise (NegotiationError (s "received duplicate " ++ pmd_name))
  else
    let! t := extract_parameters l false in
    let '(snct, cnct, smwb, cmwb) := t in
    if g_snct cfg && negb snct then Raise (NegotiationError (s "expected server_no_context_takeover"))
    else
      let cnct := if g_cnct cfg then true else cnct in
      let! _ := match g_smwb cfg with
                | None => Ok tt
                | Some n => match smwb with
                            | None => Raise (NegotiationError (s "expected server_max_window_bits"))
                            | Some m => if n <? m then Raise (NegotiationError (s "unsupported server_max_window_bits")) else Ok tt
                            end
                end in
      let! cmwb := match g_cmwb cfg with
                   | None => match cmwb with
                             | Some _ => Raise (NegotiationError (s "unexpected client_max_window_bits"))
                             | None => Ok None
                             end
                   | Some BTrue => Ok cmwb
                   | Some (Bits n) =>
                     match cmwb with
                     | None => Ok (Some (Bits n))
                     | Some (Bits m) => if n <? m then Raise (NegotiationError (s "unsupported client_max_window_bits")) else Ok cmwb
                     | Some BTrue => Ok cmwb (* never happens: _extract_parameters(is_server=False) *)
                     end
                   end in
      let! p := pmd_init snct cnct (or_15 smwb) (bits_or_15 cmwb) (g_settings cfg) in
      Ok (mk p).

(* permessage_deflate.py 505-615: process_request_params *)
Definition process_request_params (cfg : pmd_config) (l : params) (accepted : list E) : result (params * E) :=
  if is_duplicate accepted then Raise (NegotiationError (s "skipped duplicate " ++ pmd_name))
  else
    let! t := extract_parameters l true in
    let '(snct, cnct, smwb, cmwb) := t in
    let snct := if g_snct cfg then true else snct in
    let cnct := if g_cnct cfg then true else cnct in
    let smwb := match g_smwb cfg with
                | None => smwb
                | Some n => match smwb with
                            | None => Some n
                            | Some m => if n <? m then Some n else smwb
                            end
                end in
    let! cmwb := match g_cmwb cfg with
                 | None => match cmwb with Some BTrue => Ok None | _ => Ok cmwb end
                 | Some n =>
                   match cmwb with
                   | None => Raise (NegotiationError (s "required client_max_window_bits"))
                   | Some BTrue => Ok (g_cmwb cfg)
                   | Some (Bits m) =>
                     match n with
                     | Bits n => if n <? m then Ok (g_cmwb cfg) else Ok cmwb
                     | BTrue => Ok cmwb (* never happens: __init__ *)
                     end
                   end
                 end in
    let! p := pmd_init cnct snct (bits_or_15 cmwb) (or_15 smwb) (g_settings cfg) in
    Ok (build_parameters (snct, cnct, smwb, cmwb), mk p).

(* permessage_deflate.py 262-430: ClientPerMessageDeflateFactory; 309-319: get_request_params *)
Definition client_pmd (cfg : pmd_config) : client_factory E :=
  {| cf_name := pmd_name;
     cf_request_params := build_parameters (g_snct cfg, g_cnct cfg, g_smwb cfg, g_cmwb cfg);
     cf_process_response_params := process_response_params cfg |}.

(* permessage_deflate.py 456-615: ServerPerMessageDeflateFactory *)
Definition server_pmd (cfg : pmd_config) : server_factory E :=
  {| sf_name := pmd_name; sf_process_request_params := process_request_params cfg |}.

(* permessage_deflate.py 433-453: enable_client_permessage_deflate *)
Definition default_client_config : pmd_config :=
  {| g_snct := false; g_cnct := false; g_smwb := None; g_cmwb := Some BTrue; g_settings := None |}.
Definition enable_client_permessage_deflate (extensions : option (list (client_factory E))) : list (client_factory E) :=
  let l := match extensions with None => [] | Some l => l end in
  if existsb (fun f => str_eqb (cf_name f) pmd_name) l then l else l ++ [client_pmd default_client_config].

(* permessage_deflate.py 618-635: enable_server_permessage_deflate *)
Definition default_server_config : pmd_config :=
  {| g_snct := false; g_cnct := false; g_smwb := None; g_cmwb := None; g_settings := None |}.
Definition enable_server_permessage_deflate (extensions : option (list (server_factory E))) : list (server_factory E) :=
  let l := match extensions with None => [] | Some l => l end in
  if existsb (fun f => str_eqb (sf_name f) pmd_name) l then l else l ++ [server_pmd default_server_config].
End Factories.
End Deflate.

Arguments p_remote_nct {zl}. Arguments p_local_nct {zl}. Arguments p_remote_bits {zl}. Arguments p_local_bits {zl}.
Arguments p_settings {zl}. Arguments p_decoder {zl}. Arguments p_encoder {zl}. Arguments p_decode_cont {zl}.
Arguments set_decoder {zl}. Arguments set_encoder {zl}. Arguments set_decode_cont {zl}. Arguments pmd_init {zl}.
Arguments decompress {zl}. Arguments decode_data {zl}. Arguments pmd_decode {zl}. Arguments encode_data {zl}.
Arguments pmd_encode {zl}. Arguments g_snct {zl}. Arguments g_cnct {zl}. Arguments g_smwb {zl}. Arguments g_cmwb {zl}.
Arguments g_settings {zl}. Arguments client_pmd_config {zl}. Arguments server_pmd_config {zl}.
Arguments process_response_params {zl E}. Arguments process_request_params {zl E}. Arguments client_pmd {zl E}.
Arguments server_pmd {zl E}. Arguments enable_client_permessage_deflate {zl E}. Arguments enable_server_permessage_deflate {zl E}.
