(* Properties of permessage-deflate: C45 to C50. *)
From Verif Require Import Base.Prelude Base.PreludeFacts Model.Utils Model.Streams Model.Frames Model.Connection Model.Handshake Model.PermessageDeflate
  Spec.Rfc6455 Spec.FrameSpec Spec.Messages Spec.History Spec.Deflate Proofs.FramesFacts Proofs.ConnectionFacts Proofs.Steps Proofs.MessagesFacts Proofs.Invariants
  Proofs.DeflateFacts Proofs.DeflateRun Proofs.DeflateLimit Proofs.StoredZlib Properties.FrameCodec Properties.Connection.
Local Open Scope Z_scope.

(* ---- a concrete negotiation ---- *)

(* enough of zlib for negotiation: zlib refuses windows of 8 bits for compression without
   header *)
Definition init_zlib : zlib := {|
  z_settings := unit; z_comp := Z; z_decomp := Z;
  z_compressobj := fun n _ => if 8 <? n then Ok n else Raise ValueError;
  z_decompressobj := fun n => Ok n;
  z_compress := fun c x => (c, x); z_flush := fun c => (c, []);
  z_decompress := fun d x _ => (d, Ok x); z_unconsumed := fun _ => [] |}.
Definition ex_offer : params :=
  [(s "server_max_window_bits", Some (s "10")); (s "client_max_window_bits", None)].
Definition ex_answer : params :=
  [(s "client_no_context_takeover", None); (s "server_max_window_bits", Some (s "10")); (s "client_max_window_bits", Some (s "12"))].
Example negotiation_applies : exists cc sc x y,
  client_pmd_config (zl := init_zlib) false false (Some 10) (Some BTrue) None = Ok cc /\
  server_pmd_config (zl := init_zlib) false true (Some 11) (Some (Bits 12)) None = Ok sc /\
  cf_request_params (client_pmd (fun _ => pmd_name) id cc) = ex_offer /\
  sf_process_request_params (server_pmd (fun _ => pmd_name) id sc) ex_offer [] = Ok (ex_answer, x) /\
  cf_process_response_params (client_pmd (fun _ => pmd_name) id cc) ex_answer [] = Ok y /\
  p_local_bits x = 10 /\ p_remote_bits x = 12 /\ p_local_nct x = false /\ p_remote_nct x = true.
Proof. eexists _, _, _, _. repeat (split; [reflexivity|]). reflexivity. Qed.

(* ---- C45 ---- *)

(* If the server accepts the offer of the client, and the client accepts the answer of the
   server, then each side's settings for decompression are the other side's settings for
   compression. *)
Theorem C45_settings_agree : forall zl E E' (name_of : E -> str) (mk : pmd zl -> E) (name_of' : E' -> str) (mk' : pmd zl -> E')
  a b c d st a' b' c' d' st' (ccfg scfg : pmd_config zl) accepted accepted' answer x y,
  client_pmd_config a b c d st = Ok ccfg -> server_pmd_config a' b' c' d' st' = Ok scfg ->
  sf_process_request_params (server_pmd name_of mk scfg) (cf_request_params (client_pmd name_of' mk' ccfg)) accepted = Ok (answer, x) ->
  cf_process_response_params (client_pmd name_of' mk' ccfg) answer accepted' = Ok y ->
  exists ps pc, x = mk ps /\ y = mk' pc /\ mirrored ps pc.
Proof.
  intros zl E E' name_of mk name_of' mk' a b c d st a' b' c' d' st' ccfg scfg acc acc' answer x y Hc Hs Rq Rs.
  apply client_config_ok in Hc as (Kc & _). apply server_config_ok in Hs as (Kc' & _).
  cbn [sf_process_request_params server_pmd cf_request_params client_pmd cf_process_response_params] in *.
  rewrite process_request_params_eq in Rq. destruct (is_duplicate name_of acc); [discriminate|].
  rewrite extract_build in Rq; [|exact (request_range _ _ Kc)|reflexivity]. cbn [rbind] in Rq.
  destruct (server_answer scfg _) as [[[[a1 b1] c1] d1]|] eqn:Sa; [|discriminate]. cbn [rbind] in Rq.
  destruct (server_init scfg _) as [ps|] eqn:Si; [|discriminate]. cbn [rbind] in Rq. apply ok_inj, pair_equal_spec in Rq as [<- <-].
  rewrite process_response_params_eq in Rs. destruct (is_duplicate name_of' acc'); [discriminate|].
  destruct (server_answer_range scfg _ _ Kc' (request_range _ _ Kc) Sa) as [Range Nt'].
  rewrite extract_build in Rs; [|exact Range|intros; contradiction]. cbn [rbind] in Rs.
  rewrite (answer_fits ccfg scfg _ Kc Kc' Sa) in Rs. cbn [rbind] in Rs.
  destruct (client_init ccfg _) as [pc|] eqn:Ci; [|discriminate]. cbn [rbind] in Rs. apply ok_inj in Rs. subst y.
  exists ps, pc. split; [reflexivity|]. split; [reflexivity|].
  apply pmd_init_fields in Si as (S1 & S2 & S3 & S4 & _). apply pmd_init_fields in Ci as (C1 & C2 & C3 & C4 & _).
  unfold mirrored. rewrite S1, S2, S3, S4, C1, C2, C3, C4. auto.
Qed.

(* ---- C46 ---- *)

(* A server honours its configuration and what any client asks for, and states the settings
   it uses in its answer. *)
Theorem C46_server_honours : forall zl E (name_of : E -> str) (mk : pmd zl -> E) snct cnct smwb cmwb st (scfg : pmd_config zl) l accepted answer x,
  server_pmd_config snct cnct smwb cmwb st = Ok scfg ->
  sf_process_request_params (server_pmd name_of mk scfg) l accepted = Ok (answer, x) ->
  exists p, x = mk p /\
    (snct = true -> p_local_nct p = true) /\ (cnct = true -> p_remote_nct p = true) /\
    within smwb (p_local_bits p) /\ within_bits cmwb (p_remote_bits p) /\
    demands_flag l (s "server_no_context_takeover") (p_local_nct p) /\
    demands_flag l (s "client_no_context_takeover") (p_remote_nct p) /\
    demands_bits l (s "server_max_window_bits") (p_local_bits p) /\
    demands_bits l (s "client_max_window_bits") (p_remote_bits p) /\
    states_flag answer (s "server_no_context_takeover") (p_local_nct p) /\
    states_flag answer (s "client_no_context_takeover") (p_remote_nct p) /\
    states_bits answer (s "server_max_window_bits") (p_local_bits p) /\
    states_bits answer (s "client_max_window_bits") (p_remote_bits p).
Proof.
  intros zl E name_of mk a b c d st scfg l acc answer x Hs Rq.
  apply server_config_ok in Hs as (K & <- & <- & <- & <- & <-). cbn [sf_process_request_params server_pmd] in Rq.
  rewrite process_request_params_eq in Rq. destruct (is_duplicate name_of acc); [discriminate|].
  pose proof (extract_iff true l) as V. destruct (extract_parameters l true) as [[[[a b] c] d]|]; [|discriminate]. cbn [rbind] in Rq.
  destruct V as [_ En]. destruct (server_answer scfg _) as [[[[a1 b1] c1] d1]|] eqn:Sa; [|discriminate]. cbn [rbind] in Rq.
  destruct (server_init scfg _) as [p|] eqn:Si; [|discriminate]. cbn [rbind] in Rq. apply ok_inj, pair_equal_spec in Rq as [<- <-].
  pose proof (entries_range _ _ En) as R. destruct (server_answer_range _ _ _ K R Sa) as [R1 N1].
  exists p. split; [reflexivity|]. apply pmd_init_fields in Si as (-> & -> & -> & -> & _).
  pose proof (build_states a1 b1 c1 d1 R1 N1) as (T1 & T2 & T3 & T4).
  pose proof (server_answer_view scfg a b c d) as V. rewrite Sa in V. destruct V as (Ha & Hb & Hc & Hd).
  assert (In3 : forall v n, In (s "server_max_window_bits", Some v) l -> window v n -> c = Some n)
    by (intros v n I0 W; pose proof (entries_in l t0 _ _ _ En I0) as (_ & _ & H & _); now apply (H v n)).
  assert (In4 : forall v n, In (s "client_max_window_bits", Some v) l -> window v n -> d = Some (Bits n))
    by (intros v n I0 W; pose proof (entries_in l t0 _ _ _ En I0) as (_ & _ & _ & H & _); now apply (H v n)).
  destruct R as [Rc Rd], R1 as [Rc1 Rd1]. destruct K as [[G1 G2] Nt]. specialize (Nt eq_refl).
  split; [intros F; rewrite F in Ha; exact Ha|]. split; [intros F; rewrite F in Hb; exact Hb|].
  assert (Bc : forall n, c1 = Some n -> or_15 c1 = n) by (intros n ->; apply or_15_in, Rc1; reflexivity).
  assert (Bd : forall n, d1 = Some (Bits n) -> bits_or_15 d1 = n) by (intros n ->; apply bits_or_15_in, Rd1; reflexivity).
  split.
  { unfold within. destruct (g_smwb scfg) as [n|]; [|exact Logic.I]. cbn [server_smwb] in Hc.
    destruct c as [m|]; [destruct (Z.ltb_spec n m)|]; rewrite (Bc _ Hc); lia. }
  split.
  { unfold within_bits. destruct (g_cmwb scfg) as [[|n]|]; [exact Logic.I| |exact Logic.I]. cbn [server_cmwb] in Hd.
    destruct d as [[|m]|]; [|destruct (Z.ltb_spec n m)|contradiction]; rewrite (Bd _ Hd); lia. }
  split; [intros I0; pose proof (entries_in l t0 _ _ _ En I0) as (H & _); rewrite Ha, (H eq_refl); now destruct (g_snct scfg)|].
  split; [intros I0; pose proof (entries_in l t0 _ _ _ En I0) as (_ & H & _); rewrite Hb, (H eq_refl); now destruct (g_cnct scfg)|].
  split.
  { intros v n I0 W. rewrite (In3 v n I0 W) in Hc. unfold server_smwb in Hc. destruct (g_smwb scfg) as [m|]; [|rewrite (Bc _ Hc); lia].
    destruct (Z.ltb_spec m n); rewrite (Bc _ Hc); lia. }
  split; [|auto].
  intros v n I0 W. rewrite (In4 v n I0 W) in Hd. unfold server_cmwb in Hd. destruct (g_cmwb scfg) as [[|m]|]; [congruence| |rewrite (Bd _ Hd); lia].
  destruct (Z.ltb_spec m n); rewrite (Bd _ Hd); lia.
Qed.

(* A client honours its configuration, and what any server answers. *)
Theorem C46_client_honours : forall zl E (name_of : E -> str) (mk : pmd zl -> E) snct cnct smwb cmwb st (ccfg : pmd_config zl) l accepted x,
  client_pmd_config snct cnct smwb cmwb st = Ok ccfg ->
  cf_process_response_params (client_pmd name_of mk ccfg) l accepted = Ok x ->
  exists p, x = mk p /\
    (snct = true -> p_remote_nct p = true) /\ (cnct = true -> p_local_nct p = true) /\
    within smwb (p_remote_bits p) /\ within_bits cmwb (p_local_bits p) /\
    states_flag l (s "server_no_context_takeover") (p_remote_nct p) /\
    demands_flag l (s "client_no_context_takeover") (p_local_nct p) /\
    states_bits l (s "server_max_window_bits") (p_remote_bits p) /\
    demands_bits l (s "client_max_window_bits") (p_local_bits p) /\
    (cmwb = None -> forall v, ~ In (s "client_max_window_bits", v) l).
Proof.
  intros zl E name_of mk a b c d st ccfg l acc x Hs Rq.
  apply client_config_ok in Hs as (K & <- & <- & <- & <- & <-). cbn [cf_process_response_params client_pmd] in Rq.
  rewrite process_response_params_eq in Rq. destruct (is_duplicate name_of acc); [discriminate|].
  pose proof (extract_iff false l) as V. destruct (extract_parameters l false) as [[[[a b] c] d]|]; [|discriminate]. cbn [rbind] in Rq.
  destruct V as [Pk En]. destruct (client_answer ccfg _) as [[[[a1 b1] c1] d1]|] eqn:Sa; [|discriminate]. cbn [rbind] in Rq.
  destruct (client_init ccfg _) as [p|] eqn:Si; [|discriminate]. cbn [rbind] in Rq. apply ok_inj in Rq. subst x.
  pose proof (entries_range _ _ En) as R. pose proof (entries_true _ _ Pk En) as Nt. cbn [snd] in Nt.
  exists p. split; [reflexivity|]. apply pmd_init_fields in Si as (-> & -> & -> & -> & _).
  pose proof (client_answer_view ccfg a b c d) as V. rewrite Sa in V. destruct V as (-> & -> & -> & Hd & Ha & Hc).
  assert (In3 : forall v n, In (s "server_max_window_bits", Some v) l -> window v n -> c = Some n)
    by (intros v n I0 W; pose proof (entries_in l t0 _ _ _ En I0) as (_ & _ & H & _); now apply (H v n)).
  assert (In4 : forall v n, In (s "client_max_window_bits", Some v) l -> window v n -> d = Some (Bits n))
    by (intros v n I0 W; pose proof (entries_in l t0 _ _ _ En I0) as (_ & _ & _ & H & _); now apply (H v n)).
  assert (In4' : forall v, In (s "client_max_window_bits", v) l -> d <> None).
  { intros v I0. pose proof (entries_in l t0 _ _ _ En I0) as (_ & _ & _ & H & H'). destruct v as [v|]; [|rewrite (H' eq_refl eq_refl); discriminate].
    destruct Pk as [F _]. rewrite Forall_forall in F. specialize (F _ I0).
    destruct F as [F|[F|[(y & n & F & W)|[(y & n & F & W)|[_ F]]]]]; try discriminate F. apply pair_equal_spec in F as [_ F].
    rewrite (H y n eq_refl F W). discriminate. }
  destruct R as [Rc Rd], K as [[G1 G2] _]. pose proof (entries_from l _ _ En) as (Fa & Fb & Fc & Fd & _).
  split; [exact Ha|]. split; [now intros ->|].
  split. { unfold within, client_smwb in *. destruct (g_smwb ccfg) as [n|]; [|exact Logic.I]. destruct c as [m|]; [|contradiction].
    rewrite or_15_in by auto. exact Hc. }
  split. { unfold within_bits, client_cmwb in *. destruct (g_cmwb ccfg) as [[|n]|]; [exact Logic.I| |exact Logic.I].
    destruct d as [[|m]|]; [congruence| |]. - destruct Hd as [Le ->]. rewrite bits_or_15_in by auto. exact Le. - rewrite Hd, bits_or_15_in by auto. lia. }
  split. { split; [intros I0; pose proof (entries_in l t0 _ _ _ En I0) as (H & _); auto|]. intros Ht. destruct (Fa Ht) as [?|?]; [discriminate|assumption]. }
  split. { intros I0. pose proof (entries_in l t0 _ _ _ En I0) as (_ & H & _). rewrite (H eq_refl). now destruct (g_cnct ccfg). }
  split. { destruct c as [n|].
    - left. rewrite or_15_in by auto. destruct (Fc n eq_refl) as [?|[_ I0]]; [discriminate|exact I0].
    - right. split; [|reflexivity]. intros v I0. pose proof (entries_in l t0 _ _ _ En I0) as (_ & _ & H & _).
      destruct Pk as [F _]. rewrite Forall_forall in F. specialize (F _ I0).
      destruct F as [F|[F|[(y & n & F & W)|[(y & n & F & W)|[_ F]]]]]; try discriminate F. apply pair_equal_spec in F as [_ F].
      specialize (H y n eq_refl F W). discriminate. }
  split.
  { intros v n I0 W. pose proof (In4 v n I0 W) as ->. unfold client_cmwb in Hd. destruct (g_cmwb ccfg) as [[|m]|]; [| |destruct Hd; discriminate].
    - rewrite Hd, bits_or_15_in by auto. lia.
    - destruct Hd as [_ ->]. rewrite bits_or_15_in by auto. lia. }
  intros Gn v I0. unfold client_cmwb in Hd. rewrite Gn in Hd. destruct Hd as [Hn _]. now apply (In4' v I0).
Qed.

(* A server accepts the offer of a client, unless it requires client_max_window_bits and
   the client doesn't offer it, provided zlib accepts its settings for compression, with
   the window sizes that are configured on either side. *)
Theorem C46_offer_accepted_partial : forall zl E E' (name_of : E -> str) (mk : pmd zl -> E) (name_of' : E' -> str) (mk' : pmd zl -> E')
  a b c d st a' b' c' d' st' (ccfg scfg : pmd_config zl) accepted,
  client_pmd_config a b c d st = Ok ccfg -> server_pmd_config a' b' c' d' st' = Ok scfg ->
  (forall e, In e accepted -> name_of e <> pmd_name) ->
  can_decompress zl -> (forall n, n = 15 \/ c = Some n \/ c' = Some n -> can_compress zl n st') ->
  if match d', d with Some _, None => true | _, _ => false end then
    exists e, sf_process_request_params (server_pmd name_of mk scfg) (cf_request_params (client_pmd name_of' mk' ccfg)) accepted = Raise e /\
      is_negotiation_error e = true
  else exists answer x, sf_process_request_params (server_pmd name_of mk scfg) (cf_request_params (client_pmd name_of' mk' ccfg)) accepted = Ok (answer, x).
Proof.
  intros zl E E' name_of mk name_of' mk' a b c d st a' b' c' d' st' ccfg scfg acc Hc Hs Nd Cd Cc.
  apply client_config_ok in Hc as (Kc & <- & <- & <- & <- & <-). apply server_config_ok in Hs as (Kc' & <- & <- & <- & <- & <-).
  cbn [sf_process_request_params server_pmd cf_request_params client_pmd]. rewrite process_request_params_eq.
  replace (is_duplicate name_of acc) with false.
  2: { symmetry. unfold is_duplicate. apply not_true_is_false. intros H. apply existsb_exists in H as (e & I0 & H). apply str_eqb_eq in H. now apply (Nd e I0). }
  rewrite extract_build; [|exact (request_range _ _ Kc)|reflexivity]. cbn [rbind].
  pose proof (server_answer_view scfg (g_snct ccfg) (g_cnct ccfg) (g_smwb ccfg) (g_cmwb ccfg)) as V.
  destruct (server_answer scfg _) as [[[[a1 b1] c1] d1]|e] eqn:Sa; cbn [rbind].
  - destruct (server_answer_range _ _ _ Kc' (request_range _ _ Kc) Sa) as [[R1 R2] N1]. cbn [snd] in N1.
    assert (Bc : 8 <= or_15 c1 <= 15) by (destruct c1 as [n|]; [rewrite or_15_in; auto|cbn; lia]).
    assert (Bd : 8 <= bits_or_15 d1 <= 15) by (destruct d1 as [[|n]|]; [congruence|rewrite bits_or_15_in; auto|cbn; lia]).
    destruct (pmd_init_total b1 a1 (bits_or_15 d1) (or_15 c1) (g_settings scfg) Bd Bc Cd) as [p Hp]; [intros _|].
    { apply Cc. destruct V as (_ & _ & V & _). unfold server_smwb in V. destruct c1 as [n|]; [|auto]. rewrite or_15_in by auto.
      destruct (g_smwb scfg) as [x|]; [|auto]. destruct (g_smwb ccfg) as [y|]; [destruct (x <? y)|]; auto. }
    unfold server_init. rewrite Hp. cbn [rbind].
    destruct V as (_ & _ & _ & V). unfold server_cmwb in V.
    destruct (g_cmwb scfg) as [x|]; [|eauto]. destruct (g_cmwb ccfg) as [y|]; [eauto|contradiction].
  - destruct V as (Ne & G & ->). destruct (g_cmwb scfg); [|contradiction]. eauto.
Qed.

(* A client accepts every answer of a server to its offer, provided zlib accepts its
   settings for compression, with the window sizes that are configured on either side. *)
Theorem C46_answer_accepted_partial : forall zl E E' (name_of : E -> str) (mk : pmd zl -> E) (name_of' : E' -> str) (mk' : pmd zl -> E')
  a b c d st a' b' c' d' st' (ccfg scfg : pmd_config zl) accepted accepted' answer x,
  client_pmd_config a b c d st = Ok ccfg -> server_pmd_config a' b' c' d' st' = Ok scfg ->
  sf_process_request_params (server_pmd name_of mk scfg) (cf_request_params (client_pmd name_of' mk' ccfg)) accepted = Ok (answer, x) ->
  (forall e, In e accepted' -> name_of' e <> pmd_name) ->
  can_decompress zl -> (forall n, n = 15 \/ d = Some (Bits n) \/ d' = Some (Bits n) -> can_compress zl n st) ->
  exists y, cf_process_response_params (client_pmd name_of' mk' ccfg) answer accepted' = Ok y.
Proof.
  intros zl E E' name_of mk name_of' mk' a b c d st a' b' c' d' st' ccfg scfg acc acc' answer x Hc Hs Rq Nd Cd Cc.
  apply client_config_ok in Hc as (Kc & <- & <- & <- & <- & <-). apply server_config_ok in Hs as (Kc' & <- & <- & <- & <- & <-).
  cbn [sf_process_request_params server_pmd cf_request_params client_pmd cf_process_response_params] in *.
  rewrite process_request_params_eq in Rq. destruct (is_duplicate name_of acc); [discriminate|].
  rewrite extract_build in Rq; [|exact (request_range _ _ Kc)|reflexivity]. cbn [rbind] in Rq.
  destruct (server_answer scfg _) as [[[[a1 b1] c1] d1]|] eqn:Sa; [|discriminate]. cbn [rbind] in Rq.
  destruct (server_init scfg _) as [ps|] eqn:Si; [|discriminate]. cbn [rbind] in Rq. apply ok_inj, pair_equal_spec in Rq as [<- <-].
  destruct (server_answer_range scfg _ _ Kc' (request_range _ _ Kc) Sa) as [Range Nt'].
  rewrite process_response_params_eq. replace (is_duplicate name_of' acc') with false.
  2: { symmetry. unfold is_duplicate. apply not_true_is_false. intros H. apply existsb_exists in H as (e & I0 & H). apply str_eqb_eq in H. now apply (Nd e I0). }
  rewrite extract_build; [|exact Range|intros; contradiction]. cbn [rbind].
  rewrite (answer_fits ccfg scfg _ Kc Kc' Sa). cbn [rbind]. destruct Range as [R1 R2]. cbn [snd] in Nt'.
  assert (Bc : 8 <= or_15 c1 <= 15) by (destruct c1 as [n|]; [rewrite or_15_in; auto|cbn; lia]).
  assert (Bd : 8 <= bits_or_15 d1 <= 15) by (destruct d1 as [[|n]|]; [congruence|rewrite bits_or_15_in; auto|cbn; lia]).
  destruct (pmd_init_total a1 b1 (or_15 c1) (bits_or_15 d1) (g_settings ccfg) Bc Bd Cd) as [p Hp]; [intros _|].
  { apply Cc. pose proof (server_answer_view scfg (g_snct ccfg) (g_cnct ccfg) (g_smwb ccfg) (g_cmwb ccfg)) as V. rewrite Sa in V.
    destruct V as (_ & _ & _ & V). unfold server_cmwb in V. destruct d1 as [[|n]|]; [congruence| |auto]. rewrite bits_or_15_in by auto.
    destruct (g_cmwb scfg) as [x|]; destruct (g_cmwb ccfg) as [[|y]|]; try contradiction; try discriminate; auto.
    destruct x as [|x]; [|destruct (x <? y)]; auto. }
  unfold client_init. rewrite Hp. cbn [rbind]. eauto.
Qed.

(* zlib refuses windows of 8 bits for compression without header, but the library doesn't:
   when 8 bits are negotiated, the client (or the server) fails with ValueError. *)
Theorem C46_answer_accepted_refuted : exists cc sc x,
  client_pmd_config (zl := init_zlib) false false None (Some (Bits 8)) None = Ok cc /\
  server_pmd_config (zl := init_zlib) false false None None None = Ok sc /\
  sf_process_request_params (server_pmd (fun _ => pmd_name) id sc) (cf_request_params (client_pmd (fun _ => pmd_name) id cc)) [] =
    Ok ([(s "client_max_window_bits", Some (s "8"))], x) /\
  cf_process_response_params (client_pmd (fun _ => pmd_name) id cc) [(s "client_max_window_bits", Some (s "8"))] [] = Raise ValueError /\
  is_negotiation_error ValueError = false.
Proof. eexists _, _, _. repeat (split; [reflexivity|]). reflexivity. Qed.
Theorem C46_offer_accepted_refuted : exists cc sc,
  client_pmd_config (zl := init_zlib) false false (Some 8) None None = Ok cc /\
  server_pmd_config (zl := init_zlib) false false None None None = Ok sc /\
  sf_process_request_params (server_pmd (fun _ => pmd_name) id sc) (cf_request_params (client_pmd (fun _ => pmd_name) id cc)) [] = Raise ValueError.
Proof. eexists _, _. repeat (split; [reflexivity|]). reflexivity. Qed.

(* ---- C47 ---- *)

(* Parameters are refused unless they make sense and aren't duplicate; a second
   permessage-deflate is refused. *)
Theorem C47_server_validates : forall zl E (name_of : E -> str) (mk : pmd zl -> E) (cfg : pmd_config zl) l accepted,
  ~ params_ok true l \/ (exists e, In e accepted /\ name_of e = s "permessage-deflate") ->
  exists e, sf_process_request_params (server_pmd name_of mk cfg) l accepted = Raise e /\ is_negotiation_error e = true.
Proof.
  intros zl E name_of mk cfg l acc H. cbn [sf_process_request_params server_pmd]. rewrite process_request_params_eq.
  destruct (is_duplicate name_of acc) eqn:D; [eexists; split; reflexivity|].
  destruct H as [H|(e & I0 & He)].
  - pose proof (extract_iff true l) as V. destruct (extract_parameters l true) as [t|e]; [destruct V; contradiction|]. exists e. now destruct V.
  - exfalso. assert (is_duplicate name_of acc = true); [|congruence]. apply existsb_exists. exists e. split; [exact I0|]. now apply str_eqb_eq.
Qed.
Theorem C47_client_validates : forall zl E (name_of : E -> str) (mk : pmd zl -> E) (cfg : pmd_config zl) l accepted,
  ~ params_ok false l \/ (exists e, In e accepted /\ name_of e = s "permessage-deflate") ->
  exists e, cf_process_response_params (client_pmd name_of mk cfg) l accepted = Raise e /\ is_negotiation_error e = true.
Proof.
  intros zl E name_of mk cfg l acc H. cbn [cf_process_response_params client_pmd]. rewrite process_response_params_eq.
  destruct (is_duplicate name_of acc) eqn:D; [eexists; split; reflexivity|].
  destruct H as [H|(e & I0 & He)].
  - pose proof (extract_iff false l) as V. destruct (extract_parameters l false) as [t|e]; [destruct V; contradiction|]. exists e. now destruct V.
  - exfalso. assert (is_duplicate name_of acc = true); [|congruence]. apply existsb_exists. exists e. split; [exact I0|]. now apply str_eqb_eq.
Qed.
(* All other parameters are accepted by a server without requirements, if zlib accepts its
   settings. *)
Theorem C47_valid_accepted : forall zl E (name_of : E -> str) (mk : pmd zl -> E) l accepted,
  params_ok true l -> (forall e, In e accepted -> name_of e <> pmd_name) ->
  can_decompress zl -> (forall n, 8 <= n <= 15 -> can_compress zl n None) ->
  exists answer x, sf_process_request_params (server_pmd name_of mk (default_server_config zl)) l accepted = Ok (answer, x).
Proof.
  intros zl E name_of mk l acc P Nd Cd Cc. cbn [sf_process_request_params server_pmd]. rewrite process_request_params_eq.
  replace (is_duplicate name_of acc) with false.
  2: { symmetry. unfold is_duplicate. apply not_true_is_false. intros H. apply existsb_exists in H as (e & I0 & H). apply str_eqb_eq in H. now apply (Nd e I0). }
  pose proof (extract_iff true l) as V. destruct (extract_parameters l true) as [t|e]; [|destruct V; contradiction]. destruct V as [_ En]. cbn [rbind].
  assert (K : config_ok true (default_server_config zl)) by (split; [split; intros; discriminate|discriminate]).
  assert (R := entries_range _ _ En). destruct t as [[[a b] c] d].
  destruct (server_answer (default_server_config zl) (a, b, c, d)) as [[[[a1 b1] c1] d1]|e] eqn:Sa.
  - destruct (server_answer_range _ _ _ K R Sa) as [[R1 R2] N1]. cbn [snd] in N1. cbn [rbind].
    assert (Bc : 8 <= or_15 c1 <= 15) by (destruct c1 as [n|]; [rewrite or_15_in; auto|cbn; lia]).
    assert (Bd : 8 <= bits_or_15 d1 <= 15) by (destruct d1 as [[|n]|]; [congruence|rewrite bits_or_15_in; auto|cbn; lia]).
    destruct (pmd_init_total b1 a1 (bits_or_15 d1) (or_15 c1) (g_settings (default_server_config zl)) Bd Bc Cd) as [p Hp]; [intros _; now apply Cc|].
    unfold server_init. rewrite Hp. cbn [rbind]. eauto.
  - pose proof (server_answer_view (default_server_config zl) a b c d) as V. rewrite Sa in V. now destruct V as (_ & V & _).
Qed.
Example C47_applies : params_ok true ex_offer /\ params_ok false ex_answer /\
  ~ params_ok false ex_offer /\ ~ params_ok true [(s "server_max_window_bits", Some (s "08"))] /\
  ~ params_ok true (ex_offer ++ [(s "server_max_window_bits", Some (s "9"))]).
Proof.
  pose proof (extract_iff true ex_offer) as V1. pose proof (extract_iff false ex_answer) as V2. pose proof (extract_iff false ex_offer) as V3.
  pose proof (extract_iff true [(s "server_max_window_bits", Some (s "08"))]) as V4.
  pose proof (extract_iff true (ex_offer ++ [(s "server_max_window_bits", Some (s "9"))])) as V5.
  cbv -[params_ok entries ex_offer ex_answer s] in V1.
  split; [apply V1|]. split; [apply V2|]. split; [apply V3|]. split; [apply V4|apply V5].
Qed.

(* ---- C48 ---- *)

Lemma pmd_init_view {zl} rn ln rb lb st (p : pmd zl) : pmd_init rn ln rb lb st = Ok p ->
  8 <= rb <= 15 /\ 8 <= lb <= 15 /\ p_remote_nct p = rn /\ p_local_nct p = ln /\ p_remote_bits p = rb /\ p_local_bits p = lb /\ p_settings p = st /\
  p_decode_cont p = false /\
  (rn = false -> exists d, z_decompressobj zl rb = Ok d /\ p_decoder p = Some d) /\
  (ln = false -> exists c, z_compressobj zl lb st = Ok c /\ p_encoder p = Some c).
Proof.
  unfold pmd_init. destruct ((8 <=? rb) && (rb <=? 15)) eqn:R; [|discriminate]. destruct ((8 <=? lb) && (lb <=? 15)) eqn:L; [|discriminate]. cbn [negb].
  destruct rn.
  - cbn [rbind]. destruct ln.
    + cbn [rbind]. intros H. apply ok_inj in H. subst p. cbn. do 8 (split; [lia || reflexivity|]). split; discriminate.
    + destruct (z_compressobj zl lb st) as [c|] eqn:Hc; [|discriminate]. cbn [rbind]. intros H. apply ok_inj in H. subst p. cbn.
      do 8 (split; [lia || reflexivity|]). split; [discriminate|eauto].
  - destruct (z_decompressobj zl rb) as [d|] eqn:Hd; [|discriminate]. cbn [rbind]. destruct ln.
    + cbn [rbind]. intros H. apply ok_inj in H. subst p. cbn. do 8 (split; [lia || reflexivity|]). split; [eauto|discriminate].
    + destruct (z_compressobj zl lb st) as [c|] eqn:Hc; [|discriminate]. cbn [rbind]. intros H. apply ok_inj in H. subst p. cbn.
      do 8 (split; [lia || reflexivity|]). split; eauto.
Qed.
Lemma init_linked {zl} sync (Zc : correct_zlib zl sync) rn ln rb lb st rn' ln' rb' lb' st' (p q : pmd zl) :
  pmd_init rn ln rb lb st = Ok p -> pmd_init rn' ln' rb' lb' st' = Ok q -> mirrored p q ->
  can_compress zl lb st -> can_decompress zl -> linked sync false p q.
Proof.
  intros Hp Hq (M1 & M2 & M3 & M4) Cc Cd.
  apply pmd_init_view in Hp as (_ & Lb & <- & <- & <- & <- & <- & _ & _ & Pe). apply pmd_init_view in Hq as (Rb & _ & <- & <- & <- & <- & <- & Qc & Qd & _).
  constructor; auto; [lia|]. intros [Nc|Nc]; [|discriminate]. rewrite <- M3 in Qd.
  destruct (Pe Nc) as (c & Hc & Ec), (Qd Nc) as (d & Hd & Ed). exists c, d. split; [exact Ec|]. split; [exact Ed|]. refine (zc_start _ _ Zc _ _ _ _ _ Hc Hd _). lia.
Qed.

(* p and q are the extensions of two sides with the same negotiated settings, just created.
   lp and lq are what they do over their lives, in any order: each encodes what its side
   sends and decodes what its side receives.  If p is given the frames of messages, it
   encodes them all.  If q receives these encoded frames, all of them or the first ones,
   and the size limits allow the original frames, then q returns the original frames. *)
Theorem C48_frames_round_trip :
  forall zl sync rn ln rb lb st rn' ln' rb' lb' st' (p q : pmd zl) lp lq,
    correct_zlib zl sync -> can_compress zl lb st -> can_decompress zl ->
    pmd_init rn ln rb lb st = Ok p -> pmd_init rn' ln' rb' lb' st' = Ok q -> mirrored p q ->
    well_formed_messages (encoded lp) -> Forall no_rsv (encoded lp) ->
    exists sent, results_of true lp (uses (pmd_ops zl) p lp) = map Ok sent /\
      ((exists later, sent = map fst (decoded lq) ++ later) ->
       Forall2 (fun f d => allows (snd d) f) (firstn (length (decoded lq)) (encoded lp)) (decoded lq) ->
       results_of false lq (uses (pmd_ops zl) q lq) = map Ok (firstn (length (decoded lq)) (encoded lp))).
Proof.
  intros zl sync rn ln rb lb st rn' ln' rb' lb' st' p q lp lq Zc Cc Cd Hp Hq Mi Wf Rs.
  pose proof (init_linked sync Zc _ _ _ _ _ _ _ _ _ _ _ _ Hp Hq Mi Cc Cd) as Lk.
  assert (Rs' : Forall (fun f => f_rsv1 f = false) (encoded lp)) by (revert Rs; apply Forall_impl; intros f H; apply H).
  destruct (round_trip sync Zc (encoded lp) false p q (length (decoded lq)) (map snd (decoded lq)) Lk (legal_messages _ Wf) Rs') as (gs & He & Hd).
  exists gs. rewrite uses_encodes, uses_decodes. split; [exact He|]. intros [later ->] Al.
  assert (Ll : length (map fst (decoded lq) ++ later) = length (encoded lp)).
  { apply (f_equal (@length _)) in He. rewrite map_length in He. rewrite <- He. clear. revert p. induction (encoded lp); intros p; cbn; auto. }
  rewrite app_length, map_length in Ll. rewrite <- Hd.
  - f_equal. replace (length (decoded lq)) with (length (map fst (decoded lq)) + 0)%nat by (rewrite map_length; lia).
    rewrite firstn_app_2. cbn [firstn]. rewrite app_nil_r. clear. induction (decoded lq) as [|[f n] l IH]; [reflexivity|]. cbn. now rewrite <- IH.
  - apply map_length.
  - lia.
  - clear -Al. revert Al. generalize (firstn (length (decoded lq)) (encoded lp)). induction (decoded lq) as [|d l IH]; intros fs Al; inversion Al; subst; constructor; auto.
Qed.

(* Fragmented messages, with a ping in the middle, one way, while a message is received. *)
Definition ex_frames : list use :=
  [Encode (Frame false TEXT (b "he") false false false); Decode (Frame true BINARY (b "!") false false false) None;
   Encode (Frame true PING (b "?") false false false); Encode (Frame true CONT (b "llo") false false false);
   Encode (Frame true BINARY (b "abc") false false false)].
Example C48_applies : exists p q sent,
  pmd_init (zl := stored_zlib) true false 15 12 None = Ok p /\ pmd_init (zl := stored_zlib) false true 12 15 None = Ok q /\ mirrored p q /\
  can_compress stored_zlib 12 None /\ well_formed_messages (encoded ex_frames) /\ Forall no_rsv (encoded ex_frames) /\
  results_of true ex_frames (uses (pmd_ops stored_zlib) p ex_frames) = map Ok sent /\ map (fun f => length (f_data f)) sent = [17; 1; 19; 19]%nat /\
  results_of false (map (fun f => Decode f (Some 3)) sent) (uses (pmd_ops stored_zlib) q (map (fun f => Decode f (Some 3)) sent)) = map Ok (encoded ex_frames).
Proof.
  destruct (pmd_init (zl := stored_zlib) true false 15 12 None) as [p|] eqn:Hp; [|discriminate]. apply ok_inj in Hp. 
  destruct (pmd_init (zl := stored_zlib) false true 12 15 None) as [q|] eqn:Hq; [|discriminate]. apply ok_inj in Hq. 
  exists p, q, (flat_map (fun r => match r with Ok f => [f] | Raise _ => [] end) (results_of true ex_frames (uses (pmd_ops stored_zlib) p ex_frames))). subst p q.
  split; [reflexivity|]. split; [reflexivity|]. split; [repeat split|]. split; [apply stored_can_compress; lia|].
  split.
  { exists [[Frame false TEXT (b "he") false false false; Frame true CONT (b "llo") false false false]; [Frame true BINARY (b "abc") false false false]], [].
    split; [reflexivity|]. split; [|auto]. constructor; [|constructor; [|constructor]].
    - right. exists [Frame false TEXT (b "he") false false false], (Frame true CONT (b "llo") false false false).
      split; [reflexivity|]. split; [|split; reflexivity]. eexists _, []. split; [reflexivity|]. split; [left; reflexivity|]. split; [discriminate|constructor].
    - left. eexists. split; [reflexivity|]. split; [right; reflexivity|reflexivity]. }
  split; [repeat constructor|]. split; [vm_compute; reflexivity|]. split; vm_compute; reflexivity.
Qed.

(* ---- C49 ---- *)

(* Whatever was sent before, a frame is sent with the same opcode and the same FIN, RSV2 and
   RSV3 bits; control frames are sent unchanged; RSV1 is set on the first frame of each
   message, and only on it. *)
Theorem C49_encode : forall zl (p p' : pmd zl) f g, pmd_encode p f = (p', Ok g) ->
  f_fin g = f_fin f /\ f_opcode g = f_opcode f /\ f_rsv2 g = f_rsv2 f /\ f_rsv3 g = f_rsv3 f /\
  (~ is_data f -> g = f) /\
  (is_data f -> f_rsv1 f = false -> (f_rsv1 g = true <-> opens f)).
Proof.
  intros zl p p' f g H. apply encode_view in H. destruct (is_ctrl (f_opcode f)) eqn:C.
  - subst g. do 5 (split; [reflexivity|]). intros [D|[D|D]]; rewrite D in C; discriminate.
  - rewrite H. cbn [f_fin f_opcode f_rsv1 f_rsv2 f_rsv3]. do 4 (split; [reflexivity|]). split.
    + intros D. exfalso. apply D. unfold is_data. destruct (f_opcode f); auto; discriminate.
    + intros D R. unfold opens. destruct (f_opcode f); try discriminate; cbn; [rewrite R; split; [discriminate|intros [|]; discriminate]|split; auto|split; auto].
Qed.
(* Over the life of an extension: if the frames received form messages, then control frames
   and the frames of messages that aren't compressed are returned unchanged, whatever else
   is sent and received, and even if other frames can't be decompressed. *)
Theorem C49_decode : forall zl rn ln rb lb st (p : pmd zl) l,
  pmd_init rn ln rb lb st = Ok p -> well_formed_messages (map fst (decoded l)) ->
  Forall2 (fun f rc => snd rc = false -> fst rc = Ok f)
    (map fst (decoded l))
    (combine (results_of false l (uses (pmd_ops zl) p l)) (in_compressed false (map fst (decoded l)))).
Proof.
  intros zl rn ln rb lb st p l Hp Wf. rewrite uses_decodes. apply pmd_init_view in Hp as (_ & _ & _ & _ & _ & _ & _ & C & _).
  eapply decodes_uncompressed; [apply legal_messages, Wf|exact C|discriminate].
Qed.
(* A ping within a compressed message, and an uncompressed message after it. *)
Definition ex_received : list frame :=
  [Frame false TEXT (bs [0; 1; 0; 254; 255; 104])%N true false false; Frame true PING (b "?") false false false;
   Frame true CONT (bs [0])%N false false false; Frame false BINARY (b "ab") false false false; Frame true CONT (b "c") false false false].
Example C49_applies : exists p,
  pmd_init (zl := stored_zlib) false false 15 15 None = Ok p /\
  well_formed_messages ex_received /\
  in_compressed false ex_received = [true; false; true; false; false] /\
  results_of false (map (fun f => Decode f None) ex_received) (uses (pmd_ops stored_zlib) p (map (fun f => Decode f None) ex_received)) =
    map Ok [Frame false TEXT (b "h") false false false; Frame true PING (b "?") false false false; Frame true CONT [] false false false;
      Frame false BINARY (b "ab") false false false; Frame true CONT (b "c") false false false] /\
  exists p' g, pmd_encode p (Frame false TEXT (b "x") false false false) = (p', Ok g) /\ f_rsv1 g = true.
Proof.
  eexists. split; [reflexivity|]. split.
  { eexists [[_; _]; [_; _]], []. split; [reflexivity|]. split; [|auto]. constructor; [|constructor; [|constructor]].
    - right. eexists [_], _. split; [reflexivity|]. split; [|split; reflexivity]. eexists _, []. split; [reflexivity|]. split; [left; reflexivity|]. split; [discriminate|constructor].
    - right. eexists [_], _. split; [reflexivity|]. split; [|split; reflexivity]. eexists _, []. split; [reflexivity|]. split; [right; reflexivity|]. split; [discriminate|constructor]. }
  split; [reflexivity|]. split; [vm_compute; reflexivity|]. eexists _, _. split; reflexivity.
Qed.

(* ---- C50 ---- *)

(* A message may only exceed max_size after fragments whose total size is exactly max_size;
   in particular, unless max_size is 0, no message of a single frame exceeds it. *)
Theorem C50_size_limit_partial :
  forall zl c0 ks m rs st max_size,
    limits_output zl -> fresh st c0 -> c_max_size c0 = Some max_size ->
    history (pmd_ops zl) c0 ks m rs ->
    exists done current,
      message_sequence (frames_of (all_events rs m)) done current /\
      Forall (limited max_size) done /\ (current <> [] -> limited max_size current).
Proof.
  intros zl c0 ks m rs st max Lo F Mx H.
  assert (Hh : honours_nonzero (pmd_ops zl)).
  { intros e f n e' f' Nz D Fi. cbn in D. apply decode_view in D as (_ & _ & D). apply (D Lo n eq_refl Nz Fi). }
  destruct (use_inv (pmd_ops zl) c0 ks m rs H st inv_limited F) as (is & W & (done & cur & M & C & L)).
  - exists [], []. split; [apply message_sequence_nil|]. destruct F as (_ & Cs & _). split; [exact Cs|].
    intros m0 _. split; [constructor|congruence].
  - intros x y _. apply limited_step; [apply pmd_keeps_framing|exact Hh].
  - exists done, cur. split; [exact M|]. apply L.
    destruct (use_steps (pmd_ops zl) c0 ks m rs H st F) as (is' & _ & A). apply steps_const in A as (_ & A & _).
    cbn [a_c] in A. change (c_max_size (core (m_conn m)) = Some max). rewrite A. exact Mx.
Qed.
Definition ex_pmd : pmd stored_zlib :=
  match pmd_init (zl := stored_zlib) false false 15 15 None with Ok p => p | Raise _ => Build_pmd _ false false 0 0 None None None false end.
Definition ex_compressed max_size : conn (pmd stored_zlib) := set_exts (new_conn CLIENT OPEN (Some max_size) ex_keys) [ex_pmd].
Example C50_applies : limits_output stored_zlib /\ fresh OPEN (ex_compressed 8) /\
  exists m rs, history (pmd_ops stored_zlib) (ex_compressed 8)
    [CReceiveData (bs [193; 7; 0; 1; 0; 254; 255; 104; 0]%N); CReceiveData (bs [193; 3; 2; 200; 104]%N); CEventsReceived] m rs /\
    frames_of (all_events rs m) = [Frame true TEXT (b "h") false false false] /\ c_state (m_conn m) = CLOSING.
Proof. split; [apply stored_limits|]. split; [repeat split|]. apply by_running. vm_compute. auto. Qed.
(* When the fragments received so far reach max_size exactly, the next fragment is
   decompressed without limit: zlib takes 0 for no limit.  Its compressed data must be
   empty, but zlib may still have output to return for the previous fragment. *)
Theorem C50_size_limit_refuted :
  exists zl sync c0 ks m rs msg,
    correct_zlib zl sync /\ limits_output zl /\ can_decompress zl /\
    fresh OPEN c0 /\ c_max_size c0 = Some 4 /\ history (pmd_ops zl) c0 ks m rs /\
    message_sequence (frames_of (all_events rs m)) [msg] [] /\ message_size msg = 200%nat.
Proof.
  exists stored_zlib, stored_sync, (ex_compressed 4), [CReceiveData (bs [65; 3; 2; 200; 104; 128; 0]%N)].
  eexists _, _, [Frame false TEXT (repeat Byte.x68 4) false false false; Frame true CONT (repeat Byte.x68 196) false false false].
  split; [apply stored_correct|]. split; [apply stored_limits|]. split; [apply stored_can_decompress|]. split; [repeat split|]. split; [reflexivity|].
  split; [apply surjective_pairing|]. split; [|reflexivity]. split; [vm_compute; reflexivity|]. split; [|auto]. constructor; [|constructor].
  right. eexists [_], _. split; [reflexivity|]. split; [|split; reflexivity]. eexists _, []. split; [reflexivity|]. split; [left; reflexivity|]. split; [discriminate|constructor].
Qed.

Print Assumptions C45_settings_agree.
Print Assumptions C46_server_honours.
Print Assumptions C46_client_honours.
Print Assumptions C46_offer_accepted_partial.
Print Assumptions C46_answer_accepted_partial.
Print Assumptions C46_answer_accepted_refuted.
Print Assumptions C46_offer_accepted_refuted.
Print Assumptions C47_server_validates.
Print Assumptions C47_client_validates.
Print Assumptions C47_valid_accepted.
Print Assumptions C48_frames_round_trip.
Print Assumptions C49_encode.
Print Assumptions C49_decode.
Print Assumptions C50_size_limit_partial.
Print Assumptions C50_size_limit_refuted.
