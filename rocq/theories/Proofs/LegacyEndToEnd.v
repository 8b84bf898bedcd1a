(* From a call to send() on one connection to a call to recv() on the other one. *)
From Verif Require Import Base.Prelude Base.PreludeFacts Model.Streams Model.Frames
  Model.LegacyFraming Model.LegacyProtocol Spec.Messages Spec.Utf8Spec Spec.Asyncio
  Proofs.Utf8SpecFacts
  Proofs.LegacyShapes Proofs.LegacyUsers Proofs.LegacyFields Proofs.LegacyClose Proofs.LegacyQueue
  Proofs.LegacyMessages Proofs.LegacyFragments Proofs.LegacyTiming Proofs.LegacyWriters Proofs.LegacySend
  Proofs.LegacyAuthors Properties.AsyncioState Properties.AsyncioMessages Properties.AsyncioCalls Properties.AsyncioSends.
Local Open Scope N_scope.

Lemma utf8_text_app t1 d1 t2 d2 : utf8_text t1 d1 -> utf8_text t2 d2 -> utf8_text (t1 ++ t2) (d1 ++ d2).
Proof.
  intros H H2. induction H as [|c t l r Hc Ht IH]; [exact H2|]. rewrite <- app_assoc. cbn [app]. now constructor.
Qed.
Lemma utf8_text_inj t1 t2 d : utf8_text t1 d -> utf8_text t2 d -> t1 = t2.
Proof. intros H1 H2. apply utf8_decode_spec in H1, H2. rewrite H1 in H2. now apply ok_inj in H2. Qed.

(** The frames of a message *)
Lemma fragments_rest op items fs :
  Forall2 (fun d f => exists data, content d op data /\ f = mkframe false CONT data) items fs ->
  Forall (fun f => continues f /\ ~ final f) fs /\
  ((op = TEXT /\ exists ts, items = map PStr ts /\ utf8_text (concat ts) (flat_map f_data fs)) \/
   (op = BINARY /\ exists xs, items = map PBytes xs /\ flat_map f_data fs = concat xs) \/ (items = [] /\ fs = [])).
Proof.
  induction 1 as [|d f items fs (data & C & ->) H [IH1 IH2]].
  - split; [constructor|]. right. now right.
  - split; [constructor; [split; [reflexivity|discriminate]|exact IH1]|].
    destruct d as [t|x|]; cbn [content] in C; [| |contradiction]; destruct C as [-> C].
    + left. split; [reflexivity|]. destruct IH2 as [[_ (ts & -> & U)]|[[? _]|[-> ->]]]; [|discriminate|].
      * exists (t :: ts). split; [reflexivity|]. cbn [concat flat_map f_data mkframe]. now apply utf8_text_app.
      * exists [t]. split; [reflexivity|]. cbn [concat flat_map f_data mkframe].
        apply utf8_text_app; [exact C|constructor].
    + right. left. split; [reflexivity|]. subst x. destruct IH2 as [[? _]|[[_ (xs & -> & U)]|[-> ->]]]; [discriminate| |].
      * exists (data :: xs). split; [reflexivity|]. cbn [concat flat_map f_data mkframe]. now rewrite U.
      * exists [data]. now split.
Qed.
Lemma fragments_spec op items fs : fragments op items fs ->
  exists f rest, fs = f :: rest /\ opens f /\ f_opcode f = op /\ ~ final f /\
    Forall (fun f => continues f /\ ~ final f) rest /\ items <> [] /\
    ((op = TEXT /\ exists ts, items = map PStr ts /\ utf8_text (concat ts) (flat_map f_data fs)) \/
     (op = BINARY /\ exists xs, items = map PBytes xs /\ flat_map f_data fs = concat xs)).
Proof.
  unfold fragments. destruct items as [|d items]; [contradiction|]. destruct fs as [|f rest]; [contradiction|].
  intros ((data & C & ->) & H). exists (mkframe false op data), rest. apply fragments_rest in H as [H1 H2].
  assert (O : op = TEXT \/ op = BINARY) by (destruct d; cbn [content] in C; [left; tauto|right; tauto|contradiction]).
  split; [reflexivity|]. split; [exact O|]. split; [reflexivity|]. split; [discriminate|]. split; [exact H1|].
  split; [discriminate|].
  cbn [flat_map f_data mkframe]. destruct d as [t|x|]; cbn [content] in C; [| |contradiction]; destruct C as [-> C].
  - left. split; [reflexivity|]. destruct H2 as [[_ (ts & -> & U)]|[[? _]|[-> ->]]]; [|discriminate|].
    + exists (t :: ts). split; [reflexivity|]. cbn [concat]. now apply utf8_text_app.
    + exists [t]. split; [reflexivity|]. cbn [concat flat_map]. apply utf8_text_app; [exact C|constructor].
  - right. split; [reflexivity|]. subst x. destruct H2 as [[? _]|[[_ (xs & -> & U)]|[-> ->]]]; [discriminate| |].
    + exists (data :: xs). split; [reflexivity|]. cbn [concat]. now rewrite U.
    + exists [data]. now split.
Qed.

(* the first frame of a message starts it, only the last one ends it *)
Lemma mid_frames (f : frame) rest pre g post : Forall (fun f => continues f /\ ~ final f) rest ->
  f :: rest = pre ++ g :: post -> (opens g -> pre = []) /\ (final g -> f = g /\ pre = []).
Proof.
  intros R H. destruct pre as [|p pre]; cbn [app] in H.
  - injection H as -> _. now split.
  - injection H as _ H. rewrite H in R. apply Forall_app in R as [_ R]. inversion R as [|? ? [C F] _]; subst.
    unfold continues in C. split; [intros [O|O]; congruence|intros Fg; contradiction].
Qed.
Lemma sends_part_frames m items ws pre g post : sends_part m items ws -> ws = pre ++ g :: post ->
  is_data g /\ (opens g -> pre = []) /\ (final g -> post = [] /\ sends_all m items ws).
Proof.
  intros H W.
  assert (Fr : forall op (its : list py_data), fragments op its ws ->
    is_data g /\ (opens g -> pre = []) /\ (final g -> post = [] /\ sends_all m items ws)).
  { intros op its F. apply fragments_spec in F as (f & rest & -> & O & _ & N & R & _).
    destruct (mid_frames f rest pre g post R W) as [M1 M2]. split; [|split; [exact M1|]].
    - destruct pre as [|p pre]; injection W as -> W; [destruct O as [O|O]; unfold is_data; tauto|].
      rewrite W in R. apply Forall_app in R as [_ R]. inversion R as [|? ? [C _] _]; subst. right. now right.
    - intros Fg. destruct (M2 Fg) as [-> _]. contradiction. }
  destruct H as [->|[H|[_ (op & done & rest & _ & F)]]]; [destruct pre; discriminate| |now apply (Fr op done)].
  assert (Al : (exists op first, fragments op items first /\ ws = first ++ [mkframe true CONT []]) ->
    sends_all m items ws -> is_data g /\ (opens g -> pre = []) /\ (final g -> post = [] /\ sends_all m items ws)).
  { intros (op & first & F & Wf) SA. apply fragments_spec in F as (f & rest & -> & O & _ & N & R & _).
    rewrite W in Wf. destruct post as [|p post _] using rev_ind.
    - apply app_inj_tail in Wf as [-> ->]. split; [right; now right|]. split; [|now split].
      intros [Q|Q]; discriminate.
    - rewrite app_comm_cons, app_assoc in Wf. apply app_inj_tail in Wf as [Wf _]. symmetry in Wf.
      destruct (mid_frames f rest pre g post R Wf) as [M1 M2]. split; [|split; [exact M1|]].
      + destruct pre as [|q pre]; injection Wf as -> Wf; [destruct O as [O|O]; unfold is_data; tauto|].
        rewrite Wf in R. apply Forall_app in R as [_ R]. inversion R as [|? ? [C _] _]; subst. right. now right.
      + intros Fg. destruct (M2 Fg) as [-> _]. contradiction. }
  destruct m as [d| | | |]; try contradiction.
  - pose proof H as (op & data & C & Ws). rewrite W in Ws.
    assert (pre = [] /\ g = mkframe true op data /\ post = []) as (-> & -> & ->).
    { destruct pre as [|p [|]]; cbn [app] in Ws; [injection Ws as -> ->; now split|discriminate..]. }
    split; [destruct d; cbn [content] in C; [left; tauto|right; left; tauto|contradiction]|]. split; [reflexivity|]. now split.
  - pose proof H as [[_ ->]|Q]; [destruct pre; discriminate|]. now apply Al.
  - pose proof H as [[_ ->]|Q]; [destruct pre; discriminate|]. now apply Al.
Qed.
(* the frames of a message carry it *)
Lemma sends_all_means m items ws msg : sends_all m items ws -> carries ws msg -> means m items msg.
Proof.
  intros H C.
  assert (Al : (exists op first, fragments op items first /\ ws = first ++ [mkframe true CONT []]) ->
    items <> [] /\ ((exists ts, items = map PStr ts /\ msg = MText (concat ts)) \/
                    (exists xs, items = map PBytes xs /\ msg = MBinary (concat xs)))).
  { intros (op & first & F & ->). apply fragments_spec in F as (f & rest & Ef & O & Eo & _ & _ & Hn & D).
    split; [exact Hn|].
    assert (Fd : flat_map f_data (first ++ [mkframe true CONT []]) = flat_map f_data first)
      by (rewrite flat_map_app; cbn [flat_map f_data mkframe]; now rewrite !app_nil_r).
    assert (C' : carries (f :: rest ++ [mkframe true CONT []]) msg) by (rewrite Ef in C; exact C). clear C. rename C' into C.
    unfold carries in C. change (f :: rest ++ [mkframe true CONT []]) with ((f :: rest) ++ [mkframe true CONT []]) in C.
    rewrite <- Ef, Fd in C. destruct msg as [t|x]; destruct C as [C1 C2].
    - left. destruct D as [[-> (ts & -> & U)]|[-> _]]; [|congruence]. exists ts. split; [reflexivity|]. f_equal.
      eapply utf8_text_inj; eassumption.
    - right. destruct D as [[-> _]|[-> (xs & -> & U)]]; [congruence|]. exists xs. split; [reflexivity|]. congruence. }
  destruct m as [d| | | |]; try contradiction.
  - destruct H as (op & data & Ct & ->). cbn [carries flat_map f_data mkframe f_opcode] in C. rewrite app_nil_r in C.
    destruct d as [t|x|]; cbn [content] in Ct; [| |contradiction]; destruct Ct as [-> Ct]; destruct msg as [t'|x'];
      destruct C as [C1 C2]; try discriminate; cbn [means]; f_equal; [|congruence].
    eapply utf8_text_inj; eassumption.
  - destruct H as [[_ ->]|Q]; [contradiction|]. now apply Al.
  - destruct H as [[_ ->]|Q]; [contradiction|]. now apply Al.
Qed.

(** Complete messages at the beginning of a sequence of frames are determined *)
Lemma complete_prefix a c x y : complete_message a -> complete_message c -> a ++ x = c ++ y -> a = c.
Proof.
  assert (G : forall a c x y, complete_message a -> complete_message c -> a ++ x = c ++ y ->
            (length a <= length c)%nat -> a = c).
  { clear. intros a c x y Ha Hc H L. apply app_eq_app in H as (m & [[-> _]|[-> _]]).
    - rewrite app_length in L. destruct m; [now rewrite app_nil_r|cbn [length] in L; lia].
    - destruct m as [|g m _] using rev_ind; [now rewrite app_nil_r|exfalso].
      assert (Fa : exists p h, a = p ++ [h] /\ final h).
      { destruct Ha as [(f & -> & _ & F)|(m' & h & -> & _ & _ & F)]; [exists [], f; now split|exists m', h; now split]. }
      destruct Fa as (p & h & -> & F).
      destruct Hc as [(f & E & _ & _)|(m' & h' & E & (f & rest & -> & O & Nf & R) & _)].
      + apply (f_equal (@length frame)) in E. rewrite !app_length in E. cbn [length] in E. lia.
      + rewrite app_assoc in E. apply app_inj_tail in E as [E _]. rewrite <- app_assoc in E. symmetry in E. cbn [app] in E.
        destruct (mid_frames f rest p h m R E) as [_ Q]. destruct (Q F) as [-> _]. contradiction. }
  intros Ha Hc H. destruct (Nat.le_gt_cases (length a) (length c)) as [L|L]; [eapply G; eauto|].
  symmetry. eapply G; eauto. lia.
Qed.
Lemma complete_not_unfinished a x u : complete_message a -> a ++ x = u -> ~ unfinished_message u.
Proof.
  intros Ha H (f & rest & -> & O & N & R).
  assert (Fa : exists p h, a = p ++ [h] /\ final h).
  { destruct Ha as [(g & -> & _ & F)|(m' & h & -> & _ & _ & F)]; [exists [], g; now split|exists m', h; now split]. }
  destruct Fa as (p & h & -> & F). rewrite <- app_assoc in H. symmetry in H. cbn [app] in H.
  destruct (mid_frames f rest p h x R H) as [_ Q]. destruct (Q F) as [-> _]. contradiction.
Qed.
Lemma messages_prefix dB rest dA cur : Forall complete_message dB -> Forall complete_message dA ->
  (cur = [] \/ unfinished_message cur) -> concat dB ++ rest = concat dA ++ cur ->
  exists later, dA = dB ++ later.
Proof.
  revert dA. induction dB as [|b dB IH]; intros dA FB FA Hc H; [now exists dA|].
  inversion FB as [|? ? Hb FB']; subst. cbn [concat] in H. rewrite <- app_assoc in H.
  destruct dA as [|a dA]; cbn [concat app] in H.
  - exfalso. destruct Hc as [->|Hc]; [|exact (complete_not_unfinished _ _ _ Hb H Hc)].
    apply app_eq_nil in H as [-> _]. destruct Hb as [(f & Q & _)|(m' & g & Q & _)]; [discriminate|destruct m'; discriminate].
  - inversion FA as [|? ? Ha FA']; subst. rewrite <- app_assoc in H. pose proof (complete_prefix _ _ _ _ Hb Ha H) as ->.
    apply app_inv_head in H. destruct (IH dA FB' FA' Hc H) as (later & ->). now exists later.
Qed.

(** The i-th call *)
Lemma calls_nth ls i c : nth_error (calls ls) i = Some c ->
  exists before after, ls = before ++ LCall c :: after /\ length (calls before) = i.
Proof.
  revert i. induction ls as [|l ls IH]; intros i H; [destruct i; discriminate|].
  assert (G : forall k, nth_error (calls ls) k = Some c -> i = (length (calls [l]) + k)%nat ->
    exists before after, l :: ls = before ++ LCall c :: after /\ length (calls before) = i).
  { intros k Hk ->. destruct (IH k Hk) as (before & after & -> & <-). exists (l :: before), after. split; [reflexivity|].
    change (l :: before) with ([l] ++ before). rewrite calls_app, app_length. reflexivity. }
  change (l :: ls) with ([l] ++ ls) in H. rewrite calls_app in H.
  destruct l; try (now apply (G i)). destruct i as [|i]; [|now apply (G i)].
  cbn [calls flat_map app nth_error] in H. apply some_inj in H as ->. now exists [], ls.
Qed.
Section A.
Context {E : Type} (X : ext_ops E) (cfg : config) (exts : list E).
Implicit Type st : conn E.
Lemma yielded_none i ls st : exec X cfg (initial exts) ls = Some st -> (length (calls ls) <= i)%nat -> yielded i ls = [].
Proof.
  revert st. induction ls as [|l ls IH] using rev_ind; intros st H L; [reflexivity|].
  rewrite exec_app in H. destruct (exec X cfg (initial exts) ls) as [st1|] eqn:H1; [|discriminate].
  cbn [exec] in H. destruct (step X cfg st1 l) as [st2|] eqn:S1; [|discriminate]. clear H.
  rewrite calls_app, app_length in L. rewrite yielded_app, (IH st1 eq_refl) by lia.
  destruct l; try reflexivity. cbn [yielded flat_map]. destruct a as [| | | | |[]]; try reflexivity.
  destruct (Nat.eq_dec i0 i) as [-> |]; [|reflexivity]. exfalso.
  destruct (Authors_exec X cfg exts ls st1 H1) as (Q & _). cbn [step] in S1. unfold step_user in S1.
  assert (Ni : nth_error (p_users st1) i <> None) by (intros N; now rewrite N in S1). apply nth_error_Some in Ni. lia.
Qed.
Lemma call_sends ls st i m : exec X cfg (initial exts) ls = Some st -> nth_error (calls ls) i = Some (CallSend m) ->
  sends_part m (items_of m i ls) (written_by (ByCall i) st).
Proof.
  intros H Hi. apply calls_nth in Hi as (before & after & -> & Hi).
  pose proof H as H'. rewrite exec_app in H'.
  destruct (exec X cfg (initial exts) before) as [st1|] eqn:H1; [|discriminate]. clear H'.
  destruct (C74_send E X cfg exts before m after st1 st H1 H) as [C _].
  destruct (Authors_exec X cfg exts before st1 H1) as (Q & _). rewrite Q, Hi in C.
  replace (items_of m i (before ++ LCall (CallSend m) :: after)) with (items_of m i after); [exact C|].
  destruct m; try reflexivity. cbn [items_of]. rewrite yielded_app, (yielded_none i before st1 H1) by lia. reflexivity.
Qed.

Definition by_ (i : nat) (x : sent) : bool := if writer_eq_dec (o_by x) (ByCall i) then true else false.
Lemma by_datas i l : Forall is_data (map o_frame (filter (by_ i) l)) -> filter (by_ i) l = filter (by_ i) (datas l).
Proof.
  induction l as [|x l IH]; [reflexivity|]. unfold datas. cbn [filter]. fold (datas l). intros H.
  destruct (by_ i x) eqn:B.
  - inversion H as [|? ? D H']; subst. assert (Dx : is_data_b (o_frame x) = true).
    { unfold is_data_b. destruct D as [-> |[-> | ->]]; reflexivity. }
    rewrite Dx. cbn [filter]. rewrite B. f_equal. now apply IH.
  - destruct (is_data_b (o_frame x)); cbn [filter]; [rewrite B|]; now apply IH.
Qed.
Lemma by_all i l : all_by (ByCall i) l -> filter (by_ i) l = l.
Proof.
  induction 1 as [|x l H _ IH]; [reflexivity|]. cbn [filter]. unfold by_ at 1.
  destruct (writer_eq_dec (o_by x) (ByCall i)); [now rewrite IH|contradiction].
Qed.

(* a message is all that the call which sent it has written *)
Lemma whole_call ls st l1 a l2 : exec X cfg (initial exts) ls = Some st ->
  datas (p_out st) = l1 ++ a ++ l2 -> whole a ->
  exists i m, nth_error (calls ls) i = Some (CallSend m) /\ all_by (ByCall i) a /\
    filter (by_ i) l1 = [] /\ filter (by_ i) l2 = [] /\ map o_frame a = written_by (ByCall i) st /\
    sends_all m (items_of m i ls) (written_by (ByCall i) st).
Proof.
  intros H D [C [w W]].
  destruct (Authors_exec X cfg exts ls st H) as (_ & _ & Au).
  assert (Ha : exists x a', a = x :: a').
  { destruct a as [|x a']; [|eauto]. destruct C as [(f & Q & _)|(m' & g & Q & _)]; [discriminate|destruct m'; discriminate]. }
  destruct Ha as (x & a' & Ea).
  destruct (Au x) as (i & m & Bx & Hi); [rewrite D, Ea; apply in_or_app; right; now left|].
  assert (w = ByCall i) as -> by (rewrite Ea in W; inversion W; congruence).
  pose proof (call_sends ls st i m H Hi) as Sp. exists i, m. split; [exact Hi|]. split; [exact W|].
  assert (Fd : filter (by_ i) (p_out st) = filter (by_ i) l1 ++ a ++ filter (by_ i) l2).
  { rewrite by_datas; [rewrite D, !filter_app, (by_all i a W); reflexivity|].
    change (map o_frame (filter (by_ i) (p_out st))) with (written_by (ByCall i) st). apply Forall_forall. intros g Hg.
    apply in_split in Hg as (pre & post & Eg). now apply (sends_part_frames m _ _ pre g post Sp). }
  assert (Ws : written_by (ByCall i) st = map o_frame (filter (by_ i) l1) ++ map o_frame a ++ map o_frame (filter (by_ i) l2)).
  { unfold written_by. change (filter (fun x0 => if writer_eq_dec (o_by x0) (ByCall i) then true else false) (p_out st))
      with (filter (by_ i) (p_out st)). rewrite Fd, !map_app. reflexivity. }
  assert (First : exists f rest, map o_frame a = f :: rest /\ opens f).
  { destruct C as [(f & -> & O & _)|(m' & g & -> & (f & r & -> & O & _) & _)]; [now exists f, []|].
    now exists f, (r ++ [g]). }
  assert (Last : exists rest g, map o_frame a = rest ++ [g] /\ final g).
  { destruct C as [(f & -> & _ & F)|(m' & g & -> & _ & _ & F)]; [now exists [], f|now exists m', g]. }
  destruct First as (f & rest & Ef & O). destruct Last as (rest' & g & Eg & F).
  assert (L1 : map o_frame (filter (by_ i) l1) = []).
  { refine (proj1 (proj2 (sends_part_frames m _ _ _ f (rest ++ map o_frame (filter (by_ i) l2)) Sp _)) O).
    rewrite Ws, Ef. reflexivity. }
  assert (L2 : map o_frame (filter (by_ i) l2) = [] /\ sends_all m (items_of m i ls) (written_by (ByCall i) st)).
  { refine (proj2 (proj2 (sends_part_frames m _ _ (map o_frame (filter (by_ i) l1) ++ rest') g _ Sp _)) F).
    rewrite Ws, Eg, <- !app_assoc. reflexivity. }
  destruct L2 as [L2 Sa]. apply map_eq_nil in L1, L2. split; [exact L1|]. split; [exact L2|]. split; [|exact Sa].
  rewrite Ws, L1, L2. cbn [map app]. now rewrite app_nil_r.
Qed.
End A.

Lemma data_frames_map l : data_frames (map o_frame l) = map o_frame (datas l).
Proof.
  unfold data_frames, datas. induction l as [|x l IH]; [reflexivity|]. cbn [map filter].
  destruct (is_data_b (o_frame x)); cbn [map]; now rewrite IH.
Qed.

Section Both.
Context {E E' : Type} (XA : ext_ops E) (cfgA : config) (extsA : list E) (lsA : list label) (stA : conn E).
Context (XB : ext_ops E') (cfgB : config) (extsB : list E') (lsB : list label) (stB : conn E').

(* If the frames read on B are the first frames written on A, messages arrive. *)
Lemma frames_deliver :
  execution XA cfgA extsA lsA stA -> no_overlap XA cfgA extsA lsA -> execution XB cfgB extsB lsB stB ->
  (exists later, map o_frame (p_out stA) = p_in stB ++ later) -> delivers lsA stA stB.
Proof.
  intros HA N HB (later & P).
  destruct (C60_not_interleaved_partial E XA cfgA extsA lsA stA HA N) as (dA & cur & DA & WA & CA).
  destruct (C56_messages E' XB cfgB extsB lsB stB HB) as (dB & rest & DB & WB & Ca & _).
  assert (Q : concat dB ++ (rest ++ data_frames later) = concat (map (map o_frame) dA) ++ map o_frame cur).
  { apply (f_equal data_frames) in P. rewrite data_frames_map, DA in P. unfold data_frames at 1 in P.
    rewrite filter_app in P. fold (data_frames (p_in stB)) in P. fold (data_frames later) in P. rewrite DB in P.
    rewrite app_assoc, <- P, map_app, concat_map. reflexivity. }
  apply messages_prefix in Q; [|exact WB| |].
  2: { apply Forall_map. eapply Forall_impl; [|exact WA]. now intros a [? _]. }
  2: { destruct CA as [->|(w & U & _)]; [now left|now right]. }
  destruct Q as (laterA & Q). apply map_eq_app in Q as (d1 & d2 & -> & <- & <-).
  rewrite concat_app, <- app_assoc in DA. apply Forall_app in WA as [W1 _].
  revert DA. generalize (concat d2 ++ cur). clear CA. intros tl DA.
  enough (G : forall pre, datas (p_out stA) = pre ++ concat d1 ++ tl -> forall msgs, Forall2 carries (map (map o_frame) d1) msgs ->
    exists order, map o_frame (concat d1) = flat_map (fun i => written_by (ByCall i) stA) order /\ NoDup order /\
      Forall (fun i => filter (by_ i) pre = []) order /\
      Forall2 (fun i msg => exists m, nth_error (calls lsA) i = Some (CallSend m) /\ means m (items_of m i lsA) msg) order msgs).
  { destruct (G [] DA _ Ca) as (order & O1 & O2 & _ & O3). exists order, (map o_frame tl).
    rewrite DA, map_app, O1. now split. }
  clear DA Ca DB WB rest P. induction d1 as [|a d1 IH]; intros pre DA msgs Ca.
  - inversion Ca; subst. exists []. split; [reflexivity|]. split; [constructor|]. split; constructor.
  - inversion Ca as [|? msg ? msgs' C1 C2]; subst. inversion W1 as [|? ? Wa W1']; subst.
    cbn [concat] in DA. rewrite <- app_assoc in DA.
    destruct (whole_call XA cfgA extsA lsA stA pre a (concat d1 ++ tl) HA DA Wa)
      as (i & m & Hi & By & F1 & F2 & Wr & Sa).
    rewrite app_assoc in DA. destruct (IH W1' _ DA _ C2) as (order & O1 & O2 & O3 & O4).
    exists (i :: order). cbn [concat flat_map]. rewrite map_app, O1, Wr. split; [reflexivity|].
    assert (Ni : ~ In i order).
    { intros Hin. rewrite Forall_forall in O3. specialize (O3 i Hin). rewrite filter_app, (by_all i a By) in O3.
      apply app_eq_nil in O3 as [_ ->]. cbn [map] in C1. contradiction. }
    split; [now constructor|]. split.
    + constructor; [exact F1|]. eapply Forall_impl; [|exact O3]. cbv beta. intros j Hj. rewrite filter_app in Hj.
      now apply app_eq_nil in Hj as [Hj _].
    + constructor; [|exact O4]. exists m. split; [exact Hi|]. rewrite Wr in C1. eapply sends_all_means; eassumption.
Qed.
End Both.
