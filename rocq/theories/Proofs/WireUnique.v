(* The first frame in a sequence of bytes is determined. *)
From Verif Require Import Base.Prelude Base.PreludeFacts Model.Streams Model.Frames
  Spec.Rfc6455 Spec.FrameSpec Proofs.FramesFacts.
Local Open Scope N_scope.

Lemma on_wire_inj f key g key' : on_wire f key = on_wire g key' -> f = g.
Proof.
  destruct f as [? ? ? ? ? ?], g as [? ? ? ? ? ?]. unfold on_wire. cbn. intros H.
  injection H as -> -> -> -> O _ ->. apply rfc_opcode_inj in O. now subst.
Qed.
Lemma layout_parse f key w rest mask : layout (on_wire f key) w -> is_masked (on_wire f key) = mask ->
  run (parse_wire mask None) {| r_buffer := w ++ rest; r_eof := false |} tt
  = ODone f {| r_buffer := rest; r_eof := false |} tt.
Proof.
  intros L M.
  destruct (parse_wire_layout mask None _ w rest {| r_buffer := w ++ rest; r_eof := false |} tt L eq_refl) as (res & V & R).
  assert (K : kind_of_opcode (w_opcode (on_wire f key)) <> None) by (apply kind_opcode; cbn; eauto).
  inversion V as [K'|K' M'|m K' M' EM F|f0 key0 M' F O]; subst res; [congruence|congruence|discriminate|].
  apply on_wire_inj in O. subst f0. exact R.
Qed.
Lemma layout_unique f key w x g key' w' x' :
  layout (on_wire f key) w -> layout (on_wire g key') w' -> is_masked (on_wire f key) = is_masked (on_wire g key') ->
  w ++ x = w' ++ x' -> f = g /\ x = x'.
Proof.
  intros L L' M H. pose proof (layout_parse f key w x _ L M) as P. pose proof (layout_parse g key' w' x' _ L' eq_refl) as P'.
  rewrite H, P' in P. injection P as -> ->. now split.
Qed.
Lemma layout_nonempty wf w : layout wf w -> w <> [].
Proof. intros (ext & b0 & b1 & key & body & -> & _) Q. discriminate. Qed.

(* Frames found at the beginning of what was written are the first ones written. *)
Definition framed (mask : bool) (f : frame) (w : bytes) : Prop :=
  exists key, layout (on_wire f key) w /\ is_masked (on_wire f key) = mask.
Lemma frames_prefix mask fs ws fs' ws' unread tail :
  Forall2 (framed mask) fs ws -> Forall2 (framed mask) fs' ws' ->
  concat ws = concat ws' ++ unread ++ tail -> exists later, fs = fs' ++ later.
Proof.
  intros F F'. revert fs ws F. induction F' as [|f' w' fs' ws' (k' & L' & M') F' IH]; intros fs ws F H; [now exists fs|].
  destruct F as [|f w fs ws (k & L & M) F].
  - cbn [concat] in H. symmetry in H. apply layout_nonempty in L'. destruct w'; [contradiction|discriminate].
  - cbn [concat] in H. rewrite <- app_assoc in H.
    destruct (layout_unique f k w _ f' k' w' _ L L' (eq_trans M (eq_sym M')) H) as [-> H'].
    destruct (IH fs ws F H') as (later & ->). now exists later.
Qed.
