(* Imports of modules: what namespaces contain, whatever was imported and accessed before. *)
From Verif Require Import Base.Prelude Base.PreludeFacts Model.Imports.
Local Open Scope N_scope.

Lemma path_eqb_eq p : forall q, path_eqb p q = true <-> p = q.
Proof.
  induction p as [|x p IH]; intros [|y q]; cbn; split; intros H; try discriminate; try reflexivity.
  - apply andb_prop in H as [H1 H2]. apply str_eqb_eq in H1. apply IH in H2. congruence.
  - injection H as -> ->. rewrite (proj2 (str_eqb_eq y y) eq_refl). apply IH. reflexivity.
Qed.
Lemma path_eqb_refl p : path_eqb p p = true. Proof. now apply path_eqb_eq. Qed.

Lemma assoc_app {A} (l l' : list (str * A)) k :
  assoc (l ++ l') k = match assoc l k with Some v => Some v | None => assoc l' k end.
Proof. induction l as [|[k' v] l IH]; cbn; [reflexivity|]. destruct (str_eqb k' k); auto. Qed.
Lemma assoc_In {A} (l : list (str * A)) k v : assoc l k = Some v -> In (k, v) l.
Proof.
  induction l as [|[k' v'] l IH]; cbn; [discriminate|]. destruct (str_eqb k' k) eqn:E.
  - apply str_eqb_eq in E. intros [= ->]. subst. now left.
  - intros H. right. auto.
Qed.

Lemma module_set_attr ms p n o q :
  module (set_attr ms p n o) q =
  match module ms q with
  | Some ns => Some (if path_eqb p q then (n, o) :: ns else ns)
  | None => None
  end.
Proof.
  induction ms as [|[r ns] ms IH]; cbn; [reflexivity|].
  destruct (path_eqb r p) eqn:E; cbn.
  - apply path_eqb_eq in E. subst r. destruct (path_eqb p q) eqn:E; [reflexivity|].
    destruct (module ms q); reflexivity.
  - destruct (path_eqb r q) eqn:E'; [|exact IH].
    apply path_eqb_eq in E'. subst r. destruct (path_eqb p q) eqn:E'; [|reflexivity].
    apply path_eqb_eq in E'. subst. rewrite path_eqb_refl in E. discriminate.
Qed.

Section Program.
Context (files : path -> option source).

Definition children (p : path) (l : list (str * object)) : Prop :=
  Forall (fun kv => snd kv = OModule (p ++ [fst kv]) /\ files (p ++ [fst kv]) <> None) l.
Record consistent (ms : modules) : Prop := {
  cs_names : forall p ns, module ms p = Some ns ->
    exists src l, files p = Some src /\ ns = l ++ names_of p src /\ children p l;
  cs_parent : forall p c ns, module ms (p ++ [c]) = Some ns -> p <> [] ->
    exists ns', module ms p = Some ns' /\ assoc ns' c = Some (OModule (p ++ [c])) }.

Definition loaded (ms : modules) (p : path) : Prop := module ms p <> None.

Lemma consistent_nil : consistent [].
Proof. split; intros; discriminate. Qed.

Lemma app_one_inj {A} (p q : list A) x y : p ++ [x] = q ++ [y] -> p = q /\ x = y.
Proof. apply app_inj_tail. Qed.

Lemma consistent_step ms parent c src :
  consistent ms -> (parent = [] \/ loaded ms parent) ->
  module ms (parent ++ [c]) = None -> files (parent ++ [c]) = Some src ->
  consistent (set_attr ((parent ++ [c], names_of (parent ++ [c]) src) :: ms) parent c (OModule (parent ++ [c]))).
Proof.
  intros [CN CP] HP HM HF.
  assert (ne : parent <> parent ++ [c]).
  { intros E. apply (f_equal (@length _)) in E. rewrite app_length in E. cbn in E. lia. }
  split.
  - intros p ns. rewrite module_set_attr. cbn [module].
    destruct (path_eqb (parent ++ [c]) p) eqn:E.
    + apply path_eqb_eq in E. subst p. destruct (path_eqb parent (parent ++ [c])) eqn:E.
      { apply path_eqb_eq in E. now destruct ne. }
      intros [= <-]. exists src, []. repeat split; [exact HF|constructor].
    + destruct (module ms p) as [ns'|] eqn:M; [|discriminate]. intros [= <-].
      destruct (CN _ _ M) as (src' & l & F & -> & C).
      destruct (path_eqb parent p) eqn:E'.
      * apply path_eqb_eq in E'. subst p. exists src', ((c, OModule (parent ++ [c])) :: l).
        split; [exact F|]. split; [reflexivity|]. constructor; [|exact C]. cbn. split; [reflexivity|congruence].
      * exists src', l. now repeat split.
  - intros p c' ns. rewrite !module_set_attr. cbn [module]. intros H NE.
    destruct (path_eqb (parent ++ [c]) (p ++ [c'])) eqn:E.
    + apply path_eqb_eq in E. apply app_one_inj in E as [<- <-].
      destruct HP as [HP | HP]; [now destruct NE|]. unfold loaded in HP.
      destruct (path_eqb (parent ++ [c]) parent) eqn:E; [apply path_eqb_eq in E; congruence|].
      destruct (module ms parent) as [ns'|] eqn:M; [|now destruct HP].
      rewrite path_eqb_refl. eexists. split; [reflexivity|]. cbn. now rewrite (proj2 (str_eqb_eq c c) eq_refl).
    + destruct (module ms (p ++ [c'])) as [ns'|] eqn:M; [|discriminate].
      destruct (CP _ _ _ M NE) as (ns'' & M' & A).
      destruct (path_eqb (parent ++ [c]) p) eqn:E'.
      { apply path_eqb_eq in E'. subst p. congruence. }
      rewrite M'. eexists. split; [reflexivity|].
      destruct (path_eqb parent p) eqn:E''; [|exact A]. cbn.
      destruct (str_eqb c c') eqn:Ec; [|exact A].
      apply str_eqb_eq in Ec. apply path_eqb_eq in E''. now subst.
Qed.

Lemma load_consistent rest : forall ms parent ms' e,
  load files ms parent rest = (ms', e) -> consistent ms -> (parent = [] \/ loaded ms parent) ->
  consistent ms' /\ (forall p, loaded ms p -> loaded ms' p) /\ (e = None -> rest <> [] -> loaded ms' (parent ++ rest)).
Proof.
  induction rest as [|c rest IH]; intros ms parent ms' e; cbn [load].
  { intros [= <- <-] C _. split; [exact C|]. split; [auto|]. intros _ H. now destruct H. }
  assert (fin : forall ms0, loaded ms0 (parent ++ [c]) ->
    ((forall p, loaded ms0 p -> loaded ms' p) /\ (e = None -> rest <> [] -> loaded ms' ((parent ++ [c]) ++ rest))) ->
    (e = None -> c :: rest <> [] -> loaded ms' (parent ++ c :: rest))).
  { intros ms0 L [K1 K2] He _. destruct rest as [|d rest]; [auto|].
    rewrite <- app_assoc in K2. apply K2; [exact He|discriminate]. }
  destruct (module ms (parent ++ [c])) as [ns|] eqn:M.
  - intros L C HP. assert (L0 : loaded ms (parent ++ [c])) by (unfold loaded; congruence).
    destruct (IH _ _ _ _ L C (or_intror L0)) as (C' & K1 & K2).
    split; [exact C'|]. split; [exact K1|]. apply (fin ms); auto.
  - destruct (files (parent ++ [c])) as [src|] eqn:F.
    2: { intros [= <- <-] C _. split; [exact C|]. split; [auto|]. discriminate. }
    destruct (lazy_conflict src) eqn:LC.
    { intros [= <- <-] C _. split; [exact C|]. split; [auto|]. discriminate. }
    intros L C HP. pose proof (consistent_step _ _ _ _ C HP M F) as C1.
    match type of C1 with consistent ?m => set (ms1 := m) in * end.
    assert (L1 : loaded ms1 (parent ++ [c])).
    { unfold loaded, ms1. rewrite module_set_attr. cbn [module]. rewrite path_eqb_refl. discriminate. }
    assert (Lp : forall p, loaded ms p -> loaded ms1 p).
    { intros p Hp. unfold loaded, ms1 in *. rewrite module_set_attr. cbn [module].
      destruct (path_eqb (parent ++ [c]) p); [discriminate|]. destruct (module ms p); [discriminate|exact Hp]. }
    destruct (IH _ _ _ _ L C1 (or_intror L1)) as (C' & K1 & K2).
    split; [exact C'|]. split; [auto|]. apply (fin ms1); auto.
Qed.

Lemma import_consistent ms p ms' e :
  import_module files ms p = (ms', e) -> consistent ms ->
  consistent ms' /\ (forall q, loaded ms q -> loaded ms' q) /\ (e = None -> p <> [] -> loaded ms' p).
Proof. intros H C. exact (load_consistent _ _ _ _ _ H C (or_introl eq_refl)). Qed.

Lemma get_attr_consistent depth : forall ms p name ms' w r,
  get_attr files depth ms p name = (ms', w, r) -> consistent ms ->
  consistent ms' /\ (forall q, loaded ms q -> loaded ms' q).
Proof.
  induction depth as [|depth IH]; intros ms p name ms' w r; cbn [get_attr].
  { intros [= <- _ _] C. auto. }
  destruct (module ms p) as [ns|]; [|intros [= <- _ _] C; auto].
  destruct (files p) as [src|]; [|intros [= <- _ _] C; auto].
  destruct (assoc ns name); [intros [= <- _ _] C; auto|].
  set (imp := import_name files (get_attr files depth) ms p src name).
  assert (HI : forall source ms' w r, imp source = (ms', w, r) -> consistent ms ->
    consistent ms' /\ (forall q, loaded ms q -> loaded ms' q)).
  { clear ms' w r. intros source ms' w r. unfold imp, import_name.
    destruct (resolve p (so_package src) source) as [target|e]; [|intros [= <- _ _] C; auto].
    destruct (import_module files ms target) as [ms1 o1] eqn:I1. intros H C.
    destruct (import_consistent _ _ _ _ I1 C) as (C1 & K1 & _). revert H.
    destruct o1 as [e|]; [intros [= <- _ _]; auto|].
    destruct (files target) as [t|]; [|intros [= <- _ _]; auto].
    destruct (so_package t).
    2: { intros H. destruct (IH _ _ _ _ _ _ H C1). auto. }
    destruct (get_attr files depth ms1 target name) as [[ms2 w2] r2] eqn:G2.
    destruct (IH _ _ _ _ _ _ G2 C1) as (C2 & K2).
    destruct r2 as [o|e].
    { destruct (get_attr files depth ms2 target name) as [[ms3 w3] r3] eqn:G3.
      destruct (IH _ _ _ _ _ _ G3 C2). intros [= <- _ _]. auto 12. }
    destruct e; try (intros [= <- _ _]; auto 12; fail).
    destruct (import_module files ms2 (target ++ [name])) as [ms3 o3] eqn:I3.
    destruct (import_consistent _ _ _ _ I3 C2) as (C3 & K3 & _).
    destruct (get_attr files depth ms3 target name) as [[ms4 w4] r4] eqn:G4.
    destruct (IH _ _ _ _ _ _ G4 C3).
    destruct o3 as [[]|]; intros [= <- _ _]; auto 12. }
  destruct (so_lazy src) as [[al dep]|]; [|intros [= <- _ _] C; auto].
  destruct (assoc al name) as [so|]; [apply HI|].
  destruct (assoc dep name) as [so|]; [|intros [= <- _ _] C; auto].
  destruct (imp so) as [[ms1 w1] r1] eqn:E. intros [= <- _ _] C. eapply HI; eauto.
Qed.

Lemma after_consistent depth os : consistent (after files depth os).
Proof.
  unfold after. assert (H : consistent []) by apply consistent_nil. revert H. generalize (@nil (path * list (str * object))).
  induction os as [|o os IH]; intros ms C; cbn [fold_left]; [exact C|]. apply IH.
  destruct o as [p|p name]; cbn [operate].
  - destruct (import_module files ms p) eqn:E. now apply (import_consistent _ _ _ _ E).
  - destruct (get_attr files depth ms p name) as [[? ?] ?] eqn:E. now apply (get_attr_consistent _ _ _ _ _ _ _ E).
Qed.

(* every module on the way to p exists and can be executed *)
Definition importable (p : path) : Prop :=
  p <> [] /\ forall k, (0 < k <= length p)%nat -> exists src, files (firstn k p) = Some src /\ lazy_conflict src = false.

Lemma load_ok rest : forall ms parent,
  (forall k, (0 < k <= length rest)%nat ->
    exists src, files (parent ++ firstn k rest) = Some src /\ lazy_conflict src = false) ->
  snd (load files ms parent rest) = None.
Proof.
  induction rest as [|c rest IH]; intros ms parent H; [reflexivity|]. cbn [load].
  assert (H' : forall k, (0 < k <= length rest)%nat ->
    exists src, files ((parent ++ [c]) ++ firstn k rest) = Some src /\ lazy_conflict src = false).
  { intros k Hk. destruct (H (S k)) as (src & F & L); [cbn; lia|]. cbn [firstn] in F.
    exists src. rewrite <- app_assoc. auto. }
  destruct (H 1%nat) as (src & F & L); [cbn; lia|]. cbn [firstn] in F. rewrite F, L.
  destruct (module ms (parent ++ [c])); apply IH; exact H'.
Qed.

Lemma importable_app p name src :
  importable p -> files (p ++ [name]) = Some src -> lazy_conflict src = false -> importable (p ++ [name]).
Proof.
  intros [NE H] F L. split; [now destruct p|]. intros k Hk. rewrite app_length in Hk. cbn in Hk.
  destruct (Nat.eq_dec k (S (length p))) as [->|].
  - exists src. split; [|exact L]. rewrite firstn_all2; [exact F|rewrite app_length; cbn; lia].
  - rewrite firstn_app. replace (k - length p)%nat with 0%nat by lia. cbn [firstn]. rewrite app_nil_r. apply H. lia.
Qed.

Lemma import_ok ms p : importable p -> snd (import_module files ms p) = None.
Proof. intros [_ H]. apply load_ok. exact H. Qed.

Lemma assoc_children p l name o : children p l -> assoc l name = Some o -> o = OModule (p ++ [name]) /\ files (p ++ [name]) <> None.
Proof.
  intros C A. apply assoc_In in A. unfold children in C. rewrite Forall_forall in C. exact (C _ A).
Qed.

(* names bound in the namespace of a module which is loaded *)
Lemma name_bound ms p src name :
  consistent ms -> loaded ms p -> files p = Some src -> files (p ++ [name]) = None ->
  exists ns, module ms p = Some ns /\ assoc ns name = assoc (names_of p src) name.
Proof.
  intros C L F N. unfold loaded in L. destruct (module ms p) as [ns|] eqn:M; [|now destruct L].
  destruct (cs_names _ C _ _ M) as (src' & l & F' & -> & Ch). rewrite F in F'. injection F' as <-.
  eexists. split; [reflexivity|]. rewrite assoc_app. destruct (assoc l name) as [o|] eqn:A; [|reflexivity].
  now destruct (assoc_children _ _ _ _ Ch A).
Qed.

Lemma get_bound ms p src name o depth :
  consistent ms -> loaded ms p -> files p = Some src -> files (p ++ [name]) = None ->
  assoc (names_of p src) name = Some o -> get_attr files (S depth) ms p name = (ms, 0%nat, inl o).
Proof.
  intros C L F N A. destruct (name_bound _ _ _ _ C L F N) as (ns & M & E). cbn [get_attr].
  now rewrite M, F, E, A.
Qed.

Lemma get_unknown ms p src name depth :
  consistent ms -> loaded ms p -> files p = Some src -> files (p ++ [name]) = None ->
  assoc (names_of p src) name = None ->
  (forall al dep, so_lazy src = Some (al, dep) -> assoc al name = None /\ assoc dep name = None) ->
  get_attr files (S depth) ms p name = (ms, 0%nat, inr AttributeError).
Proof.
  intros C L F N A Hl. destruct (name_bound _ _ _ _ C L F N) as (ns & M & E). cbn [get_attr].
  rewrite M, F, E, A. destruct (so_lazy src) as [[al dep]|]; [|reflexivity].
  destruct (Hl _ _ eq_refl) as [-> ->]. reflexivity.
Qed.

(* a submodule of a package without lazy imports *)
Lemma get_submodule ms p src name o depth :
  consistent ms -> loaded ms p -> files p = Some src -> so_lazy src = None ->
  assoc (names_of p src) name = None ->
  get_attr files (S depth) ms p name = (ms, 0%nat, inr AttributeError) \/
  (get_attr files (S depth) ms p name = (ms, 0%nat, inl o) -> o = OModule (p ++ [name])) /\
  get_attr files (S depth) ms p name = (ms, 0%nat, inl (OModule (p ++ [name]))).
Proof.
  intros C L F Z A. unfold loaded in L. destruct (module ms p) as [ns|] eqn:M; [|now destruct L].
  destruct (cs_names _ C _ _ M) as (src' & l & F' & -> & Ch). rewrite F in F'. injection F' as <-.
  cbn [get_attr]. rewrite M, F, assoc_app. destruct (assoc l name) as [o'|] eqn:E.
  - destruct (assoc_children _ _ _ _ Ch E) as [-> _]. right. split; [now intros [= <-]|reflexivity].
  - left. rewrite A. now rewrite Z.
Qed.

Lemma get_loaded_submodule ms p src name depth :
  consistent ms -> loaded ms (p ++ [name]) -> p <> [] -> files p = Some src ->
  get_attr files (S depth) ms p name = (ms, 0%nat, inl (OModule (p ++ [name]))).
Proof.
  intros C L NE F. unfold loaded in L. destruct (module ms (p ++ [name])) as [ns|] eqn:M; [|now destruct L].
  destruct (cs_parent _ C _ _ _ M NE) as (ns' & M' & A). cbn [get_attr]. now rewrite M', F, A.
Qed.
End Program.
