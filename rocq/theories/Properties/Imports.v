(* C99: names which are imported lazily. *)
From Verif Require Import Base.Prelude Base.PreludeFacts Model.Imports Model.ImportTables Spec.PublicNames Proofs.Imports.
Local Open Scope N_scope.

Section Program.
Context (files : path -> option source).

(* "from target import name" gives o in a program that only contains this statement: the name is bound by the module,
   or it's a submodule of a package *)
Definition exports (target : path) (name : str) (o : object) : Prop :=
  exists t, files target = Some t /\
    ((assoc (names_of target t) name = Some o /\ files (target ++ [name]) = None) \/
     (so_package t = true /\ so_lazy t = None /\ assoc (names_of target t) name = None /\
      o = OModule (target ++ [name]) /\ exists sub, files (target ++ [name]) = Some sub /\ lazy_conflict sub = false)).

(* the name isn't bound by module p and isn't a submodule *)
Definition free_name (p : path) (name : str) : Prop :=
  files (p ++ [name]) = None /\ exists src, files p = Some src /\ assoc (names_of p src) name = None.

Definition imported (ms : modules) (p : path) : Prop := module ms p <> None.

Lemma import_name_exports ms p src name source target o depth :
  consistent files ms -> resolve p (so_package src) source = inl target ->
  importable files target -> exports target name o ->
  exists ms', import_name files (get_attr files (S depth)) ms p src name source = (ms', 0%nat, inl o).
Proof.
  intros C R I (t & F & E). unfold import_name. rewrite R.
  pose proof (import_ok files ms target I) as IO.
  destruct (import_module files ms target) as [ms1 o1] eqn:I1. cbn in IO. subst o1.
  destruct (import_consistent files _ _ _ _ I1 C) as (C1 & _ & L1). specialize (L1 eq_refl (proj1 I)).
  rewrite F. destruct E as [[A N] | (PK & LZ & A & -> & sub & FS & LC)].
  - pose proof (get_bound files ms1 target t name o depth C1 L1 F N A) as G.
    destruct (so_package t); rewrite G; [rewrite G|]; eexists; reflexivity.
  - rewrite PK. destruct (get_submodule files ms1 target t name (OModule (target ++ [name])) depth C1 L1 F LZ A) as [G | [_ G]].
    + rewrite G. pose proof (importable_app files target name sub I FS LC) as I'.
      pose proof (import_ok files ms1 _ I') as IO.
      destruct (import_module files ms1 (target ++ [name])) as [ms2 o2] eqn:I2. cbn in IO. subst o2.
      destruct (import_consistent files _ _ _ _ I2 C1) as (C2 & _ & L2). specialize (L2 eq_refl (proj1 I')).
      rewrite (get_loaded_submodule files ms2 target t name depth C2 L2 (proj1 I) F). eexists. reflexivity.
    + rewrite G, G. eexists. reflexivity.
Qed.

(* lazy_import() in a module makes a name of another module available, whatever was imported and accessed before, and
   warns each time when the name is deprecated *)
Theorem C99_lazy_import : forall depth os p src aliases deprecated name source target o,
  (2 <= depth)%nat -> imported (after files depth os) p -> files p = Some src ->
  so_lazy src = Some (aliases, deprecated) -> free_name p name ->
  resolve p (so_package src) source = inl target -> importable files target -> exports target name o ->
  (assoc aliases name = Some source -> exists ms, get_attr files depth (after files depth os) p name = (ms, 0%nat, inl o)) /\
  (assoc aliases name = None -> assoc deprecated name = Some source ->
   exists ms, get_attr files depth (after files depth os) p name = (ms, 1%nat, inl o)).
Proof.
  intros depth os p src al dep name source target o Hd L F LZ (N & src' & F' & A) R I E.
  rewrite F in F'. injection F' as <-.
  pose proof (after_consistent files depth os) as C. set (ms := after files depth os) in *.
  destruct depth as [|[|depth]]; [lia|lia|].
  destruct (name_bound files ms p src name C L F N) as (ns & M & Ea).
  destruct (import_name_exports ms p src name source target o depth C R I E) as [ms' G].
  assert (U : get_attr files (S (S depth)) ms p name =
    match assoc al name with
    | Some source => import_name files (get_attr files (S depth)) ms p src name source
    | None => match assoc dep name with
              | Some source => let '(ms, w, r) := import_name files (get_attr files (S depth)) ms p src name source in (ms, S w, r)
              | None => (ms, 0%nat, inr AttributeError)
              end
    end).
  { change (get_attr files (S (S depth)) ms p name) with
      (match module ms p, files p with
       | Some ns, Some src =>
         match assoc ns name with
         | Some o => (ms, 0%nat, inl o)
         | None =>
           match so_lazy src with
           | None => (ms, 0%nat, inr AttributeError)
           | Some (aliases, deprecated_aliases) =>
             match assoc aliases name with
             | Some source => import_name files (get_attr files (S depth)) ms p src name source
             | None =>
               match assoc deprecated_aliases name with
               | Some source => let '(ms, w, r) := import_name files (get_attr files (S depth)) ms p src name source in (ms, S w, r)
               | None => (ms, 0%nat, inr AttributeError)
               end
             end
           end
         end
       | _, _ => (ms, 0%nat, inr AttributeError)
       end).
    now rewrite M, F, Ea, A, LZ. }
  split.
  - intros HA. rewrite U, HA, G. eexists. reflexivity.
  - intros HA HD. rewrite U, HA, HD, G. eexists. reflexivity.
Qed.

(* A name which isn't an alias, isn't bound and isn't a submodule raises AttributeError; nothing is imported. *)
Theorem C99_unknown_name : forall depth os p src name,
  (1 <= depth)%nat -> imported (after files depth os) p -> files p = Some src -> free_name p name ->
  (forall aliases deprecated, so_lazy src = Some (aliases, deprecated) -> assoc aliases name = None /\ assoc deprecated name = None) ->
  get_attr files depth (after files depth os) p name = (after files depth os, 0%nat, inr AttributeError).
Proof.
  intros [|depth] os p src name Hd L F (N & src' & F' & A) H; [lia|]. rewrite F in F'. injection F' as <-.
  exact (get_unknown files _ p src name depth (after_consistent files _ os) L F N A H).
Qed.

(* dir() lists every alias. *)
Theorem C99_dir_partial : forall src aliases deprecated name,
  so_lazy src = Some (aliases, deprecated) ->
  (In name (map fst aliases) \/ In name (map fst deprecated) \/ In name (map fst (so_before src))) ->
  exists l, lazy_dir src = Some l /\ In name l.
Proof.
  intros src al dep name E H. unfold lazy_dir. rewrite E. eexists. split; [reflexivity|].
  rewrite !in_app_iff. tauto.
Qed.

(* Boolean version of the hypotheses *)
Definition importable_b (p : path) : bool :=
  match p with [] => false | _ => true end &&
  forallb (fun k => match files (firstn k p) with Some src => negb (lazy_conflict src) | None => false end) (seq 1 (length p)).
Definition object_eqb (a b : object) : bool :=
  match a, b with
  | OModule p, OModule q => path_eqb p q
  | OObject p x, OObject q y => path_eqb p q && str_eqb x y
  | _, _ => false
  end.
Definition exports_b (target : path) (name : str) (o : object) : bool :=
  match files target with
  | None => false
  | Some t =>
    match assoc (names_of target t) name, files (target ++ [name]) with
    | Some o', None => object_eqb o' o
    | None, Some sub => so_package t && match so_lazy t with None => true | _ => false end &&
                        object_eqb o (OModule (target ++ [name])) && negb (lazy_conflict sub)
    | _, _ => false
    end
  end.
Definition alias_b (p : path) (name : str) (o : object) (deprecation : bool) : bool :=
  match files p, files (p ++ [name]) with
  | Some src, None =>
    match assoc (names_of p src) name, so_lazy src with
    | None, Some (al, dep) =>
      match assoc al name, assoc dep name with
      | Some source, None =>
          negb deprecation && match resolve p (so_package src) source with
                              | inl target => importable_b target && exports_b target name o | inr _ => false end
      | None, Some source =>
          deprecation && match resolve p (so_package src) source with
                         | inl target => importable_b target && exports_b target name o | inr _ => false end
      | _, _ => false
      end
    | _, _ => false
    end
  | _, _ => false
  end.

Lemma importable_b_ok p : importable_b p = true -> importable files p.
Proof.
  unfold importable_b. intros H. apply andb_prop in H as [H1 H2]. split; [destruct p; discriminate|].
  intros k Hk. rewrite forallb_forall in H2. specialize (H2 k). rewrite in_seq in H2. specialize (H2 ltac:(lia)).
  destruct (files (firstn k p)) as [src|]; [|discriminate]. exists src. split; [reflexivity|].
  now destruct (lazy_conflict src).
Qed.
Lemma object_eqb_ok a b : object_eqb a b = true -> a = b.
Proof.
  destruct a, b; cbn; intros H; try discriminate.
  - apply path_eqb_eq in H. congruence.
  - apply andb_prop in H as [H1 H2]. apply path_eqb_eq in H1. apply str_eqb_eq in H2. congruence.
Qed.
Lemma exports_b_ok target name o : exports_b target name o = true -> exports target name o.
Proof.
  unfold exports_b, exports. destruct (files target) as [t|]; [|discriminate]. intros H. exists t. split; [reflexivity|].
  destruct (assoc (names_of target t) name) as [o'|], (files (target ++ [name])) as [sub|]; try discriminate.
  - left. apply object_eqb_ok in H. now subst.
  - right. apply andb_prop in H as [H LC]. apply andb_prop in H as [H EO]. apply andb_prop in H as [PK LZ].
    apply object_eqb_ok in EO. repeat split; auto. { now destruct (so_lazy t). }
    exists sub. split; [reflexivity|]. now destruct (lazy_conflict sub).
Qed.
Lemma alias_b_ok depth os p name o deprecation :
  (2 <= depth)%nat -> imported (after files depth os) p -> alias_b p name o deprecation = true ->
  exists ms, get_attr files depth (after files depth os) p name = (ms, if deprecation then 1%nat else 0%nat, inl o).
Proof.
  intros Hd L. unfold alias_b.
  destruct (files p) as [src|] eqn:F; [|discriminate]. destruct (files (p ++ [name])) eqn:N; [discriminate|].
  destruct (assoc (names_of p src) name) eqn:A; [discriminate|].
  destruct (so_lazy src) as [[al dep]|] eqn:LZ; [|discriminate].
  assert (FN : free_name p name) by (split; [exact N|]; exists src; auto).
  destruct (assoc al name) as [so|] eqn:EA, (assoc dep name) as [so'|] eqn:ED; try discriminate; intros H;
    apply andb_prop in H as [HD H]; destruct deprecation; try discriminate.
  - destruct (resolve p (so_package src) so) as [target|] eqn:R; [|discriminate]. apply andb_prop in H as [HI HE].
    apply (C99_lazy_import depth os p src al dep name so target o); auto using importable_b_ok, exports_b_ok.
  - destruct (resolve p (so_package src) so') as [target|] eqn:R; [|discriminate]. apply andb_prop in H as [HI HE].
    apply (C99_lazy_import depth os p src al dep name so' target o); auto using importable_b_ok, exports_b_ok.
Qed.
End Program.

(* Whatever was imported and accessed before, the names documented as available in websockets are what the modules that
   define them call these names. *)
Definition gives (depth : nat) (os : list operation) (p : path) (name : str) (warnings : nat) (o : object) : Prop :=
  exists ms, get_attr websockets_files depth (after websockets_files depth os) p name = (ms, warnings, inl o).

Definition all_defined (p : path) (l : list (list str * list str)) (deprecation : bool) : bool :=
  forallb (fun e => forallb (fun name => alias_b websockets_files p name (OObject (fst e) name) deprecation) (snd e)) l.
Lemma all_defined_ok depth os p l deprecation m name :
  (2 <= depth)%nat -> imported (after websockets_files depth os) p -> all_defined p l deprecation = true -> defined l m name ->
  gives depth os p name (if deprecation then 1%nat else 0%nat) (OObject m name).
Proof.
  intros Hd L H (names & I1 & I2). unfold all_defined in H. rewrite forallb_forall in H. specialize (H _ I1).
  rewrite forallb_forall in H. specialize (H _ I2). exact (alias_b_ok _ _ _ _ _ _ _ Hd L H).
Qed.

Theorem C99_public_names : forall depth os m name,
  (2 <= depth)%nat -> imported (after websockets_files depth os) [s "websockets"] ->
  defined public_names m name -> gives depth os [s "websockets"] name 0 (OObject m name).
Proof.
  intros depth os m name Hd L D. refine (all_defined_ok _ _ _ public_names false _ _ Hd L _ D). vm_compute. reflexivity.
Qed.

Theorem C99_public_modules : forall depth os name,
  (2 <= depth)%nat -> imported (after websockets_files depth os) [s "websockets"] ->
  (In name public_modules -> gives depth os [s "websockets"] name 0 (OModule [s "websockets"; s "legacy"; name])) /\
  (In name deprecated_modules -> gives depth os [s "websockets"] name 1 (OModule [s "websockets"; s "legacy"; name])).
Proof.
  intros depth os name Hd L. split; intros I.
  - refine (alias_b_ok _ depth os _ name _ false Hd L _).
    assert (H : forallb (fun name => alias_b websockets_files [s "websockets"] name (OModule [s "websockets"; s "legacy"; name]) false)
      public_modules = true) by (vm_compute; reflexivity).
    rewrite forallb_forall in H. exact (H _ I).
  - refine (alias_b_ok _ depth os _ name _ true Hd L _).
    assert (H : forallb (fun name => alias_b websockets_files [s "websockets"] name (OModule [s "websockets"; s "legacy"; name]) true)
      deprecated_modules = true) by (vm_compute; reflexivity).
    rewrite forallb_forall in H. exact (H _ I).
Qed.

(* The names which used to be defined in websockets.client, websockets.server and websockets.http are still there. *)
Theorem C99_compatibility_names : forall depth os m name,
  (2 <= depth)%nat ->
  (imported (after websockets_files depth os) (at_top "client") -> defined client_names m name ->
   gives depth os (at_top "client") name 0 (OObject m name)) /\
  (imported (after websockets_files depth os) (at_top "server") -> defined server_names m name ->
   gives depth os (at_top "server") name 0 (OObject m name)) /\
  (imported (after websockets_files depth os) (at_top "http") -> defined http_names m name ->
   gives depth os (at_top "http") name 0 (OObject m name)) /\
  (imported (after websockets_files depth os) (at_top "http") -> defined deprecated_http_names m name ->
   gives depth os (at_top "http") name 1 (OObject m name)).
Proof.
  intros depth os m name Hd. repeat apply conj; intros L D.
  - refine (all_defined_ok _ _ _ client_names false _ _ Hd L _ D). vm_compute. reflexivity.
  - refine (all_defined_ok _ _ _ server_names false _ _ Hd L _ D). vm_compute. reflexivity.
  - refine (all_defined_ok _ _ _ http_names false _ _ Hd L _ D). vm_compute. reflexivity.
  - refine (all_defined_ok _ _ _ deprecated_http_names true _ _ Hd L _ D). vm_compute. reflexivity.
Qed.

(* "from websockets import *" succeeds: every name in __all__ is available, without a warning; dir() lists it. *)
Theorem C99_star_import : forall depth os name,
  (2 <= depth)%nat -> imported (after websockets_files depth os) [s "websockets"] -> In name websockets_all ->
  (exists m, defined public_names m name /\ gives depth os [s "websockets"] name 0 (OObject m name)) /\
  exists l, lazy_dir source_websockets = Some l /\ In name l.
Proof.
  intros depth os name Hd L I.
  assert (H : forallb (fun name => existsb (fun e => existsb (str_eqb name) (snd e)) public_names &&
     existsb (str_eqb name) (match lazy_dir source_websockets with Some l => l | None => [] end)) websockets_all = true)
    by (vm_compute; reflexivity).
  rewrite forallb_forall in H. specialize (H _ I). apply andb_prop in H as [H1 H2]. split.
  - apply existsb_exists in H1 as ([m names] & I1 & H1). apply existsb_exists in H1 as (n & I2 & H1).
    apply str_eqb_eq in H1. subst n. exists m. assert (D : defined public_names m name) by (exists names; auto).
    split; [exact D|]. now apply C99_public_names.
  - apply existsb_exists in H2 as (n & I2 & H2). apply str_eqb_eq in H2. subst n.
    destruct (lazy_dir source_websockets) as [l|]; [|now destruct I2]. exists l. auto.
Qed.

(* Importing any module of websockets never fails, whatever was imported and accessed before. *)
Theorem C99_modules_import : forall depth os p,
  websockets_files p <> None -> snd (import_module websockets_files (after websockets_files depth os) p) = None.
Proof.
  intros depth os p F. apply import_ok. apply importable_b_ok.
  assert (H : forallb (fun e => importable_b websockets_files (fst e)) table = true) by (vm_compute; reflexivity).
  rewrite forallb_forall in H. unfold websockets_files in F.
  assert (X : forall l, find_file l p <> None -> exists x, In (p, x) l).
  { induction l as [|[q x] l IH]; cbn [find_file]; [intros K; now destruct K|]. destruct (path_eqb q p) eqn:E.
    - apply path_eqb_eq in E. subst. intros _. exists x. now left.
    - intros K. destruct (IH K) as [y Hy]. exists y. now right. }
  destruct (X _ F) as [x Hx]. exact (H _ Hx).
Qed.

(* dir() doesn't list everything: names defined after the call to lazy_import() are missing. *)
Theorem C99_dir_refuted :
  exists p src name o l,
    p = at_top "client" /\ name = s "ClientConnection" /\ websockets_files p = Some src /\
    assoc (names_of p src) name = Some o /\ lazy_dir src = Some l /\ ~ In name l.
Proof.
  exists (at_top "client"), source_websockets_client, (s "ClientConnection"), (OObject (at_top "client") (s "ClientConnection")).
  eexists. split; [reflexivity|]. split; [reflexivity|]. split; [vm_compute; reflexivity|]. split; [vm_compute; reflexivity|].
  split; [reflexivity|]. intros H.
  assert (E : existsb (str_eqb (s "ClientConnection")) (match lazy_dir source_websockets_client with Some l => l | None => [] end)
    = true).
  { apply existsb_exists. exists (s "ClientConnection"). split; [exact H|apply str_eqb_refl]. }
  vm_compute in E. discriminate.
Qed.

(* Concrete cases: with a history that imports modules in another order, that accesses names before, and that fails. *)
Definition history : list operation :=
  [Import [s "websockets"; s "legacy"; s "handshake"]; Getattr [s "websockets"] (s "handshake");
   Getattr [s "websockets"] (s "protocol"); Import [s "websockets"; s "auth"]; Getattr [s "websockets"] (s "connect");
   Import [s "websockets"; s "http"]; Import (at_top "client"); Import (at_top "server"); Getattr [s "websockets"] (s "nothing")].
Example C99_applies :
  let ms := after websockets_files 2 history in
  (forallb (fun p => match module ms p with Some _ => true | None => false end)
    [[s "websockets"]; at_top "client"; at_top "server"; at_top "http"; at_legacy "handshake"; at_legacy "client"] = true) /\
  (snd (get_attr websockets_files 2 ms [s "websockets"] (s "serve")) = inl (OObject (at_legacy "server") (s "serve"))) /\
  (snd (fst (get_attr websockets_files 2 ms [s "websockets"] (s "framing"))) = 1%nat) /\
  (snd (get_attr websockets_files 2 ms [s "websockets"] (s "nothing")) = inr AttributeError) /\
  (snd (import_module websockets_files ms [s "websockets"; s "auth"]) = Some ModuleNotFoundError) /\
  (length websockets_all = 43%nat).
Proof. vm_compute. repeat split. Qed.

Print Assumptions C99_lazy_import.
Print Assumptions C99_unknown_name.
Print Assumptions C99_dir_partial.
Print Assumptions C99_public_names.
Print Assumptions C99_public_modules.
Print Assumptions C99_compatibility_names.
Print Assumptions C99_star_import.
Print Assumptions C99_modules_import.
Print Assumptions C99_dir_refuted.
