(* C28, C29: the Headers object. *)
From Verif Require Import Base.Prelude Base.PreludeFacts Model.Datastructures Model.HeadersHeap Spec.Multimap Proofs.MultimapFacts.

(* ---- C28 ---- *)

(* the methods of Headers for each operation, and what they return *)
Definition as_answer {A} (f : A -> answer) (r : result A) : answer := match r with Ok a => f a | Raise e => ARaise e end.
Definition step (h : headers) (o : op) : headers * answer :=
  match o with
  | Set_ k v => (headers_setitem h k v, ANone)
  | Del k => match headers_delitem h k with Ok h' => (h', ANone) | Raise e => (h, ARaise e) end
  | Clear => (headers_clear h, ANone)
  | SetDefault k v => match headers_setdefault h k v with
                      | Ok h' => (h', match headers_getitem h k with Ok v' => AStr v' | Raise _ => AStr v end)
                      | Raise e => (h, ARaise e) end
  | Pop k => match headers_pop h k with Ok (h', v) => (h', AStr v) | Raise e => (h, ARaise e) end
  | Update l => (headers_update h l, ANone)
  | Get k => (h, as_answer AStr (headers_getitem h k))
  | Contains k => (h, ABool (headers_contains h k))
  | GetAll k => (h, AStrs (headers_get_all h k))
  | Iter => (h, AStrs (headers_iter h))
  | Len => (h, ANat (headers_len h))
  | RawItems => (h, APairs (headers_raw_items h))
  | Serialize => (h, AStr (headers_str h))
  end.
Fixpoint run_ops (h : headers) (os : list op) : headers * list answer :=
  match os with
  | [] => (h, [])
  | o :: os => let '(h, a) := step h o in let '(h, r) := run_ops h os in (h, a :: r)
  end.

Lemma step_spec h l o : represents h l ->
  represents (fst (step h o)) (fst (spec_step l o)) /\ snd (step h o) = snd (spec_step l o).
Proof.
  intros R. destruct o; cbn [step spec_step fst snd].
  - split; [now apply rep_set|reflexivity].
  - pose proof (rep_del h l k R) as D. destruct (values l k) as [|v vs].
    + rewrite D. auto.
    + destruct D as (h' & -> & R'). auto.
  - split; [apply rep_empty|reflexivity].
  - unfold headers_setdefault. rewrite (rep_getitem h l k R). unfold lookup.
    destruct (values l k) as [|v0 [|v1 vs]]; cbn [fst snd]; split; auto. now apply rep_set.
  - unfold headers_pop. rewrite (rep_getitem h l k R). unfold lookup. pose proof (rep_del h l k R) as D.
    destruct (values l k) as [|v0 [|v1 vs]]; cbn [rbind fst snd]; auto.
    destruct D as (h' & -> & R'). auto.
  - split; [now apply rep_update|reflexivity].
  - split; [exact R|]. rewrite (rep_getitem h l k R). unfold lookup. now destruct (values l k) as [|v0 [|v1 vs]].
  - split; [exact R|]. now rewrite (rep_contains h l k R).
  - split; [exact R|]. now rewrite (rep_get_all h l k R).
  - split; [exact R|]. unfold headers_iter. now rewrite (rep_names _ _ R).
  - split; [exact R|]. unfold headers_len. now rewrite <- (rep_names _ _ R), map_length.
  - split; [exact R|]. unfold headers_raw_items. now rewrite (rep_list _ _ R).
  - split; [exact R|]. unfold headers_str. rewrite (rep_list _ _ R), flat_map_concat_map. reflexivity.
Qed.

(* Starting from Headers(), every sequence of operations gives the answers of a list of pairs. *)
Theorem C28_multimap : forall os,
  snd (run_ops headers_empty os) = snd (spec_run [] os).
Proof.
  assert (G : forall os h l, represents h l -> snd (run_ops h os) = snd (spec_run l os)).
  { induction os as [|o os IH]; intros h l R; [reflexivity|]. cbn [run_ops spec_run].
    destruct (step_spec h l o R) as [R' A]. destruct (step h o) as [h' a], (spec_step l o) as [l' a']. cbn [fst snd] in *.
    specialize (IH h' l' R'). destruct (run_ops h' os), (spec_run l' os). cbn [snd] in *. congruence. }
  intros os. apply G, rep_empty.
Qed.

Example C28_applies :
  snd (run_ops headers_empty
    [Set_ (s "Set-Cookie") (s "a"); Set_ (s "Host") (s "x"); Set_ (s "set-cookie") (s "b");
     Get (s "host"); Get (s "SET-COOKIE"); GetAll (s "Set-cookie"); Iter; Del (s "HOST"); Iter; Contains (s "host")]) =
  [ANone; ANone; ANone; AStr (s "x"); ARaise (MultipleValuesError (s "SET-COOKIE")); AStrs [s "a"; s "b"];
   AStrs [s "set-cookie"; s "host"]; ANone; AStrs [s "set-cookie"]; ABool false].
Proof. reflexivity. Qed.

(* ---- C29 ---- *)

(* The model with a heap sees the same object as the model without: for a single object. *)
Definition pure_mutate (h : headers) (m : mutation) : headers :=
  match m with
  | MSet k v => headers_setitem h k v
  | MDel k => match headers_delitem h k with Ok h' => h' | Raise _ => h end
  | MClear => headers_clear h
  end.

(* the addresses in an object are those of distinct lists in the heap *)
Definition allocated (h : heap) (o : object) : Prop :=
  NoDup (map snd (o_dict o)) /\ forall k a, In (k, a) (o_dict o) -> (a < length h)%nat.

Lemma heap_append_length h a v : length (heap_append h a v) = length h.
Proof. revert a. induction h as [|l h IH]; intros [|a]; cbn [heap_append length]; auto. Qed.
Lemma heap_append_nth h : forall a a' v, nth a' (heap_append h a v) [] =
  if (a =? a')%nat && (a <? length h)%nat then nth a' h [] ++ [v] else nth a' h [].
Proof.
  induction h as [|l h IH]; intros a a' v; cbn [heap_append length].
  - replace (a <? 0)%nat with false by (symmetry; apply Nat.ltb_ge; lia). now rewrite andb_false_r.
  - destruct a as [|a], a' as [|a']; cbn [nth Nat.eqb andb]; try reflexivity. rewrite IH. reflexivity.
Qed.

Lemma view_same h h' o : (forall k a, In (k, a) (o_dict o) -> nth a h' [] = nth a h []) -> view h' o = view h o.
Proof.
  intros H. unfold view. f_equal. apply map_ext_in. intros [k a] I. cbn [fst snd]. f_equal. eauto.
Qed.

Lemma addr_get_view h o k : dict_get (h_dict (view h o)) k =
  match addr_get (o_dict o) k with Some a => Some (nth a h []) | None => None end.
Proof.
  unfold view. cbn [h_dict]. induction (o_dict o) as [|[k' a] d IH]; cbn [map dict_get addr_get fst snd]; [reflexivity|].
  destruct (str_eqb k' k); auto.
Qed.
Lemma addr_get_in d k a : addr_get d k = Some a -> In (k, a) d.
Proof.
  induction d as [|[k' a'] d IH]; cbn [addr_get]; [discriminate|]. destruct (str_eqb_spec' k' k) as [->|].
  - intros [= ->]. now left.
  - intros H. right. auto.
Qed.

Lemma mutate_view h o m : allocated h o ->
  allocated (fst (mutate h o m)) (snd (mutate h o m)) /\
  view (fst (mutate h o m)) (snd (mutate h o m)) = pure_mutate (view h o) m.
Proof.
  intros [Nd Al]. destruct m as [k v|k|]; cbn [mutate pure_mutate].
  - unfold object_setitem, headers_setitem. destruct (addr_get (o_dict o) (lower k)) as [a|] eqn:G; cbn [fst snd].
    + split; [split; cbn [o_dict]; [exact Nd|]; intros; rewrite heap_append_length; eauto|].
      unfold view. cbn [o_dict o_list h_list h_dict]. f_equal.
      pose proof (addr_get_in _ _ _ G) as Ia. apply Al in Ia. clear Al.
      induction (o_dict o) as [|[k' a'] d IH]; [discriminate|]. cbn [map dict_append addr_get fst snd] in *.
      inversion Nd as [|? ? Ni Nd']; subst. destruct (str_eqb_spec' k' (lower k)) as [->|N].
      * injection G as ->. f_equal.
        -- f_equal. rewrite heap_append_nth, Nat.eqb_refl. destruct (Nat.ltb_spec a (length h)); [reflexivity|lia].
        -- apply map_ext_in. intros [k2 a2] I2. cbn [fst snd]. f_equal. rewrite heap_append_nth.
           destruct (Nat.eqb_spec a a2) as [->|]; [|reflexivity]. exfalso. apply Ni. apply in_map_iff. exists (k2, a2). auto.
      * f_equal; [|now apply IH]. f_equal. rewrite heap_append_nth.
        destruct (Nat.eqb_spec a a') as [->|]; [|reflexivity]. exfalso. apply Ni. apply in_map_iff. exists (lower k, a').
        split; [reflexivity|now apply addr_get_in].
    + split.
      * split; cbn [o_dict].
        -- rewrite map_app. cbn [map snd].
           apply (NoDup_Add (a := length h) (l := map snd (o_dict o))).
           ++ rewrite <- (app_nil_r (map snd (o_dict o))) at 1. apply Add_app.
           ++ split; [exact Nd|]. intros I. apply in_map_iff in I as ([k2 a2] & E & I). cbn in E. subst. apply Al in I. lia.
        -- intros k2 a2 I. rewrite app_length. cbn [length]. apply in_app_iff in I as [I|[[= <- <-]|[]]]; [apply Al in I; lia|lia].
      * unfold view. cbn [o_dict o_list h_list h_dict]. f_equal. rewrite map_app. cbn [map fst snd].
        rewrite app_nth2, Nat.sub_diag by lia. cbn [nth]. clear Nd.
        induction (o_dict o) as [|[k' a'] d IH]; cbn [map dict_append addr_get fst snd app] in *; [reflexivity|].
        destruct (str_eqb k' (lower k)); [discriminate|]. f_equal; [|apply IH; [intros k0 a0 I0; apply (Al k0); now right|exact G]].
        f_equal. apply app_nth1. eapply Al. now left.
  - unfold object_delitem, headers_delitem. rewrite addr_get_view.
    destruct (addr_get (o_dict o) (lower k)) as [a|] eqn:G; cbn [fst snd]; [|split; [split; auto|reflexivity]].
    split.
    + split; cbn [o_dict].
      * clear -Nd. induction (o_dict o) as [|[k' a'] d IH]; cbn [addr_del map snd] in *; [constructor|].
        inversion Nd as [|? ? Ni Nd']; subst. destruct (str_eqb k' (lower k)); [exact Nd'|]. cbn [map snd]. constructor; [|auto].
        intros I. apply Ni. clear -I. induction d as [|[k2 a2] d IH]; cbn [addr_del map snd] in *; [contradiction|].
        destruct (str_eqb k2 (lower k)); [right; exact I|]. cbn [map snd In] in *. tauto.
      * intros k2 a2 I. apply (Al k2). clear -I. induction (o_dict o) as [|[k3 a3] d IH]; cbn [addr_del In] in *; [contradiction|].
        destruct (str_eqb k3 (lower k)); [right; exact I|]. cbn [In] in I. tauto.
    + unfold view. cbn [o_dict o_list h_list h_dict]. f_equal. clear. induction (o_dict o) as [|[k' a'] d IH]; [reflexivity|].
      cbn [addr_del dict_del map fst snd]. destruct (str_eqb k' (lower k)); cbn [map fst snd]; congruence.
  - split; [split; [constructor|intros ? ? []]|reflexivity].
Qed.

(* A Headers object modelled with a heap behaves like one modelled without. *)
Lemma mutate_all_view : forall ms h o, allocated h o ->
  let '(h', o') := mutate_all h o ms in allocated h' o' /\ view h' o' = fold_left pure_mutate ms (view h o).
Proof.
  induction ms as [|m ms IH]; intros h o A; [split; [exact A|reflexivity]|].
  destruct (mutate_view h o m A) as [A' V]. specialize (IH _ _ A'). unfold mutate_all in *. cbn [fold_left fst snd].
  rewrite <- V. destruct (mutate h o m) as [h1 o1]. cbn [fst snd] in *. destruct (fold_left _ ms (h1, o1)). exact IH.
Qed.

Lemma allocated_fresh : allocated [] object_empty.
Proof. split; [constructor|intros ? ? []]. Qed.

Theorem C28_heap_model : forall ms,
  let '(h, o) := mutate_all [] object_empty ms in view h o = fold_left pure_mutate ms headers_empty.
Proof.
  intros ms. pose proof (mutate_all_view ms [] object_empty allocated_fresh) as M. destruct (mutate_all [] object_empty ms). apply M.
Qed.

(* Mutations of a copy that don't set a header the original has: the original is unchanged.
   The copy starts with the contents of the original. *)
Lemma isolated : forall ms h o orig, allocated h o -> allocated h orig ->
  (forall k a, In (k, a) (o_dict o) -> In a (map snd (o_dict orig)) -> In (k, a) (o_dict orig)) ->
  (forall k v, In (MSet k v) ms -> headers_contains (view h orig) k = false) ->
  view (fst (mutate_all h o ms)) orig = view h orig.
Proof.
  induction ms as [|m ms IH]; intros h o orig A Ao Sh Ns; [reflexivity|].
  unfold mutate_all. cbn [fold_left fst snd]. destruct (mutate_view h o m A) as [A' _].
  assert (V : view (fst (mutate h o m)) orig = view h orig /\ (length h <= length (fst (mutate h o m)))%nat /\
     (forall k a, In (k, a) (o_dict (snd (mutate h o m))) -> In a (map snd (o_dict orig)) -> In (k, a) (o_dict orig))).
  { destruct m as [k v|k|]; cbn [mutate fst snd].
    - specialize (Ns k v (or_introl eq_refl)). unfold headers_contains in Ns. rewrite addr_get_view in Ns.
      destruct (addr_get (o_dict orig) (lower k)) eqn:Go; [discriminate|].
      unfold object_setitem. destruct (addr_get (o_dict o) (lower k)) as [a|] eqn:G; cbn [fst snd].
      + rewrite heap_append_length. split; [|split; [lia|exact Sh]]. apply view_same. intros k2 a2 I2. rewrite heap_append_nth.
        destruct (Nat.eqb_spec a a2) as [->|]; [|reflexivity]. exfalso.
        apply addr_get_in in G. assert (X : In (lower k, a2) (o_dict orig)) by (apply Sh; [exact G|]; apply in_map_iff; exists (k2, a2); auto).
        clear -Go X. induction (o_dict orig) as [|[k3 a3] d IH]; [contradiction|]. cbn [addr_get] in Go.
        destruct (str_eqb_spec' k3 (lower k)) as [->|N]; [discriminate|]. destruct X as [[= -> ->]|X]; [contradiction|auto].
      + rewrite app_length. cbn [length]. split; [|split; [lia|]].
        * apply view_same. intros k2 a2 I2. apply app_nth1. now apply (proj2 Ao) in I2.
        * cbn [o_dict]. intros k2 a2 I2 Io. apply in_app_iff in I2 as [I2|[[= <- <-]|[]]]; [auto|].
          apply in_map_iff in Io as ([k3 a3] & E & I3). cbn in E. subst. apply (proj2 Ao) in I3. lia.
    - unfold object_delitem. destruct (addr_get (o_dict o) (lower k)); cbn [fst snd]; split; auto. split; [lia|]. cbn [o_dict].
      intros k2 a2 I2 Io. apply Sh; [|exact Io]. clear -I2.
      induction (o_dict o) as [|[k3 a3] d IH]; cbn [addr_del In] in *; [contradiction|].
      destruct (str_eqb k3 (lower k)); [right; exact I2|]. cbn [In] in I2. tauto.
    - split; [reflexivity|]. split; [lia|]. intros k a []. }
  destruct V as (V & Ln & Sh'). destruct (mutate h o m) as [h1 o1]. cbn [fst snd] in *.
  change (fold_left _ ms (h1, o1)) with (mutate_all h1 o1 ms). rewrite <- V. apply IH; auto.
  - split; [apply Ao|]. intros k a I. apply (proj2 Ao) in I. lia.
  - intros k v I. rewrite V. apply (Ns k v). now right.
Qed.

Theorem C29_copy_partial : forall before after,
  let '(h, o) := mutate_all [] object_empty before in
  (forall k v, In (MSet k v) after -> headers_contains (view h o) k = false) ->
  let '(h', o') := mutate_all h (object_copy o) after in
  view h' o = view h o /\ view h' o' = fold_left pure_mutate after (view h o).
Proof.
  intros before after. pose proof (mutate_all_view before [] object_empty allocated_fresh) as M.
  destruct (mutate_all [] object_empty before) as [h o]. destruct M as [A _]. intros Ns.
  pose proof (isolated after h (object_copy o) o A A) as Is. pose proof (mutate_all_view after h (object_copy o) A) as M.
  destruct (mutate_all h (object_copy o) after) as [h' o']. cbn [fst] in Is. destruct M as [_ M].
  split; [apply Is; [|exact Ns]; intros k a I _; exact I|]. exact M.
Qed.
Example C29_applies :
  let '(h, o) := mutate_all [] object_empty [MSet (s "A") (s "1")] in
  let '(h', o') := mutate_all h (object_copy o) [MSet (s "B") (s "2"); MDel (s "a"); MSet (s "b") (s "3")] in
  h_list (view h' o') = [(s "B", s "2"); (s "b", s "3")] /\ view h' o = view h o.
Proof. vm_compute. auto. Qed.

(* Setting a header which the original has, in the copy, changes the original: it then has
   one more value, and reading it, if there was only one, raises MultipleValuesError. *)
Theorem C29_copy_refuted : forall before k v,
  let '(h, o) := mutate_all [] object_empty before in
  headers_contains (view h o) k = true ->
  let '(h', o') := mutate_all h (object_copy o) [MSet k v] in
  headers_get_all (view h' o) k = headers_get_all (view h o) k ++ [v] /\
  (forall v', headers_getitem (view h o) k = Ok v' -> headers_getitem (view h' o) k = Raise (MultipleValuesError k)) /\
  headers_raw_items (view h' o) = headers_raw_items (view h o).
Proof.
  intros before k v. pose proof (mutate_all_view before [] object_empty allocated_fresh) as M.
  destruct (mutate_all [] object_empty before) as [h o]. destruct M as [[Nd Al] _]. intros C.
  unfold mutate_all. cbn [fold_left fst snd mutate]. unfold object_setitem, object_copy. cbn [o_dict o_list].
  unfold headers_contains in C. rewrite addr_get_view in C.
  destruct (addr_get (o_dict o) (lower k)) as [a|] eqn:G; [|discriminate].
  pose proof (Al _ _ (addr_get_in _ _ _ G)) as La.
  assert (Q : dict_get (h_dict (view (heap_append h a v) o)) (lower k) = Some (nth a h [] ++ [v])).
  { rewrite addr_get_view, G, heap_append_nth, Nat.eqb_refl. destruct (Nat.ltb_spec a (length h)); [reflexivity|lia]. }
  split; [|split].
  - unfold headers_get_all. now rewrite Q, addr_get_view, G.
  - intros v'. unfold headers_getitem. rewrite Q, addr_get_view, G. destruct (nth a h []) as [|x [|y l]]; try discriminate. reflexivity.
  - reflexivity.
Qed.
Example C29_refuted_applies :
  let '(h, o) := mutate_all [] object_empty [MSet (s "A") (s "1")] in headers_contains (view h o) (s "a") = true.
Proof. reflexivity. Qed.

Print Assumptions C28_multimap.
Print Assumptions C28_heap_model.
Print Assumptions C29_copy_partial.
Print Assumptions C29_copy_refuted.
