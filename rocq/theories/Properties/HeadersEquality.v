(* C95: comparing Headers objects, and building one from another. *)
From Verif Require Import Base.Prelude Base.PreludeFacts Model.Datastructures Spec.Multimap Proofs.MultimapFacts Properties.HeadersObject.

(* the object after some operations on Headers() *)
Definition built (os : list op) : headers := fst (run_ops headers_empty os).

Lemma run_rep os : forall h l, represents h l -> represents (fst (run_ops h os)) (fst (spec_run l os)) /\ snd (run_ops h os) = snd (spec_run l os).
Proof.
  induction os as [|o os IH]; intros h l R; [auto|]. cbn [run_ops spec_run]. destruct (step_spec h l o R) as [R' A].
  destruct (step h o) as [h' a], (spec_step l o) as [l' a']. cbn [fst snd] in *. specialize (IH h' l' R'). destruct IH as [IH1 IH2].
  destruct (run_ops h' os), (spec_run l' os). cbn [fst snd] in *. split; [exact IH1|congruence].
Qed.
Lemma built_rep os : represents (built os) (headers_raw_items (built os)).
Proof.
  destruct (run_rep os headers_empty [] rep_empty) as [R _]. fold (built os) in R. unfold headers_raw_items. now rewrite (rep_list _ _ R).
Qed.
Lemma items_eqb_iff x : forall y, items_eqb x y = true <-> x = y.
Proof.
  induction x as [|[k v] x IH]; intros [|[k' v'] y]; cbn [items_eqb]; split; intros H; try reflexivity; try discriminate H.
  - apply andb_true_iff in H as [H H3]. apply andb_true_iff in H as [H1 H2]. apply str_eqb_eq in H1, H2. apply IH in H3. congruence.
  - injection H as -> -> ->. rewrite !str_eqb_self. cbn [andb]. now apply IH.
Qed.

(* Two objects are equal if, and only if, no sequence of method calls tells them apart. *)
Theorem C95_equality : forall os os',
  headers_eqb (built os) (built os') = true <-> (forall calls, snd (run_ops (built os) calls) = snd (run_ops (built os') calls)).
Proof.
  intros os os'. unfold headers_eqb. rewrite items_eqb_iff. split.
  - intros E calls. pose proof (built_rep os) as R. pose proof (built_rep os') as R'. unfold headers_raw_items in R, R'. rewrite <- E in R'.
    now rewrite (proj2 (run_rep calls _ _ R)), (proj2 (run_rep calls _ _ R')).
  - intros H. specialize (H [RawItems]). cbn [run_ops step snd] in H. injection H as H. exact H.
Qed.

Example C95_applies_equality :
  headers_eqb (built [Set_ (s "Host") (s "a"); Set_ (s "X") (s "b"); Del (s "HOST")]) (built [Update [(s "X", s "b")]]) = true /\
  headers_eqb (built [Set_ (s "Host") (s "a")]) (built [Set_ (s "host") (s "a")]) = false.
Proof. split; reflexivity. Qed.

(* ---- update() from another object ---- *)

Lemma lower_idem k : lower (lower k) = lower k.
Proof.
  unfold lower. rewrite map_map. apply map_ext. intros c. unfold lower_char at 2 3. destruct ((65 <=? c)%N && (c <=? 90)%N) eqn:H; [|unfold lower_char; now rewrite H].
  apply andb_true_iff in H as [H1 H2]. apply N.leb_le in H1, H2. unfold lower_char. replace (c + 32 <=? 90)%N with false by (symmetry; apply N.leb_gt; lia).
  now rewrite andb_false_r.
Qed.
Lemma same_lower k k' : same_name k (lower k') = same_name k k'.
Proof. unfold same_name. now rewrite lower_idem. Qed.
Lemma values_lower l k : values l (lower k) = values l k.
Proof. unfold values. f_equal. apply filter_ext. intros kv. apply same_lower. Qed.
Lemma values_cons kv l k : values (kv :: l) k = if same_name (fst kv) k then snd kv :: values l k else values l k.
Proof. unfold values. cbn [filter]. now destruct (same_name (fst kv) k). Qed.
Lemma values_none (l : pairs) k : ~ In (lower k) (map (fun kv => lower (fst kv)) l) -> values l k = [].
Proof.
  induction l as [|kv l IH]; intros H; [reflexivity|]. rewrite values_cons. cbn [map] in H. unfold same_name.
  destruct (str_eqb_spec' (lower (fst kv)) (lower k)) as [E|_]; [elim H; now left|]. apply IH. intros I. apply H. now right.
Qed.
Lemma values_some (l : pairs) k : In (lower k) (map (fun kv => lower (fst kv)) l) -> values l k <> [].
Proof.
  induction l as [|kv l IH]; intros H; [destruct H|]. rewrite values_cons. cbn [map] in H. unfold same_name.
  destruct (str_eqb_spec' (lower (fst kv)) (lower k)) as [E|N]; [discriminate|]. apply IH. destruct H as [H|H]; [contradiction|exact H].
Qed.
Lemma distinct_nodup l : forall seen, NoDup l -> (forall k, In k l -> ~ In k seen) -> distinct seen l = l.
Proof.
  induction l as [|k l IH]; intros seen N D; [reflexivity|]. inversion N as [|? ? Ni N']; subst. cbn [distinct].
  destruct (existsb (str_eqb k) seen) eqn:E; [apply existsb_str in E; elim (D k (or_introl eq_refl) E)|]. f_equal. apply IH; [exact N'|].
  intros x I J. apply in_app_or in J as [J|[<-|[]]]; [exact (D x (or_intror I) J)|contradiction].
Qed.
Lemma single_nodup (l : pairs) : (forall k, (length (values l k) <= 1)%nat) -> NoDup (map (fun kv => lower (fst kv)) l).
Proof.
  induction l as [|[k v] l IH]; intros H; [constructor|]. cbn [map fst]. constructor.
  - intros I. apply values_some in I. specialize (H k). rewrite values_cons in H. unfold same_name in H. cbn [fst] in H. rewrite str_eqb_self in H.
    cbn [length] in H. destruct (values l k); [contradiction|cbn [length] in H; lia].
  - apply IH. intros k'. specialize (H k'). rewrite values_cons in H. destruct (same_name _ _); cbn [length] in H; lia.
Qed.
Lemma update_single src l' : represents src l' -> forall todo dst l, represents dst l ->
  (forall kv, In kv todo -> values l' (fst kv) = [snd kv]) ->
  exists h, headers_update_keys dst src (map (fun kv => lower (fst kv)) todo) = Ok h /\ represents h (l ++ map (fun kv => (lower (fst kv), snd kv)) todo).
Proof.
  intros Rs. induction todo as [|[k v] todo IH]; intros dst l Rd H.
  - exists dst. rewrite app_nil_r. auto.
  - cbn [map headers_update_keys fst snd]. rewrite (rep_getitem _ _ _ Rs), values_lower. pose proof (H (k, v) (or_introl eq_refl)) as E.
    cbn [fst snd] in E. rewrite E. cbn [rbind].
    destruct (IH _ _ (rep_set _ _ (lower k) v Rd) (fun kv I => H kv (or_intror I))) as (h & Hh & R). exists h. split; [exact Hh|]. now rewrite <- app_assoc in R.
Qed.
Lemma update_several src l' k0 : represents src l' -> (1 < length (values l' k0))%nat -> forall keys dst,
  In (lower k0) keys -> (forall k, In k keys -> values l' k <> []) ->
  exists k, headers_update_keys dst src keys = Raise (MultipleValuesError k) /\ (1 < length (values l' k))%nat.
Proof.
  intros Rs L. induction keys as [|k keys IH]; intros dst I F; [destruct I|]. cbn [headers_update_keys]. rewrite (rep_getitem _ _ _ Rs).
  pose proof (F k (or_introl eq_refl)) as Nk. destruct (values l' k) as [|v [|v' vs]] eqn:E; [contradiction| |].
  - cbn [rbind]. apply IH; [|intros; apply F; now right]. destruct I as [->|I]; [|exact I]. rewrite values_lower in E. rewrite E in L. cbn [length] in L. lia.
  - exists k. split; [reflexivity|]. rewrite E. cbn [length]. lia.
Qed.

(* dst.update(src), when no header of src has several values: the headers of src are appended, in the same order, with their names in lower case.
   When one does, MultipleValuesError is raised for such a header. *)
Theorem C95_update : forall os os', let dst := built os in let src := built os' in
  ((forall k, (length (headers_get_all src k) <= 1)%nat) ->
    exists h, headers_update_keys dst src (headers_iter src) = Ok h /\
      forall calls, snd (run_ops h calls) = snd (spec_run (headers_raw_items dst ++ map (fun kv => (lower (fst kv), snd kv)) (headers_raw_items src)) calls)) /\
  (forall k, (1 < length (headers_get_all src k))%nat ->
    exists k', headers_update_keys dst src (headers_iter src) = Raise (MultipleValuesError k') /\ (1 < length (headers_get_all src k'))%nat).
Proof.
  intros os os' dst src. pose proof (built_rep os) as Rd. pose proof (built_rep os') as Rs. fold dst in Rd. fold src in Rs.
  set (l := headers_raw_items dst) in *. set (l' := headers_raw_items src) in *.
  assert (It : headers_iter src = names l') by (unfold headers_iter; exact (rep_names _ _ Rs)). rewrite It.
  assert (Ga : forall k, headers_get_all src k = values l' k) by (intros; exact (rep_get_all _ _ _ Rs)). split.
  - intros H. assert (H' : forall k, (length (values l' k) <= 1)%nat) by (intros k; rewrite <- Ga; apply H). pose proof (single_nodup l' H') as N.
    unfold names. rewrite distinct_nodup by (auto; intros ? _ []).
    destruct (update_single src l' Rs l' dst l Rd) as (h & Hh & R).
    { intros [k v] I. cbn [fst snd]. assert (V : In v (values l' k)).
      { unfold values. apply in_map_iff. exists (k, v). split; [reflexivity|]. apply filter_In. split; [exact I|]. unfold same_name. apply str_eqb_self. }
      specialize (H' k). destruct (values l' k) as [|x [|y r]]; [destruct V| |cbn [length] in H'; lia]. destruct V as [->|[]]. reflexivity. }
    exists h. split; [exact Hh|]. intros calls. exact (proj2 (run_rep calls _ _ R)).
  - intros k L. rewrite Ga in L. destruct (update_several src l' k Rs L (names l') dst) as (k' & Hk & L').
    + unfold names. apply distinct_spec. split; [|intros []]. apply Decidable.not_not.
      * destruct (in_dec (list_eq_dec N.eq_dec) (lower k) (map (fun kv => lower (fst kv)) l')); [now left|now right].
      * intros Ni. rewrite (values_none l' k Ni) in L. cbn in L. lia.
    + intros x I. unfold names in I. apply distinct_spec in I as [I _]. apply values_some. apply in_map_iff in I as (kv & <- & I). rewrite lower_idem.
      apply in_map_iff. eauto.
    + exists k'. split; [exact Hk|]. now rewrite Ga.
Qed.

(* Headers(h) is the same with an empty object: it can't be made if a header has several values, and isn't equal to h if a name isn't in lower case. *)
Theorem C95_constructor : forall os, let h := built os in
  ((forall k, (length (headers_get_all h k) <= 1)%nat) ->
    exists h', headers_of_headers h = Ok h' /\ headers_raw_items h' = map (fun kv => (lower (fst kv), snd kv)) (headers_raw_items h) /\
      (headers_eqb h' h = true <-> forall k v, In (k, v) (headers_raw_items h) -> lower k = k)) /\
  (forall k, (1 < length (headers_get_all h k))%nat ->
    exists k', headers_of_headers h = Raise (MultipleValuesError k') /\ (1 < length (headers_get_all h k'))%nat).
Proof.
  intros os h. destruct (C95_update [] os) as [U1 U2]. split; [|exact U2]. intros H. destruct (U1 H) as (h' & Hh & A). exists h'. split; [exact Hh|].
  specialize (A [RawItems]). cbn [run_ops step snd spec_run spec_step] in A. injection A as A. split; [exact A|].
  unfold headers_eqb. rewrite items_eqb_iff. fold (headers_raw_items h'). rewrite A. unfold headers_raw_items at 2. fold (headers_raw_items h).
  change (headers_raw_items (built []) ++ ?x) with x. fold h. change (h_list h) with (headers_raw_items h). generalize (headers_raw_items h). intros l.
  induction l as [|[k v] l IH]; cbn [map fst snd]; split.
  - intros _ k v [].
  - reflexivity.
  - intros E k' v' [I|I]; injection E as E1 E2.
    + injection I as <- <-. exact E1.
    + exact (proj1 IH E2 k' v' I).
  - intros F. f_equal; [f_equal; exact (F k v (or_introl eq_refl))|]. apply IH. intros k' v' I. exact (F k' v' (or_intror I)).
Qed.

Example C95_applies_update :
  let h := built [Set_ (s "Host") (s "a"); Set_ (s "X-Test") (s "b")] in
  headers_of_headers h = Ok (built [Set_ (s "host") (s "a"); Set_ (s "x-test") (s "b")]) /\
  headers_of_headers (built [Set_ (s "Cookie") (s "a"); Set_ (s "COOKIE") (s "b")]) = Raise (MultipleValuesError (s "cookie")).
Proof. split; reflexivity. Qed.

Print Assumptions C95_equality.
Print Assumptions C95_update.
Print Assumptions C95_constructor.
