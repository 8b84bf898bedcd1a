(* The Headers object is the multimap of Spec/Multimap.v. *)
From Verif Require Import Base.Prelude Base.PreludeFacts Model.Datastructures Spec.Multimap.

Lemma str_eqb_spec' x y : reflect (x = y) (str_eqb x y).
Proof. destruct (str_eqb x y) eqn:E; constructor; [now apply str_eqb_eq|]. intros ->. rewrite (proj2 (str_eqb_eq y y)) in E; congruence. Qed.
Lemma str_eqb_self x : str_eqb x x = true.
Proof. now apply str_eqb_eq. Qed.
Lemma str_eqb_comm x y : str_eqb x y = str_eqb y x.
Proof. destruct (str_eqb_spec' x y) as [->|N]; [now rewrite str_eqb_self|]. destruct (str_eqb_spec' y x); congruence. Qed.

Lemma existsb_str k l : existsb (str_eqb k) l = true <-> In k l.
Proof.
  rewrite existsb_exists. split; [intros (x & H & E); apply str_eqb_eq in E; now subst|].
  intros H. exists k. split; [exact H|apply str_eqb_self].
Qed.
Lemma existsb_str_app k l r : existsb (str_eqb k) (l ++ r) = existsb (str_eqb k) l || existsb (str_eqb k) r.
Proof. apply existsb_app. Qed.

Lemma distinct_equiv : forall l a c, (forall k, existsb (str_eqb k) a = existsb (str_eqb k) c) -> distinct a l = distinct c l.
Proof.
  induction l as [|x l IH]; intros a c H; cbn [distinct]; [reflexivity|]. rewrite H.
  destruct (existsb (str_eqb x) c); [now apply IH|]. f_equal. apply IH. intros k. now rewrite !existsb_str_app, H.
Qed.
Lemma distinct_skip : forall l seen k, ~ In k l -> distinct (seen ++ [k]) l = distinct seen l.
Proof.
  induction l as [|x l IH]; intros seen k H; cbn [distinct]; [reflexivity|].
  assert (x <> k) by (intros ->; apply H; now left). rewrite existsb_str_app. cbn [existsb].
  destruct (str_eqb_spec' x k); [contradiction|]. rewrite !orb_false_r.
  destruct (existsb (str_eqb x) seen); [apply IH; intros I; apply H; now right|]. f_equal.
  rewrite <- (IH (seen ++ [x]) k) by (intros I; apply H; now right).
  apply distinct_equiv. intros y. rewrite !existsb_str_app. cbn [existsb]. rewrite !orb_false_r, <- !orb_assoc. f_equal. apply orb_comm.
Qed.
Lemma distinct_snoc k : forall l seen,
  distinct seen (l ++ [k]) = distinct seen l ++ (if existsb (str_eqb k) seen || existsb (str_eqb k) l then [] else [k]).
Proof.
  induction l as [|x l IH]; intros seen; cbn [distinct app existsb].
  - rewrite orb_false_r. now destruct (existsb (str_eqb k) seen).
  - destruct (existsb (str_eqb x) seen) eqn:E.
    + rewrite IH. destruct (str_eqb_spec' k x) as [->|]; [rewrite E; reflexivity|reflexivity].
    + rewrite IH. cbn [app]. f_equal. f_equal. rewrite existsb_str_app. cbn [existsb]. rewrite orb_false_r, orb_assoc. reflexivity.
Qed.
Lemma distinct_filter P : forall l seen, distinct seen (filter P l) = filter P (distinct seen l).
Proof.
  induction l as [|x l IH]; intros seen; cbn [distinct filter]; [reflexivity|].
  destruct (P x) eqn:Px; cbn [distinct].
  - destruct (existsb (str_eqb x) seen); [apply IH|]. cbn [filter]. rewrite Px. f_equal. apply IH.
  - destruct (existsb (str_eqb x) seen); [apply IH|]. cbn [filter]. rewrite Px, <- IH. symmetry. apply distinct_skip.
    intros H. apply filter_In in H. destruct H. congruence.
Qed.
Lemma distinct_spec : forall l seen, NoDup (distinct seen l) /\ forall k, In k (distinct seen l) <-> In k l /\ ~ In k seen.
Proof.
  induction l as [|x l IH]; intros seen; cbn [distinct]; [split; [constructor|intros k; cbn; tauto]|].
  destruct (existsb (str_eqb x) seen) eqn:E.
  - apply existsb_str in E. destruct (IH seen) as [N I]. split; [exact N|]. intros k. rewrite I. cbn [In].
    split; [tauto|]. intros [[->|H] Hn]; [contradiction|auto].
  - assert (Ns : ~ In x seen) by (rewrite <- existsb_str; congruence).
    destruct (IH (seen ++ [x])) as [N I]. split.
    + constructor; [|exact N]. rewrite I, in_app_iff. cbn. tauto.
    + intros k. cbn [In]. rewrite I, in_app_iff. cbn [In]. destruct (str_eqb_spec' x k) as [->|Nk]; [tauto|]. tauto.
Qed.

(* ---- the dict ---- *)

Definition vals (l : pairs) (key : str) : list str := map snd (filter (fun kv => str_eqb (lower (fst kv)) key) l).
Definition found (vs : list str) : option (list str) := match vs with [] => None | _ => Some vs end.

Lemma vals_app l r key : vals (l ++ r) key = vals l key ++ vals r key.
Proof. unfold vals. now rewrite filter_app, map_app. Qed.
Lemma vals_in l key : vals l key = [] <-> ~ In key (map (fun kv => lower (fst kv)) l).
Proof.
  unfold vals. induction l as [|kv l IH]; cbn [filter map In]; [tauto|].
  destruct (str_eqb_spec' (lower (fst kv)) key) as [E|N]; cbn [map]; [split; [discriminate|tauto]|]. rewrite IH. tauto.
Qed.

Lemma dict_get_append d k v key :
  dict_get (dict_append d k v) key =
    if str_eqb k key then Some (match dict_get d k with Some vs => vs | None => [] end ++ [v]) else dict_get d key.
Proof.
  induction d as [|[k' vs] d IH]; cbn [dict_append dict_get].
  - reflexivity.
  - destruct (str_eqb_spec' k' k) as [->|N]; cbn [dict_get].
    + destruct (str_eqb k key); reflexivity.
    + rewrite IH. destruct (str_eqb_spec' k key) as [->|N']; [|reflexivity].
      destruct (str_eqb_spec' k' key); [contradiction|reflexivity].
Qed.
Lemma dict_keys_append d k v : map fst (dict_append d k v) = map fst d ++ (if existsb (str_eqb k) (map fst d) then [] else [k]).
Proof.
  induction d as [|[k' vs] d IH]; cbn [dict_append map fst existsb app]; [reflexivity|].
  rewrite (str_eqb_comm k k'). destruct (str_eqb k' k); cbn [map fst orb]; [now rewrite app_nil_r|now rewrite IH].
Qed.
Lemma dict_get_none d key : dict_get d key = None <-> ~ In key (map fst d).
Proof.
  induction d as [|[k' vs] d IH]; cbn [dict_get map fst In]; [tauto|].
  destruct (str_eqb_spec' k' key); [split; [discriminate|tauto]|]. rewrite IH. tauto.
Qed.
Lemma dict_del_spec d k : NoDup (map fst d) ->
  (forall key, dict_get (dict_del d k) key = if str_eqb k key then None else dict_get d key) /\
  map fst (dict_del d k) = filter (fun x => negb (str_eqb x k)) (map fst d).
Proof.
  induction d as [|[k' vs] d IH]; cbn [dict_del map fst]; intros N.
  - split; [|reflexivity]. intros key. now destruct (str_eqb k key).
  - inversion N as [|? ? Ni N']; subst. destruct (IH N') as [IH1 IH2]. cbn [filter]. destruct (str_eqb_spec' k' k) as [->|Nk]; cbn [negb].
    + split.
      * intros key. cbn [dict_get]. destruct (str_eqb_spec' k key) as [->|]; [|reflexivity]. now apply dict_get_none.
      * clear -Ni. induction (map fst d) as [|x l IHl]; cbn [filter]; [reflexivity|].
        destruct (str_eqb_spec' x k) as [->|]; cbn [negb]; [exfalso; apply Ni; now left|].
        f_equal. apply IHl. intros H. apply Ni. now right.
    + split; cbn [dict_get map fst]; [|now rewrite IH2]. intros key. rewrite IH1.
      destruct (str_eqb_spec' k key) as [->|]; [|reflexivity]. now destruct (str_eqb_spec' k' key).
Qed.

(* ---- the relation ---- *)

Record represents (h : headers) (l : pairs) : Prop := {
  rep_list : h_list h = l;
  rep_names : map fst (h_dict h) = names l;
  rep_vals : forall key, dict_get (h_dict h) key = found (vals l key) }.

Lemma rep_empty : represents headers_empty [].
Proof. constructor; reflexivity. Qed.

Lemma rep_get h l k : represents h l -> dict_get (h_dict h) (lower k) = found (values l k).
Proof. intros R. apply (rep_vals _ _ R). Qed.

Lemma rep_set h l k v : represents h l -> represents (headers_setitem h k v) (l ++ [(k, v)]).
Proof.
  intros R. constructor; unfold headers_setitem; cbn [h_list h_dict].
  - now rewrite (rep_list _ _ R).
  - rewrite dict_keys_append, (rep_names _ _ R). unfold names. rewrite map_app. cbn [map fst].
    rewrite distinct_snoc. f_equal. cbn [existsb orb].
    destruct (existsb (str_eqb (lower k)) (map (fun kv => lower (fst kv)) l)) eqn:E.
    + apply existsb_str in E. destruct (existsb (str_eqb (lower k)) (distinct [] _)) eqn:E'; [reflexivity|].
      assert (X : In (lower k) (distinct [] (map (fun kv => lower (fst kv)) l))) by (apply distinct_spec; auto).
      apply existsb_str in X. congruence.
    + destruct (existsb (str_eqb (lower k)) (distinct [] _)) eqn:E'; [|reflexivity].
      apply existsb_str, distinct_spec in E' as [E' _]. apply existsb_str in E'. congruence.
  - intros key. rewrite dict_get_append, (rep_vals _ _ R), (rep_vals _ _ R). rewrite vals_app.
    unfold vals at 4. cbn [filter fst]. destruct (str_eqb_spec' (lower k) key) as [<-|N]; cbn [map snd].
    + destruct (vals l (lower k)); reflexivity.
    + now rewrite app_nil_r.
Qed.

Lemma rep_update items : forall h l, represents h l -> represents (headers_update h items) (l ++ items).
Proof.
  induction items as [|[k v] items IH]; intros h l R; [now rewrite app_nil_r|].
  unfold headers_update. cbn [fold_left fst snd]. replace (l ++ (k, v) :: items) with ((l ++ [(k, v)]) ++ items) by now rewrite <- app_assoc.
  apply IH. now apply rep_set.
Qed.

Lemma filter_comm {A} (p q : A -> bool) l : filter p (filter q l) = filter q (filter p l).
Proof.
  induction l as [|x l IH]; cbn [filter]; [reflexivity|].
  destruct (q x) eqn:Q, (p x) eqn:P; cbn [filter]; rewrite ?Q, ?P, IH; reflexivity.
Qed.
Lemma map_filter_lower P (l : pairs) :
  map (fun kv => lower (fst kv)) (filter (fun kv => P (lower (fst kv))) l) = filter P (map (fun kv => lower (fst kv)) l).
Proof. induction l as [|x l IH]; cbn [filter map]; [reflexivity|]. destruct (P (lower (fst x))); cbn [map]; now rewrite IH. Qed.

Lemma rep_del h l k : represents h l ->
  match values l k with
  | [] => headers_delitem h k = Raise KeyError
  | _ => exists h', headers_delitem h k = Ok h' /\ represents h' (without l k)
  end.
Proof.
  intros R. unfold headers_delitem. rewrite (rep_get _ _ k R). destruct (values l k) as [|v vs] eqn:V; cbn [found]; [reflexivity|].
  eexists. split; [reflexivity|].
  assert (N : NoDup (map fst (h_dict h))) by (rewrite (rep_names _ _ R); apply distinct_spec).
  destruct (dict_del_spec _ (lower k) N) as [G Ks]. constructor; cbn [h_list h_dict].
  - now rewrite (rep_list _ _ R).
  - rewrite Ks, (rep_names _ _ R). unfold names, without, same_name.
    rewrite (map_filter_lower (fun x => negb (str_eqb x (lower k)))). symmetry. apply distinct_filter.
  - intros key. rewrite G, (rep_vals _ _ R). unfold vals, without, same_name.
    destruct (str_eqb_spec' (lower k) key) as [<-|Nk].
    + assert (X : filter (fun kv => str_eqb (lower (fst kv)) (lower k)) (filter (fun kv => negb (str_eqb (lower (fst kv)) (lower k))) l) = []).
      { clear. induction l as [|y r IHr]; cbn [filter]; [reflexivity|].
        destruct (str_eqb (lower (fst y)) (lower k)) eqn:E; cbn [negb filter]; [exact IHr|]. now rewrite E. }
      now rewrite X.
    + f_equal. f_equal. clear -Nk. induction l as [|x l IH]; cbn [filter]; [reflexivity|].
      destruct (str_eqb_spec' (lower (fst x)) key) as [E|E].
      * destruct (str_eqb_spec' (lower (fst x)) (lower k)) as [E'|E']; [congruence|]. cbn [negb filter].
        destruct (str_eqb_spec' (lower (fst x)) key); [|contradiction]. now f_equal.
      * destruct (str_eqb (lower (fst x)) (lower k)); cbn [negb filter]; [exact IH|].
        destruct (str_eqb_spec' (lower (fst x)) key); [contradiction|exact IH].
Qed.

Lemma rep_getitem h l k : represents h l ->
  headers_getitem h k = match values l k with [] => Raise KeyError | [v] => Ok v | _ => Raise (MultipleValuesError k) end.
Proof. intros R. unfold headers_getitem. rewrite (rep_get _ _ k R). destruct (values l k) as [|v [|v' vs]]; reflexivity. Qed.
Lemma rep_contains h l k : represents h l -> headers_contains h k = existsb (fun kv => same_name (fst kv) k) l.
Proof.
  intros R. unfold headers_contains. rewrite (rep_get _ _ k R). unfold values.
  induction l as [|x l' IH] in |- *; cbn [filter existsb]; [reflexivity|]. destruct (same_name (fst x) k); [reflexivity|exact IH].
Qed.
Lemma rep_get_all h l k : represents h l -> headers_get_all h k = values l k.
Proof. intros R. unfold headers_get_all. rewrite (rep_get _ _ k R). now destruct (values l k). Qed.
Lemma rep_of items : represents (headers_of items) items.
Proof. apply (rep_update items _ []), rep_empty. Qed.
