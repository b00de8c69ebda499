From Coq Require Import Sorting.Sorted.
From Verif Require Import Base Lib ModelStructure ModelGraph SpecStructure SpecGraph ProofStructure.

(** ** The digraph as a set of edges *)
Definition names (d : digraph) := map fst (g_nodes d).
Definition dinv (d : digraph) : Prop :=
  NoDup (names d) /\ NoDup (g_edges d)
  /\ (forall e, In e (g_edges d) -> In (fst e) (names d) /\ In (snd e) (names d)).

Lemma upsert_names ns n a : map fst (upsert_node ns n a) = if lmem n (map fst ns) then map fst ns else map fst ns ++ [n].
Proof.
  induction ns as [|[x o] r IH]; simpl; [reflexivity|].
  rewrite (String.eqb_sym n x). destruct (String.eqb_spec x n) as [->|Hn]; simpl; [reflexivity|].
  rewrite IH. unfold lmem. destruct (existsb (String.eqb n) (map fst r)); reflexivity.
Qed.
Lemma ensure_names ns n : map fst (ensure_node ns n) = if lmem n (map fst ns) then map fst ns else map fst ns ++ [n].
Proof. unfold ensure_node. destruct (lmem n (map fst ns)); [reflexivity|]. rewrite map_app; reflexivity. Qed.

Lemma NoDup_snoc {A} (l : list A) x : NoDup l -> ~ In x l -> NoDup (l ++ [x]).
Proof.
  intros H Hn. apply NoDup_rev in H. rewrite <- (rev_involutive (l ++ [x])). apply NoDup_rev.
  rewrite rev_app_distr. simpl. constructor; [rewrite <- in_rev; exact Hn|exact H].
Qed.
Lemma snoc_if_NoDup (l : list label) x : NoDup l -> NoDup (if lmem x l then l else l ++ [x]).
Proof.
  intros H. destruct (lmem x l) eqn:E; [exact H|]. apply NoDup_snoc; [exact H|apply lmem_false, E].
Qed.
Lemma snoc_if_In (l : list label) x y : In y (if lmem x l then l else l ++ [x]) <-> In y l \/ y = x.
Proof.
  destruct (lmem x l) eqn:E.
  - apply lmem_In in E. split; [tauto|]. intros [H| ->]; assumption.
  - rewrite in_app_iff; simpl. split; [intros [H|[H|[]]]; auto|intros [H| ->]; auto].
Qed.

Lemma dinv_add_node d n a : dinv d -> dinv (g_add_node d n a).
Proof.
  intros [H1 [H2 H3]]. unfold dinv, names, g_add_node in *; simpl. rewrite upsert_names.
  split; [apply snoc_if_NoDup, H1|]. split; [exact H2|].
  intros e He. rewrite !snoc_if_In. specialize (H3 e He). tauto.
Qed.

Lemma add_edge_names d e y : In y (names (g_add_edge d e)) <-> In y (names d) \/ y = fst e \/ y = snd e.
Proof. unfold names, g_add_edge; simpl. rewrite ensure_names, snoc_if_In, ensure_names, snoc_if_In. tauto. Qed.

Lemma add_edge_edges d e x : In x (g_edges (g_add_edge d e)) <-> In x (g_edges d) \/ x = e.
Proof.
  unfold g_add_edge; simpl. destruct (emem e (g_edges d)) eqn:E.
  - apply emem_In in E. split; [tauto|]. intros [H| ->]; assumption.
  - rewrite in_app_iff; simpl. split; [intros [H|[H|[]]]; auto|intros [H| ->]; auto].
Qed.

Lemma dinv_add_edge d e : dinv d -> dinv (g_add_edge d e).
Proof.
  intros [H1 [H2 H3]]. split; [|split].
  - unfold names, g_add_edge; simpl. rewrite ensure_names. apply snoc_if_NoDup. rewrite ensure_names. apply snoc_if_NoDup, H1.
  - unfold g_add_edge; simpl. destruct (emem e (g_edges d)) eqn:E; [exact H2|].
    apply NoDup_snoc; [exact H2|apply emem_false, E].
  - intros x Hx. apply add_edge_edges in Hx. rewrite !add_edge_names.
    destruct Hx as [Hx| ->]; [specialize (H3 x Hx)|]; tauto.
Qed.

Lemma add_edges_from_spec d es : dinv d ->
  dinv (g_add_edges_from d es)
  /\ (forall x, In x (g_edges (g_add_edges_from d es)) <-> In x (g_edges d) \/ In x es)
  /\ (forall y, In y (names (g_add_edges_from d es)) <-> In y (names d) \/ exists e, In e es /\ (y = fst e \/ y = snd e)).
Proof.
  unfold g_add_edges_from. revert d; induction es as [|e r IH]; intros d H; simpl.
  - split; [exact H|]. split; [tauto|]. intros y; split; [tauto|]. intros [K|[e [[] _]]]; exact K.
  - destruct (IH _ (dinv_add_edge d e H)) as [I1 [I2 I3]]. split; [exact I1|]. split.
    + intros x. rewrite I2, add_edge_edges. intuition.
    + intros y. rewrite I3, add_edge_names. split.
      * intros [[K|K]|[e' [K1 K2]]]; [tauto| |]; right; [exists e|exists e']; auto.
      * intros [K|[e' [[<-|K1] K2]]]; [tauto| |]; [tauto|]. right; exists e'; auto.
Qed.

Lemma remove_edges_from_spec d es : dinv d ->
  dinv (g_remove_edges_from d es)
  /\ (forall x, In x (g_edges (g_remove_edges_from d es)) <-> In x (g_edges d) /\ ~ In x es)
  /\ g_nodes (g_remove_edges_from d es) = g_nodes d.
Proof.
  unfold g_remove_edges_from. revert d; induction es as [|e r IH]; intros d H; simpl; [tauto|].
  assert (H' : dinv (g_remove_edge d e)).
  { destruct H as [H1 [H2 H3]]. split; [exact H1|]. split; [apply NoDup_filter, H2|].
    intros x Hx. apply filter_In in Hx as [Hx _]. apply H3, Hx. }
  destruct (IH _ H') as [I1 [I2 I3]]. split; [exact I1|]. split; [|exact I3].
  intros x. rewrite I2. unfold g_remove_edge; simpl. rewrite filter_In, negb_true_iff.
  destruct (edge_eqb_spec x e) as [->|Hn]; intuition congruence.
Qed.

Lemma remove_node_dspec d n d' : dinv d -> g_remove_node d n = Ok d' ->
  dinv d' /\ In n (names d)
  /\ (forall x, In x (g_edges d') <-> In x (g_edges d) /\ fst x <> n /\ snd x <> n)
  /\ (forall y, In y (names d') <-> In y (names d) /\ y <> n).
Proof.
  intros [H1 [H2 H3]]. unfold g_remove_node. destruct (g_has_node d n) eqn:E; [|discriminate].
  intros K; injection K as <-.
  assert (He : forall x, In x (filter (fun e => negb (String.eqb (fst e) n) && negb (String.eqb (snd e) n)) (g_edges d))
     <-> In x (g_edges d) /\ fst x <> n /\ snd x <> n).
  { intros x. rewrite filter_In, andb_true_iff, !negb_true_iff, !String.eqb_neq. tauto. }
  assert (Hn : forall y, In y (map fst (filter (fun p : string * option nattr => negb (String.eqb (fst p) n)) (g_nodes d)))
     <-> In y (names d) /\ y <> n).
  { intros y. unfold names. rewrite !in_map_iff. split.
    - intros [p [<- Hp]]. apply filter_In in Hp as [Hp K]. rewrite negb_true_iff, String.eqb_neq in K. eauto.
    - intros [[p [<- Hp]] K]. exists p; split; [reflexivity|]. apply filter_In; split; [exact Hp|].
      rewrite negb_true_iff, String.eqb_neq; exact K. }
  split; [|split; [apply lmem_In, E|split; [exact He|exact Hn]]].
  split; [|split].
  - unfold names in *; simpl. clear - H1. induction (g_nodes d) as [|p r IH]; simpl in *; [constructor|].
    inversion H1 as [|? ? K1 K2]; subst. destruct (negb (String.eqb (fst p) n)); simpl; [|apply IH, K2].
    constructor; [|apply IH, K2]. intros K; apply K1. rewrite in_map_iff in *. destruct K as [q [E K]].
    apply filter_In in K; exists q; tauto.
  - apply NoDup_filter, H2.
  - intros e K. unfold names; simpl. rewrite !Hn. apply He in K as [K [K1 K2]]. specialize (H3 e K). tauto.
Qed.

Lemma add_nodes_loop_dspec ls : forall d pos is vs, dinv d ->
  dinv (add_nodes_loop d pos ls is vs)
  /\ g_edges (add_nodes_loop d pos ls is vs) = g_edges d
  /\ (forall y, In y (names (add_nodes_loop d pos ls is vs)) <->
        In y (names d) \/ In y (firstn (Nat.min (length is) (length vs)) ls)).
Proof.
  induction ls as [|l r IH]; intros d pos is vs H; simpl.
  - split; [exact H|]. split; [reflexivity|]. intros y; rewrite firstn_nil; simpl; tauto.
  - destruct is as [|i is]; [simpl; tauto|]. destruct vs as [|v vs]; [simpl; tauto|].
    destruct (IH _ (S pos) is vs (dinv_add_node d l (MkNattr i v pos) H)) as [I1 [I2 I3]].
    split; [exact I1|]. split; [exact I2|]. intros y. rewrite I3. unfold names at 1; simpl.
    rewrite upsert_names, snoc_if_In. unfold names. intuition.
Qed.

Lemma edges_view_spec d : dinv d ->
  NoDup (g_edges_view d) /\ (forall e, In e (g_edges_view d) <-> In e (g_edges d)).
Proof.
  intros [H1 [H2 H3]]. split.
  - unfold g_edges_view. fold (names d). clear H3. revert H1. induction (names d) as [|n r IH]; simpl; intros H1; [constructor|].
    inversion H1 as [|? ? K1 K2]; subst.
    assert (Q : forall (l1 l2 : list edge), NoDup l1 -> NoDup l2 -> (forall x, In x l1 -> ~ In x l2) -> NoDup (l1 ++ l2)).
    { induction l1 as [|a l1 IHl]; simpl; intros l2 N1 N2 D; [exact N2|]. inversion N1; subst. constructor.
      - rewrite in_app_iff. intros [K|K]; [contradiction|]. apply (D a); auto.
      - apply IHl; auto. }
    apply Q; [apply NoDup_filter, H2|apply IH, K2|].
    intros x Hx Hx2. apply filter_In in Hx as [_ Hx]. apply String.eqb_eq in Hx.
    apply in_flat_map in Hx2 as [m [Hm Hx2]]. apply filter_In in Hx2 as [_ Hx2]. apply String.eqb_eq in Hx2.
    apply K1. congruence.
  - intros e. unfold g_edges_view. rewrite in_flat_map. split.
    + intros [n [_ K]]. apply filter_In in K; tauto.
    + intros K. exists (fst e). split; [apply (H3 e K)|]. apply filter_In; split; [exact K|apply String.eqb_refl].
Qed.

Lemma predecessors_spec d n : dinv d ->
  (In n (names d) -> exists ps, g_predecessors d n = Ok ps /\ NoDup ps /\ forall p, In p ps <-> In (p, n) (g_edges d))
  /\ (~ In n (names d) -> g_predecessors d n = Err NetworkXError).
Proof.
  intros [H1 [H2 H3]]. unfold g_predecessors, g_has_node. fold (names d). split.
  - intros H. apply lmem_In in H. rewrite H. eexists; split; [reflexivity|].
    assert (Q : forall p, In p (map fst (filter (fun e => String.eqb (snd e) n) (g_edges d))) <-> In (p, n) (g_edges d)).
    { intros p. rewrite in_map_iff. split.
      - intros [[a b] [E K]]. apply filter_In in K as [K1 K2]. simpl in *. apply String.eqb_eq in K2. subst. exact K1.
      - intros K. exists (p, n). split; [reflexivity|]. apply filter_In; split; [exact K|]. apply String.eqb_refl. }
    split; [|exact Q]. clear Q H3 H. induction (g_edges d) as [|[a b] r IH]; simpl; [constructor|].
    inversion H2 as [|? ? K1 K2]; subst. destruct (String.eqb_spec b n) as [->|Hn]; simpl; [|apply IH, K2].
    constructor; [|apply IH, K2]. intros K. apply in_map_iff in K as [[a' b'] [E K]]. apply filter_In in K as [K L].
    simpl in *. apply String.eqb_eq in L. subst. contradiction.
  - intros H. apply lmem_false in H. rewrite H. reflexivity.
Qed.

(** ** C05 *)
Lemma run_gop_spec g o g' : dinv (ng_graph g) -> run_gop g o = Ok g' ->
  dinv (ng_graph g') /\
  (forall E, (forall e, In e (g_edges (ng_graph g)) <-> E e) ->
             forall e, In e (g_edges (ng_graph g')) <-> edge_set_step E o e).
Proof.
  intros H. destruct o as [es|es|ls|n]; simpl.
  - intros K; injection K as <-. destruct (add_edges_from_spec _ es H) as [I1 [I2 _]]. split; [exact I1|].
    intros E HE e. simpl. rewrite I2, HE. tauto.
  - intros K; injection K as <-. destruct (remove_edges_from_spec _ es H) as [I1 [I2 _]]. split; [exact I1|].
    intros E HE e. simpl. rewrite I2, HE. tauto.
  - intros K; injection K as <-.
    destruct (add_nodes_loop_dspec ls (ng_graph g) 0 (nodes_indexes (ng_struct g)) (nodes_values (ng_struct g)) H) as [I1 [I2 _]].
    split; [exact I1|]. intros E HE e. simpl. rewrite I2. apply HE.
  - unfold ng_remove_node. intros K. apply bind_ok in K as [d [K1 K2]]. apply bind_ok in K2 as [s [_ K2]].
    injection K2 as <-. simpl. destruct (remove_node_dspec _ _ _ H K1) as [I1 [_ [I2 _]]]. split; [exact I1|].
    intros E HE e. rewrite I2, HE. tauto.
Qed.

Lemma run_gops_spec os : forall g g' E, dinv (ng_graph g) -> (forall e, In e (g_edges (ng_graph g)) <-> E e) ->
  run_gops g os = Ok g' -> dinv (ng_graph g') /\ forall e, In e (g_edges (ng_graph g')) <-> fold_left edge_set_step os E e.
Proof.
  induction os as [|o r IH]; intros g g' E H HE K; cbn [run_gops fold_left] in *.
  - injection K as <-. auto.
  - apply bind_ok in K as [g1 [K1 K2]]. destruct (run_gop_spec _ _ _ H K1) as [I1 I2].
    apply (IH g1 g' _ I1 (I2 E HE) K2).
Qed.

Lemma dinv_empty : dinv empty_digraph.
Proof. repeat split; try constructor; simpl in *; contradiction. Qed.

Lemma graph_history s os g : run_gops (new_netgraph s) os = Ok g ->
  (forall e, ng_has_edge g e = true <-> edge_set os e)
  /\ NoDup (ng_edges g) /\ (forall e, In e (ng_edges g) <-> edge_set os e)
  /\ (forall v, match ng_get_parents_by_id g v with
                | Ok ps => NoDup ps /\ forall p, In p ps <-> edge_set os (p, v)
                | Err e => e = NetworkXError /\ ~ (exists p, edge_set os (p, v) \/ edge_set os (v, p))
                end).
Proof.
  intros K. destruct (run_gops_spec os (new_netgraph s) g (fun _ => False)) as [I1 I2];
    [apply dinv_empty|simpl; tauto|exact K|]. fold (edge_set os) in I2.
  split; [|split; [|split]].
  - intros e. unfold ng_has_edge, g_has_edge. rewrite emem_In. apply I2.
  - apply (edges_view_spec _ I1).
  - intros e. unfold ng_edges. rewrite (proj2 (edges_view_spec _ I1)). apply I2.
  - intros v. unfold ng_get_parents_by_id. destruct (predecessors_spec _ v I1) as [J1 J2].
    destruct (in_dec string_dec v (names (ng_graph g))) as [Hv|Hv].
    + destruct (J1 Hv) as [ps [-> [J3 J4]]]. split; [exact J3|]. intros p. rewrite J4. apply I2.
    + rewrite (J2 Hv). split; [reflexivity|]. intros [p [Q|Q]]; apply I2 in Q; apply I1 in Q; simpl in Q; tauto.
Qed.

(** ** Sorting parents *)
Lemma strictly_sorted_unique {A} (l1 l2 : list (nat * A)) :
  StronglySorted (fun a b => fst a < fst b) l1 -> StronglySorted (fun a b => fst a < fst b) l2 ->
  (forall x, In x l1 <-> In x l2) -> l1 = l2.
Proof.
  revert l2; induction l1 as [|a r IH]; intros l2 S1 S2 H.
  - destruct l2 as [|b l2]; [reflexivity|]. exfalso. apply (H b); left; reflexivity.
  - destruct l2 as [|b l2]; [exfalso; apply (H a); left; reflexivity|].
    inversion S1 as [|? ? S1' F1]; inversion S2 as [|? ? S2' F2]; subst. rewrite Forall_forall in F1, F2.
    assert (a = b).
    { destruct (proj1 (H a) (or_introl eq_refl)) as [E|E]; [auto|].
      destruct (proj2 (H b) (or_introl eq_refl)) as [E'|E']; [auto|].
      pose proof (F1 _ E'). pose proof (F2 _ E). lia. }
    subst b. f_equal. apply IH; [assumption|assumption|]. intros x. split; intros K.
    + destruct (proj1 (H x) (or_intror K)) as [E|E]; [|exact E]. subst x. pose proof (F1 _ K); lia.
    + destruct (proj2 (H x) (or_intror K)) as [E|E]; [|exact E]. subst x. pose proof (F2 _ K); lia.
Qed.

Lemma insert_In {A} k (a : A) l x : In x (insert_by_key k a l) <-> x = (k, a) \/ In x l.
Proof.
  induction l as [|[k' b] r IH]; simpl; [intuition|]. destruct (k <=? k'); simpl; [intuition|].
  rewrite IH. intuition.
Qed.
Lemma sort_In {A} (l : list (nat * A)) x : In x (sort_by_key l) <-> In x l.
Proof. induction l as [|[k a] r IH]; simpl; [tauto|]. rewrite insert_In, IH. intuition. Qed.
Lemma insert_sorted {A} k (a : A) l : StronglySorted (fun x y => fst x < fst y) l ->
  (forall x, In x l -> fst x <> k) -> StronglySorted (fun x y => fst x < fst y) (insert_by_key k a l).
Proof.
  induction 1 as [|[k' b] r S IH F]; simpl; intros H; [repeat constructor|].
  pose proof (H (k', b) (or_introl eq_refl)) as Hk. simpl in Hk.
  destruct (Nat.leb_spec k k').
  - rewrite Forall_forall in F. constructor; [constructor; [exact S|apply Forall_forall; exact F]|].
    apply Forall_forall. intros x [<-|Hx]; simpl; [lia|]. specialize (F x Hx). simpl in F. lia.
  - constructor; [apply IH; intros x Hx; apply H; right; exact Hx|]. rewrite Forall_forall in *.
    intros x Hx. apply insert_In in Hx as [->|Hx]; simpl; [lia|]. apply F, Hx.
Qed.
Lemma sort_sorted {A} (l : list (nat * A)) : NoDup (map fst l) ->
  StronglySorted (fun x y => fst x < fst y) (sort_by_key l).
Proof.
  induction l as [|[k a] r IH]; simpl; intros H; [constructor|]. inversion H as [|? ? H1 H2]; subst.
  apply insert_sorted; [apply IH, H2|]. intros x Hx E. rewrite sort_In in Hx. apply H1.
  rewrite <- E. apply in_map, Hx.
Qed.

Lemma enum_dict_from_spec nodes : forall i v acc, NoDup nodes ->
  enum_dict_from i nodes v acc = match py_index v nodes with Ok k => Ok (i + k) | Err _ => acc end.
Proof.
  induction nodes as [|x r IH]; intros i v acc H; simpl; [reflexivity|].
  inversion H as [|? ? H1 H2]; subst. rewrite IH by exact H2.
  destruct (String.eqb_spec v x) as [->|Hn].
  - rewrite py_index_not_In by exact H1. rewrite Nat.add_0_r; reflexivity.
  - destruct (py_index v r) as [k|e]; simpl; [f_equal; lia|reflexivity].
Qed.
Lemma enum_dict_In nodes v k : NoDup nodes -> nth_error nodes k = Some v -> enum_dict nodes v = Ok k.
Proof.
  intros H Hk. unfold enum_dict. rewrite enum_dict_from_spec by exact H.
  rewrite (py_index_NoDup _ _ _ H Hk). reflexivity.
Qed.

Lemma seq_combine_In {A} (l : list A) : forall i k a, In (k, a) (combine (seq i (length l)) l) <-> i <= k /\ nth_error l (k - i) = Some a.
Proof.
  induction l as [|x r IH]; intros i k a; simpl.
  - split; [tauto|]. intros [_ H]. destruct (k - i); discriminate.
  - rewrite IH. split.
    + intros [H|[H1 H2]].
      * injection H as <- <-. split; [lia|]. rewrite Nat.sub_diag; reflexivity.
      * split; [lia|]. replace (k - i) with (S (k - S i)) by lia. exact H2.
    + intros [H1 H2]. destruct (Nat.eq_dec k i) as [->|Hn].
      * left. rewrite Nat.sub_diag in H2. simpl in H2. congruence.
      * right. split; [lia|]. replace (k - i) with (S (k - S i)) in H2 by lia. exact H2.
Qed.
Lemma seq_combine_sorted {A} (l : list A) : forall i, StronglySorted (fun x y => fst x < fst y) (combine (seq i (length l)) l).
Proof.
  induction l as [|x r IH]; intros i; simpl; constructor; [apply IH|].
  apply Forall_forall. intros [k a] H. apply seq_combine_In in H as [H _]. simpl; lia.
Qed.
Lemma filter_sorted {A} (R : A -> A -> Prop) (f : A -> bool) l : StronglySorted R l -> StronglySorted R (filter f l).
Proof.
  induction 1 as [|a r S IH F]; simpl; [constructor|]. destruct (f a); [|exact IH].
  constructor; [exact IH|]. rewrite Forall_forall in *. intros x Hx. apply filter_In in Hx as [Hx _]. apply F, Hx.
Qed.
Lemma map_snd_filter_combine {A} (f : A -> bool) (l : list A) : forall i,
  map snd (filter (fun p => f (snd p)) (combine (seq i (length l)) l)) = filter f l.
Proof.
  induction l as [|x r IH]; intros i; simpl; [reflexivity|]. destruct (f x); simpl; rewrite IH; reflexivity.
Qed.

Lemma sort_parents labels ps (f : label -> bool) : NoDup labels -> NoDup ps ->
  (forall p, In p ps <-> In p labels /\ f p = true) ->
  exists keyed, res_map (fun v => let* k := enum_dict labels v in Ok (k, v)) ps = Ok keyed
    /\ map snd (sort_by_key keyed) = filter f labels.
Proof.
  intros H1 H2 H3.
  set (key := fun v => match py_index v labels with Ok k => k | Err _ => 0 end).
  assert (Hkey : forall v, In v ps -> nth_error labels (key v) = Some v).
  { intros v Hv. apply H3 in Hv as [Hv _]. destruct (py_index_In v labels Hv) as [k [E _]].
    unfold key. rewrite E. apply py_index_ok in E. tauto. }
  exists (map (fun v => (key v, v)) ps). split.
  - apply res_map_pure. intros v Hv. rewrite (enum_dict_In labels v (key v) H1 (Hkey v Hv)). reflexivity.
  - rewrite <- (map_snd_filter_combine f labels 0). f_equal.
    apply strictly_sorted_unique.
    + apply sort_sorted. rewrite map_map. simpl. clear H3. induction ps as [|p r IH]; simpl; [constructor|].
      inversion H2 as [|? ? K1 K2]; subst. constructor.
      * intros K. apply in_map_iff in K as [q [E K]]. apply K1.
        pose proof (Hkey p (or_introl eq_refl)) as Q1. pose proof (Hkey q (or_intror K)) as Q2. congruence.
      * apply IH; [exact K2|]. intros v Hv. apply Hkey; right; exact Hv.
    + apply filter_sorted, seq_combine_sorted.
    + intros [k v]. rewrite sort_In, filter_In, seq_combine_In, Nat.sub_0_r, in_map_iff. simpl. split.
      * intros [v' [E K]]. injection E as <- <-. pose proof (Hkey v' K). apply H3 in K as [K1 K2].
        repeat split; [lia|assumption|assumption].
      * intros [[_ K1] K2]. exists v. assert (Hv : In v ps) by (apply H3; split; [eapply nth_error_In; exact K1|exact K2]).
        split; [|exact Hv]. f_equal. apply (NoDup_nth_error_inj labels _ _ v H1 (Hkey v Hv) K1).
Qed.

(** ** The invariant of graphs in use *)
Definition attrs_ok (s : structure) (d : digraph) : Prop :=
  forall i l x v, nth_error (nodes_labels s) i = Some l -> nth_error (nodes_indexes s) i = Some x ->
    nth_error (nodes_values s) i = Some v ->
    exists a, g_attr d l = Ok a /\ a_indx a = x /\ a_val a = v.
Definition ginv (g : netgraph) : Prop :=
  wf_structure (ng_struct g) /\ dinv (ng_graph g) /\ attrs_ok (ng_struct g) (ng_graph g)
  /\ edges_within (nodes_labels (ng_struct g)) (g_edges (ng_graph g)).

Lemma assoc_upsert ns n a m :
  assoc_node (upsert_node ns n a) m = if String.eqb n m then Some (Some a) else assoc_node ns m.
Proof.
  induction ns as [|[x o] r IH]; simpl.
  - reflexivity.
  - destruct (String.eqb_spec x n) as [->|Hx]; simpl.
    + destruct (String.eqb_spec n m); reflexivity.
    + rewrite IH. destruct (String.eqb_spec x m) as [->|]; [|reflexivity].
      destruct (String.eqb_spec n m); [congruence|reflexivity].
Qed.
Lemma assoc_app ns n m o : assoc_node (ns ++ [(n, o)]) m =
  match assoc_node ns m with Some x => Some x | None => if String.eqb n m then Some o else None end.
Proof. induction ns as [|[x q] r IH]; simpl; [reflexivity|]. destruct (String.eqb x m); [reflexivity|exact IH]. Qed.
Lemma assoc_ensure ns n m a : assoc_node ns m = Some a -> assoc_node (ensure_node ns n) m = Some a.
Proof.
  intros H. unfold ensure_node. destruct (lmem n (map fst ns)); [exact H|]. rewrite assoc_app, H. reflexivity.
Qed.
Lemma attr_add_edges d es l a : g_attr d l = Ok a -> g_attr (g_add_edges_from d es) l = Ok a.
Proof.
  unfold g_add_edges_from. revert d; induction es as [|e r IH]; intros d H; simpl; [exact H|].
  apply IH. unfold g_attr in *. unfold g_add_edge; cbn [g_nodes].
  destruct (assoc_node (g_nodes d) l) as [[b|]|] eqn:E; try discriminate.
  rewrite (assoc_ensure _ (snd e) l (Some b)); [exact H|]. apply assoc_ensure, E.
Qed.
Lemma g_attr_nodes d d' l : g_nodes d' = g_nodes d -> g_attr d' l = g_attr d l.
Proof. unfold g_attr. intros ->. reflexivity. Qed.
Lemma assoc_filter_ne ns n m : n <> m ->
  assoc_node (filter (fun p => negb (String.eqb (fst p) n)) ns) m = assoc_node ns m.
Proof.
  intros H. induction ns as [|[x o] r IH]; simpl; [reflexivity|].
  destruct (String.eqb_spec x n) as [->|]; simpl.
  - rewrite IH. destruct (String.eqb_spec n m); [contradiction|reflexivity].
  - rewrite IH. reflexivity.
Qed.

Lemma add_nodes_attr_other ls : forall d pos is vs m, ~ In m ls ->
  g_attr (add_nodes_loop d pos ls is vs) m = g_attr d m.
Proof.
  induction ls as [|l r IH]; intros d pos is vs m H; simpl; [reflexivity|].
  destruct is as [|i is]; [reflexivity|]. destruct vs as [|v vs]; [reflexivity|].
  rewrite IH by (intros K; apply H; right; exact K). unfold g_attr, g_add_node; simpl. rewrite assoc_upsert.
  destruct (String.eqb_spec l m); [exfalso; apply H; left; exact e|reflexivity].
Qed.
Lemma add_nodes_attr ls : forall d pos is vs k l x v, NoDup ls ->
  nth_error ls k = Some l -> nth_error is k = Some x -> nth_error vs k = Some v ->
  g_attr (add_nodes_loop d pos ls is vs) l = Ok (MkNattr x v (pos + k)).
Proof.
  induction ls as [|l0 r IH]; intros d pos is vs k l x v H H1 H2 H3; [destruct k; discriminate|].
  inversion H as [|? ? N1 N2]; subst.
  destruct is as [|i is]; [destruct k; discriminate|]. destruct vs as [|w vs]; [destruct k; discriminate|].
  destruct k as [|k]; simpl in *.
  - injection H1 as <-; injection H2 as <-; injection H3 as <-.
    rewrite add_nodes_attr_other by exact N1. unfold g_attr, g_add_node; simpl. rewrite assoc_upsert, String.eqb_refl, Nat.add_0_r.
    reflexivity.
  - rewrite (IH _ (S pos) is vs k l x v N2 H1 H2 H3). do 2 f_equal; lia.
Qed.

Lemma ginv_add_nodes g ls : wf_structure (ng_struct g) -> dinv (ng_graph g) ->
  edges_within (nodes_labels (ng_struct g)) (g_edges (ng_graph g)) -> ls = nodes_labels (ng_struct g) ->
  ginv (ng_add_nodes g ls).
Proof.
  intros Hwf H1 H2 ->. unfold ginv, ng_add_nodes, with_graph; cbn [ng_struct ng_graph].
  destruct (add_nodes_loop_dspec (nodes_labels (ng_struct g)) (ng_graph g) 0 (nodes_indexes (ng_struct g)) (nodes_values (ng_struct g)) H1) as [I1 [I2 _]].
  split; [exact Hwf|]. split; [exact I1|]. split; [|rewrite I2; exact H2].
  intros k l x v K1 K2 K3. eexists. split; [eapply add_nodes_attr; eauto; apply Hwf|]. split; reflexivity.
Qed.
Lemma ginv_add_edges g es : ginv g -> edges_within (nodes_labels (ng_struct g)) es -> ginv (ng_add_edges g es).
Proof.
  intros [Hwf [H1 [H2 H3]]] He. unfold ginv, ng_add_edges, with_graph; cbn [ng_struct ng_graph].
  destruct (add_edges_from_spec _ es H1) as [I1 [I2 _]]. split; [exact Hwf|]. split; [exact I1|]. split.
  - intros k l x v K1 K2 K3. destruct (H2 k l x v K1 K2 K3) as [a [A1 A2]]. exists a. split; [apply attr_add_edges, A1|exact A2].
  - intros e K. apply I2 in K as [K|K]; [apply H3, K|apply He, K].
Qed.
Lemma ginv_remove_edges g es : ginv g -> ginv (ng_remove_edges g es).
Proof.
  intros [Hwf [H1 [H2 H3]]]. unfold ginv, ng_remove_edges, with_graph; cbn [ng_struct ng_graph].
  destruct (remove_edges_from_spec _ es H1) as [I1 [I2 I3]]. split; [exact Hwf|]. split; [exact I1|]. split.
  - intros k l x v K1 K2 K3. destruct (H2 k l x v K1 K2 K3) as [a [A1 A2]]. exists a.
    split; [|exact A2]. rewrite (g_attr_nodes (ng_graph g)); [exact A1|exact I3].
  - intros e K. apply I2 in K as [K _]. apply H3, K.
Qed.

(** index and cardinality of a label, as functions *)
Definition idx_of (s : structure) (l : label) : nat := match structure_get_node_indx s l with Ok i => i | Err _ => 0 end.
Definition val_of (s : structure) (l : label) : nat := match structure_get_states_number s l with Ok i => i | Err _ => 0 end.
Lemma wf_lookup s l : wf_structure s -> In l (nodes_labels s) ->
  exists i, nth_error (nodes_labels s) i = Some l /\ nth_error (nodes_indexes s) i = Some (idx_of s l)
    /\ nth_error (nodes_values s) i = Some (val_of s l)
    /\ structure_get_node_indx s l = Ok (idx_of s l) /\ structure_get_states_number s l = Ok (val_of s l).
Proof.
  intros [H1 [H2 H3]] Hin. apply In_nth_error in Hin as [i Hi].
  destruct (lookup_eq s l i H1 Hi) as [E1 [E2 _]].
  assert (Hl : i < length (nodes_labels s)) by (apply nth_error_Some; congruence).
  destruct (nth_res_lt (nodes_indexes s) i ltac:(lia)) as [x Hx]. destruct (nth_res_lt (nodes_values s) i ltac:(lia)) as [v Hv].
  exists i. unfold idx_of, val_of. rewrite E1, E2, Hx, Hv. apply nth_res_ok in Hx, Hv. auto.
Qed.
Lemma ginv_lookup g l : ginv g -> In l (nodes_labels (ng_struct g)) ->
  ng_get_node_indx g l = Ok (idx_of (ng_struct g) l) /\ ng_get_states_number g l = Ok (val_of (ng_struct g) l).
Proof.
  intros [Hwf [_ [H _]]] Hin. destruct (wf_lookup _ l Hwf Hin) as [i [K1 [K2 [K3 _]]]].
  destruct (H i l _ _ K1 K2 K3) as [a [A1 [A2 A3]]]. unfold ng_get_node_indx, ng_get_states_number.
  rewrite A1; simpl. rewrite A2, A3. split; reflexivity.
Qed.
Lemma ginv_names g l : ginv g -> In l (nodes_labels (ng_struct g)) -> In l (names (ng_graph g)).
Proof.
  intros [Hwf [_ [H _]]] Hin. destruct (wf_lookup _ l Hwf Hin) as [i [K1 [K2 [K3 _]]]].
  destruct (H i l _ _ K1 K2 K3) as [a [A1 _]]. unfold g_attr in A1. unfold names.
  induction (g_nodes (ng_graph g)) as [|[x o] r IH]; simpl in *; [discriminate|].
  destruct (String.eqb_spec x l); [left; assumption|right; apply IH, A1].
Qed.

Lemma ordered_parents g v : ginv g -> In v (nodes_labels (ng_struct g)) ->
  let ps := filter (fun l => ng_has_edge g (l, v)) (nodes_labels (ng_struct g)) in
  ng_get_ordered_by_indx_set_of_parents g v
  = Ok (ps, map (idx_of (ng_struct g)) ps, map (val_of (ng_struct g)) ps).
Proof.
  intros Hg Hv ps. pose proof Hg as [Hwf [H1 [H2 H3]]].
  unfold ng_get_ordered_by_indx_set_of_parents, ng_get_parents_by_id.
  destruct (proj1 (predecessors_spec _ v H1) (ginv_names g v Hg Hv)) as [qs [-> [Q1 Q2]]]. simpl.
  destruct (sort_parents (nodes_labels (ng_struct g)) qs (fun l => ng_has_edge g (l, v))) as [keyed [-> Hk]].
  - apply Hwf.
  - exact Q1.
  - intros p. rewrite Q2. unfold ng_has_edge, g_has_edge. rewrite emem_In. split; [|tauto].
    intros K; split; [apply (H3 _ K)|exact K].
  - simpl. rewrite Hk. fold ps.
    rewrite (res_map_pure _ (idx_of (ng_struct g))).
    2:{ intros l Hl. apply filter_In in Hl as [Hl _]. apply ginv_lookup; assumption. }
    simpl. rewrite (res_map_pure _ (val_of (ng_struct g))).
    2:{ intros l Hl. apply filter_In in Hl as [Hl _]. apply ginv_lookup; assumption. }
    reflexivity.
Qed.

(** remove_node *)
Lemma ginv_remove_node g n : ginv g -> In n (nodes_labels (ng_struct g)) ->
  exists g', ng_remove_node g n = Ok g' /\ ginv g'
   /\ structure_remove_node (ng_struct g) n = Ok (ng_struct g')
   /\ (forall e, In e (g_edges (ng_graph g')) <-> In e (g_edges (ng_graph g)) /\ fst e <> n /\ snd e <> n).
Proof.
  intros Hg Hn. pose proof Hg as [Hwf [H1 [H2 H3]]].
  unfold ng_remove_node. 
  destruct (g_remove_node (ng_graph g) n) as [d|e] eqn:E.
  2:{ unfold g_remove_node in E. destruct (g_has_node (ng_graph g) n) eqn:E2; [discriminate|].
      apply lmem_false in E2. exfalso; apply E2, ginv_names; assumption. }
  destruct (proj1 (remove_node_spec (ng_struct g) n Hwf) Hn) as [s' [Es [Hwf' [Hlab [Hkeep [Hed Ht]]]]]].
  rewrite Es. cbn [bind]. eexists; split; [reflexivity|].
  destruct (remove_node_dspec _ _ _ H1 E) as [I1 [_ [I2 I3]]].
  split; [|split; [reflexivity|exact I2]].
  split; [exact Hwf'|]. split; [exact I1|]. cbn [ng_struct ng_graph]. split.
  - intros k l x v K1 K2 K3.
    assert (Hl : In l (nodes_labels s')) by (eapply nth_error_In; eassumption).
    assert (Hl0 : In l (nodes_labels (ng_struct g)) /\ l <> n).
    { rewrite Hlab in Hl. apply filter_In in Hl as [A B]. rewrite negb_true_iff, String.eqb_neq in B. auto. }
    destruct Hl0 as [Hl0 Hln]. destruct (Hkeep l Hln) as [Q1 Q2].
    destruct (lookup_eq s' l k (proj1 Hwf') K1) as [L1 [L2 _]].
    unfold nth_res in L1, L2. rewrite K2 in L1. rewrite K3 in L2.
    destruct (wf_lookup _ l Hwf Hl0) as [i [W1 [W2 [W3 [W4 W5]]]]].
    destruct (H2 i l _ _ W1 W2 W3) as [a [A1 [A2 A3]]]. exists a.
    assert (Ea : g_attr d l = g_attr (ng_graph g) l).
    { unfold g_remove_node in E. destruct (g_has_node (ng_graph g) n); [|discriminate]. injection E as <-.
      unfold g_attr; simpl. rewrite assoc_filter_ne by congruence. reflexivity. }
    rewrite Ea. split; [exact A1|]. split; congruence.
  - intros e K. apply I2 in K as [K [K1 K2]]. specialize (H3 _ K). rewrite Hlab, !filter_In, !negb_true_iff, !String.eqb_neq. tauto.
Qed.

Lemma legal_run os : forall g, ginv g -> legal_history (nodes_labels (ng_struct g)) os ->
  exists g', run_gops g os = Ok g' /\ ginv g'
    /\ (forall l, In l (nodes_labels (ng_struct g')) ->
          idx_of (ng_struct g') l = idx_of (ng_struct g) l /\ val_of (ng_struct g') l = val_of (ng_struct g) l)
    /\ (forall l, In l (nodes_labels (ng_struct g')) -> In l (nodes_labels (ng_struct g))).
Proof.
  induction os as [|o r IH]; intros g Hg HL; cbn [run_gops].
  - exists g. auto.
  - destruct o as [es|es|ls|n]; cbn [legal_history run_gop bind] in *.
    + destruct HL as [HL1 HL2]. exact (IH (ng_add_edges g es) (ginv_add_edges g es Hg HL1) HL2).
    + exact (IH (ng_remove_edges g es) (ginv_remove_edges g es Hg) HL).
    + destruct HL as [HL1 HL2]. refine (IH (ng_add_nodes g ls) _ HL2). 
      destruct Hg as [G1 [G2 [G3 G4]]]. apply ginv_add_nodes; assumption.
    + destruct HL as [HL1 HL2]. destruct (ginv_remove_node g n Hg HL1) as [g1 [-> [G1 [G2 _]]]]. cbn [bind].
      destruct (proj1 (remove_node_spec (ng_struct g) n (proj1 Hg)) HL1) as [s' [Es [_ [Hlab [Hkeep _]]]]].
      rewrite Es in G2; injection G2 as G2. rewrite G2 in Hlab.
      rewrite <- Hlab in HL2. destruct (IH g1 G1 HL2) as [g' [R1 [R2 [R3 R4]]]].
      exists g'. split; [exact R1|]. split; [exact R2|]. split.
      * intros l Hl. destruct (R3 l Hl) as [-> ->]. apply R4 in Hl. rewrite Hlab in Hl. apply filter_In in Hl as [_ Hl].
        rewrite negb_true_iff, String.eqb_neq in Hl. unfold idx_of, val_of. destruct (Hkeep l Hl) as [<- <-].
        rewrite G2. split; reflexivity.
      * intros l Hl. apply R4 in Hl. rewrite Hlab in Hl. apply filter_In in Hl; tauto.
Qed.

Lemma ginv_start s : wf_structure s -> ginv (ng_add_nodes (new_netgraph s) (nodes_labels s)).
Proof. intros H. apply ginv_add_nodes; [exact H|apply dinv_empty| |reflexivity]. intros e []. Qed.

(** C06 *)
Lemma ordered_parents_history s os : wf_structure s -> legal_history (nodes_labels s) os ->
  exists g, run_gops (new_netgraph s) (AddNodes (nodes_labels s) :: os) = Ok g
  /\ forall v, In v (nodes_labels (ng_struct g)) ->
     exists ps is vs, ng_get_ordered_by_indx_set_of_parents g v = Ok (ps, is, vs)
       /\ ps = filter (fun l => ng_has_edge g (l, v)) (nodes_labels (ng_struct g))
       /\ (forall p, In p ps <-> edge_set os (p, v))
       /\ Forall2 (fun p i => structure_get_node_indx s p = Ok i) ps is
       /\ Forall2 (fun p k => structure_get_states_number s p = Ok k) ps vs.
Proof.
  intros Hwf HL. cbn [run_gops run_gop bind]. pose proof (ginv_start s Hwf) as G0.
  destruct (legal_run os _ G0 HL) as [g [R1 [R2 [R3 R4]]]]. exists g. split; [exact R1|].
  intros v Hv. do 3 eexists. split; [apply ordered_parents; assumption|]. split; [reflexivity|].
  assert (HE : run_gops (new_netgraph s) (AddNodes (nodes_labels s) :: os) = Ok g) by exact R1.
  apply graph_history in HE as [HE _].
  split; [|split].
  - intros p. rewrite filter_In, HE. unfold edge_set at 1; cbn [fold_left edge_set_step]. fold (edge_set os).
    split; [tauto|]. intros K; split; [|exact K].
    assert (K' : ng_has_edge g (p, v) = true) by (apply HE; exact K).
    unfold ng_has_edge, g_has_edge in K'. apply emem_In in K'. destruct R2 as [_ [_ [_ R2]]]. apply (R2 _ K').
  - apply res_map_ok, res_map_pure. intros p Hp. apply filter_In in Hp as [Hp _].
    destruct (R3 p Hp) as [-> _]. apply R4 in Hp. destruct (wf_lookup s p Hwf Hp) as [? [_ [_ [_ [W _]]]]]. exact W.
  - apply res_map_ok, res_map_pure. intros p Hp. apply filter_In in Hp as [Hp _].
    destruct (R3 p Hp) as [_ ->]. apply R4 in Hp. destruct (wf_lookup s p Hwf Hp) as [? [_ [_ [_ [_ W]]]]]. exact W.
Qed.

Lemma ordered_parents_canonical s os1 os2 g1 g2 v : wf_structure s ->
  legal_history (nodes_labels s) os1 -> legal_history (nodes_labels s) os2 ->
  run_gops (new_netgraph s) (AddNodes (nodes_labels s) :: os1) = Ok g1 ->
  run_gops (new_netgraph s) (AddNodes (nodes_labels s) :: os2) = Ok g2 ->
  ng_struct g1 = ng_struct g2 -> In v (nodes_labels (ng_struct g1)) ->
  (forall p, edge_set os1 (p, v) <-> edge_set os2 (p, v)) ->
  ng_get_ordered_by_indx_set_of_parents g1 v = ng_get_ordered_by_indx_set_of_parents g2 v.
Proof.
  intros Hwf L1 L2 R1 R2 Hs Hv He. cbn [run_gops run_gop bind] in R1, R2.
  destruct (legal_run os1 _ (ginv_start s Hwf) L1) as [h1 [Q1 [I1 _]]]. 
  destruct (legal_run os2 _ (ginv_start s Hwf) L2) as [h2 [Q2 [I2 _]]].
  rewrite R1 in Q1; injection Q1 as <-. rewrite R2 in Q2; injection Q2 as <-.
  rewrite (ordered_parents g1 v I1 Hv). rewrite Hs in Hv. rewrite (ordered_parents g2 v I2 Hv). rewrite Hs.
  assert (E : filter (fun l => ng_has_edge g1 (l, v)) (nodes_labels (ng_struct g2))
            = filter (fun l => ng_has_edge g2 (l, v)) (nodes_labels (ng_struct g2))).
  { apply filter_ext. intros l. apply eq_true_iff_eq.
    destruct (graph_history s (AddNodes (nodes_labels s) :: os1) g1 R1) as [H1 _].
    destruct (graph_history s (AddNodes (nodes_labels s) :: os2) g2 R2) as [H2 _].
    rewrite H1, H2. apply He. }
  rewrite E. reflexivity.
Qed.

(** ** fast_init *)
Definition canonical_fields (s : structure) (v : label) (f : label -> bool) :=
  let ps := filter f (nodes_labels s) in
  let is := map (idx_of s) ps in
  let vs := map (val_of s) ps in
  (Some (ps, is, vs),
   (Some (build_time_scalar_indexing_structure_for_a_node (val_of s v) vs),
    Some (build_transition_scalar_indexing_structure_for_a_node (val_of s v) vs)),
   (Some (build_time_columns_filtering_for_a_node (idx_of s v) is),
    Some (build_transition_filtering_for_a_node (idx_of s v) is (total_variables_number s))),
   Some (build_p_comb_structure_for_a_node vs)).

Lemma fast_init_canonical g v : wf_structure (ng_struct g) -> dinv (ng_graph g) ->
  edges_within (nodes_labels (ng_struct g)) (g_edges (ng_graph g)) ->
  edges_within (nodes_labels (ng_struct g)) (edges_list (ng_struct g)) ->
  In v (nodes_labels (ng_struct g)) ->
  exists g', ng_fast_init g v = Ok g' /\ ginv g' /\ ng_struct g' = ng_struct g
   /\ (forall e, In e (g_edges (ng_graph g')) <-> In e (g_edges (ng_graph g)) \/ In e (edges_list (ng_struct g)))
   /\ init_fields g' = canonical_fields (ng_struct g) v
        (fun l => emem (l, v) (g_edges (ng_graph g)) || emem (l, v) (edges_list (ng_struct g))).
Proof.
  intros Hwf Hd He1 He2 Hv. unfold ng_fast_init.
  set (g2 := ng_add_edges (ng_add_nodes g (nodes_labels (ng_struct g))) (edges_list (ng_struct (ng_add_nodes g (nodes_labels (ng_struct g)))))).
  assert (G1 : ginv (ng_add_nodes g (nodes_labels (ng_struct g)))) by (apply ginv_add_nodes; auto).
  assert (G2 : ginv g2) by (apply ginv_add_edges; assumption).
  assert (Es : ng_struct g2 = ng_struct g) by reflexivity.
  assert (Hedges : forall e, In e (g_edges (ng_graph g2)) <-> In e (g_edges (ng_graph g)) \/ In e (edges_list (ng_struct g))).
  { intros e. subst g2. unfold ng_add_edges, with_graph; cbn [ng_graph ng_struct].
    rewrite (proj1 (proj2 (add_edges_from_spec _ _ (proj1 (proj2 G1))))).
    unfold ng_add_nodes, with_graph; cbn [ng_graph ng_struct].
    rewrite (proj1 (proj2 (add_nodes_loop_dspec (nodes_labels (ng_struct g)) (ng_graph g) 0 (nodes_indexes (ng_struct g)) (nodes_values (ng_struct g)) Hd))).
    tauto. }
  rewrite (ordered_parents g2 v G2) by (rewrite Es; exact Hv). cbn [bind fst snd].
  destruct (ginv_lookup g2 v G2) as [L1 L2]; [rewrite Es; exact Hv|]. rewrite L1, L2. cbn [bind].
  eexists. split; [reflexivity|]. split; [exact G2|]. split; [exact Es|]. split; [exact Hedges|].
  unfold init_fields, canonical_fields; cbn [ng_pinfo ng_time_indexing ng_trans_indexing ng_time_filtering ng_trans_filtering ng_p_combs].
  rewrite Es.
  assert (Ef : filter (fun l => ng_has_edge g2 (l, v)) (nodes_labels (ng_struct g))
    = filter (fun l => emem (l, v) (g_edges (ng_graph g)) || emem (l, v) (edges_list (ng_struct g))) (nodes_labels (ng_struct g))).
  { apply filter_ext. intros l. apply eq_true_iff_eq. unfold ng_has_edge, g_has_edge.
    rewrite orb_true_iff, !emem_In. apply Hedges. }
  rewrite Ef. reflexivity.
Qed.

Lemma canonical_ext s v f1 f2 : (forall l, In l (nodes_labels s) -> f1 l = f2 l) ->
  canonical_fields s v f1 = canonical_fields s v f2.
Proof. intros H. unfold canonical_fields. rewrite (filter_ext_In f1 f2) by exact H. reflexivity. Qed.

(** C07: idempotence *)
Lemma upsert_same ns n a : assoc_node ns n = Some (Some a) -> upsert_node ns n a = ns.
Proof.
  induction ns as [|[x o] r IH]; simpl; [discriminate|].
  destruct (String.eqb_spec x n) as [->|]; intros H; [congruence|]. rewrite IH by exact H. reflexivity.
Qed.
Lemma add_nodes_same ls : forall d pos is vs,
  (forall k l x v, nth_error ls k = Some l -> nth_error is k = Some x -> nth_error vs k = Some v ->
     g_attr d l = Ok (MkNattr x v (pos + k))) ->
  add_nodes_loop d pos ls is vs = d.
Proof.
  induction ls as [|l r IH]; intros d pos is vs H; simpl; [reflexivity|].
  destruct is as [|i is]; [reflexivity|]. destruct vs as [|v vs]; [reflexivity|].
  assert (E : g_add_node d l (MkNattr i v pos) = d).
  { pose proof (H 0 l i v eq_refl eq_refl eq_refl) as K. rewrite Nat.add_0_r in K.
    unfold g_attr in K. destruct (assoc_node (g_nodes d) l) as [[a|]|] eqn:E; try discriminate. injection K as ->.
    destruct d as [ns es]. unfold g_add_node; simpl in *. rewrite upsert_same by exact E. reflexivity. }
  rewrite E. apply IH. intros k l' x v' K1 K2 K3. rewrite (H (S k) l' x v' K1 K2 K3). do 2 f_equal. lia.
Qed.
Lemma add_edges_same d es : dinv d -> (forall e, In e es -> In e (g_edges d)) -> g_add_edges_from d es = d.
Proof.
  unfold g_add_edges_from. intros Hd. induction es as [|e r IH]; simpl; intros H; [reflexivity|].
  assert (E : g_add_edge d e = d).
  { pose proof (H e (or_introl eq_refl)) as K. destruct (proj2 (proj2 Hd) e K) as [K1 K2]. unfold names in *.
    destruct d as [ns es]. unfold g_add_edge, ensure_node; simpl in *.
    apply lmem_In in K1, K2. rewrite K1, K2. apply emem_In in K. rewrite K. reflexivity. }
  rewrite E. apply IH. intros x Hx; apply H; right; exact Hx.
Qed.

Lemma dinv_fast_graph g : dinv (ng_graph g) ->
  dinv (ng_graph (ng_add_edges (ng_add_nodes g (nodes_labels (ng_struct g))) (edges_list (ng_struct g)))).
Proof.
  intros H. apply add_edges_from_spec.
  apply (add_nodes_loop_dspec _ _ 0 (nodes_indexes (ng_struct g)) (nodes_values (ng_struct g)) H).
Qed.

Lemma fast_init_idem g v g1 : wf_structure (ng_struct g) -> dinv (ng_graph g) ->
  ng_fast_init g v = Ok g1 -> ng_fast_init g1 v = Ok g1.
Proof.
  intros Hwf Hd H. pose proof (dinv_fast_graph g Hd) as Hd2. unfold ng_fast_init in H.
  cbn [ng_add_nodes with_graph ng_struct] in H.
  set (g2 := ng_add_edges (ng_add_nodes g (nodes_labels (ng_struct g))) (edges_list (ng_struct g))) in *.
  change (ng_add_edges _ _) with g2 in H.
  apply bind_ok in H as [pinfo [H1 H]]. apply bind_ok in H as [ns [H2 H]]. apply bind_ok in H as [ni [H3 H]].
  injection H as <-. 
  assert (Es : ng_struct g2 = ng_struct g) by reflexivity.
  match goal with |- ng_fast_init ?x v = _ => set (g1 := x) end.
  unfold ng_fast_init. 
  assert (E1 : ng_add_nodes g1 (nodes_labels (ng_struct g2)) = g1).
  { unfold ng_add_nodes. replace (add_nodes_loop _ _ _ _ _) with (ng_graph g2); [reflexivity|].
    symmetry. apply add_nodes_same. subst g1; cbn [ng_struct ng_graph]. intros k l x w K1 K2 K3.
    subst g2. unfold ng_add_edges, with_graph; cbn [ng_graph]. apply attr_add_edges.
    unfold ng_add_nodes, with_graph; cbn [ng_graph]. eapply add_nodes_attr; eauto. apply Hwf. }
  change (nodes_labels (ng_struct g1)) with (nodes_labels (ng_struct g2)).
  rewrite E1.
  assert (E2 : ng_add_edges g1 (edges_list (ng_struct g1)) = g1).
  { change (with_graph g1 (g_add_edges_from (ng_graph g2) (edges_list (ng_struct g2))) = g1).
    assert (Q : g_add_edges_from (ng_graph g2) (edges_list (ng_struct g2)) = ng_graph g2).
    2:{ rewrite Q. reflexivity. }
    apply add_edges_same; [exact Hd2|].
    intros e He. subst g2. unfold ng_add_edges, with_graph; cbn [ng_graph].
    apply add_edges_from_spec; [|right; exact He].
    apply (add_nodes_loop_dspec _ _ 0 (nodes_indexes (ng_struct g)) (nodes_values (ng_struct g)) Hd). }
  rewrite E2.
  assert (Q1 : ng_get_ordered_by_indx_set_of_parents g1 v = ng_get_ordered_by_indx_set_of_parents g2 v) by reflexivity.
  rewrite Q1, H1. cbn [bind].
  assert (Q2 : ng_get_states_number g1 v = ng_get_states_number g2 v) by reflexivity.
  assert (Q3 : ng_get_node_indx g1 v = ng_get_node_indx g2 v) by reflexivity.
  rewrite Q2, H2, Q3, H3. reflexivity.
Qed.

Lemma fast_init_idem_history s os g v g1 : wf_structure s -> legal_history (nodes_labels s) os ->
  run_gops (new_netgraph s) os = Ok g -> ng_fast_init g v = Ok g1 -> ng_fast_init g1 v = Ok g1.
Proof.
  intros Hwf HL HR. apply fast_init_idem.
  - revert HR HL. 
    assert (Q : forall os g0 , wf_structure (ng_struct g0) -> legal_history (nodes_labels (ng_struct g0)) os ->
       run_gops g0 os = Ok g -> wf_structure (ng_struct g)).
    { clear. induction os as [|o r IH]; intros g0 H HL HR; cbn [run_gops] in HR; [injection HR as <-; exact H|].
      apply bind_ok in HR as [g1 [R1 R2]]. destruct o as [es|es|ls|n]; cbn [run_gop legal_history] in *.
      - injection R1 as <-. exact (IH (ng_add_edges g0 es) H (proj2 HL) R2).
      - injection R1 as <-. exact (IH (ng_remove_edges g0 es) H HL R2).
      - injection R1 as <-. exact (IH (ng_add_nodes g0 ls) H (proj2 HL) R2).
      - destruct HL as [HL1 HL2]. unfold ng_remove_node in R1. apply bind_ok in R1 as [d [_ R1]].
        apply bind_ok in R1 as [s' [R1 R3]]. injection R3 as <-.
        destruct (proj1 (remove_node_spec _ n H) HL1) as [s2 [E [W [Hlab _]]]]. rewrite R1 in E; injection E as <-.
        eapply IH; [| |exact R2]; cbn [ng_struct]; [exact W|]. rewrite Hlab; exact HL2. }
    intros HR HL'. exact (Q os (new_netgraph s) Hwf HL' HR).
  - destruct (run_gops_spec os (new_netgraph s) g (fun _ => False)) as [I _]; [apply dinv_empty|simpl; tauto|exact HR|exact I].
Qed.

Lemma fresh_ginv s es : wf_structure s -> edges_within (nodes_labels s) es -> ginv (fresh_graph s es).
Proof. intros H He. apply ginv_add_edges; [apply ginv_start, H|exact He]. Qed.
Lemma fresh_edges s es : wf_structure s -> forall e, In e (g_edges (ng_graph (fresh_graph s es))) <-> In e es.
Proof.
  intros H e. unfold fresh_graph, ng_add_edges, with_graph; cbn [ng_graph].
  rewrite (proj1 (proj2 (add_edges_from_spec _ es (proj1 (proj2 (ginv_start s H)))))).
  unfold ng_add_nodes, with_graph, new_netgraph; cbn [ng_graph ng_struct].
  rewrite (proj1 (proj2 (add_nodes_loop_dspec (nodes_labels s) empty_digraph 0 (nodes_indexes s) (nodes_values s) dinv_empty))).
  simpl. tauto.
Qed.
Lemma fresh_struct s es : ng_struct (fresh_graph s es) = s. Proof. reflexivity. Qed.

Lemma fast_init_fresh s es v : wf_structure s -> edges_within (nodes_labels s) es ->
  edges_within (nodes_labels s) (edges_list s) -> In v (nodes_labels s) ->
  exists g, ng_fast_init (fresh_graph s es) v = Ok g /\ ginv g /\ ng_struct g = s
   /\ (forall e, In e (g_edges (ng_graph g)) <-> In e es \/ In e (edges_list s))
   /\ init_fields g = canonical_fields s v (fun l => emem (l, v) es || emem (l, v) (edges_list s)).
Proof.
  intros H H1 H2 Hv. pose proof (fresh_ginv s es H H1) as [G1 [G2 [G3 G4]]].
  destruct (fast_init_canonical (fresh_graph s es) v G1 G2 G4 H2 Hv) as [g [E1 [E2 [E3 [E4 E5]]]]].
  exists g. split; [exact E1|]. split; [exact E2|]. split; [exact E3|]. split.
  - intros e. rewrite E4, fresh_edges by exact H. reflexivity.
  - rewrite E5. apply canonical_ext. intros l _. f_equal. apply eq_true_iff_eq. rewrite !emem_In. apply fresh_edges, H.
Qed.

Lemma fast_init_after_removal s es v q : wf_structure s -> edges_within (nodes_labels s) es ->
  edges_within (nodes_labels s) (edges_list s) -> In v (nodes_labels s) -> In q (nodes_labels s) -> v <> q ->
  exists s' g1 g2 g3 h,
    ng_fast_init (fresh_graph s es) v = Ok g1 /\ ng_remove_node g1 q = Ok g2 /\ ng_fast_init g2 v = Ok g3
    /\ structure_remove_node s q = Ok s'
    /\ ng_fast_init (fresh_graph s' (filter (fun e => negb (mentions q e)) es)) v = Ok h
    /\ init_fields g3 = init_fields h.
Proof.
  intros H H1 H2 Hv Hq Hvq.
  destruct (fast_init_fresh s es v H H1 H2 Hv) as [g1 [E1 [G1 [S1 [D1 _]]]]].
  assert (Hq1 : In q (nodes_labels (ng_struct g1))) by (rewrite S1; exact Hq).
  destruct (ginv_remove_node g1 q G1 Hq1) as [g2 [E2 [G2 [S2 D2]]]].
  rewrite S1 in S2.
  destruct (proj1 (remove_node_spec s q H) Hq) as [s' [Es [Hwf' [Hlab [_ [Hed _]]]]]].
  rewrite Es in S2; injection S2 as S2.
  assert (Hin' : forall l, In l (nodes_labels s') <-> In l (nodes_labels s) /\ l <> q).
  { intros l. rewrite Hlab, filter_In, negb_true_iff, String.eqb_neq. tauto. }
  assert (Hfil : forall es0, edges_within (nodes_labels s) es0 -> edges_within (nodes_labels s') (filter (fun e => negb (mentions q e)) es0)).
  { intros es0 K e He. apply filter_In in He as [He Hm]. unfold mentions in Hm.
    rewrite negb_orb, andb_true_iff, !negb_true_iff, !String.eqb_neq in Hm. rewrite !Hin'. specialize (K e He). tauto. }
  assert (Hfilm : forall es0 e, In e (filter (fun e => negb (mentions q e)) es0) <-> In e es0 /\ fst e <> q /\ snd e <> q).
  { intros es0 e. rewrite filter_In. unfold mentions. rewrite negb_orb, andb_true_iff, !negb_true_iff, !String.eqb_neq. tauto. }
  assert (Hv' : In v (nodes_labels s')) by (apply Hin'; auto).
  pose proof G2 as [W2 [I2 [_ N2]]]. rewrite <- S2 in *.
  destruct (fast_init_canonical g2 v) as [g3 [E3 [_ [_ [_ F3]]]]]; try (rewrite <- S2; assumption); [exact I2| |].
  { rewrite <- S2. rewrite Hed. apply Hfil, H2. }
  destruct (fast_init_fresh s' (filter (fun e => negb (mentions q e)) es) v) as [h [Eh [_ [_ [_ Fh]]]]]; [exact Hwf'|apply Hfil, H1| |exact Hv'|].
  { rewrite Hed. apply Hfil, H2. }
  exists s', g1, g2, g3, h. repeat (split; [assumption|]). rewrite F3, Fh, <- S2. apply canonical_ext.
  intros l Hl. apply eq_true_iff_eq. rewrite !orb_true_iff, !emem_In, D2, D1, Hfilm, Hed, Hfilm. simpl. tauto.
Qed.
