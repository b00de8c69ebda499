(** Proofs for C73: the names of the variables do not matter. *)
From Verif Require Import Base Lib ModelStructure ModelGraph ModelCims ModelData ModelParams ModelCache ModelCtpc ModelSearch.
From Verif Require Import ModelEstimators SpecRename.

Lemma bind_rmap {A B C} (h : A -> B) (r : result A) (k : B -> result C) : bind (rmap h r) k = bind r (fun a => k (h a)).
Proof. destruct r; reflexivity. Qed.
Lemma rmap_bind {A B C} (h : B -> C) (r : result A) (k : A -> result B) : rmap h (bind r k) = bind r (fun a => rmap h (k a)).
Proof. destruct r; reflexivity. Qed.
Lemma bind_ext {A B} (r : result A) (k k' : A -> result B) : (forall a, r = Ok a -> k a = k' a) -> bind r k = bind r k'.
Proof. destruct r; intros H; [apply H; reflexivity|reflexivity]. Qed.
Lemma rmap_id {A} (r : result A) : rmap (fun x => x) r = r.
Proof. destruct r; reflexivity. Qed.
Lemma combine_map_l {A B C} (h : A -> B) (l : list A) (m : list C) : combine (map h l) m = map (fun p => (h (fst p), snd p)) (combine l m).
Proof. revert m; induction l as [|x l IH]; intros [|y m]; cbn [combine map fst snd]; try reflexivity. f_equal. apply IH. Qed.
Lemma combine_map_r {A B C} (h : A -> B) (l : list A) (m : list C) : combine m (map h l) = map (fun p => (fst p, h (snd p))) (combine m l).
Proof. revert m; induction l as [|x l IH]; intros [|y m]; cbn [combine map fst snd]; try reflexivity. f_equal. apply IH. Qed.
Lemma filter_map' {A B} (h : A -> B) (p : B -> bool) (l : list A) : filter p (map h l) = map h (filter (fun x => p (h x)) l).
Proof. induction l as [|x l IH]; cbn [filter map]; [reflexivity|]. destruct (p (h x)); cbn [map]; rewrite IH; reflexivity. Qed.
Lemma filter_ext' {A} (p q : A -> bool) (l : list A) : (forall x, p x = q x) -> filter p l = filter q l.
Proof. intros H. induction l as [|x l IH]; cbn [filter]; [reflexivity|]. rewrite H, IH. reflexivity. Qed.
Lemma nth_res_map {A B} (h : A -> B) l n : nth_res (map h l) n = rmap h (nth_res l n).
Proof. unfold nth_res. rewrite nth_error_map. destruct (nth_error l n); reflexivity. Qed.
Lemma res_map_map {A B C} (h : A -> B) (k : B -> result C) l : res_map k (map h l) = res_map (fun x => k (h x)) l.
Proof. induction l as [|x l IH]; cbn [res_map map]; [reflexivity|]. rewrite IH. reflexivity. Qed.
Lemma res_map_rmap {A B C} (k : A -> result B) (h : B -> C) l : res_map (fun x => rmap h (k x)) l = rmap (map h) (res_map k l).
Proof.
  induction l as [|x l IH]; cbn [res_map]; [reflexivity|]. rewrite bind_rmap, rmap_bind. apply bind_ext. intros a _.
  rewrite IH, bind_rmap, rmap_bind. apply bind_ext. reflexivity.
Qed.
Lemma res_map_ext {A B} (k k' : A -> result B) l : (forall x, k x = k' x) -> res_map k l = res_map k' l.
Proof. intros H. induction l as [|x l IH]; cbn [res_map]; [reflexivity|]. rewrite H, IH. reflexivity. Qed.

Section rn.
Variable f : label -> label.
Hypothesis Hf : forall x y, f x = f y -> x = y.
Notation re := (rename_edge f). Notation rs := (rename_structure f). Notation rd := (rename_digraph f). Notation rg := (rename_netgraph f).

Lemma eqb_rn x y : String.eqb (f x) (f y) = String.eqb x y.
Proof. destruct (String.eqb_spec x y) as [->|N]; [apply String.eqb_refl|]. apply String.eqb_neq. intros E. apply N, Hf, E. Qed.
Lemma edge_eqb_rn a b : edge_eqb (re a) (re b) = edge_eqb a b.
Proof. unfold edge_eqb, rename_edge; cbn [fst snd]. rewrite !eqb_rn. reflexivity. Qed.
Lemma lmem_rn x l : lmem (f x) (map f l) = lmem x l.
Proof. induction l as [|y l IH]; [reflexivity|]. unfold lmem in *; cbn [map existsb]. rewrite eqb_rn, IH. reflexivity. Qed.
Lemma emem_rn x l : emem (re x) (map re l) = emem x l.
Proof. induction l as [|y l IH]; [reflexivity|]. unfold emem in *; cbn [map existsb]. rewrite edge_eqb_rn, IH. reflexivity. Qed.
Lemma py_index_rn x l : py_index (f x) (map f l) = py_index x l.
Proof. induction l as [|y l IH]; [reflexivity|]. cbn [map py_index]. rewrite eqb_rn, IH. reflexivity. Qed.
Lemma py_remove_rn x l : py_remove String.eqb (f x) (map f l) = rmap (map f) (py_remove String.eqb x l).
Proof.
  induction l as [|y l IH]; [reflexivity|]. cbn [map py_remove]. rewrite eqb_rn, IH. destruct (String.eqb x y); [reflexivity|].
  rewrite bind_rmap, rmap_bind. reflexivity.
Qed.

(** structure *)
Lemma sget_indx_rn s x : structure_get_node_indx (rs s) (f x) = structure_get_node_indx s x.
Proof. unfold structure_get_node_indx; cbn. rewrite py_index_rn. reflexivity. Qed.
Lemma sget_states_rn s x : structure_get_states_number (rs s) (f x) = structure_get_states_number s x.
Proof. unfold structure_get_states_number; cbn. rewrite py_index_rn. reflexivity. Qed.
Lemma sget_id_rn s i : structure_get_node_id (rs s) i = rmap f (structure_get_node_id s i).
Proof.
  unfold structure_get_node_id, py_get; cbn [rename_structure nodes_labels]. rewrite map_length, !nth_res_map.
  repeat destruct (_ <=? _)%Z; reflexivity.
Qed.
Lemma remove_edges_filter n es : filter (fun e => negb (String.eqb (fst e) (f n)) && negb (String.eqb (snd e) (f n))) (map re es)
  = map re (filter (fun e => negb (String.eqb (fst e) n) && negb (String.eqb (snd e) n)) es).
Proof. rewrite filter_map'. f_equal. apply filter_ext'. intros x. unfold rename_edge; cbn [fst snd]. rewrite !eqb_rn. reflexivity. Qed.
Lemma sremove_rn s n : structure_remove_node (rs s) (f n) = rmap rs (structure_remove_node s n).
Proof.
  unfold structure_remove_node; cbn [rename_structure nodes_labels nodes_indexes nodes_values edges_list total_variables_number].
  rewrite py_index_rn, rmap_bind. apply bind_ext. intros pos _. rewrite rmap_bind. apply bind_ext. intros ix _.
  rewrite rmap_bind. apply bind_ext. intros vx _. cbn [rmap]. unfold rename_structure; cbn.
  rewrite firstn_map, remove_edges_filter, map_app. do 3 f_equal.
  destruct (nodes_labels s) as [|y r]; [reflexivity|]. cbn [map]. rewrite skipn_map. reflexivity.
Qed.

(** networkx graphs *)
Lemma names_rn g : map fst (g_nodes (rd g)) = map f (map fst (g_nodes g)).
Proof. unfold rename_digraph; cbn [g_nodes]. rewrite !map_map. reflexivity. Qed.
Lemma upsert_rn ns n a : upsert_node (map (fun p => (f (fst p), snd p)) ns) (f n) a = map (fun p => (f (fst p), snd p)) (upsert_node ns n a).
Proof.
  induction ns as [|[x o] r IH]; [reflexivity|]. cbn [map upsert_node fst snd]. rewrite eqb_rn. destruct (String.eqb x n); [reflexivity|].
  cbn [map fst snd]. rewrite IH. reflexivity.
Qed.
Lemma ensure_rn ns n : ensure_node (map (fun p => (f (fst p), snd p)) ns) (f n) = map (fun p => (f (fst p), snd p)) (ensure_node ns n).
Proof.
  unfold ensure_node. replace (map fst (map (fun p : label * option nattr => (f (fst p), snd p)) ns)) with (map f (map fst ns)) by (rewrite !map_map; reflexivity).
  rewrite lmem_rn. destruct (lmem n (map fst ns)); [reflexivity|]. rewrite map_app. reflexivity.
Qed.
Lemma add_node_rn g n a : g_add_node (rd g) (f n) a = rd (g_add_node g n a).
Proof. unfold g_add_node, rename_digraph; cbn [g_nodes g_edges]. rewrite upsert_rn. reflexivity. Qed.
Lemma add_edge_rn g e : g_add_edge (rd g) (re e) = rd (g_add_edge g e).
Proof.
  unfold g_add_edge, rename_digraph; cbn [g_nodes g_edges]. rewrite emem_rn. unfold rename_edge at 1 2; cbn [fst snd]. rewrite !ensure_rn.
  f_equal. destruct (emem e (g_edges g)); [reflexivity|]. rewrite map_app. reflexivity.
Qed.
Lemma add_edges_rn es : forall g, g_add_edges_from (rd g) (map re es) = rd (g_add_edges_from g es).
Proof. unfold g_add_edges_from. induction es as [|e es IH]; intros g; cbn [map fold_left]; [reflexivity|]. rewrite add_edge_rn. apply IH. Qed.
Lemma remove_edge_rn g e : g_remove_edge (rd g) (re e) = rd (g_remove_edge g e).
Proof.
  unfold g_remove_edge, rename_digraph; cbn [g_nodes g_edges]. f_equal. rewrite filter_map'. f_equal. apply filter_ext'. intros x. rewrite edge_eqb_rn. reflexivity.
Qed.
Lemma remove_edges_rn es : forall g, g_remove_edges_from (rd g) (map re es) = rd (g_remove_edges_from g es).
Proof. unfold g_remove_edges_from. induction es as [|e es IH]; intros g; cbn [map fold_left]; [reflexivity|]. rewrite remove_edge_rn. apply IH. Qed.
Lemma add_nodes_rn ns g : g_add_nodes_from (rd g) (map f ns) = rd (g_add_nodes_from g ns).
Proof.
  unfold g_add_nodes_from, rename_digraph; cbn [g_nodes g_edges]. f_equal. generalize (g_nodes g). induction ns as [|n ns IH]; intros l; cbn [map fold_left]; [reflexivity|].
  rewrite ensure_rn. apply IH.
Qed.
Lemma has_node_rn g n : g_has_node (rd g) (f n) = g_has_node g n.
Proof. unfold g_has_node. rewrite names_rn. apply lmem_rn. Qed.
Lemma remove_node_rn g n : g_remove_node (rd g) (f n) = rmap rd (g_remove_node g n).
Proof.
  unfold g_remove_node. rewrite has_node_rn. destruct (g_has_node g n); [|reflexivity]. cbn [rmap]. unfold rename_digraph; cbn [g_nodes g_edges].
  rewrite remove_edges_filter. do 2 f_equal. rewrite filter_map'. f_equal. apply filter_ext'. intros x. cbn [fst]. rewrite eqb_rn. reflexivity.
Qed.
Lemma has_edge_rn g e : g_has_edge (rd g) (re e) = g_has_edge g e.
Proof. apply emem_rn. Qed.
Lemma preds_rn g n : g_predecessors (rd g) (f n) = rmap (map f) (g_predecessors g n).
Proof.
  unfold g_predecessors. rewrite has_node_rn. destruct (g_has_node g n); [|reflexivity]. cbn [rmap]. f_equal. cbn [rename_digraph g_edges].
  rewrite filter_map'. rewrite !map_map. cbn [rename_edge fst]. f_equal. apply filter_ext'. intros x. unfold rename_edge; cbn [snd]. rewrite eqb_rn. reflexivity.
Qed.
Lemma view_rn g : g_edges_view (rd g) = map re (g_edges_view g).
Proof.
  unfold g_edges_view. rewrite names_rn. cbn [rename_digraph g_edges]. induction (map fst (g_nodes g)) as [|n ns IH]; [reflexivity|].
  cbn [map flat_map]. rewrite IH, map_app. f_equal. rewrite filter_map'. f_equal. apply filter_ext'. intros x. unfold rename_edge; cbn [fst]. apply eqb_rn.
Qed.
Lemma attr_rn g n : g_attr (rd g) (f n) = g_attr g n.
Proof.
  unfold g_attr. cbn [rename_digraph g_nodes]. replace (assoc_node (map (fun p => (f (fst p), snd p)) (g_nodes g)) (f n)) with (assoc_node (g_nodes g) n); [reflexivity|].
  induction (g_nodes g) as [|[x o] r IH]; [reflexivity|]. cbn [map assoc_node fst snd]. rewrite eqb_rn, IH. reflexivity.
Qed.

(** NetworkGraph *)
Lemma ng_new_rn s : new_netgraph (rs s) = rg (new_netgraph s).
Proof. reflexivity. Qed.
Lemma ng_add_nodes_rn g ls : ng_add_nodes (rg g) (map f ls) = rg (ng_add_nodes g ls).
Proof.
  unfold ng_add_nodes. cbn [rename_netgraph ng_graph ng_struct rename_structure nodes_indexes nodes_values].
  assert (K : forall d pos is vs, add_nodes_loop (rd d) pos (map f ls) is vs = rd (add_nodes_loop d pos ls is vs)).
  { induction ls as [|l ls IH]; intros d pos [|i is] [|v vs]; cbn [map add_nodes_loop]; try reflexivity. rewrite add_node_rn. apply IH. }
  rewrite K. reflexivity.
Qed.
Lemma ng_add_edges_rn g es : ng_add_edges (rg g) (map re es) = rg (ng_add_edges g es).
Proof. unfold ng_add_edges. cbn [rename_netgraph ng_graph]. rewrite add_edges_rn. reflexivity. Qed.
Lemma ng_remove_edges_rn g es : ng_remove_edges (rg g) (map re es) = rg (ng_remove_edges g es).
Proof. unfold ng_remove_edges. cbn [rename_netgraph ng_graph]. rewrite remove_edges_rn. reflexivity. Qed.
Lemma ng_remove_node_rn g n : ng_remove_node (rg g) (f n) = rmap rg (ng_remove_node g n).
Proof.
  unfold ng_remove_node. cbn [rename_netgraph ng_graph ng_struct]. rewrite remove_node_rn, sremove_rn, bind_rmap, rmap_bind. apply bind_ext. intros d _.
  rewrite bind_rmap, rmap_bind. reflexivity.
Qed.
Lemma ng_parents_rn g n : ng_get_parents_by_id (rg g) (f n) = rmap (map f) (ng_get_parents_by_id g n).
Proof. apply preds_rn. Qed.
Lemma ng_states_rn g n : ng_get_states_number (rg g) (f n) = ng_get_states_number g n.
Proof. unfold ng_get_states_number. cbn [rename_netgraph ng_graph]. rewrite attr_rn. reflexivity. Qed.
Lemma ng_indx_rn g n : ng_get_node_indx (rg g) (f n) = ng_get_node_indx g n.
Proof. unfold ng_get_node_indx. cbn [rename_netgraph ng_graph]. rewrite attr_rn. reflexivity. Qed.
Lemma ng_edges_rn g : ng_edges (rg g) = map re (ng_edges g).
Proof. apply view_rn. Qed.
Lemma ng_has_edge_rn g e : ng_has_edge (rg g) (re e) = ng_has_edge g e.
Proof. apply has_edge_rn. Qed.
Lemma enum_dict_rn nodes v : enum_dict (map f nodes) (f v) = enum_dict nodes v.
Proof.
  unfold enum_dict. generalize 0 (@Err nat KeyError). induction nodes as [|x r IH]; intros i acc; cbn [map enum_dict_from]; [reflexivity|]. rewrite eqb_rn. apply IH.
Qed.
Lemma insert_rn k a l : insert_by_key k (f a) (map (fun p => (fst p, f (snd p))) l) = map (fun p => (fst p, f (snd p))) (insert_by_key k a l).
Proof.
  induction l as [|[k' b] r IH]; [reflexivity|]. cbn [map insert_by_key fst snd]. destruct (k <=? k'); [reflexivity|]. cbn [map fst snd]. rewrite IH. reflexivity.
Qed.
Lemma sort_rn l : sort_by_key (map (fun p => (fst p, f (snd p))) l) = map (fun p => (fst p, f (snd p))) (sort_by_key l).
Proof. induction l as [|[k a] r IH]; [reflexivity|]. cbn [map sort_by_key fst snd]. rewrite IH. apply insert_rn. Qed.
Lemma ordered_rn g n : ng_get_ordered_by_indx_set_of_parents (rg g) (f n)
  = rmap (fun p => (map f (fst (fst p)), snd (fst p), snd p)) (ng_get_ordered_by_indx_set_of_parents g n).
Proof.
  unfold ng_get_ordered_by_indx_set_of_parents. rewrite ng_parents_rn, bind_rmap, rmap_bind. apply bind_ext. intros ps _.
  cbn [rename_netgraph ng_struct rename_structure nodes_labels]. rewrite res_map_map.
  rewrite (res_map_ext _ (fun x => rmap (fun p : nat * label => (fst p, f (snd p))) (let* k := enum_dict (nodes_labels (ng_struct g)) x in Ok (k, x)))).
  2: { intros x. rewrite enum_dict_rn, rmap_bind. reflexivity. }
  rewrite res_map_rmap, bind_rmap, rmap_bind. apply bind_ext. intros keyed _. rewrite sort_rn, !map_map. cbn [snd].
  rewrite <- (map_map (@snd nat label) f).
  set (sp := map snd (sort_by_key keyed)).
  assert (K1 : res_map (ng_get_node_indx (rg g)) (map f sp) = res_map (ng_get_node_indx g) sp) by (rewrite res_map_map; apply res_map_ext; intros x; apply ng_indx_rn).
  assert (K2 : res_map (ng_get_states_number (rg g)) (map f sp) = res_map (ng_get_states_number g) sp) by (rewrite res_map_map; apply res_map_ext; intros x; apply ng_states_rn).
  change (MkNetgraph _ _ _ _ _ _ _ _) with (rg g). rewrite K1, K2.
  rewrite rmap_bind. apply bind_ext. intros pi _. rewrite rmap_bind. apply bind_ext. reflexivity.
Qed.
Lemma fast_init_rn g n : ng_fast_init (rg g) (f n) = rmap rg (ng_fast_init g n).
Proof.
  unfold ng_fast_init. cbn [rename_netgraph ng_struct rename_structure nodes_labels]. fold (rs (ng_struct g)). fold (rg g).
  rewrite ng_add_nodes_rn. cbn zeta. change (edges_list (ng_struct (rg (ng_add_nodes g (nodes_labels (ng_struct g)))))) with (map re (edges_list (ng_struct (ng_add_nodes g (nodes_labels (ng_struct g)))))).
  rewrite ng_add_edges_rn, ordered_rn, bind_rmap, rmap_bind. apply bind_ext. intros pinfo _. cbn [fst snd].
  rewrite ng_states_rn, rmap_bind. apply bind_ext. intros ns _. rewrite ng_indx_rn, rmap_bind. apply bind_ext. reflexivity.
Qed.
Lemma params_rn t g n : compute_parameters_for_node t (rg g) (f n) = compute_parameters_for_node t g n.
Proof.
  unfold compute_parameters_for_node. rewrite ng_states_rn, ng_indx_rn. cbn [rename_netgraph ng_pinfo ng_p_combs ng_time_filtering ng_time_indexing ng_trans_filtering ng_trans_indexing].
  destruct (ng_pinfo g) as [p|]; [|reflexivity]. cbn [option_map opt_get bind snd]. reflexivity.
Qed.
End rn.
