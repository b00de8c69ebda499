(** Proofs for C73, continued: the two structure estimators. *)
From Verif Require Import Base Lib ModelStructure ModelGraph ModelCims ModelData ModelParams ModelCache ModelCtpc ModelSearch.
From Verif Require Import ModelEstimators SpecRename ProofRename.

Section rn.
Variable f : label -> label.
Hypothesis Hf : forall x y, f x = f y -> x = y.
Notation re := (rename_edge f). Notation rs := (rename_structure f). Notation rd := (rename_digraph f). Notation rg := (rename_netgraph f).
Notation rc := (rename_cache f). Notation rst := (rename_state f). Notation renv := (rename_env f).
Let eqb_rn := eqb_rn f Hf. Let lmem_rn := lmem_rn f Hf. Let emem_rn := emem_rn f Hf.

(** cache *)
Lemma lset_rn a b : lset_eqb (map f a) (map f b) = lset_eqb a b.
Proof.
  unfold lset_eqb. assert (K : forall a b, forallb (fun x => lmem x (map f b)) (map f a) = forallb (fun x => lmem x b) a).
  { clear a b. intros a b. induction a as [|x a IH]; [reflexivity|]. cbn [map forallb]. rewrite lmem_rn, IH. reflexivity. }
  rewrite !K. reflexivity.
Qed.
Lemma set_index_rn k l : set_index (map f k) (map (map f) l) = set_index k l.
Proof. induction l as [|y l IH]; [reflexivity|]. cbn [map set_index]. rewrite lset_rn, IH. reflexivity. Qed.
Lemma cache_find_rn {V} (c : cache V) k : cache_find (rc c) (map f k) = cache_find c k.
Proof. unfold cache_find. cbn [rename_cache c_keys c_vals]. rewrite set_index_rn. reflexivity. Qed.
Lemma cache_put_rn {V} (c : cache V) k v : cache_put (rc c) (map f k) v = rc (cache_put c k v).
Proof. unfold cache_put, rename_cache; cbn [c_keys c_vals]. rewrite map_app. reflexivity. Qed.

(** masks *)
Lemma isin_rn nodes l : isin_mask (map f nodes) (map f l) = isin_mask nodes l.
Proof. unfold isin_mask. rewrite map_map. apply map_ext. intros x. apply lmem_rn. Qed.
Lemma mask_row_rn mask (l : list label) : mask_row mask (map f l) = map f (mask_row mask l).
Proof. unfold mask_row. rewrite combine_map_r, filter_map', !map_map. reflexivity. Qed.

(** one test *)
Lemma large_graph_rn e p c pset tot : large_graph (renv e) (f p) (f c) (map f pset) tot = rmap rg (large_graph e p c pset tot).
Proof.
  unfold large_graph. cbn [rename_env e_struct rename_structure nodes_labels nodes_indexes nodes_values].
  change [f c; f p] with (map f [c; p]). rewrite <- map_app, isin_rn, mask_row_rn.
  change (map (fun x => (x, f c)) (f p :: map f pset)) with (map (fun x => (x, f c)) (map f (p :: pset))). rewrite map_map.
  change (map (fun x => (f x, f c)) (p :: pset)) with (map (fun x => re (x, c)) (p :: pset)).
  rewrite <- (map_map (fun x => (x, c)) re (p :: pset)).
  set (m := isin_mask _ _).
  change (MkStructure (map f (mask_row m (nodes_labels (e_struct e)))) (mask_row m (nodes_indexes (e_struct e))) (mask_row m (nodes_values (e_struct e))) (map re (map (fun x => (x, c)) (p :: pset))) tot)
    with (rs (MkStructure (mask_row m (nodes_labels (e_struct e))) (mask_row m (nodes_indexes (e_struct e))) (mask_row m (nodes_values (e_struct e))) (map (fun x => (x, c)) (p :: pset)) tot)).
  rewrite ng_new_rn. apply fast_init_rn, Hf.
Qed.
Definition bst (p : bool * cb_state) : bool * cb_state := (fst p, rst (snd p)).
Lemma indep_rn e st cs c1 c2 th i j : independence_test (renv e) (rst st) cs c1 c2 th i j = rmap bst (independence_test e st cs c1 c2 th i j).
Proof.
  unfold independence_test. cbn [rename_env e_threshold e_tests rename_state st_matrix st_cache].
  destruct (_ && _); [|reflexivity]. rewrite rmap_bind. apply bind_ext. reflexivity.
Qed.
Lemma test_cims_rn e cs c1 l th i j : forall st, test_cims (renv e) (rst st) cs c1 l th i j = rmap bst (test_cims e st cs c1 l th i j).
Proof.
  induction l as [|c2 l IH]; intros st; cbn [test_cims]; [reflexivity|]. rewrite indep_rn, bind_rmap, rmap_bind. apply bind_ext. intros [b st'] _.
  cbn [bst fst snd]. destruct b; [apply IH|reflexivity].
Qed.
Lemma test_configs_rn e cs z so fl th i j : forall st, test_configs (renv e) (rst st) cs z so fl th i j = rmap bst (test_configs e st cs z so fl th i j).
Proof.
  induction z as [|[c1 pc] z IH]; intros st; cbn [test_configs]; [reflexivity|]. rewrite rmap_bind. apply bind_ext. intros cc _.
  rewrite test_cims_rn, bind_rmap, rmap_bind. apply bind_ext. intros [b st'] _. cbn [bst fst snd]. destruct b; [apply IH|reflexivity].
Qed.
Lemma complete_test_rn e st p c pset cs tot i j : complete_test (renv e) (rst st) (f p) (f c) (map f pset) cs tot i j = rmap bst (complete_test e st p c pset cs tot i j).
Proof.
  unfold complete_test.
  assert (E1 : mask_row (isin_mask (nodes_labels (e_struct (renv e))) (map f pset ++ [f p])) (nodes_labels (e_struct (renv e)))
     = map f (mask_row (isin_mask (nodes_labels (e_struct e)) (pset ++ [p])) (nodes_labels (e_struct e)))).
  { cbn [rename_env e_struct rename_structure nodes_labels]. change [f p] with (map f [p]). rewrite <- map_app, isin_rn. apply mask_row_rn. }
  rewrite E1, map_map.
  rewrite (map_ext (fun x => negb (f x =? f p)%string) (fun x => negb (x =? p)%string)) by (intros x; rewrite eqb_rn; reflexivity).
  change (st_cache (rst st)) with (rc (st_cache st)). change (st_matrix (rst st)) with (st_matrix st). change (f p :: map f pset) with (map f (p :: pset)). rewrite cache_find_rn, rmap_bind. apply bind_ext. intros found2 _.
  set (h3 := fun r : set_of_cims cim * option netgraph * cache (set_of_cims cim) => (fst (fst r), option_map rg (snd (fst r)), rc (snd r))).
  match goal with |- bind ?a _ = rmap _ (bind ?b _) => assert (E2 : a = rmap h3 b) end.
  { destruct found2 as [v|]; [reflexivity|]. rewrite large_graph_rn, bind_rmap, rmap_bind. apply bind_ext. intros g _.
    change (e_traj (renv e)) with (e_traj e). rewrite (params_rn f Hf), rmap_bind. apply bind_ext. intros v _. rewrite cache_put_rn. reflexivity. }
  rewrite E2, bind_rmap, rmap_bind. apply bind_ext. intros [[sofc2 g2] ch2] _. unfold h3; cbn [fst snd].
  rewrite cache_find_rn, rmap_bind. apply bind_ext. intros found1 _.
  match goal with |- bind ?a _ = rmap _ (bind ?b _) => assert (E3 : a = rmap (fun r => (fst r, rc (snd r))) b) end.
  { destruct found1 as [v|]; [reflexivity|]. destruct g2 as [g|]; [|reflexivity]. cbn [option_map bind].
    rewrite (ng_remove_node_rn f Hf), bind_rmap, rmap_bind. apply bind_ext. intros g' _. rewrite (fast_init_rn f Hf), bind_rmap, rmap_bind. apply bind_ext. intros g'' _.
    change (e_traj (renv e)) with (e_traj e). rewrite (params_rn f Hf), rmap_bind. apply bind_ext. intros v _. rewrite cache_put_rn. reflexivity. }
  rewrite E3, bind_rmap, rmap_bind. apply bind_ext. intros [sofc1 ch1] _. cbn [fst snd].
  change (e_struct (renv e)) with (rs (e_struct e)). rewrite (sget_states_rn f Hf).
  change (nodes_values (rs (e_struct e))) with (nodes_values (e_struct e)). change (nodes_labels (rs (e_struct e))) with (map f (nodes_labels (e_struct e))).
  rewrite isin_rn, rmap_bind. apply bind_ext. intros thumb _.
  change (MkState (st_matrix st) (rc ch1)) with (rst (MkState (st_matrix st) ch1)). apply test_configs_rn.
Qed.

(** the optimizer *)
Lemma combinations_rn l : forall k, combinations k (map f l) = map (map f) (combinations k l).
Proof.
  induction l as [|x l IH]; intros [|k]; cbn [combinations map]; try reflexivity. rewrite map_app, !map_map. rewrite (IH k), map_map.
  f_equal. apply (IH (S k)).
Qed.
Lemma subsets_rn u b p : generate_possible_sub_sets_of_size (map f u) b (f p) = rmap (map (map f)) (generate_possible_sub_sets_of_size u b p).
Proof. unfold generate_possible_sub_sets_of_size. rewrite (py_remove_rn f Hf), bind_rmap, rmap_bind. apply bind_ext. intros l _. rewrite combinations_rn. reflexivity. Qed.
Section opt.
Variables (e : cb_env) (tot : nat) (node : label).
Notation ct := (fun st p ps cs i j => complete_test e st p node ps cs tot i j).
Notation ct' := (fun st p ps cs i j => complete_test (renv e) st p (f node) ps cs tot i j).
Lemma try_sets_rn p sets cs i j : forall st, try_sets ct' (rst st) (f p) (map (map f) sets) cs i j = rmap bst (try_sets ct st p sets cs i j).
Proof.
  induction sets as [|ps sets IH]; intros st; cbn [map try_sets]; [reflexivity|]. rewrite complete_test_rn, bind_rmap, rmap_bind. apply bind_ext.
  intros [b st'] _. cbn [bst fst snd]. destruct b; [reflexivity|apply IH].
Qed.
Definition ugs (r : list label * netgraph * cb_state) := (map f (fst (fst r)), rg (snd (fst r)), rst (snd r)).
Lemma inner_rn fuel b cs : forall idx u g st,
  inner_loop (rs (e_struct e)) (f node) st_matrix ct' fuel b cs idx (map f u) (rg g) (rst st)
  = rmap ugs (inner_loop (e_struct e) node st_matrix ct fuel b cs idx u g st).
Proof.
  induction fuel as [|fuel IH]; intros idx u g st; cbn [inner_loop]; [reflexivity|]. rewrite map_length. destruct (idx <? length u); [|reflexivity].
  rewrite nth_res_map, bind_rmap, rmap_bind. apply bind_ext. intros p _. rewrite !(sget_indx_rn f Hf), rmap_bind. apply bind_ext. intros i _.
  rewrite rmap_bind. apply bind_ext. intros j _. change (st_matrix (rst st)) with (st_matrix st). rewrite rmap_bind. apply bind_ext. intros rm _.
  match goal with |- bind ?a _ = rmap _ (bind ?b _) => assert (E : a = rmap bst b) end.
  { destruct rm; [|reflexivity]. rewrite subsets_rn, bind_rmap, rmap_bind. apply bind_ext. intros sets _. apply try_sets_rn. }
  rewrite E, bind_rmap, rmap_bind. apply bind_ext. intros [rem st'] _. cbn [bst fst snd]. destruct rem; [|apply IH].
  change [(f p, f node)] with (map re [(p, node)]). rewrite (ng_remove_edges_rn f Hf), (py_remove_rn f Hf), bind_rmap, rmap_bind. apply bind_ext. intros u' _. apply IH.
Qed.
Lemma outer_rn fuel ifuel cs : forall b u g st,
  outer_loop (rs (e_struct e)) (f node) st_matrix ct' fuel ifuel b cs (map f u) (rg g) (rst st)
  = rmap ugs (outer_loop (e_struct e) node st_matrix ct fuel ifuel b cs u g st).
Proof.
  induction fuel as [|fuel IH]; intros b u g st; cbn [outer_loop]; [reflexivity|]. rewrite map_length. destruct (b <? length u); [|reflexivity].
  rewrite inner_rn, bind_rmap, rmap_bind. apply bind_ext. intros [[u' g'] st'] _. cbn [ugs fst snd]. apply IH.
Qed.
Lemma others_rn s : filter (fun l => negb (String.eqb l (f node))) (map f (nodes_labels s)) = map f (filter (fun l => negb (String.eqb l node)) (nodes_labels s)).
Proof. rewrite filter_map'. f_equal. apply filter_ext'. intros x. rewrite eqb_rn. reflexivity. Qed.
Lemma add_parents_rn ps : forall g, fold_left (fun g p => ng_add_edges g [(p, f node)]) (map f ps) (rg g) = rg (fold_left (fun g p => ng_add_edges g [(p, node)]) ps g).
Proof.
  induction ps as [|p ps IH]; intros g; cbn [map fold_left]; [reflexivity|]. change [(f p, f node)] with (map re [(p, node)]). rewrite (ng_add_edges_rn f Hf). apply IH.
Qed.
Definition est_edges (r : list edge * cb_state) := (map re (fst r), rst (snd r)).
Lemma optimize_rn st : optimize_structure (renv e) tot (rst st) (f node) = rmap est_edges (optimize_structure e tot st node).
Proof.
  unfold optimize_structure, optimize_with. change (e_struct (renv e)) with (rs (e_struct e)). rewrite (sget_states_rn f Hf).
  change (nodes_labels (rs (e_struct e))) with (map f (nodes_labels (e_struct e))). rewrite others_rn, ng_new_rn, add_parents_rn, map_length.
  rewrite !rmap_bind. destruct (structure_get_states_number (e_struct e) node) as [cs|x]; [|reflexivity]. cbn [bind].
  rewrite outer_rn. destruct (outer_loop _ _ _ _ _ _ _ _ _ _ _) as [[[u g] st']|x]; [|reflexivity]. cbn [rmap ugs fst snd bind].
  rewrite (ng_edges_rn f Hf). reflexivity.
Qed.
End opt.

(** the constraint-based estimator *)
Definition runs (r : list (list edge) * cb_state) := (map (map re) (fst r), rst (snd r)).
Lemma sequential_rn e tot nodes : forall st, sequential_run (renv e) tot (rst st) (map f nodes) = rmap runs (sequential_run e tot st nodes).
Proof.
  induction nodes as [|n nodes IH]; intros st; cbn [map sequential_run]; [reflexivity|]. rewrite optimize_rn, bind_rmap, rmap_bind. apply bind_ext.
  intros [es st'] _. cbn [est_edges fst snd]. rewrite IH, bind_rmap, rmap_bind. apply bind_ext. intros [ess st''] _. reflexivity.
Qed.
Lemma pool_rn e tot nodes st : pool_run (renv e) tot (rst st) (map f nodes) = rmap runs (pool_run e tot st nodes).
Proof.
  unfold pool_run. rewrite res_map_map.
  rewrite (res_map_ext _ (fun x => rmap (map re) (let* (es, _) := optimize_structure e tot st x in Ok es))).
  2: { intros x. rewrite optimize_rn, bind_rmap, rmap_bind. apply bind_ext. intros [es st'] _. reflexivity. }
  rewrite res_map_rmap, bind_rmap, rmap_bind. apply bind_ext. reflexivity.
Qed.
Lemma edge_set_rn l : edge_set_of (map re l) = map re (edge_set_of l).
Proof.
  unfold edge_set_of.
  assert (K : forall acc, fold_left (fun acc x => if emem x acc then acc else acc ++ [x]) (map re l) (map re acc)
    = map re (fold_left (fun acc x => if emem x acc then acc else acc ++ [x]) l acc)); [|exact (K [])].
  induction l as [|x l IH]; intros acc; cbn [map fold_left]; [reflexivity|].
  rewrite emem_rn. destruct (emem x acc); [apply IH|]. change [re x] with (map re [x]). rewrite <- map_app. apply IH.
Qed.
Lemma concat_rn (l : list (list edge)) : concat (map (map re) l) = map re (concat l).
Proof. symmetry. apply concat_map. Qed.
Lemma matrix_rn s tot known : build_removable_edges_matrix (rs s) tot (map re known) = build_removable_edges_matrix s tot known.
Proof.
  unfold build_removable_edges_matrix. generalize (Ok (repeat (repeat true tot) tot) : result (list (list bool))).
  induction known as [|e known IH]; intros acc; cbn [map fold_left]; [reflexivity|]. rewrite IH. f_equal. apply bind_ext. intros m _.
  change (fst (re e)) with (f (fst e)). change (snd (re e)) with (f (snd e)). rewrite !(sget_indx_rn f Hf). reflexivity.
Qed.
Lemma permutations_rn l : permutations2 (map f l) = map re (permutations2 l).
Proof.
  unfold permutations2. rewrite concat_map. f_equal. unfold mapi.
  assert (K : forall r n, mapi_from n (fun i x => map (fun y => (x, y)) (firstn i (map f l) ++ skipn (S i) (map f l))) (map f r)
     = map (map re) (mapi_from n (fun i x => map (fun y => (x, y)) (firstn i l ++ skipn (S i) l)) r)).
  { induction r as [|x r IH]; intros n; [reflexivity|]. rewrite map_cons. unfold mapi_from; fold (@mapi_from label (list edge)). rewrite map_cons.
    f_equal; [|apply IH]. rewrite firstn_map, skipn_map, <- map_app, !map_map. reflexivity. }
  apply K.
Qed.
Lemma complete_graph_rn l : build_complete_graph (map f l) = rd (build_complete_graph l).
Proof.
  unfold build_complete_graph. rewrite permutations_rn. change empty_digraph with (rd empty_digraph) at 1. rewrite (add_nodes_rn f Hf). apply add_edges_rn, Hf.
Qed.
Lemma new_cb_rn s t tot known thr tests : new_cb_estimator (rs s) t tot (map re known) thr tests = rmap (rename_cb f) (new_cb_estimator s t tot known thr tests).
Proof.
  unfold new_cb_estimator. rewrite matrix_rn, rmap_bind. apply bind_ext. intros m _. cbn [rmap]. unfold rename_cb; cbn [cb_e cb_tot cb_st cb_graph].
  change (nodes_labels (rs s)) with (map f (nodes_labels s)). rewrite complete_graph_rn. reflexivity.
Qed.
Lemma cb_estimate_rn est mp : cb_estimate_structure (rename_cb f est) mp
  = rmap (fun r => (map re (fst r), rename_cb f (snd r))) (cb_estimate_structure est mp).
Proof.
  unfold cb_estimate_structure.
  change (MkEnv (clean_structure_edges (e_struct (cb_e (rename_cb f est)))) (e_traj (cb_e (rename_cb f est))) (e_threshold (cb_e (rename_cb f est))) (e_tests (cb_e (rename_cb f est))))
    with (renv (MkEnv (clean_structure_edges (e_struct (cb_e est))) (e_traj (cb_e est)) (e_threshold (cb_e est)) (e_tests (cb_e est)))).
  set (e := MkEnv (clean_structure_edges _) _ _ _). change (cb_tot (rename_cb f est)) with (cb_tot est). change (cb_st (rename_cb f est)) with (rst (cb_st est)).
  change (nodes_labels (e_struct (renv e))) with (map f (nodes_labels (e_struct e))).
  rewrite sequential_rn, pool_rn.
  match goal with |- bind ?a _ = rmap _ (bind ?b _) => assert (E : a = rmap runs b) by (destruct mp; reflexivity) end.
  rewrite E, bind_rmap, rmap_bind. apply bind_ext. intros [ess st'] _. cbn [runs fst snd rmap]. rewrite concat_rn, edge_set_rn.
  unfold rename_cb; cbn [cb_e cb_tot cb_st cb_graph]. change empty_digraph with (rd empty_digraph) at 1. rewrite (add_edges_rn f Hf). reflexivity.
Qed.
End rn.
