(** Proofs for C73, continued: score-based search, what the estimators report, and the extension of a renaming. *)
From Verif Require Import Base Lib ModelStructure ModelGraph ModelCims ModelData ModelParams ModelCache ModelCtpc ModelSearch.
From Verif Require Import ModelEstimators SpecRename ProofRename ProofRename2.

Section rn.
Variable f : label -> label.
Hypothesis Hf : forall x y, f x = f y -> x = y.
Notation re := (rename_edge f). Notation rs := (rename_structure f). Notation rd := (rename_digraph f). Notation rg := (rename_netgraph f).
Let eqb_rn := eqb_rn f Hf. Let lmem_rn := lmem_rn f Hf. Let emem_rn := emem_rn f Hf.

Lemma rand_choice_rn draws k (l : list label) : rand_choice draws k (map f l) = rmap f (rand_choice draws k l).
Proof. unfold rand_choice. rewrite map_length. apply nth_res_map. Qed.
Lemma queue_get_rn q : queue_get (map f q) = rmap (fun r => (f (fst r), map f (snd r))) (queue_get q).
Proof. destruct q; reflexivity. Qed.
Lemma set_remove_rn x l : set_remove (f x) (map f l) = rmap (map f) (set_remove x l).
Proof.
  unfold set_remove. rewrite lmem_rn. destruct (lmem x l); [|reflexivity]. cbn [rmap]. f_equal. rewrite filter_map'. f_equal. apply filter_ext'. intros y. rewrite eqb_rn. reflexivity.
Qed.
Lemma set_add_rn x l : set_add (f x) (map f l) = map f (set_add x l).
Proof. unfold set_add. rewrite lmem_rn. destruct (lmem x l); [reflexivity|]. rewrite map_app. reflexivity. Qed.
Lemma set_of_list_rn l : set_of_list (map f l) = map f (set_of_list l).
Proof.
  unfold set_of_list. assert (K : forall acc, fold_left (fun acc x => set_add x acc) (map f l) (map f acc) = map f (fold_left (fun acc x => set_add x acc) l acc)); [|exact (K [])].
  induction l as [|x l IH]; intros acc; cbn [map fold_left]; [reflexivity|]. rewrite set_add_rn. apply IH.
Qed.
Lemma priors_rn s m i : prior_parents_of (rs s) m i = rmap (map f) (prior_parents_of s m i).
Proof.
  unfold prior_parents_of.
  assert (K : forall l acc, fold_left (fun acc i0 => let* ps := acc in let* r := mat_get m i0 i in if r then Ok ps
               else let* p := structure_get_node_id (rs s) (Z.of_nat i0) in Ok (ps ++ [p])) l (rmap (map f) acc)
     = rmap (map f) (fold_left (fun acc i0 => let* ps := acc in let* r := mat_get m i0 i in if r then Ok ps
               else let* p := structure_get_node_id s (Z.of_nat i0) in Ok (ps ++ [p])) l acc)).
  { induction l as [|x l IH]; intros acc; cbn [fold_left]; [reflexivity|]. rewrite <- IH. f_equal. rewrite bind_rmap, rmap_bind. apply bind_ext. intros ps _.
    rewrite rmap_bind. apply bind_ext. intros [] _; [reflexivity|]. rewrite (sget_id_rn f), bind_rmap, rmap_bind. apply bind_ext. intros p _. cbn [rmap]. rewrite map_app. reflexivity. }
  exact (K _ (Ok [])).
Qed.

Section search.
Variable Sc : Type.
Variable score : list cim -> result Sc.
Variable gt : Sc -> Sc -> bool.
Variable t : trajectory.
Variable draws : nat -> nat.
Lemma score_rn g v : get_score_from_graph Sc score t (rg g) (f v) = rmap (fun r => (fst r, rg (snd r))) (get_score_from_graph Sc score t g v).
Proof.
  unfold get_score_from_graph. rewrite (fast_init_rn f Hf), bind_rmap, rmap_bind. apply bind_ext. intros g1 _. rewrite (params_rn f Hf), rmap_bind. apply bind_ext. intros so _.
  rewrite rmap_bind. apply bind_ext. reflexivity.
Qed.
Definition prop_rn (r : netgraph * bool * option label * nat) := (rg (fst (fst (fst r))), snd (fst (fst r)), option_map f (snd (fst r)), snd r).
Lemma propose_rn v mp g k cand : propose draws (f v) mp (rg g) k (f cand) = rmap prop_rn (propose draws v mp g k cand).
Proof.
  unfold propose. change (f cand, f v) with (re (cand, v)). change [re (cand, v)] with (map re [(cand, v)]). rewrite (ng_has_edge_rn f Hf), (ng_remove_edges_rn f Hf).
  destruct (ng_has_edge g (cand, v)); [reflexivity|].
  match goal with |- bind ?a _ = rmap _ (bind ?b _) => assert (E : a = rmap (fun r => (rg (fst (fst r)), option_map f (snd (fst r)), snd r)) b) end.
  { destruct mp as [m|]; [|reflexivity]. rewrite (ng_parents_rn f Hf), bind_rmap, rmap_bind. apply bind_ext. intros ps _. rewrite map_length.
    destruct (m <=? length ps); [|reflexivity]. rewrite rand_choice_rn, bind_rmap, rmap_bind. apply bind_ext. intros q _.
    change [(f q, f v)] with (map re [(q, v)]). rewrite (ng_remove_edges_rn f Hf). reflexivity. }
  rewrite E, bind_rmap, rmap_bind. apply bind_ext. intros [[g1 ev] k1] _. cbn [fst snd rmap]. rewrite (ng_add_edges_rn f Hf). reflexivity.
Qed.
Lemma undo_rn v g cand added ev : undo (f v) (rg g) (f cand) added (option_map f ev) = rg (undo v g cand added ev).
Proof.
  unfold undo. change [(f cand, f v)] with (map re [(cand, v)]). rewrite (ng_remove_edges_rn f Hf), (ng_add_edges_rn f Hf).
  destruct added; [|reflexivity]. destruct ev as [q|]; [|reflexivity]. cbn [option_map]. change [(f q, f v)] with (map re [(q, v)]). apply ng_add_edges_rn, Hf.
Qed.
Lemma hill_loop_rn n v cands mp pat : forall g best count k,
  hill_loop Sc score gt t draws n (f v) (map f cands) mp pat (rg g) best count k
  = rmap (fun r => (rg (fst r), map (rename_step f) (snd r))) (hill_loop Sc score gt t draws n v cands mp pat g best count k).
Proof.
  induction n as [|n IH]; intros g best count k; cbn [hill_loop]; [reflexivity|]. rewrite rand_choice_rn, bind_rmap, rmap_bind. apply bind_ext. intros cand _.
  rewrite propose_rn, bind_rmap, rmap_bind. apply bind_ext. intros [[[g1 added] ev] k1] _. cbn [prop_rn fst snd].
  rewrite score_rn, bind_rmap, rmap_bind. apply bind_ext. intros [sc g2] _. cbn [fst snd]. rewrite undo_rn.
  replace (if gt sc best then rg g2 else rg (undo v g2 cand added ev)) with (rg (if gt sc best then g2 else undo v g2 cand added ev)) by (destruct (gt sc best); reflexivity).
  rewrite IH. rewrite (ng_edges_rn f Hf).
  destruct (out_of_patience _ _); [reflexivity|]. rewrite bind_rmap, rmap_bind. apply bind_ext. intros [g4 tr] _. reflexivity.
Qed.
Lemma search_start_rn s m v : search_start (rs s) m (f v) = rmap (fun r => (rg (fst r), map f (snd r))) (search_start s m v).
Proof.
  unfold search_start. rewrite (sget_indx_rn f Hf), rmap_bind. apply bind_ext. intros ix _. rewrite priors_rn, bind_rmap, rmap_bind. apply bind_ext. intros ps _.
  rewrite ng_new_rn, (add_parents_rn f Hf). cbn [rmap fst snd]. do 2 f_equal. change (nodes_labels (rs s)) with (map f (nodes_labels s)). rewrite filter_map'. f_equal.
  apply filter_ext'. intros x. rewrite eqb_rn, lmem_rn. reflexivity.
Qed.
Lemma hill_rn s m v mp it pat : hill_climbing Sc score gt t draws (rs s) m (f v) mp it pat
  = rmap (fun r => (map re (fst r), map (rename_step f) (snd r))) (hill_climbing Sc score gt t draws s m v mp it pat).
Proof.
  unfold hill_climbing. rewrite search_start_rn, bind_rmap, rmap_bind. apply bind_ext. intros [g cands] _. cbn [fst snd].
  rewrite score_rn, bind_rmap, rmap_bind. apply bind_ext. intros [best g1] _. cbn [fst snd]. rewrite hill_loop_rn, bind_rmap, rmap_bind. apply bind_ext. intros [g2 tr] _.
  cbn [fst snd rmap]. rewrite (ng_edges_rn f Hf). reflexivity.
Qed.
Definition pick_rn (r : label * list label * list label * nat) := (f (fst (fst (fst r))), map f (snd (fst (fst r))), map f (snd (fst r)), snd r).
Lemma tabu_pick_rn cands q ts k : tabu_pick draws (map f cands) (map f q) (map f ts) k = rmap pick_rn (tabu_pick draws cands q ts k).
Proof.
  unfold tabu_pick. rewrite filter_map'. rewrite (filter_ext' (fun x => negb (lmem (f x) (map f ts))) (fun x => negb (lmem x ts))) by (intros x; rewrite lmem_rn; reflexivity).
  rewrite map_length. destruct (0 <? _).
  - rewrite rand_choice_rn, bind_rmap, rmap_bind. apply bind_ext. reflexivity.
  - rewrite queue_get_rn, bind_rmap, rmap_bind. apply bind_ext. intros [c q'] _. cbn [fst snd]. rewrite set_remove_rn, bind_rmap, rmap_bind. apply bind_ext. reflexivity.
Qed.
Definition upd_rn (r : list label * list label * nat) := (map f (fst (fst r)), map f (snd (fst r)), snd r).
Lemma tabu_update_rn len dur cand q ts tc : tabu_update len dur (f cand) (map f q) (map f ts) tc = rmap upd_rn (tabu_update len dur cand q ts tc).
Proof.
  unfold tabu_update. rewrite map_length.
  match goal with |- bind ?a _ = rmap _ (bind ?b _) => assert (E : a = rmap (fun r => (map f (fst r), map f (snd r))) b) end.
  { destruct (len <=? length q); [|reflexivity]. rewrite queue_get_rn, bind_rmap, rmap_bind. apply bind_ext. intros [r q'] _. cbn [fst snd].
    rewrite set_remove_rn, bind_rmap, rmap_bind. apply bind_ext. reflexivity. }
  rewrite E, bind_rmap, rmap_bind. apply bind_ext. intros [q1 s1] _. cbn [fst snd]. change [f cand] with (map f [cand]). rewrite <- map_app, set_add_rn, map_length.
  destruct (dur =? 0); [reflexivity|]. destruct (S tc mod dur =? 0); [|reflexivity]. destruct (0 <? _); [|reflexivity].
  rewrite queue_get_rn, bind_rmap, rmap_bind. apply bind_ext. intros [r q'] _. cbn [fst snd]. rewrite set_remove_rn, bind_rmap, rmap_bind. apply bind_ext. reflexivity.
Qed.
Definition tlog_rn (r : step_log Sc * (list label * list label)) := (rename_step f (fst r), (map f (fst (snd r)), map f (snd (snd r)))).
Lemma tabu_loop_rn n v cands mp pat len dur : forall g best count k q ts tc,
  tabu_loop Sc score gt t draws n (f v) (map f cands) mp pat len dur (rg g) best count k (map f q) (map f ts) tc
  = rmap (fun r => (rg (fst r), map tlog_rn (snd r))) (tabu_loop Sc score gt t draws n v cands mp pat len dur g best count k q ts tc).
Proof.
  induction n as [|n IH]; intros g best count k q ts tc; cbn [tabu_loop]; [reflexivity|]. rewrite tabu_pick_rn, bind_rmap, rmap_bind. apply bind_ext. intros [[[cand q1] s1] k0] _. cbn [pick_rn fst snd].
  rewrite propose_rn, bind_rmap, rmap_bind. apply bind_ext. intros [[[g1 added] ev] k1] _. cbn [prop_rn fst snd].
  rewrite score_rn, bind_rmap, rmap_bind. apply bind_ext. intros [sc g2] _. cbn [fst snd]. rewrite undo_rn.
  replace (if gt sc best then rg g2 else rg (undo v g2 cand added ev)) with (rg (if gt sc best then g2 else undo v g2 cand added ev)) by (destruct (gt sc best); reflexivity).
  rewrite tabu_update_rn, bind_rmap, rmap_bind. apply bind_ext. intros [[q2 s2] tc'] _. cbn [upd_rn fst snd].
  rewrite IH. rewrite (ng_edges_rn f Hf).
  destruct (out_of_patience _ _); [reflexivity|]. rewrite bind_rmap, rmap_bind. apply bind_ext. intros [g4 tr] _. reflexivity.
Qed.
Lemma tabu_rn s m v mp it pat tl td : tabu_search Sc score gt t draws (rs s) m (f v) mp it pat tl td
  = rmap (fun r => (map re (fst r), map tlog_rn (snd r))) (tabu_search Sc score gt t draws s m v mp it pat tl td).
Proof.
  unfold tabu_search. rewrite search_start_rn, bind_rmap, rmap_bind. apply bind_ext. intros [g cands] _. cbn [fst snd].
  rewrite score_rn, bind_rmap, rmap_bind. apply bind_ext. intros [best g1] _. cbn [fst snd]. rewrite set_of_list_rn, map_length.
  change (@nil label) with (map f (@nil label)) at 1 2. rewrite tabu_loop_rn, bind_rmap, rmap_bind. apply bind_ext. intros [g2 tr] _.
  cbn [fst snd rmap]. rewrite (ng_edges_rn f Hf). reflexivity.
Qed.
End search.

(** the score-based estimator *)
Section sb.
Variable Sc : Type.
Variable score : list cim -> result Sc.
Variable gt : Sc -> Sc -> bool.
Lemma new_sb_rn s t tot known : new_sb_estimator (rs s) t tot (map re known) = rmap (rename_sb f) (new_sb_estimator s t tot known).
Proof.
  unfold new_sb_estimator. rewrite (matrix_rn f Hf), rmap_bind. apply bind_ext. intros m _. cbn [rmap]. unfold rename_sb; cbn [sb_struct sb_traj sb_matrix sb_graph].
  change (nodes_labels (rs s)) with (map f (nodes_labels s)). rewrite (complete_graph_rn f Hf). reflexivity.
Qed.
Lemma parents_rn est draws v p : estimate_parents Sc score gt (rename_sb f est) draws (f v) p = rmap (map re) (estimate_parents Sc score gt est draws v p).
Proof.
  unfold estimate_parents. cbn [rename_sb sb_struct sb_traj sb_matrix]. destruct (String.eqb (sp_optimizer p) "tabu").
  - rewrite tabu_rn, bind_rmap, rmap_bind. apply bind_ext. intros [es tr] _. reflexivity.
  - rewrite hill_rn, bind_rmap, rmap_bind. apply bind_ext. intros [es tr] _. reflexivity.
Qed.
Lemma difference_rn a b : edge_difference (map re a) (map re b) = map re (edge_difference a b).
Proof. unfold edge_difference. rewrite filter_map'. f_equal. apply filter_ext'. intros x. rewrite emem_rn. reflexivity. Qed.
Lemma precision_rn a b : precision_recall (map re a) (map re b) = precision_recall a b.
Proof. unfold precision_recall. rewrite !difference_rn, !map_length. reflexivity. Qed.
Lemma pool_map_rn {A B} (h : A -> B) (k : label -> result A) (k' : label -> result B) nodes : (forall v, k' (f v) = rmap h (k v)) ->
  pool_map k' (map f nodes) = rmap (map h) (pool_map k nodes).
Proof.
  intros H. unfold pool_map. rewrite res_map_map, (res_map_ext _ (fun x => rmap h (k x))) by exact H. rewrite res_map_rmap.
  replace (existsb _ (map f nodes)) with (existsb (fun v => match k v with Err Blocked => true | _ => false end) nodes); [destruct (existsb _ nodes); reflexivity|].
  induction nodes as [|x r IH]; [reflexivity|]. cbn [map existsb]. rewrite H, IH. destruct (k x) as [|[]]; reflexivity.
Qed.
Lemma sb_estimate_rn est draws draws' p mp procs : (forall v, draws' (f v) = draws v) ->
  sb_estimate_structure Sc score gt (rename_sb f est) draws' p mp procs
  = rmap (fun r => (map re (fst (fst r)), snd (fst r), rename_sb f (snd r))) (sb_estimate_structure Sc score gt est draws p mp procs).
Proof.
  intros HD. unfold sb_estimate_structure. cbn zeta.
  change (MkSbEst (clean_structure_edges (sb_struct (rename_sb f est))) (sb_traj (rename_sb f est)) (sb_matrix (rename_sb f est)) (sb_graph (rename_sb f est)))
    with (rename_sb f (MkSbEst (clean_structure_edges (sb_struct est)) (sb_traj est) (sb_matrix est) (sb_graph est))).
  set (est1 := MkSbEst _ _ _ _). change (nodes_labels (sb_struct (rename_sb f est1))) with (map f (nodes_labels (sb_struct est1))).
  assert (HP : forall v, estimate_parents Sc score gt (rename_sb f est1) (draws' (f v)) (f v) p = rmap (map re) (estimate_parents Sc score gt est1 (draws v) v p)) by (intros v; rewrite HD; apply parents_rn).
  match goal with |- bind ?a _ = rmap _ (bind ?b _) => assert (E : a = rmap (map (map re)) b) end.
  { destruct mp.
    - rewrite res_map_map. rewrite (res_map_ext _ (fun v => rmap (map re) (estimate_parents Sc score gt est1 (draws v) v p))) by exact HP. apply res_map_rmap.
    - destruct procs as [[|n]|]; [reflexivity| |];
      exact (pool_map_rn (map re) (fun v => estimate_parents Sc score gt est1 (draws v) v p) (fun v => estimate_parents Sc score gt (rename_sb f est1) (draws' v) v p) _ HP). }
  rewrite E, bind_rmap, rmap_bind. apply bind_ext. intros ess _. cbn [rmap fst snd]. rewrite (concat_rn f), (edge_set_rn f Hf).
  change (edges_list (sb_struct (rename_sb f est))) with (map re (edges_list (sb_struct est))). rewrite (edge_set_rn f Hf), precision_rn.
  do 2 f_equal. unfold rename_sb; cbn [sb_struct sb_traj sb_matrix sb_graph]. f_equal. exact (add_edges_rn f Hf _ empty_digraph).
Qed.
End sb.

(** what the estimators report *)
Lemma adjacency_rn g nodes : adjacency_matrix (rd g) (map f nodes) = adjacency_matrix g nodes.
Proof.
  unfold adjacency_matrix. rewrite map_length, set_of_list_rn, map_length. destruct (_ =? 0); [reflexivity|]. destruct (negb _); [reflexivity|].
  cbn [rename_digraph g_edges].
  assert (E : filter (fun e => lmem (snd e) (map f nodes)) (flat_map (fun x => filter (fun e => String.eqb (fst e) x) (map re (g_edges g))) (map f nodes))
    = map re (filter (fun e => lmem (snd e) nodes) (flat_map (fun x => filter (fun e => String.eqb (fst e) x) (g_edges g)) nodes))).
  {
    replace (flat_map (fun x => filter (fun e => String.eqb (fst e) x) (map re (g_edges g))) (map f nodes))
      with (map re (flat_map (fun x => filter (fun e => String.eqb (fst e) x) (g_edges g)) nodes)).
    - rewrite filter_map'. f_equal. apply filter_ext'. intros x. unfold rename_edge; cbn [snd]. apply lmem_rn.
    - generalize nodes. induction nodes0 as [|x r IH]; [reflexivity|]. cbn [map flat_map]. rewrite map_app, IH. f_equal. rewrite filter_map'. f_equal.
      apply filter_ext'. intros e. unfold rename_edge; cbn [fst]. symmetry. apply eqb_rn. }
  rewrite E. generalize (Ok (repeat (repeat false (length nodes)) (length nodes)) : result (list (list bool))).
  generalize (filter (fun e => lmem (snd e) nodes) (flat_map (fun x => filter (fun e => String.eqb (fst e) x) (g_edges g)) nodes)).
  induction l as [|e l IH]; intros acc; cbn [map fold_left]; [reflexivity|]. rewrite IH. f_equal. apply bind_ext. intros m _.
  change (fst (re e)) with (f (fst e)). change (snd (re e)) with (f (snd e)). rewrite !(py_index_rn f Hf). reflexivity.
Qed.
Lemma nx_difference_rn G H : nx_difference (rd G) (rd H) = rmap rd (nx_difference G H).
Proof.
  unfold nx_difference. rewrite !names_rn, (lset_rn f Hf). destruct (lset_eqb _ _); [|reflexivity]. cbn [rmap]. f_equal. rewrite (view_rn f Hf).
  change (MkDigraph (g_nodes (rd G)) []) with (rd (MkDigraph (g_nodes G) [])). generalize (MkDigraph (g_nodes G) []). induction (g_edges_view G) as [|e l IH]; intros d; cbn [map fold_left]; [reflexivity|].
  rewrite (has_edge_rn f Hf), (add_edge_rn f Hf). destruct (g_has_edge H e); apply IH.
Qed.
Lemma spurious_rn s g : spurious_edges (rs s) (rd g) = rmap (map re) (spurious_edges s g).
Proof.
  unfold spurious_edges. replace (has_prior_net_structure (rs s)) with (has_prior_net_structure s) by (unfold has_prior_net_structure; cbn; destruct (edges_list s); reflexivity).
  destruct (negb _); [reflexivity|].
  change (nodes_labels (rs s)) with (map f (nodes_labels s)). change (edges_list (rs s)) with (map re (edges_list s)).
  change empty_digraph with (rd empty_digraph) at 1. rewrite (add_nodes_rn f Hf), (add_edges_rn f Hf). cbn zeta. rewrite nx_difference_rn, bind_rmap, rmap_bind. apply bind_ext. intros d _.
  cbn [rmap]. rewrite (view_rn f Hf). reflexivity.
Qed.
End rn.

(** a renaming that gives different names to the variables at hand extends to one that keeps all names apart *)
Definition swap_names (a b x : label) : label := if String.eqb x a then b else if String.eqb x b then a else x.
Lemma swap_inj a b x y : swap_names a b x = swap_names a b y -> x = y.
Proof.
  unfold swap_names. destruct (String.eqb_spec x a), (String.eqb_spec y a), (String.eqb_spec x b), (String.eqb_spec y b); intros; subst; congruence.
Qed.
Lemma extend_renaming (ls : list label) f : NoDup ls -> distinct_on ls f -> exists g, (forall x y, g x = g y -> x = y) /\ forall x, In x ls -> g x = f x.
Proof.
  induction ls as [|a ls IH]; intros Hnd Hd.
  - exists (fun x => x). split; [auto|]. intros x [].
  - inversion Hnd as [|? ? Ha Hl]; subst. destruct IH as [g [G1 G2]]; [exact Hl| |].
    { intros x y Hx Hy. apply Hd; right; assumption. }
    exists (fun x => swap_names (g a) (f a) (g x)). split.
    + intros x y E. apply swap_inj in E. apply G1, E.
    + intros x [<-|Hx]; unfold swap_names; [rewrite String.eqb_refl; reflexivity|].
      destruct (String.eqb_spec (g x) (g a)) as [E|N1]; [apply G1 in E; subst; contradiction|].
      destruct (String.eqb_spec (g x) (f a)) as [E|N2]; [|apply G2, Hx].
      exfalso. rewrite (G2 x Hx) in E. apply Hd in E; [subst; contradiction|right; exact Hx|left; reflexivity].
Qed.
Lemma rename_agree f g s : (forall x, In x (nodes_labels s) -> f x = g x) -> (forall e, In e (edges_list s) -> In (fst e) (nodes_labels s) /\ In (snd e) (nodes_labels s)) ->
  rename_structure f s = rename_structure g s.
Proof.
  intros H He. unfold rename_structure. f_equal; [apply map_ext_in; exact H|]. apply map_ext_in. intros e Hi. destruct (He e Hi). unfold rename_edge. f_equal; apply H; assumption.
Qed.
