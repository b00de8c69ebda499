(** Model of ParametersEstimator (parameters_estimator.py) and of the SetOfCims objects it creates
    (set_of_cims.py) as mutable objects, together with the NetworkGraph they read: what every single call does
    to the objects, also when it raises.  [ModelParams.compute_parameters_for_node] is the same computation
    when the three calls are made in the documented order. *)
From Verif Require Import Base ModelStructure ModelGraph ModelCims ModelData ModelParams.

(** a SetOfCims created by ParametersEstimator.fast_init (set_of_cims.py:29-56).  [o_stats]: whether
    _state_residence_times and _transition_matrices still exist (their contents are overwritten before they
    are read, so they are not recorded) *)
Record cims_obj := MkObj {
  o_node : label; o_pvals : list nat; o_states : nat; o_combs : option (list (list nat));
  o_stats : bool; o_cims : list cim }.

(** the graph, the SetOfCims objects created so far and which of them is _single_set_of_cims *)
Record world := MkWorld { w_graph : netgraph; w_heap : list cims_obj; w_cur : option nat }.

Inductive life_op :=
| GraphInit (v : label)                                    (* graph.fast_init(v) *)
| GraphAddEdges (es : list edge) | GraphRemoveEdges (es : list edge) | GraphRemoveNode (v : label)
| EstInit (v : label)                                      (* estimator.fast_init(v) *)
| EstCompute (v : label).                                  (* estimator.compute_parameters_for_node(v) *)
Inductive outcome := Done | Returned (obj : nat) | Raised (x : exn).

(** network_graph.py:52-73, with the state it leaves behind when it raises: nodes and edges are added first, then the
    parents' description is stored, then the node is looked up *)
Definition graph_init (g : netgraph) (n : label) : netgraph * outcome :=
  let g2 := ng_add_edges (ng_add_nodes g (nodes_labels (ng_struct g))) (edges_list (ng_struct g)) in
  match ng_get_ordered_by_indx_set_of_parents g2 n with
  | Err x => (g2, Raised x)
  | Ok pinfo =>
      let g3 := MkNetgraph (ng_struct g2) (ng_graph g2) (Some pinfo) (ng_time_indexing g2) (ng_trans_indexing g2)
                  (ng_time_filtering g2) (ng_trans_filtering g2) (ng_p_combs g2) in
      match ng_get_states_number g3 n, ng_get_node_indx g3 n with
      | Ok node_states, Ok node_indx =>
          let p_indxs := snd (fst pinfo) in let p_vals := snd pinfo in
          (MkNetgraph (ng_struct g2) (ng_graph g2) (Some pinfo)
            (Some (build_time_scalar_indexing_structure_for_a_node node_states p_vals))
            (Some (build_transition_scalar_indexing_structure_for_a_node node_states p_vals))
            (Some (build_time_columns_filtering_for_a_node node_indx p_indxs))
            (Some (build_transition_filtering_for_a_node node_indx p_indxs (total_variables_number (ng_struct g2))))
            (Some (build_p_comb_structure_for_a_node p_vals)), Done)
      | Err x, _ => (g3, Raised x)
      | _, Err x => (g3, Raised x)
      end
  end.

(** parameters_estimator.py:31-40; [None[2]] is a TypeError *)
Definition est_init (w : world) (v : label) : world * outcome :=
  match ng_pinfo (w_graph w) with
  | None => (w, Raised TypeError)
  | Some pinfo =>
      match ng_get_states_number (w_graph w) v with
      | Err x => (w, Raised x)
      | Ok c => (MkWorld (w_graph w) (w_heap w ++ [MkObj v (snd pinfo) c (ng_p_combs (w_graph w)) true []])
                   (Some (length (w_heap w))), Done)
      end
  end.

(** the part of parameters_estimator.py:84-87 that is evaluated before [T.shape] *)
Definition res_time_bins (t : trajectory) (cols : list nat) (scalar : list Z) : result (list Qc) :=
  if Z.eqb (hd 0%Z scalar) 0 then Err ValueError
  else
    let* sel := res_map (fun row => select_columns row cols) (traj_trajectory t) in
    bincount_weights (map (fun row => scalar_index row scalar) sel) (t_times t) (Z.to_nat (last scalar 0%Z)).

(** parameters_estimator.py:42-63 on the object [o]: [None] arrays are a TypeError when they are multiplied, the
    shape of a deleted statistics matrix is an AttributeError.  SetOfCims.build_cims (set_of_cims.py:58-73) appends
    to the (empty) list and deletes the matrices. *)
Definition est_fill (t : trajectory) (g : netgraph) (v : label) (cur : option cims_obj) : result cims_obj :=
  let* node_indx := ng_get_node_indx g v in
  match cur with
  | None => Err AttributeError                            (* None._state_residence_times *)
  | Some o =>
      let* tf := opt_get (ng_time_filtering g) in
      let* ti := opt_get (ng_time_indexing g) in
      if o_stats o then
        let k := nat_prod (o_pvals o) in
        let* T := compute_state_res_time_for_node (t_times t) (traj_trajectory t) tf ti k (o_states o) in
        let* mf := opt_get (ng_trans_filtering g) in
        let* mi := opt_get (ng_trans_indexing g) in
        let* M := compute_state_transitions_for_a_node node_indx (traj_complete t) (t_width t) mf mi k (o_states o) in
        Ok (MkObj (o_node o) (o_pvals o) (o_states o) (o_combs o) false (o_cims o ++ build_cims T M))
      else
        let* _ := res_time_bins t tf ti in Err AttributeError   (* None.shape *)
  end.
Definition est_compute (t : trajectory) (w : world) (v : label) : world * outcome :=
  let obj := match w_cur w with Some i => nth_error (w_heap w) i | None => None end in
  match w_cur w, est_fill t (w_graph w) v obj with
  | Some i, Ok o' => (MkWorld (w_graph w) (set_at (w_heap w) i o') (w_cur w), Returned i)
  | _, Ok _ => (w, Raised AttributeError)                 (* impossible *)
  | _, Err x => (w, Raised x)
  end.

Definition life_step (t : trajectory) (w : world) (o : life_op) : world * outcome :=
  match o with
  | GraphInit v => let (g, r) := graph_init (w_graph w) v in (MkWorld g (w_heap w) (w_cur w), r)
  | GraphAddEdges es => (MkWorld (ng_add_edges (w_graph w) es) (w_heap w) (w_cur w), Done)
  | GraphRemoveEdges es => (MkWorld (ng_remove_edges (w_graph w) es) (w_heap w) (w_cur w), Done)
  | GraphRemoveNode v =>
      (* network_graph.py:108-115: first the graph, then the structure, then the clearing *)
      match g_remove_node (ng_graph (w_graph w)) v with
      | Err x => (w, Raised x)
      | Ok d => match structure_remove_node (ng_struct (w_graph w)) v with
                | Err x => (MkWorld (with_graph (w_graph w) d) (w_heap w) (w_cur w), Raised x)
                | Ok s => (MkWorld (MkNetgraph s d None None None None None None) (w_heap w) (w_cur w), Done)
                end
      end
  | EstInit v => est_init w v
  | EstCompute v => est_compute t w v
  end.
Fixpoint life_run (t : trajectory) (w : world) (os : list life_op) : world * list outcome :=
  match os with
  | [] => (w, [])
  | o :: r => let (w1, x) := life_step t w o in let (w2, xs) := life_run t w1 r in (w2, x :: xs)
  end.
(** a new graph over [s] and a new estimator on it *)
Definition new_world (s : structure) : world := MkWorld (new_netgraph s) [] None.
