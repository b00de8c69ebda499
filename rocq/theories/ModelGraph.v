(** Model of networkx.DiGraph (2.5, as used by the code) and of
    PyCTBN/PyCTBN/structure_graph/network_graph.py *)
From Verif Require Import Base ModelStructure.

(** ** networkx.DiGraph
    [_node] is an insertion-ordered dict; [_succ]/[_pred] are insertion-ordered dicts of
    dicts.  A single insertion-ordered duplicate-free edge list determines both: the order
    of [_succ[u]] (resp. [_pred[v]]) is the insertion order restricted to source u (target v),
    because deletion removes the key and re-insertion appends it in both. *)

(** attributes set by NetworkGraph.add_nodes (network_graph.py:86) *)
Record nattr := MkNattr { a_indx : nat; a_val : nat; a_pos : nat }.

Record digraph := MkDigraph {
  g_nodes : list (label * option nattr);   (* None: node created implicitly by add_edge *)
  g_edges : list edge }.

Definition empty_digraph : digraph := MkDigraph [] [].

Definition g_has_node (g : digraph) (n : label) : bool := lmem n (map fst (g_nodes g)).

(** DiGraph.add_node(n, **attr): creates the node or updates its attributes in place *)
Fixpoint upsert_node (ns : list (label * option nattr)) (n : label) (a : nattr)
  : list (label * option nattr) :=
  match ns with
  | [] => [(n, Some a)]
  | (x, o) :: r => if String.eqb x n then (x, Some a) :: r else (x, o) :: upsert_node r n a
  end.
Definition g_add_node (g : digraph) (n : label) (a : nattr) : digraph :=
  MkDigraph (upsert_node (g_nodes g) n a) (g_edges g).

(** a node without attributes: DiGraph.add_nodes_from, or implicit in add_edge *)
Definition ensure_node (ns : list (label * option nattr)) (n : label) :=
  if lmem n (map fst ns) then ns else ns ++ [(n, None)].

(** DiGraph.add_edge *)
Definition g_add_edge (g : digraph) (e : edge) : digraph :=
  MkDigraph (ensure_node (ensure_node (g_nodes g) (fst e)) (snd e))
            (if emem e (g_edges g) then g_edges g else g_edges g ++ [e]).

(** DiGraph.add_edges_from / remove_edges_from (absent edges are silently ignored) *)
Definition g_add_edges_from (g : digraph) (es : list edge) : digraph := fold_left g_add_edge es g.
Definition g_remove_edge (g : digraph) (e : edge) : digraph :=
  MkDigraph (g_nodes g) (filter (fun x => negb (edge_eqb x e)) (g_edges g)).
Definition g_remove_edges_from (g : digraph) (es : list edge) : digraph :=
  fold_left g_remove_edge es g.

Definition g_add_nodes_from (g : digraph) (ns : list label) : digraph :=
  MkDigraph (fold_left ensure_node ns (g_nodes g)) (g_edges g).

(** DiGraph.remove_node: NetworkXError when absent *)
Definition g_remove_node (g : digraph) (n : label) : result digraph :=
  if g_has_node g n then
    Ok (MkDigraph (filter (fun p => negb (String.eqb (fst p) n)) (g_nodes g))
                  (filter (fun e => negb (String.eqb (fst e) n) && negb (String.eqb (snd e) n))
                          (g_edges g)))
  else Err NetworkXError.

Definition g_has_edge (g : digraph) (e : edge) : bool := emem e (g_edges g).

(** list(DiGraph.predecessors(n)) *)
Definition g_predecessors (g : digraph) (n : label) : result (list label) :=
  if g_has_node g n
  then Ok (map fst (filter (fun e => String.eqb (snd e) n) (g_edges g)))
  else Err NetworkXError.

(** list(DiGraph.edges): nodes in insertion order, successors in insertion order *)
Definition g_edges_view (g : digraph) : list edge :=
  flat_map (fun n => filter (fun e => String.eqb (fst e) n) (g_edges g)) (map fst (g_nodes g)).

Fixpoint assoc_node (ns : list (label * option nattr)) (n : label) : option (option nattr) :=
  match ns with
  | [] => None
  | (x, o) :: r => if String.eqb x n then Some o else assoc_node r n
  end.

(** G.nodes[n][attr] and nx.get_node_attributes(G, attr)[n]: KeyError when the node or the
    attribute is missing *)
Definition g_attr (g : digraph) (n : label) : result nattr :=
  match assoc_node (g_nodes g) n with Some (Some a) => Ok a | _ => Err KeyError end.

(** ** NetworkGraph (network_graph.py) *)

(** network_graph.py:30-40.  The structure object is shared by reference in the code; the
    model stores its current value. *)
Record netgraph := MkNetgraph {
  ng_struct : structure;
  ng_graph : digraph;
  ng_pinfo : option (list label * list nat * list nat);
  ng_time_indexing : option (list Z);
  ng_trans_indexing : option (list Z);
  ng_time_filtering : option (list nat);
  ng_trans_filtering : option (list nat);
  ng_p_combs : option (list (list nat)) }.

Definition new_netgraph (s : structure) : netgraph :=
  MkNetgraph s empty_digraph None None None None None None.

Definition with_graph (g : netgraph) (d : digraph) : netgraph :=
  MkNetgraph (ng_struct g) d (ng_pinfo g) (ng_time_indexing g) (ng_trans_indexing g)
             (ng_time_filtering g) (ng_trans_filtering g) (ng_p_combs g).

(** network_graph.py:75-87: zip of labels, indexes and values; pos counts from 0 *)
Fixpoint add_nodes_loop (d : digraph) (pos : nat) (ls : list label) (is vs : list nat) : digraph :=
  match ls, is, vs with
  | l :: ls', i :: is', v :: vs' =>
      add_nodes_loop (g_add_node d l (MkNattr i v pos)) (S pos) ls' is' vs'
  | _, _, _ => d
  end.
Definition ng_add_nodes (g : netgraph) (ls : list label) : netgraph :=
  with_graph g (add_nodes_loop (ng_graph g) 0 ls
                  (nodes_indexes (ng_struct g)) (nodes_values (ng_struct g))).

(** network_graph.py:89-98, 100-106, 144-150 *)
Definition ng_has_edge (g : netgraph) (e : edge) : bool := g_has_edge (ng_graph g) e.
Definition ng_add_edges (g : netgraph) (es : list edge) : netgraph :=
  with_graph g (g_add_edges_from (ng_graph g) es).
Definition ng_remove_edges (g : netgraph) (es : list edge) : netgraph :=
  with_graph g (g_remove_edges_from (ng_graph g) es).

(** network_graph.py:108-124 (including clear_indexing_filtering_structures) *)
Definition ng_remove_node (g : netgraph) (n : label) : result netgraph :=
  let* d := g_remove_node (ng_graph g) n in
  let* s := structure_remove_node (ng_struct g) n in
  Ok (MkNetgraph s d None None None None None None).

(** network_graph.py:243-260 *)
Definition ng_get_parents_by_id (g : netgraph) (n : label) : result (list label) :=
  g_predecessors (ng_graph g) n.
Definition ng_get_states_number (g : netgraph) (n : label) : result nat :=
  let* a := g_attr (ng_graph g) n in Ok (a_val a).
Definition ng_get_node_indx (g : netgraph) (n : label) : result nat :=
  let* a := g_attr (ng_graph g) n in Ok (a_indx a).
Definition ng_get_positional_node_indx (g : netgraph) (n : label) : result nat :=
  let* a := g_attr (ng_graph g) n in Ok (a_pos a).

(** network_graph.py:267-268 *)
Definition ng_edges (g : netgraph) : list edge := g_edges_view (ng_graph g).

(** {v: i for i, v in enumerate(nodes)}[v]: the LAST position of v; KeyError when absent *)
Fixpoint enum_dict_from (i : nat) (nodes : list label) (v : label) (acc : result nat) : result nat :=
  match nodes with
  | [] => acc
  | x :: r => enum_dict_from (S i) r v (if String.eqb v x then Ok i else acc)
  end.
Definition enum_dict (nodes : list label) (v : label) : result nat :=
  enum_dict_from 0 nodes v (Err KeyError).

(** Python's sorted(xs, key=...): stable *)
Fixpoint insert_by_key {A} (k : nat) (a : A) (l : list (nat * A)) : list (nat * A) :=
  match l with
  | [] => [(k, a)]
  | (k', b) :: r => if k <=? k' then (k, a) :: (k', b) :: r
                    else (k', b) :: insert_by_key k a r
  end.
Fixpoint sort_by_key {A} (l : list (nat * A)) : list (nat * A) :=
  match l with
  | [] => []
  | (k, a) :: r => insert_by_key k a (sort_by_key r)
  end.

(** network_graph.py:126-142 *)
Definition ng_get_ordered_by_indx_set_of_parents (g : netgraph) (n : label)
  : result (list label * list nat * list nat) :=
  let* parents := ng_get_parents_by_id g n in
  let nodes := nodes_labels (ng_struct g) in
  let* keyed := res_map (fun v => let* k := enum_dict nodes v in Ok (k, v)) parents in
  let sorted_parents := map snd (sort_by_key keyed) in
  let* p_indxes := res_map (ng_get_node_indx g) sorted_parents in
  let* p_values := res_map (ng_get_states_number g) sorted_parents in
  Ok (sorted_parents, p_indxes, p_values).

(** numpy cumprod *)
Fixpoint cumprod_from (acc : Z) (l : list Z) : list Z :=
  match l with
  | [] => []
  | a :: r => (acc * a)%Z :: cumprod_from (acc * a)%Z r
  end.
Definition cumprod (l : list Z) : list Z := cumprod_from 1%Z l.

(** network_graph.py:152-167 *)
Definition build_time_scalar_indexing_structure_for_a_node (node_states : nat)
  (parents_vals : list nat) : list Z :=
  cumprod (map Z.of_nat (node_states :: parents_vals)).

(** network_graph.py:169-185 *)
Definition build_transition_scalar_indexing_structure_for_a_node (node_states : nat)
  (parents_vals : list nat) : list Z :=
  cumprod (map Z.of_nat (node_states :: node_states :: parents_vals)).

(** network_graph.py:187-200 *)
Definition build_time_columns_filtering_for_a_node (node_indx : nat) (p_indxs : list nat)
  : list nat := node_indx :: p_indxs.

(** network_graph.py:202-217 *)
Definition build_transition_filtering_for_a_node (node_indx : nat) (p_indxs : list nat)
  (nodes_number : nat) : list nat := (node_indx + nodes_number) :: node_indx :: p_indxs.

(** All multi-indices of an array of the given shape in C order (last axis fastest). *)
Fixpoint c_order (shape : list nat) : list (list nat) :=
  match shape with
  | [] => [[]]
  | n :: r => flat_map (fun i => map (cons i) (c_order r)) (seq 0 n)
  end.

(** exchange of the first two entries *)
Definition swap01 {A} (l : list A) : list A :=
  match l with a :: b :: r => b :: a :: r | _ => l end.

(** np.array(np.meshgrid( *[range(v) for v in vals])).T.reshape(-1, len(vals)).
    numpy's default 'xy' indexing gives the grids the shape (n2, n1, n3, ...), i.e. [swap01 vals],
    and the k-th grid at multi-index ix holds the k-th entry of [swap01 ix]. Stacking, transposing
    (which reverses the axes) and reshaping enumerates the reversed multi-indices in C order. *)
Definition meshgrid_T_reshape (vals : list nat) : list (list nat) :=
  map (fun rix => swap01 (rev rix)) (c_order (rev (swap01 vals))).

(** network_graph.py:219-241 *)
Definition build_p_comb_structure_for_a_node (parents_values : list nat) : list (list nat) :=
  match parents_values with
  | [] => [[]]                                       (* np.array([[]]): one empty row *)
  | [_] => meshgrid_T_reshape parents_values
  | _ => map swap01 (meshgrid_T_reshape parents_values)  (* lines 236-238 swap columns 0 and 1 *)
  end.

(** network_graph.py:52-73 *)
Definition ng_fast_init (g : netgraph) (n : label) : result netgraph :=
  let g1 := ng_add_nodes g (nodes_labels (ng_struct g)) in
  let g2 := ng_add_edges g1 (edges_list (ng_struct g1)) in
  let* pinfo := ng_get_ordered_by_indx_set_of_parents g2 n in
  let p_indxs := snd (fst pinfo) in
  let p_vals := snd pinfo in
  let* node_states := ng_get_states_number g2 n in
  let* node_indx := ng_get_node_indx g2 n in
  let cols_number := total_variables_number (ng_struct g2) in
  Ok (MkNetgraph (ng_struct g2) (ng_graph g2) (Some pinfo)
        (Some (build_time_scalar_indexing_structure_for_a_node node_states p_vals))
        (Some (build_transition_scalar_indexing_structure_for_a_node node_states p_vals))
        (Some (build_time_columns_filtering_for_a_node node_indx p_indxs))
        (Some (build_transition_filtering_for_a_node node_indx p_indxs cols_number))
        (Some (build_p_comb_structure_for_a_node p_vals))).
