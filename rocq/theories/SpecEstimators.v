(** Specification vocabulary for C37-C39, C41, C57. *)
From Verif Require Import Base ModelStructure ModelGraph ModelCims ModelData ModelParams ModelCtpc ModelSearch ModelEstimators
  SpecStructure SpecGraph SpecCtpc SpecSearch.

(** [m] is an n x n boolean matrix whose entry for the i-th and j-th label says whether the edge is in [es] *)
Definition is_adjacency_of (m : list (list bool)) (nodes : list label) (es : list edge) : Prop :=
  length m = length nodes /\ (forall row, In row m -> length row = length nodes)
  /\ forall i j a b, nth_error nodes i = Some a -> nth_error nodes j = Some b ->
       exists x, mat_get m i j = Ok x /\ (x = true <-> In (a, b) es).

(** the library's reader for node-link documents (networkx node_link_graph): nodes first, then links *)
Definition read_back (d : node_link) : digraph :=
  g_add_edges_from (g_add_nodes_from empty_digraph (nl_nodes d)) (nl_links d).
(** same nodes and same edges *)
Definition same_digraph (a b : digraph) : Prop :=
  (forall x, In x (map fst (g_nodes a)) <-> In x (map fst (g_nodes b)))
  /\ forall e, In e (g_edges_view a) <-> In e (g_edges_view b).

(** [l] lists the elements of the set [P] without repetition *)
Definition enumerates {A} (l : list A) (P : A -> Prop) : Prop := NoDup l /\ forall x, In x l <-> P x.

(** a score-based estimator ready for estimate_structure: built for a well-formed structure whose labels are
    in dataset column order *)
Definition sb_ready (est : sb_estimator) (known : list edge) : Prop :=
  let s := sb_struct est in
  wf_structure s /\ nodes_indexes s = seq 0 (length (nodes_labels s)) /\ edges_within (nodes_labels s) known
  /\ build_removable_edges_matrix s (length (nodes_labels s)) known = Ok (sb_matrix est).

(** the returned edges into [v] *)
Definition edges_to (es : list edge) (v : label) : list edge := filter (fun e => String.eqb (snd e) v) es.
