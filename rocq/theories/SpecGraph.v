(** Specification vocabulary for properties C05-C07. *)
From Verif Require Import Base ModelStructure ModelGraph SpecStructure.

(** Histories of NetworkGraph operations; a history continues only after successful calls. *)
Inductive gop := AddEdges (es : list edge) | RemoveEdges (es : list edge)
               | AddNodes (ls : list label) | RemoveNode (n : label).
Definition run_gop (g : netgraph) (o : gop) : result netgraph :=
  match o with
  | AddEdges es => Ok (ng_add_edges g es)
  | RemoveEdges es => Ok (ng_remove_edges g es)
  | AddNodes ls => Ok (ng_add_nodes g ls)
  | RemoveNode n => ng_remove_node g n
  end.
Fixpoint run_gops (g : netgraph) (os : list gop) : result netgraph :=
  match os with [] => Ok g | o :: r => let* g1 := run_gop g o in run_gops g1 r end.

(** The mathematical set of edges after a history. *)
Definition edge_set_step (E : edge -> Prop) (o : gop) : edge -> Prop :=
  match o with
  | AddEdges es => fun e => E e \/ In e es
  | RemoveEdges es => fun e => E e /\ ~ In e es
  | AddNodes _ => E
  | RemoveNode n => fun e => E e /\ fst e <> n /\ snd e <> n
  end.
Definition edge_set (os : list gop) : edge -> Prop := fold_left edge_set_step os (fun _ => False).

(** Legal histories over the current labels: edges between known variables; add_nodes is called
    with the structure's labels (as fast_init does). *)
Fixpoint legal_history (ls : list label) (os : list gop) : Prop :=
  match os with
  | [] => True
  | AddEdges es :: r => (forall e, In e es -> In (fst e) ls /\ In (snd e) ls) /\ legal_history ls r
  | RemoveEdges _ :: r => legal_history ls r
  | AddNodes l :: r => l = ls /\ legal_history ls r
  | RemoveNode n :: r => In n ls /\ legal_history (filter (fun l => negb (String.eqb l n)) ls) r
  end.

(** what fast_init stores *)
Definition init_fields (g : netgraph) :=
  (ng_pinfo g, (ng_time_indexing g, ng_trans_indexing g),
   (ng_time_filtering g, ng_trans_filtering g), ng_p_combs g).

(** a graph built from scratch from a structure and a list of edges *)
Definition fresh_graph (s : structure) (es : list edge) : netgraph :=
  ng_add_edges (ng_add_nodes (new_netgraph s) (nodes_labels s)) es.

Definition edges_within (ls : list label) (es : list edge) : Prop :=
  forall e, In e es -> In (fst e) ls /\ In (snd e) ls.
