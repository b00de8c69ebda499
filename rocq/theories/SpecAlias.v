(** Specification vocabulary for C93: which objects refer to the same list or to the same Structure, and which calls
    leave an object alone. *)
From Verif Require Import Base ModelStructure ModelGraph ModelAlias.

(** the structures [i] and [j] were given the same list object of labels (of edges) *)
Definition same_label_list (h : heap) (i j : nat) : Prop :=
  exists a b, nth_error (h_structs h) i = Some a /\ nth_error (h_structs h) j = Some b /\ os_labels a = os_labels b.
Definition same_edge_list (h : heap) (i j : nat) : Prop :=
  exists a b, nth_error (h_structs h) i = Some a /\ nth_error (h_structs h) j = Some b /\ os_edges a = os_edges b.
(** the Structure object the graph [k] was made with *)
Definition graph_of_struct (h : heap) (k i : nat) : Prop := exists o, nth_error (h_graphs h) k = Some o /\ og_struct o = i.

(** the call cannot change what the structure [j] says *)
Definition leaves_struct (h : heap) (op : alias_op) (j : nat) : Prop :=
  match op with
  | SRemoveNode i _ => i <> j /\ ~ same_label_list h i j
  | SAddEdge i _ | SRemoveEdge i _ => ~ same_edge_list h i j
  | SClean i => i <> j
  | GRemoveNode k _ => forall i, graph_of_struct h k i -> i <> j /\ ~ same_label_list h i j
  | _ => True
  end.
(** the call cannot change what the graph [k] says *)
Definition leaves_graph (h : heap) (op : alias_op) (k : nat) : Prop :=
  (forall j, graph_of_struct h k j -> leaves_struct h op j)
  /\ match op with
     | GAddNodes k' _ | GAddEdges k' _ | GRemoveEdges k' _ | GRemoveNode k' _ | GFastInit k' _ => k' <> k
     | _ => True
     end.
(** ... at every step of a history *)
Fixpoint all_steps (P : heap -> alias_op -> Prop) (h : heap) (os : list alias_op) : Prop :=
  match os with
  | [] => True
  | o :: r => P h o /\ forall h1 x, alias_step h o = Some (h1, x) -> all_steps P h1 r
  end.

(** the structure [t] after somebody else has deleted [n] from its list of labels: the labels change, the arrays do not *)
Definition label_lost (n : label) (t : structure) : structure :=
  MkStructure (filter (fun l => negb (String.eqb l n)) (nodes_labels t)) (nodes_indexes t) (nodes_values t) (edges_list t) (total_variables_number t).
