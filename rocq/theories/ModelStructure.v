(** Model of PyCTBN/PyCTBN/structure_graph/structure.py *)
From Verif Require Import Base.

(** structure.py:25-33.  Simplifications: dataset indexes and cardinalities are
    natural numbers (they are numpy integers in the code); edges are pairs of labels
    (numpy records when they come from a DataFrame). *)
Record structure := MkStructure {
  nodes_labels : list label;
  nodes_indexes : list nat;
  nodes_values : list nat;
  edges_list : list edge;
  total_variables_number : nat }.

(** structure.py:35-44 *)
Definition structure_remove_node (s : structure) (n : label) : result structure :=
  let* pos := py_index n (nodes_labels s) in
  let* idx := np_delete (nodes_indexes s) pos in
  let* vals := np_delete (nodes_values s) pos in
  Ok (MkStructure
        (firstn pos (nodes_labels s) ++ skipn (S pos) (nodes_labels s))
        idx vals
        (filter (fun e => negb (String.eqb (fst e) n) && negb (String.eqb (snd e) n))
                (edges_list s))
        (total_variables_number s)).

(** structure.py:66-74; Python indexing, so the argument is a position and may be negative *)
Definition structure_get_node_id (s : structure) (i : Z) : result label :=
  py_get (nodes_labels s) i.

(** structure.py:76-77 *)
Definition clean_structure_edges (s : structure) : structure :=
  MkStructure (nodes_labels s) (nodes_indexes s) (nodes_values s) [] (total_variables_number s).

(** structure.py:79-80 *)
Definition structure_add_edge (s : structure) (e : edge) : structure :=
  MkStructure (nodes_labels s) (nodes_indexes s) (nodes_values s)
              (edges_list s ++ [e]) (total_variables_number s).

(** structure.py:83-84 *)
Definition structure_remove_edge (s : structure) (e : edge) : result structure :=
  let* es := py_remove edge_eqb e (edges_list s) in
  Ok (MkStructure (nodes_labels s) (nodes_indexes s) (nodes_values s) es
                  (total_variables_number s)).

(** structure.py:86-87 *)
Definition structure_contains_edge (s : structure) (e : edge) : bool := emem e (edges_list s).

(** structure.py:89-98 *)
Definition structure_get_node_indx (s : structure) (n : label) : result nat :=
  let* pos := py_index n (nodes_labels s) in nth_res (nodes_indexes s) pos.

(** structure.py:100-101 *)
Definition structure_get_positional_node_indx (s : structure) (n : label) : result nat :=
  py_index n (nodes_labels s).

(** structure.py:103-112 *)
Definition structure_get_states_number (s : structure) (n : label) : result nat :=
  let* pos := py_index n (nodes_labels s) in nth_res (nodes_values s) pos.

Fixpoint list_eqb {A} (eqb : A -> A -> bool) (a b : list A) : bool :=
  match a, b with
  | [], [] => true
  | x :: a', y :: b' => eqb x y && list_eqb eqb a' b'
  | _, _ => false
  end.

(** set(l1) == set(l2) *)
Definition lset_eqb (a b : list label) : bool :=
  forallb (fun x => lmem x b) a && forallb (fun x => lmem x a) b.

(** structure.py:118-126 (both arguments are Structure objects) *)
Definition structure_eq (a b : structure) : bool :=
  lset_eqb (nodes_labels a) (nodes_labels b)
  && list_eqb Nat.eqb (nodes_values a) (nodes_values b)
  && list_eqb Nat.eqb (nodes_indexes a) (nodes_indexes b)
  && list_eqb edge_eqb (edges_list a) (edges_list b).
