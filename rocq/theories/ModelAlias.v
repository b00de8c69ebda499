(** Model of Structure and NetworkGraph as Python objects that hold references (C93): a Structure refers to the list
    of labels and to the list of edges it was given, a NetworkGraph to the Structure it was given, and several objects
    may refer to the same one.  numpy arrays are never changed in place by this code (np.delete returns a new array),
    so they are stored by value.  What a call leaves behind when it raises half-way is modelled. *)
From Verif Require Import Base ModelStructure ModelGraph ModelLife.

(** structure.py:25-33: [os_labels] and [os_edges] are references to list objects *)
Record sobj := MkSobj { os_labels : nat; os_idx : list nat; os_vals : list nat; os_edges : nat; os_tot : nat }.
(** network_graph.py:30-40: [og_struct] is a reference to a Structure; the other members are in [og_body], whose own
    [ng_struct] is never read *)
Record gobj := MkGobj { og_struct : nat; og_body : netgraph }.
(** all objects, numbered in the order in which they were created *)
Record heap := MkHeap { h_labels : list (list label); h_edges : list (list edge); h_structs : list sobj; h_graphs : list gobj }.
Definition empty_heap : heap := MkHeap [] [] [] [].

(** a Structure and a NetworkGraph as the rest of the model sees them *)
Definition struct_at (h : heap) (i : nat) : option structure :=
  match nth_error (h_structs h) i with
  | Some o => match nth_error (h_labels h) (os_labels o), nth_error (h_edges h) (os_edges o) with
              | Some ls, Some es => Some (MkStructure ls (os_idx o) (os_vals o) es (os_tot o))
              | _, _ => None
              end
  | None => None
  end.
Definition with_struct (s : structure) (g : netgraph) : netgraph :=
  MkNetgraph s (ng_graph g) (ng_pinfo g) (ng_time_indexing g) (ng_trans_indexing g) (ng_time_filtering g) (ng_trans_filtering g) (ng_p_combs g).
Definition graph_at (h : heap) (k : nat) : option netgraph :=
  match nth_error (h_graphs h) k with
  | Some o => match struct_at h (og_struct o) with Some s => Some (with_struct s (og_body o)) | None => None end
  | None => None
  end.

Definition set_labels (h : heap) (r : nat) (ls : list label) : heap := MkHeap (set_at (h_labels h) r ls) (h_edges h) (h_structs h) (h_graphs h).
Definition set_edges (h : heap) (r : nat) (es : list edge) : heap := MkHeap (h_labels h) (set_at (h_edges h) r es) (h_structs h) (h_graphs h).
Definition set_struct (h : heap) (i : nat) (o : sobj) : heap := MkHeap (h_labels h) (h_edges h) (set_at (h_structs h) i o) (h_graphs h).
Definition set_body (h : heap) (k : nat) (o : gobj) (g : netgraph) : heap :=
  MkHeap (h_labels h) (h_edges h) (h_structs h) (set_at (h_graphs h) k (MkGobj (og_struct o) g)).
Definition new_edges (h : heap) (es : list edge) : heap := MkHeap (h_labels h) (h_edges h ++ [es]) (h_structs h) (h_graphs h).

(** structure.py:35-44, statement by statement: the label is deleted from the list object in place, then the two arrays
    are replaced (np.delete raises IndexError for a position beyond the array), then a new list of edges is made *)
Definition struct_remove_node (h : heap) (i : nat) (o : sobj) (ls : list label) (es : list edge) (n : label) : heap * outcome :=
  match py_index n ls with
  | Err x => (h, Raised x)
  | Ok pos =>
      let h1 := set_labels h (os_labels o) (firstn pos ls ++ skipn (S pos) ls) in
      match np_delete (os_idx o) pos with
      | Err x => (h1, Raised x)
      | Ok idx =>
          match np_delete (os_vals o) pos with
          | Err x => (set_struct h1 i (MkSobj (os_labels o) idx (os_vals o) (os_edges o) (os_tot o)), Raised x)
          | Ok vals =>
              let h2 := new_edges h1 (filter (fun e => negb (String.eqb (fst e) n) && negb (String.eqb (snd e) n)) es) in
              (set_struct h2 i (MkSobj (os_labels o) idx vals (length (h_edges h)) (os_tot o)), Done)
          end
      end
  end.

Inductive alias_op :=
| NewLabels (ls : list label) | NewEdges (es : list edge)                       (* a new Python list *)
| NewStructure (labels : nat) (idx vals : list nat) (edges : nat) (tot : nat)   (* Structure(labels, idx, vals, edges, tot) *)
| NewGraph (s : nat)                                                            (* NetworkGraph(s) *)
| SRemoveNode (s : nat) (n : label) | SAddEdge (s : nat) (e : edge) | SRemoveEdge (s : nat) (e : edge) | SClean (s : nat)
| GAddNodes (g : nat) (ls : list label) | GAddEdges (g : nat) (es : list edge) | GRemoveEdges (g : nat) (es : list edge)
| GRemoveNode (g : nat) (n : label) | GFastInit (g : nat) (v : label).

(** the graph object [k], the number of its Structure, that object and its two lists *)
Definition find_struct (h : heap) (i : nat) : option (sobj * list label * list edge) :=
  match nth_error (h_structs h) i with
  | Some o => match nth_error (h_labels h) (os_labels o), nth_error (h_edges h) (os_edges o) with
              | Some ls, Some es => Some (o, ls, es)
              | _, _ => None
              end
  | None => None
  end.

(** one call; [None]: it names an object that does not exist *)
Definition alias_step (h : heap) (op : alias_op) : option (heap * outcome) :=
  match op with
  | NewLabels ls => Some (MkHeap (h_labels h ++ [ls]) (h_edges h) (h_structs h) (h_graphs h), Done)
  | NewEdges es => Some (new_edges h es, Done)
  | NewStructure l idx vals e tot =>                                            (* structure.py:25-33 *)
      if (l <? length (h_labels h)) && (e <? length (h_edges h))
      then Some (MkHeap (h_labels h) (h_edges h) (h_structs h ++ [MkSobj l idx vals e tot]) (h_graphs h), Done) else None
  | NewGraph s =>                                                               (* network_graph.py:30-40 *)
      match struct_at h s with
      | Some st => Some (MkHeap (h_labels h) (h_edges h) (h_structs h) (h_graphs h ++ [MkGobj s (new_netgraph st)]), Done)
      | None => None
      end
  | SRemoveNode i n =>
      match find_struct h i with Some (o, ls, es) => Some (struct_remove_node h i o ls es n) | None => None end
  | SAddEdge i e =>                                                              (* structure.py:79-80: append, in place *)
      match find_struct h i with Some (o, _, es) => Some (set_edges h (os_edges o) (es ++ [e]), Done) | None => None end
  | SRemoveEdge i e =>                                                           (* structure.py:83-84: remove, in place *)
      match find_struct h i with
      | Some (o, _, es) => match py_remove edge_eqb e es with
                           | Ok es' => Some (set_edges h (os_edges o) es', Done)
                           | Err x => Some (h, Raised x)
                           end
      | None => None
      end
  | SClean i =>                                                             (* structure.py:76-77: a new list *)
      match find_struct h i with
      | Some (o, _, _) => Some (set_struct (new_edges h []) i (MkSobj (os_labels o) (os_idx o) (os_vals o) (length (h_edges h)) (os_tot o)), Done)
      | None => None
      end
  | GAddNodes k ls =>                                                           (* network_graph.py:75-87 *)
      match nth_error (h_graphs h) k, graph_at h k with
      | Some o, Some g => Some (set_body h k o (ng_add_nodes g ls), Done) | _, _ => None end
  | GAddEdges k es =>                                                           (* network_graph.py:100-106 *)
      match nth_error (h_graphs h) k, graph_at h k with
      | Some o, Some g => Some (set_body h k o (ng_add_edges g es), Done) | _, _ => None end
  | GRemoveEdges k es =>                                                        (* network_graph.py:144-150 *)
      match nth_error (h_graphs h) k, graph_at h k with
      | Some o, Some g => Some (set_body h k o (ng_remove_edges g es), Done) | _, _ => None end
  | GFastInit k v =>                                                            (* network_graph.py:52-73 *)
      match nth_error (h_graphs h) k, graph_at h k with
      | Some o, Some g => let (g', r) := graph_init g v in Some (set_body h k o g', r) | _, _ => None end
  | GRemoveNode k n =>                                                          (* network_graph.py:108-115: graph, structure, clearing *)
      match nth_error (h_graphs h) k, graph_at h k with
      | Some o, Some g =>
          match g_remove_node (ng_graph g) n, find_struct h (og_struct o) with
          | Err x, _ => Some (h, Raised x)
          | Ok d, Some (so, ls, es) =>
              let h1 := set_body h k o (with_graph g d) in
              let (h2, r) := struct_remove_node h1 (og_struct o) so ls es n in
              match r with
              | Done => Some (set_body h2 k o (MkNetgraph (ng_struct g) d None None None None None None), Done)
              | _ => Some (h2, r)
              end
          | Ok _, None => None
          end
      | _, _ => None
      end
  end.

Fixpoint alias_run (h : heap) (os : list alias_op) : option (heap * list outcome) :=
  match os with
  | [] => Some (h, [])
  | o :: r => match alias_step h o with
              | Some (h1, x) => match alias_run h1 r with Some (h2, xs) => Some (h2, x :: xs) | None => None end
              | None => None
              end
  end.

(** structure_constraint_based_estimator.py:93-120: the objects complete_test makes and what it does to them when
    nothing is cached ([eds2] is itertools.product(p_set, [test_child])); the numbers are those of the objects created *)
Definition test_calls (h : heap) (l2 : list label) (indxs2 vals2 : list nat) (eds2 : list edge) (tot : nat) (p c : label) : list alias_op :=
  let s2 := length (h_structs h) in let g2 := length (h_graphs h) in
  [NewLabels l2; NewEdges eds2; NewStructure (length (h_labels h)) indxs2 vals2 (length (h_edges h)) tot; NewGraph s2;
   GFastInit g2 c; GRemoveNode g2 p; GFastInit g2 c].

(** network_generator.py:25-30 and 54-57: the generator keeps the list object of labels it was given (reference [labels],
    current contents [ls]) and the arrays [idx] and [vals], and passes them to every Structure it makes; [es] are the
    edges drawn (lines 42-52), in a new list *)
Definition generate_calls (h : heap) (labels : nat) (ls : list label) (idx vals : list nat) (es : list edge) : list alias_op :=
  let s := length (h_structs h) in let g := length (h_graphs h) in
  [NewEdges es; NewStructure labels idx vals (length (h_edges h)) (length ls); NewGraph s; GAddNodes g ls; GAddEdges g es].
