(** Specification vocabulary for the renaming of variables (C73). *)
From Verif Require Import Base ModelStructure ModelGraph ModelCims ModelData ModelParams ModelCache ModelCtpc ModelSearch.
From Verif Require Import ModelEstimators.

(** the value of a call, transformed; an exception stays the same exception *)
Definition rmap {A B} (h : A -> B) (r : result A) : result B := match r with Ok a => Ok (h a) | Err e => Err e end.

Section rename.
Variable f : label -> label.
Definition rename_edge (e : edge) : edge := (f (fst e), f (snd e)).
(** the same variables, columns and cardinalities under other names *)
Definition rename_structure (s : structure) : structure :=
  MkStructure (map f (nodes_labels s)) (nodes_indexes s) (nodes_values s) (map rename_edge (edges_list s)) (total_variables_number s).
Definition rename_digraph (g : digraph) : digraph :=
  MkDigraph (map (fun p => (f (fst p), snd p)) (g_nodes g)) (map rename_edge (g_edges g)).
Definition rename_netgraph (g : netgraph) : netgraph :=
  MkNetgraph (rename_structure (ng_struct g)) (rename_digraph (ng_graph g))
    (option_map (fun p => (map f (fst (fst p)), snd (fst p), snd p)) (ng_pinfo g))
    (ng_time_indexing g) (ng_trans_indexing g) (ng_time_filtering g) (ng_trans_filtering g) (ng_p_combs g).
Definition rename_cache {V} (c : cache V) : cache V := MkCache (map (map f) (c_keys c)) (c_vals c).
Definition rename_state (st : cb_state) : cb_state := MkState (st_matrix st) (rename_cache (st_cache st)).
Definition rename_env (e : cb_env) : cb_env := MkEnv (rename_structure (e_struct e)) (e_traj e) (e_threshold e) (e_tests e).
Definition rename_cb (est : cb_estimator) : cb_estimator :=
  MkCbEst (rename_env (cb_e est)) (cb_tot est) (rename_state (cb_st est)) (rename_digraph (cb_graph est)).
Definition rename_sb (est : sb_estimator) : sb_estimator :=
  MkSbEst (rename_structure (sb_struct est)) (sb_traj est) (sb_matrix est) (rename_digraph (sb_graph est)).
Definition rename_step {Sc} (l : step_log Sc) : step_log Sc :=
  MkStep (f (sl_candidate l)) (map rename_edge (sl_edges l)) (sl_score l) (sl_accepted l).
End rename.

(** different names for different variables *)
Definition distinct_on (ls : list label) (f : label -> label) : Prop :=
  forall x y, In x ls -> In y ls -> f x = f y -> x = y.
