(** Specification vocabulary for the life cycle of ParametersEstimator (C71). *)
From Verif Require Import Base ModelStructure ModelGraph ModelCims ModelData ModelParams ModelLife SpecStructure SpecGraph.

(** a legal history: added edges join current variables.  Everything else is arbitrary: unknown labels, calls in any
    order, calls that raise *)
Definition legal_life (w : world) (o : life_op) : Prop :=
  match o with
  | GraphAddEdges es => edges_within (nodes_labels (ng_struct (w_graph w))) es
  | _ => True
  end.
Fixpoint legal_lives (t : trajectory) (w : world) (os : list life_op) : Prop :=
  match os with [] => True | o :: r => legal_life w o /\ legal_lives t (fst (life_step t w o)) r end.

(** object [i] holds the matrices [cims] for the parent configurations [combs] *)
Definition holds (w : world) (i : nat) (so : set_of_cims cim) : Prop :=
  exists o, nth_error (w_heap w) i = Some o /\ o_combs o = Some (so_p_combs so) /\ o_cims o = so_actual_cims so.
