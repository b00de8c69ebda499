(** Specification vocabulary for exact recovery by the constraint-based estimator (C62). *)
From Verif Require Import Base ModelStructure ModelGraph ModelCims ModelData ModelParams ModelCache ModelCtpc
  SpecStructure SpecComb SpecParams SpecCtpc.

(** The tests of an estimator are faithful to the parent set [pa] of [v]: a true parent is never separated
    from [v], whatever the separating set, and every other variable is separated from [v] by [pa]. *)
Definition faithful (est : cb_estimator) (v : label) (pa : list label) : Prop :=
  let s := e_struct (cb_e est) in
  sublist pa (others s v)
  /\ (forall p sep, In p pa -> sublist sep (others s v) -> ~ In p sep ->
        ~ test_answers (cb_e est) (cb_tot est) (st_matrix (cb_st est)) v p sep true)
  /\ (forall q, In q (others s v) -> ~ In q pa ->
        test_answers (cb_e est) (cb_tot est) (st_matrix (cb_st est)) v q pa true).

(** the edge q -> v is not protected by a known edge *)
Definition removable (est : cb_estimator) (q v : label) : Prop :=
  forall i j, structure_get_node_indx (e_struct (cb_e est)) q = Ok i -> structure_get_node_indx (e_struct (cb_e est)) v = Ok j ->
    mat_get (st_matrix (cb_st est)) i j = Ok true.

(** the test of [q] given [sep] gives up for lack of data: it answers False and marks q -> v as not removable *)
Definition gives_up (est : cb_estimator) (v q : label) (sep : list label) : Prop :=
  exists cs i j st', structure_get_states_number (e_struct (cb_e est)) v = Ok cs
    /\ structure_get_node_indx (e_struct (cb_e est)) q = Ok i /\ structure_get_node_indx (e_struct (cb_e est)) v = Ok j
    /\ complete_test (cb_e est) (MkState (st_matrix (cb_st est)) empty_cache) q v sep cs (cb_tot est) i j = Ok (false, st')
    /\ mat_get (st_matrix st') i j = Ok false.
