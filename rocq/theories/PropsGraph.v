(** Property theorems C05-C09. *)
From Verif Require Import Base ModelStructure ModelGraph ModelCims SpecStructure SpecGraph SpecComb
  ProofGraph ProofComb.

Definition ex_s := MkStructure ["X";"Y";"Z";"W"] [0;1;2;3] [2;3;3;2] [] 4.
Example ex_s_wf : wf_structure ex_s.
Proof. repeat split; repeat constructor; cbn; intuition discriminate. Qed.
Definition ex_ops := [AddEdges [("Z","X");("Y","X");("X","Y")]; RemoveEdges [("Z","X")]; AddEdges [("Z","X");("W","X")];
                      RemoveNode "W"; AddNodes ["X";"Y";"Z"]].

(** C05 *)
Theorem C05_edge_set_refinement s os g : run_gops (new_netgraph s) os = Ok g ->
  (forall e, ng_has_edge g e = true <-> edge_set os e)
  /\ NoDup (ng_edges g) /\ (forall e, In e (ng_edges g) <-> edge_set os e)
  /\ (forall v, match ng_get_parents_by_id g v with
                | Ok ps => NoDup ps /\ forall p, In p ps <-> edge_set os (p, v)
                | Err e => e = NetworkXError /\ ~ (exists p, edge_set os (p, v) \/ edge_set os (v, p))
                end).
Proof. exact (graph_history s os g). Qed.
Print Assumptions C05_edge_set_refinement.
Example C05_case : exists g, run_gops (new_netgraph ex_s) (AddNodes ["X";"Y";"Z";"W"] :: ex_ops) = Ok g
  /\ ng_edges g = [("X","Y");("Y","X");("Z","X")] /\ ng_get_parents_by_id g "X" = Ok ["Y";"Z"].
Proof. eexists; repeat split; reflexivity. Qed.

(** C06 *)
Theorem C06_ordered_parents s os : wf_structure s -> legal_history (nodes_labels s) os ->
  exists g, run_gops (new_netgraph s) (AddNodes (nodes_labels s) :: os) = Ok g
  /\ forall v, In v (nodes_labels (ng_struct g)) ->
     exists ps is vs, ng_get_ordered_by_indx_set_of_parents g v = Ok (ps, is, vs)
       /\ ps = filter (fun l => ng_has_edge g (l, v)) (nodes_labels (ng_struct g))
       /\ (forall p, In p ps <-> edge_set os (p, v))
       /\ Forall2 (fun p i => structure_get_node_indx s p = Ok i) ps is
       /\ Forall2 (fun p k => structure_get_states_number s p = Ok k) ps vs.
Proof. exact (ordered_parents_history s os). Qed.
Print Assumptions C06_ordered_parents.
Theorem C06_order_independent s os1 os2 g1 g2 v : wf_structure s ->
  legal_history (nodes_labels s) os1 -> legal_history (nodes_labels s) os2 ->
  run_gops (new_netgraph s) (AddNodes (nodes_labels s) :: os1) = Ok g1 ->
  run_gops (new_netgraph s) (AddNodes (nodes_labels s) :: os2) = Ok g2 ->
  ng_struct g1 = ng_struct g2 -> In v (nodes_labels (ng_struct g1)) ->
  (forall p, edge_set os1 (p, v) <-> edge_set os2 (p, v)) ->
  ng_get_ordered_by_indx_set_of_parents g1 v = ng_get_ordered_by_indx_set_of_parents g2 v.
Proof. exact (ordered_parents_canonical s os1 os2 g1 g2 v). Qed.
Print Assumptions C06_order_independent.
Example C06_case : wf_structure ex_s /\ legal_history (nodes_labels ex_s) ex_ops
  /\ exists g, run_gops (new_netgraph ex_s) (AddNodes (nodes_labels ex_s) :: ex_ops) = Ok g
     /\ ng_get_ordered_by_indx_set_of_parents g "X" = Ok (["Y";"Z"], [1;2], [3;3]).
Proof.
  split; [apply ex_s_wf|]. split; [|eexists; split; reflexivity].
  cbn. repeat split; intros; repeat match goal with H : _ \/ _ |- _ => destruct H end; subst; cbn; tauto.
Qed.

(** C07 *)
Theorem C07_fast_init_idempotent s os g v g1 : wf_structure s -> legal_history (nodes_labels s) os ->
  run_gops (new_netgraph s) os = Ok g -> ng_fast_init g v = Ok g1 -> ng_fast_init g1 v = Ok g1.
Proof. exact (fast_init_idem_history s os g v g1). Qed.
Print Assumptions C07_fast_init_idempotent.
Theorem C07_fast_init_after_removal s es v q : wf_structure s -> edges_within (nodes_labels s) es ->
  edges_within (nodes_labels s) (edges_list s) -> In v (nodes_labels s) -> In q (nodes_labels s) -> v <> q ->
  exists s' g1 g2 g3 h,
    ng_fast_init (fresh_graph s es) v = Ok g1 /\ ng_remove_node g1 q = Ok g2 /\ ng_fast_init g2 v = Ok g3
    /\ structure_remove_node s q = Ok s'
    /\ ng_fast_init (fresh_graph s' (filter (fun e => negb (mentions q e)) es)) v = Ok h
    /\ init_fields g3 = init_fields h.
Proof. exact (fast_init_after_removal s es v q). Qed.
Print Assumptions C07_fast_init_after_removal.
Example C07_case : exists g1, ng_fast_init (fresh_graph ex_s [("Z","X");("Y","X")]) "X" = Ok g1
  /\ ng_pinfo g1 = Some (["Y";"Z"], [1;2], [3;3]) /\ ng_time_filtering g1 = Some [0;1;2]
  /\ ng_trans_filtering g1 = Some [4;0;1;2] /\ ng_time_indexing g1 = Some [2;6;18]%Z.
Proof. eexists; repeat split; reflexivity. Qed.

(** C08 *)
Theorem C08_table_size cards : length (build_p_comb_structure_for_a_node cards) = nat_prod cards.
Proof. exact (p_comb_length cards). Qed.
Print Assumptions C08_table_size.
Theorem C08_table_iff cards : Forall (fun c => 0 < c) cards ->
  (table_matches_storage cards (build_p_comb_structure_for_a_node cards)
   <-> (length cards < 2 \/ exists c r, cards = c :: c :: r)).
Proof. exact (p_comb_iff cards). Qed.
Print Assumptions C08_table_iff.
Theorem C08_rows_are_configurations cards k u : (length cards < 2 \/ exists c r, cards = c :: c :: r) ->
  nth_error (build_p_comb_structure_for_a_node cards) k = Some u -> config_ok cards u /\ config_rank cards u = k.
Proof. exact (p_comb_rows cards k u). Qed.
Print Assumptions C08_rows_are_configurations.
Theorem C08_unequal_cardinalities_refuted a b r : a <> b -> 0 < a -> 0 < b -> Forall (fun c => 0 < c) r ->
  (exists u, config_ok (a :: b :: r) u /\ ~ In u (build_p_comb_structure_for_a_node (a :: b :: r)))
  /\ (exists u, In u (build_p_comb_structure_for_a_node (a :: b :: r)) /\ ~ config_ok (a :: b :: r) u).
Proof. exact (p_comb_unequal a b r). Qed.
Print Assumptions C08_unequal_cardinalities_refuted.
Example C08_case : build_p_comb_structure_for_a_node [3;3;2]
  = [[0;0;0];[1;0;0];[2;0;0];[0;1;0];[1;1;0];[2;1;0];[0;2;0];[1;2;0];[2;2;0];
     [0;0;1];[1;0;1];[2;0;1];[0;1;1];[1;1;1];[2;1;1];[0;2;1];[1;2;1];[2;2;1]]
  /\ build_p_comb_structure_for_a_node [2;3] = [[0;0];[1;0];[2;0];[0;1];[1;1];[2;1]].
Proof. split; reflexivity. Qed.

(** C09 *)
Theorem C09_filtering {C} (s : set_of_cims C) mask comb :
  length (so_p_combs s) <= length (so_actual_cims s) ->
  filter_cims_with_mask s mask comb =
  Ok (if length mask <=? 1 then so_actual_cims s
      else map snd (filter (fun rc => agrees_on mask (fst rc) comb) (combine (so_p_combs s) (so_actual_cims s)))).
Proof. exact (filter_cims_spec s mask comb). Qed.
Print Assumptions C09_filtering.
Example C09_case :
  filter_cims_with_mask (MkSetOfCims [[0;0];[1;0];[0;1];[1;1]] ["a";"b";"c";"d"]) [true;false] [1] = Ok ["b";"d"].
Proof. reflexivity. Qed.
