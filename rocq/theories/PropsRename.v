(** Property theorems C73: the names of the variables do not matter. *)
From Verif Require Import Base Lib ModelStructure ModelGraph ModelCims ModelData ModelParams ModelCache ModelCtpc ModelSearch
  SpecStructure SpecGraph SpecParams SpecCtpc.
From Verif Require Import ModelEstimators SpecRename ProofRename ProofRename2 ProofRename3 ProofCtpc7 PropsCtpc PropsParams.

(** Parameters: whatever the data and the graph, and whether or not the call raises. *)
Theorem C73_parameters f s t v : (forall x y, f x = f y -> x = y) ->
  (let* g := ng_fast_init (new_netgraph (rename_structure f s)) (f v) in compute_parameters_for_node t g (f v))
  = (let* g := ng_fast_init (new_netgraph s) v in compute_parameters_for_node t g v).
Proof.
  intros Hf. rewrite ng_new_rn, (fast_init_rn f Hf), bind_rmap. apply bind_ext. intros g _. apply params_rn, Hf.
Qed.
Print Assumptions C73_parameters.

(** Constraint-based estimation, in both modes: same exception, or the same arcs under the new names, the same adjacency
    matrix, and an estimator that is in turn the renamed one (so that the next run corresponds as well). *)
Theorem C73_constraint_based f s t tot known thr tests mp : (forall x y, f x = f y -> x = y) ->
  let run s known := let* est := new_cb_estimator s t tot known thr tests in
                     let* (es, est') := cb_estimate_structure est mp in Ok (es, est') in
  run (rename_structure f s) (map (rename_edge f) known) = rmap (fun r => (map (rename_edge f) (fst r), rename_cb f (snd r))) (run s known).
Proof.
  intros Hf run. unfold run. rewrite (new_cb_rn f Hf), bind_rmap, rmap_bind. apply bind_ext. intros est _. rewrite (cb_estimate_rn f Hf), bind_rmap, rmap_bind.
  apply bind_ext. intros [es est'] _. reflexivity.
Qed.
Theorem C73_reports f s g : (forall x y, f x = f y -> x = y) ->
  adjacency_matrix (rename_digraph f g) (map f (nodes_labels s)) = adjacency_matrix g (nodes_labels s)
  /\ spurious_edges (rename_structure f s) (rename_digraph f g) = rmap (map (rename_edge f)) (spurious_edges s g)
  /\ save_results (rename_digraph f g) = MkNodeLink (map f (nl_nodes (save_results g))) (map (rename_edge f) (nl_links (save_results g))).
Proof.
  intros Hf. split; [apply adjacency_rn, Hf|]. split; [apply spurious_rn, Hf|]. unfold save_results; cbn [nl_nodes nl_links]. rewrite names_rn, (view_rn f Hf). reflexivity.
Qed.
Print Assumptions C73_constraint_based. Print Assumptions C73_reports.

(** Score-based estimation with the same random numbers for every variable, for any scoring of the tables. *)
Theorem C73_score_based (Sc : Type) score gt f s t tot known draws draws' p mp procs : (forall x y, f x = f y -> x = y) ->
  (forall v, draws' (f v) = draws v) ->
  let run s known draws := let* est := new_sb_estimator s t tot known in
                     sb_estimate_structure Sc score gt est draws p mp procs in
  run (rename_structure f s) (map (rename_edge f) known) draws'
  = rmap (fun r => (map (rename_edge f) (fst (fst r)), snd (fst r), rename_sb f (snd r))) (run s known draws).
Proof.
  intros Hf HD run. unfold run. rewrite (new_sb_rn f Hf), bind_rmap, rmap_bind. apply bind_ext. intros est _. apply sb_estimate_rn; assumption.
Qed.
Print Assumptions C73_score_based.

(** It is enough that the new names tell the variables at hand apart. *)
Theorem C73_new_names f s t tot known thr tests mp es est' : wf_structure s -> NoDup (nodes_indexes s) -> (forall i, In i (nodes_indexes s) -> i < tot) ->
  edges_within (nodes_labels s) (edges_list s) -> edges_within (nodes_labels s) known -> distinct_on (nodes_labels s) f ->
  (let* est := new_cb_estimator s t tot known thr tests in cb_estimate_structure est mp) = Ok (es, est') ->
  exists est'', (let* est := new_cb_estimator (rename_structure f s) t tot (map (rename_edge f) known) thr tests in cb_estimate_structure est mp)
     = Ok (map (rename_edge f) es, est'')
  /\ adjacency_matrix (cb_graph est'') (map f (nodes_labels s)) = adjacency_matrix (cb_graph est') (nodes_labels s).
Proof.
  intros Hwf Hn Hi He Hk Hd H. destruct (extend_renaming (nodes_labels s) f) as [g [G1 G2]]; [apply Hwf|exact Hd|].
  assert (Er : forall l, edges_within (nodes_labels s) l -> map (rename_edge f) l = map (rename_edge g) l).
  { intros l Hl. apply map_ext_in. intros e Hin. destruct (Hl e Hin) as [A B]. unfold rename_edge. rewrite (G2 _ A), (G2 _ B). reflexivity. }
  rewrite (rename_agree f g s); [|intros x Hx; symmetry; apply G2, Hx|exact He]. rewrite (Er known Hk).
  pose proof (C73_constraint_based g s t tot known thr tests mp G1) as K. cbv zeta beta in K.
  destruct (new_cb_estimator s t tot known thr tests) as [est|x] eqn:E0; [|discriminate H]. cbn [bind] in *. rewrite H in K. cbn [bind rmap fst snd] in K.
  exists (rename_cb g est'). rewrite (Er es).
  - split.
    + destruct (new_cb_estimator (rename_structure g s) t tot (map (rename_edge g) known) thr tests) as [est1|]; [|discriminate K]. cbn [bind] in *.
      destruct (cb_estimate_structure est1 mp) as [[es1 e1]|]; [|discriminate K]. cbn [bind] in K. exact K.
    + unfold rename_cb; cbn [cb_graph]. rewrite (map_ext_in f g) by (intros x Hx; symmetry; apply G2, Hx). apply adjacency_rn, G1.
  - destruct (new_estimator_ok s t tot known thr tests est Hwf Hn Hi E0) as [Hok [Hee _]].
    destruct (C24_results_are_well_formed est mp es est' Hok H) as [_ [W _]]. rewrite Hee in W. intros [a b] Hab. destruct (W a b Hab) as [A [B _]]. split; assumption.
Qed.
Print Assumptions C73_new_names.

Definition new_name (x : label) : label := if String.eqb x "X" then "Y" else if String.eqb x "Y" then "speed" else String.append "v_" x.
Example C73_case : distinct_on (nodes_labels px) new_name
  /\ exists es est' est'', (let* est := new_cb_estimator px pt 3 [] (Q2Qc (1#4)) ctests in cb_estimate_structure est true) = Ok (es, est')
  /\ es = [("Y","X")]
  /\ (let* est := new_cb_estimator (rename_structure new_name px) pt 3 [] (Q2Qc (1#4)) ctests in cb_estimate_structure est true) = Ok ([("speed","Y")], est'').
Proof.
  split; [intros x y; cbn; intuition (subst; cbn in *; congruence)|].
  do 3 eexists. split; [vm_compute; reflexivity|]. split; [reflexivity|]. vm_compute. reflexivity.
Qed.
