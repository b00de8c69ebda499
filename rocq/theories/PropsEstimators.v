(** Property theorems C37-C39, C41, C57. *)
From Verif Require Import Base ModelStructure ModelGraph ModelCims ModelData ModelParams ModelCache ModelCtpc ModelSearch ModelEstimators
  SpecStructure SpecGraph SpecParams SpecCtpc SpecSearch SpecEstimators
  ProofGraph ProofCtpc7 ProofEstimators ProofEstimators2 ProofEstimators3 PropsParams PropsCtpc PropsSearch.

Section cb.
Variables (est est' : cb_estimator) (mp : bool) (es : list edge).
Notation labels := (nodes_labels (e_struct (cb_e est))).

(** C37 *)
Theorem C37_adjacency_constraint_based : estimator_ok est -> labels <> [] ->
  cb_estimate_structure est mp = Ok (es, est') ->
  nodes_labels (e_struct (cb_e est')) = labels
  /\ exists m, adjacency_matrix (cb_graph est') labels = Ok m /\ is_adjacency_of m labels es.
Proof.
  intros Hok Hne H. pose proof (estimate_char est Hok mp es est' H) as [_ [_ [_ [E _]]]]. rewrite E. split; [reflexivity|].
  unfold cb_estimate_structure in H. destruct (if mp then _ else _) as [[ess st']|]; [|discriminate]. cbn [bind] in H. injection H as <- <-.
  exact (adjacency_built (edge_set_of (concat ess)) labels Hne (proj1 (proj1 Hok))).
Qed.
(** C38 *)
Theorem C38_never_spurious_constraint_based : cb_estimate_structure est mp = Ok (es, est') ->
  spurious_edges (e_struct (cb_e est')) (cb_graph est') = Ok [].
Proof.
  intros H. unfold cb_estimate_structure in H. destruct (if mp then _ else _) as [[ess st']|]; [|discriminate]. cbn [bind] in H. injection H as _ <-.
  apply spurious_no_prior. reflexivity.
Qed.
(** C41 *)
Theorem C41_saved_results_constraint_based : cb_estimate_structure est mp = Ok (es, est') ->
  same_digraph (read_back (save_results (cb_graph est'))) (cb_graph est')
  /\ (forall e, In e (nl_links (save_results (cb_graph est'))) <-> In e es)
  /\ (forall x, In x (nl_nodes (save_results (cb_graph est'))) <-> exists e, In e es /\ (x = fst e \/ x = snd e)).
Proof.
  intros H. unfold cb_estimate_structure in H. destruct (if mp then _ else _) as [[ess st']|]; [|discriminate]. cbn [bind] in H. injection H as <- <-.
  cbn [cb_graph]. split; [apply read_back_same, add_edges_from_spec, dinv_empty|]. split; [apply built_view|apply saved_nodes].
Qed.
End cb.

Section sb.
Variables (Sc : Type) (score : list cim -> result Sc) (gt : Sc -> Sc -> bool).
Variables (est est' : sb_estimator) (draws : label -> nat -> nat) (p : sb_params) (dm : bool) (pn : option nat).
Variables (es : list edge) (pr : printed).
Notation labels := (nodes_labels (sb_struct est)).
Notation run := (sb_estimate_structure Sc score gt est draws p dm pn).
(** the estimator the per-node searches see: its structure has no edges *)
Notation searching := (MkSbEst (clean_structure_edges (sb_struct est)) (sb_traj est) (sb_matrix est) (sb_graph est)).

Theorem C37_adjacency_score_based : wf_structure (sb_struct est) -> labels <> [] -> run = Ok (es, pr, est') ->
  nodes_labels (sb_struct est') = labels
  /\ exists m, adjacency_matrix (sb_graph est') labels = Ok m /\ is_adjacency_of m labels es.
Proof.
  intros Hwf Hne H. apply sb_char in H as [ess [_ [_ [_ ->]]]]. split; [reflexivity|]. cbn [sb_graph].
  exact (adjacency_built es labels Hne (proj1 Hwf)).
Qed.
Theorem C38_never_spurious_score_based : run = Ok (es, pr, est') -> spurious_edges (sb_struct est') (sb_graph est') = Ok [].
Proof. intros H. apply sb_char in H as [ess [_ [_ [_ ->]]]]. apply spurious_no_prior. reflexivity. Qed.
Theorem C41_saved_results_score_based : run = Ok (es, pr, est') ->
  same_digraph (read_back (save_results (sb_graph est'))) (sb_graph est')
  /\ (forall e, In e (nl_links (save_results (sb_graph est'))) <-> In e es)
  /\ (forall x, In x (nl_nodes (save_results (sb_graph est'))) <-> exists e, In e es /\ (x = fst e \/ x = snd e)).
Proof.
  intros H. apply sb_char in H as [ess [_ [_ [_ ->]]]]. cbn [sb_graph].
  split; [apply read_back_same, add_edges_from_spec, dinv_empty|]. split; [apply built_view|apply saved_nodes].
Qed.

(** C39 *)
Theorem C39_union_of_searches : run = Ok (es, pr, est') ->
  NoDup es
  /\ (forall v, In v labels -> exists esv, estimate_parents Sc score gt searching (draws v) v p = Ok esv /\ forall e, In e esv -> In e es)
  /\ (forall e, In e es -> exists v esv, In v labels /\ estimate_parents Sc score gt searching (draws v) v p = Ok esv /\ In e esv)
  /\ (forall e, In e (g_edges_view (sb_graph est')) <-> In e es)
  /\ sb_struct est' = clean_structure_edges (sb_struct est) /\ sb_traj est' = sb_traj est /\ sb_matrix est' = sb_matrix est.
Proof. exact (sb_union Sc score gt est draws p dm pn es pr est'). Qed.
Theorem C39_precision_recall T TP : run = Ok (es, pr, est') ->
  enumerates T (fun e => In e (edges_list (sb_struct est))) ->
  enumerates TP (fun e => In e (edges_list (sb_struct est)) /\ In e es) ->
  pr = if (length es =? 0) || (length T =? 0) then PrintedError ZeroDivisionError
       else PrintedScores (Qc_of_Z (Z.of_nat (length TP)) / Qc_of_Z (Z.of_nat (length es)))%Qc
                          (Qc_of_Z (Z.of_nat (length TP)) / Qc_of_Z (Z.of_nat (length T)))%Qc.
Proof. exact (sb_precision Sc score gt est draws p dm pn es pr est' T TP). Qed.
(** both process modes: the same draws give the same result whenever one of them returns *)
Theorem C39_pool_then_sequential r : sb_estimate_structure Sc score gt est draws p false pn = Ok r ->
  sb_estimate_structure Sc score gt est draws p true pn = Ok r.
Proof. exact (sb_pool_eq Sc score gt est draws p pn r). Qed.
Theorem C39_sequential_then_pool r : pn <> Some 0 -> sb_estimate_structure Sc score gt est draws p true pn = Ok r ->
  sb_estimate_structure Sc score gt est draws p false pn = Ok r.
Proof. exact (sb_seq_eq Sc score gt est draws p pn r). Qed.
(** the whole structure: only edges between variables, no self-loops (unless a known edge is one) *)
Theorem C39_edges_of_the_structure known a b : sb_ready est known -> run = Ok (es, pr, est') -> In (a, b) es ->
  In a labels /\ In b labels /\ (a <> b \/ In (b, b) known).
Proof. intros Hr H. exact (sb_shape Sc score gt est draws p known Hr dm pn es pr est' H a b). Qed.
Theorem C39_parents_of_each_node known v : sb_ready est known -> run = Ok (es, pr, est') -> In v labels ->
  exists esv, estimate_parents Sc score gt searching (draws v) v p = Ok esv /\ NoDup esv /\ forall a, In (a, v) es <-> In (a, v) esv.
Proof. intros Hr H. exact (sb_parents Sc score gt est draws p known Hr dm pn es pr est' v H). Qed.
Theorem C39_max_parents known v k : sb_ready est known -> run = Ok (es, pr, est') -> In v labels ->
  sp_max_parents p = Some k -> 0 < k -> length (known_parents (sb_struct est) known v) <= k -> length (edges_to es v) <= k.
Proof. intros Hr H. exact (sb_max Sc score gt est draws p known Hr dm pn es pr est' k v H). Qed.
Theorem C39_known_edges_kept known a b : sb_ready est known -> run = Ok (es, pr, est') -> sp_max_parents p = None ->
  In (a, b) known -> In (a, b) es.
Proof. intros Hr H. exact (sb_known Sc score gt est draws p known Hr dm pn es pr est' a b H). Qed.
End sb.
Print Assumptions C37_adjacency_constraint_based. Print Assumptions C37_adjacency_score_based.
Print Assumptions C38_never_spurious_constraint_based. Print Assumptions C38_never_spurious_score_based.
Print Assumptions C41_saved_results_constraint_based. Print Assumptions C41_saved_results_score_based.
Print Assumptions C39_union_of_searches. Print Assumptions C39_precision_recall.
Print Assumptions C39_pool_then_sequential. Print Assumptions C39_sequential_then_pool.
Print Assumptions C39_edges_of_the_structure. Print Assumptions C39_parents_of_each_node.
Print Assumptions C39_max_parents. Print Assumptions C39_known_edges_kept.

(** the estimators built by the constructor satisfy the hypothesis of the C39 theorems *)
Theorem C39_new_estimator s t known est : wf_structure s -> nodes_indexes s = seq 0 (length (nodes_labels s)) ->
  new_sb_estimator s t (length (nodes_labels s)) known = Ok est -> sb_ready est known /\ sb_struct est = s /\ sb_traj est = t.
Proof. exact (new_sb_ready s t known est). Qed.
(** a second call of estimate_structure never prints precision and recall *)
Theorem C39_second_call_prints_an_error Sc score gt est draws p dm pn es pr est' draws2 p2 dm2 pn2 es2 pr2 est2 :
  sb_estimate_structure Sc score gt est draws p dm pn = Ok (es, pr, est') ->
  sb_estimate_structure Sc score gt est' draws2 p2 dm2 pn2 = Ok (es2, pr2, est2) -> pr2 = PrintedError ZeroDivisionError.
Proof. exact (sb_second Sc score gt est draws p dm pn es pr est' draws2 p2 dm2 pn2 es2 pr2 est2). Qed.
Print Assumptions C39_new_estimator. Print Assumptions C39_second_call_prints_an_error.

(** C37, general form: any graph, any node list *)
Theorem C37_adjacency_matrix g nodes : nodes <> [] -> NoDup nodes ->
  exists m, adjacency_matrix g nodes = Ok m /\ is_adjacency_of m nodes (g_edges g).
Proof. exact (adjacency_ok g nodes). Qed.
Theorem C37_adjacency_matrix_raises g nodes : nodes = [] \/ ~ NoDup nodes -> adjacency_matrix g nodes = Err NetworkXError.
Proof. exact (adjacency_err g nodes). Qed.
Print Assumptions C37_adjacency_matrix. Print Assumptions C37_adjacency_matrix_raises.

(** C38, general form: with a prior structure, spurious_edges lists the prior edges the graph lacks *)
Theorem C38_lists_missing_edges s g : edges_list s <> [] -> edges_within (nodes_labels s) (edges_list s) -> dinv g ->
  ((forall x, In x (map fst (g_nodes g)) <-> In x (nodes_labels s)) ->
     exists l, spurious_edges s g = Ok l /\ NoDup l /\ forall e, In e l <-> In e (edges_list s) /\ ~ In e (g_edges_view g))
  /\ (~ (forall x, In x (map fst (g_nodes g)) <-> In x (nodes_labels s)) -> spurious_edges s g = Err NetworkXError).
Proof. exact (spurious_prior s g). Qed.
(** on a new estimator it therefore lists only self-loops *)
Theorem C38_new_estimator s : wf_structure s -> edges_within (nodes_labels s) (edges_list s) ->
  exists l, spurious_edges s (build_complete_graph (nodes_labels s)) = Ok l /\ NoDup l
    /\ forall e, In e l <-> In e (edges_list s) /\ fst e = snd e.
Proof.
  intros Hwf Hw. destruct (complete_graph_spec (nodes_labels s) (proj1 Hwf)) as [D [N E]].
  destruct (edges_list s) as [|e0 es] eqn:EE.
  - exists []. split; [apply spurious_no_prior, EE|]. split; [constructor|]. simpl. tauto.
  - rewrite <- EE in *. destruct (spurious_prior s _ ltac:(rewrite EE; discriminate) Hw D) as [H _]. destruct (H N) as [l [H1 [H2 H3]]].
    exists l. split; [exact H1|]. split; [exact H2|]. intros e. rewrite H3, E. split; [|intros [K1 K2]; tauto].
    intros [K1 K2]. split; [exact K1|]. destruct (String.eqb_spec (fst e) (snd e)) as [K|K]; [exact K|]. exfalso. apply K2. destruct (Hw e K1). auto.
Qed.
Print Assumptions C38_lists_missing_edges. Print Assumptions C38_new_estimator.

(** C41, general form; networkx keeps the node and edge sets of a graph duplicate-free ([dinv]) *)
Theorem C41_read_back g : dinv g -> same_digraph (read_back (save_results g)) g.
Proof. exact (read_back_same g). Qed.
Print Assumptions C41_read_back.

(** C57 *)
Theorem C57_structure_edges_always_returned Sc score gt est draws v p es : estimate_parents Sc score gt est draws v p = Ok es ->
  forall e, In e (edges_list (sb_struct est)) -> In e es.
Proof. exact (estimate_parents_keeps Sc score gt est draws v p es). Qed.
Definition pxe := MkStructure ["X";"Y";"Z"] [0;1;2] [2;2;2] [("Y","X");("Z","X");("X","Z")] 3.
Definition eest := MkSbEst pxe pt (repeat (repeat true 3) 3) (build_complete_graph ["X";"Y";"Z"]).
Definition ehill := MkSbParams (Some 1) 3 None None None "hill".
Definition etabu := MkSbParams (Some 1) 3 None None None "tabu".
Theorem C57_max_parents_exceeded :
  estimate_parents Z wscore wgt eest (fun k => k) "X" ehill = Ok [("X","Z");("Y","X");("Z","X")]
  /\ estimate_parents Z wscore wgt eest (fun k => k) "X" etabu = Ok [("X","Z");("Y","X");("Z","X")]
  /\ sp_max_parents ehill = Some 1 /\ sp_max_parents etabu = Some 1.
Proof. split; [vm_compute; reflexivity|]. split; [vm_compute; reflexivity|split; reflexivity]. Qed.
Print Assumptions C57_structure_edges_always_returned. Print Assumptions C57_max_parents_exceeded.

(** concrete runs *)
Definition sbest := MkSbEst pxe pt smat (build_complete_graph ["X";"Y";"Z"]).
Example sbest_ready : sb_ready sbest sknown.
Proof. split; [split; [apply px_wf|split; reflexivity]|]. split; [reflexivity|]. split; [|reflexivity]. intros e [<-|[]]. cbn; tauto. Qed.
Example C39_case : exists est',
  sb_estimate_structure Z wscore wgt sbest (fun _ k => k) ehill false None
    = Ok ([("Z","X")], PrintedScores 1%Qc (Q2Qc (1#3)), est')
  /\ sb_estimate_structure Z wscore wgt sbest (fun _ k => k) ehill true (Some 0)
    = Ok ([("Z","X")], PrintedScores 1%Qc (Q2Qc (1#3)), est')
  /\ enumerates [("Y","X");("Z","X");("X","Z")] (fun e => In e (edges_list (sb_struct sbest)))
  /\ adjacency_matrix (sb_graph est') ["X";"Y";"Z"] = Ok [[false;false;false];[false;false;false];[true;false;false]]
  /\ nl_nodes (save_results (sb_graph est')) = ["Z";"X"].
Proof.
  eexists. split; [vm_compute; reflexivity|]. split; [vm_compute; reflexivity|]. split; [|split; reflexivity].
  split; [repeat constructor; cbn; intuition discriminate|]. cbn. tauto.
Qed.
Example C38_case : spurious_edges (MkStructure ["X";"Y"] [0;1] [2;2] [("X","X");("X","Y")] 2) (build_complete_graph ["X";"Y"]) = Ok [("X","X")]
  /\ spurious_edges (MkStructure ["X";"Y"] [0;1] [2;2] [("X","Y")] 2) (g_add_edges_from empty_digraph [("Y","X")]) = Ok [("X","Y")]
  /\ spurious_edges (MkStructure ["X";"Y"] [0;1] [2;2] [("X","Y")] 2) empty_digraph = Err NetworkXError.
Proof. repeat split. Qed.
