(** Property theorems C46 and C40, continued: the flag by which a sample path says that it carries a network
    structure of its own; both estimators before they are run. *)
From Verif Require Import Base Lib ModelStructure ModelGraph ModelCims ModelData ModelParams ModelCache ModelCtpc SpecStructure SpecGraph SpecData SpecCtpc
  SpecEstimators ProofGraph ProofCache ProofCtpc7 ProofEstimators PropsCtpc PropsEstimators.
From Verif Require Import ModelEstimators.

(** Before the structure has been built, the question has no answer; after it, the answer is "yes"
    exactly when the data source came with at least one arc; and it is the answer the structure estimator
    acts upon. *)
Theorem C46_prior_flag sp :
  (ModelData.has_prior_net_structure sp = Err AttributeError <-> sp_structure sp = None)
  /\ (ModelData.has_prior_net_structure sp = Ok true
      <-> exists s e, sp_structure sp = Some s /\ In e (edges_list s))
  /\ (ModelData.has_prior_net_structure sp = Ok false
      <-> exists s, sp_structure sp = Some s /\ forall e, ~ In e (edges_list s))
  /\ (forall s, sp_structure sp = Some s ->
        ModelData.has_prior_net_structure sp = Ok (ModelEstimators.has_prior_net_structure s)).
Proof.
  unfold ModelData.has_prior_net_structure, ModelEstimators.has_prior_net_structure.
  destruct (sp_structure sp) as [s|].
  - destruct (edges_list s) as [|e es] eqn:E.
    + split; [split; intros H; discriminate H|]. split; [|split].
      * split; [intros H; discriminate H|]. intros (s' & e & Hs & He). injection Hs as <-. rewrite E in He. destruct He.
      * split; [|reflexivity]. intros _. exists s. split; [reflexivity|]. intros e He. rewrite E in He. destruct He.
      * intros s' Hs. injection Hs as <-. rewrite E. reflexivity.
    + split; [split; intros H; discriminate H|]. split; [|split].
      * split; [|reflexivity]. intros _. exists s, e. split; [reflexivity|]. rewrite E. left. reflexivity.
      * split; [intros H; discriminate H|]. intros (s' & Hs & Hn). injection Hs as <-.
        exfalso. apply (Hn e). rewrite E. left. reflexivity.
      * intros s' Hs. injection Hs as <-. rewrite E. reflexivity.
  - split; [split; reflexivity|]. split; [|split].
    + split; [intros H; discriminate H|]. intros (s' & e & Hs & _). discriminate Hs.
    + split; [intros H; discriminate H|]. intros (s' & Hs & _). discriminate Hs.
    + intros s Hs. discriminate Hs.
Qed.
Print Assumptions C46_prior_flag.

(** built from an importer: the flag is what the importer was given *)
Theorem C46_prior_flag_import sp sp' : sp_build_structure sp = Ok sp' ->
  (ModelData.has_prior_net_structure sp' = Ok true
   <-> exists es e, im_structure (sp_importer sp) = Some es /\ In e es)
  /\ (ModelData.has_prior_net_structure sp' = Ok false
   <-> im_structure (sp_importer sp) = None \/ im_structure (sp_importer sp) = Some []).
Proof.
  unfold sp_build_structure. intros H.
  destruct (im_variables (sp_importer sp)) as [v|]; [|discriminate H].
  destruct (im_sorter (sp_importer sp)) as [sorter|]; [|discriminate H].
  destruct (negb _); [discriminate H|].
  injection H as <-. unfold ModelData.has_prior_net_structure; cbn [sp_structure edges_list].
  destruct (im_structure (sp_importer sp)) as [[|e es]|]; split; split; intros H; try discriminate H; try reflexivity.
  - destruct H as (es' & e & He & Hi). injection He as <-. destruct Hi.
  - right. reflexivity.
  - exists (e :: es), e. split; [reflexivity|left; reflexivity].
  - destruct H as [H|H]; discriminate H.
  - destruct H as (es' & e & He & _). discriminate He.
  - left. reflexivity.
Qed.
Print Assumptions C46_prior_flag_import.

Definition prior_im (es : option (list edge)) : importer :=
  MkImporter [] CNone (Some (variables_frame ["X";"Y"] [2;2])) es (Some ["X";"Y"]).
Example C46_case_flag :
  (exists sp, sp_build_structure (MkSamplePath (prior_im (Some [("X","Y")])) None None None) = Ok sp
     /\ ModelData.has_prior_net_structure sp = Ok true)
  /\ (exists sp, sp_build_structure (MkSamplePath (prior_im None) None None None) = Ok sp
     /\ ModelData.has_prior_net_structure sp = Ok false).
Proof. split; eexists; (split; [vm_compute; reflexivity|]); vm_compute; reflexivity. Qed.

(** An estimator that has not been run: the score-based one is created exactly when the known edges join variables, with
    every other edge removable, and its adjacency matrix is that of the complete graph: no variable is
    its own parent, every pair of distinct variables is joined both ways.  Same for the constraint-based one. *)
Theorem C40_before_estimation s t tot known : wf_structure s -> NoDup (nodes_indexes s) -> (forall i, In i (nodes_indexes s) -> i < tot) ->
  nodes_labels s <> [] ->
  let complete g := exists m, adjacency_matrix g (nodes_labels s) = Ok m
        /\ length m = length (nodes_labels s) /\ (forall row, In row m -> length row = length (nodes_labels s))
        /\ forall i j, i < length (nodes_labels s) -> j < length (nodes_labels s) -> mat_get m i j = Ok (negb (i =? j)) in
  (edges_within (nodes_labels s) known -> exists est, new_sb_estimator s t tot known = Ok est
     /\ sb_struct est = s /\ sb_traj est = t /\ complete (sb_graph est)
     /\ forall a b i j, In a (nodes_labels s) -> In b (nodes_labels s) ->
          structure_get_node_indx s a = Ok i -> structure_get_node_indx s b = Ok j ->
          mat_get (sb_matrix est) i j = Ok (negb (emem (a, b) known)))
  /\ (~ edges_within (nodes_labels s) known -> new_sb_estimator s t tot known = Err ValueError)
  /\ (forall thr tests est, new_cb_estimator s t tot known thr tests = Ok est -> complete (cb_graph est)).
Proof.
  intros Hwf Hn Hi Hne. assert (Hnd : NoDup (nodes_labels s)) by apply Hwf.
  assert (HC : let g := build_complete_graph (nodes_labels s) in exists m, adjacency_matrix g (nodes_labels s) = Ok m
        /\ length m = length (nodes_labels s) /\ (forall row, In row m -> length row = length (nodes_labels s))
        /\ forall i j, i < length (nodes_labels s) -> j < length (nodes_labels s) -> mat_get m i j = Ok (negb (i =? j))).
  { intros g. destruct (C37_adjacency_matrix g _ Hne Hnd) as [m [E [D1 [D2 D3]]]]. exists m.
    split; [exact E|]. split; [exact D1|]. split; [exact D2|]. intros i j Li Lj.
    destruct (nth_error (nodes_labels s) i) as [a|] eqn:Ea; [|apply nth_error_None in Ea; lia].
    destruct (nth_error (nodes_labels s) j) as [b|] eqn:Eb; [|apply nth_error_None in Eb; lia].
    destruct (D3 i j a b Ea Eb) as [x [Ex Hx]]. rewrite Ex. f_equal.
    destruct (C40_initial_graph (nodes_labels s) Hnd) as [_ [_ HE]].
    assert (K : In (a, b) (g_edges g) <-> In (a, b) (g_edges_view g)).
    { symmetry. apply edges_view_spec. apply (complete_graph_spec _ Hnd). }
    destruct (Nat.eqb_spec i j) as [->|Nij]; cbn [negb].
    - rewrite Ea in Eb. injection Eb as <-. destruct x; [|reflexivity]. exfalso.
      apply (proj1 (HE a a)); [|reflexivity]. apply K, Hx. reflexivity.
    - apply Hx, K, HE. split; [eapply nth_error_In, Ea|]. split; [eapply nth_error_In, Eb|].
      intros ->. apply Nij. eapply NoDup_nth_error; [exact Hnd|exact Li|congruence]. }
  intros complete.
  destruct (C40_prior_matrix s t tot known 0%Qc (fun _ _ _ => true) Hwf Hn Hi) as [P1 P2].
  unfold new_cb_estimator in P1, P2. unfold new_sb_estimator, new_cb_estimator.
  split; [|split].
  - intros HK. destruct (P1 HK) as [est [E [_ [_ HG]]]]. destruct (build_removable_edges_matrix s tot known) as [m|x]; [|discriminate E].
    cbn [bind] in *. injection E as <-. cbn [cb_st st_matrix] in HG. eexists. split; [reflexivity|].
    split; [reflexivity|]. split; [reflexivity|]. split; [exact HC|exact HG].
  - intros HK. specialize (P2 HK). destruct (build_removable_edges_matrix s tot known) as [m|x]; [discriminate P2|cbn [bind] in *; congruence].
  - intros thr tests est E. destruct (build_removable_edges_matrix s tot known) as [m|x]; [|discriminate E].
    cbn [bind] in E. injection E as <-. exact HC.
Qed.
Print Assumptions C40_before_estimation.
Example C40_case_score_based : exists est, new_sb_estimator (MkStructure ["X";"Y"] [0;1] [2;2] [] 2) (MkTrajectory [] [] 4 3) 2 [("X","Y")] = Ok est
  /\ sb_matrix est = [[true;false];[true;true]] /\ adjacency_matrix (sb_graph est) ["X";"Y"] = Ok [[false;true];[true;false]].
Proof. eexists. split; [vm_compute; reflexivity|]. split; vm_compute; reflexivity. Qed.
