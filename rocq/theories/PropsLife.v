(** Property theorems C71: the life cycle of ParametersEstimator. *)
From Verif Require Import Base Lib ModelStructure ModelGraph ModelCims ModelData ModelParams ModelLife
  SpecStructure SpecGraph SpecLife ProofLife.

(** whatever was called before, in whatever order and whether it raised or not: graph.fast_init(v),
    estimator.fast_init(v), estimator.compute_parameters_for_node(v) gives what a new graph with the current
    edges and a new estimator give *)
Theorem C71_any_history s t os v : wf_structure s -> edges_within (nodes_labels s) (edges_list s) -> legal_lives t (new_world s) os ->
  let w := fst (life_run t (new_world s) os) in
  let s' := ng_struct (w_graph w) in
  wf_structure s' /\ edges_within (nodes_labels s') (edges_list s') /\ edges_within (nodes_labels s') (ng_edges (w_graph w))
  /\ (In v (nodes_labels s') -> exists g, ng_fast_init (fresh_graph s' (ng_edges (w_graph w))) v = Ok g
      /\ let r := life_run t w [GraphInit v; EstInit v; EstCompute v] in
         match compute_parameters_for_node t g v with
         | Ok so => snd r = [Done; Done; Returned (length (w_heap w))] /\ holds (fst r) (length (w_heap w)) so
         | Err x => snd r = [Done; Done; Raised x]
         end).
Proof. exact (any_history s t os v). Qed.
Print Assumptions C71_any_history.
(** an object that was returned is never changed by later calls, and no object is returned twice *)
Theorem C71_results_never_change s t os1 os2 i : In (Returned i) (snd (life_run t (new_world s) os1)) ->
  exists o, nth_error (w_heap (fst (life_run t (new_world s) os1))) i = Some o
    /\ nth_error (w_heap (fst (life_run t (new_world s) (os1 ++ os2)))) i = Some o.
Proof.
  intros H. destruct (run_heap t os1 (new_world s) I) as [C [_ [_ [R _]]]]. destruct (R i H) as [_ [o [O1 O2]]].
  exists o. split; [exact O1|]. rewrite run_app. cbn [fst]. apply (run_heap t os2 _ C); assumption.
Qed.
Print Assumptions C71_results_never_change.
Theorem C71_returned_once s t os : NoDup (filter (fun r => match r with Returned _ => true | _ => false end) (snd (life_run t (new_world s) os))).
Proof. apply (run_heap t os (new_world s) I). Qed.
Print Assumptions C71_returned_once.
(** every computation needs its own estimator.fast_init: before the first one, or after a result, nothing is
    returned until it is called *)
Theorem C71_fast_init_needed s t os1 os2 i : (os1 = [] \/ exists os v, os1 = os ++ [EstCompute v]
     /\ exists l j, snd (life_run t (new_world s) os1) = l ++ [Returned j]) ->
  (forall v, ~ In (EstInit v) os2) -> ~ In (Returned i) (snd (life_run t (fst (life_run t (new_world s) os1)) os2)).
Proof.
  intros [->|[os [v [-> [l [j E]]]]]] H.
  - apply no_more; [exact I|left; reflexivity|exact H].
  - rewrite run_app in *. cbn [fst snd] in *. destruct (run_heap t os (new_world s) I) as [C _].
    set (w := fst (life_run t (new_world s) os)) in *. destruct (step_heap t w (EstCompute v) C) as [C1 [_ [_ R]]].
    cbn [life_run] in *. destruct (life_step t w (EstCompute v)) as [w1 x] eqn:ES. cbn [fst snd] in *.
    apply app_inj_tail in E as [_ ->]. destruct (R j eq_refl) as [R1 [_ R2]].
    apply no_more; [exact C1| |exact H]. right. exists j. split; [|exact R2]. rewrite <- R1.
    change w1 with (fst (w1, Returned j)). rewrite <- ES. cbn [life_step].
    destruct (compute_cases t w v C) as [[k [o [o' [_ [_ [_ [_ [_ E]]]]]]]]|[y E]]; rewrite E; reflexivity.
Qed.
Print Assumptions C71_fast_init_needed.
(** the exceptions: a second computation right after the first; estimator.fast_init before graph.fast_init *)
Theorem C71_second_compute s t os v w i : life_step t (fst (life_run t (new_world s) os)) (EstCompute v) = (w, Returned i) ->
  life_step t w (EstCompute v) = (w, Raised AttributeError).
Proof. apply second_compute, (run_heap t os (new_world s) I). Qed.
Theorem C71_graph_first s t v : life_step t (new_world s) (EstInit v) = (new_world s, Raised TypeError).
Proof. reflexivity. Qed.
Print Assumptions C71_second_compute. Print Assumptions C71_graph_first.
(** a node removed from the graph (or a graph never initialised) needs graph.fast_init before anything else: until then
    estimator.fast_init raises TypeError and no computation returns *)
Lemma uninitialised t os : forall w, ng_pinfo (w_graph w) = None -> ng_time_filtering (w_graph w) = None -> (forall u, ~ In (GraphInit u) os) ->
  let w' := fst (life_run t w os) in ng_pinfo (w_graph w') = None /\ ng_time_filtering (w_graph w') = None /\ forall i, ~ In (Returned i) (snd (life_run t w os)).
Proof.
  induction os as [|o os IH]; intros w H1 H2 HN; [cbn; auto|]. cbn zeta. cbn [life_run].
  assert (S : ng_pinfo (w_graph (fst (life_step t w o))) = None /\ ng_time_filtering (w_graph (fst (life_step t w o))) = None /\ forall i, snd (life_step t w o) <> Returned i).
  { destruct o as [u|es|es|u|u|u]; cbn [life_step].
    - exfalso. exact (HN u (or_introl eq_refl)).
    - cbn [fst snd w_graph ng_add_edges with_graph ng_pinfo ng_time_filtering]. split; [exact H1|split; [exact H2|discriminate]].
    - cbn [fst snd w_graph ng_remove_edges with_graph ng_pinfo ng_time_filtering]. split; [exact H1|split; [exact H2|discriminate]].
    - destruct (g_remove_node _ u); [|split; [exact H1|split; [exact H2|discriminate]]]. destruct (structure_remove_node _ u); (split; [exact H1 || reflexivity|split; [exact H2 || reflexivity|discriminate]]).
    - unfold est_init. rewrite H1. split; [exact H1|split; [exact H2|discriminate]].
    - unfold est_compute. assert (F : forall x, exists y, est_fill t (w_graph w) u x = Err y).
      { intros x. unfold est_fill. destruct (ng_get_node_indx (w_graph w) u); cbn [bind]; [|eauto]. destruct x; [|eauto]. rewrite H2. cbn [opt_get bind]. eauto. }
      destruct (F (match w_cur w with Some i => nth_error (w_heap w) i | None => None end)) as [y ->]. destruct (w_cur w); (split; [exact H1|split; [exact H2|discriminate]]). }
  destruct S as [S1 [S2 S3]]. destruct (life_step t w o) as [w1 x]. cbn [fst snd] in *.
  specialize (IH w1 S1 S2 (fun u K => HN u (or_intror K))). cbn zeta in IH. destruct (life_run t w1 os) as [w2 xs]. cbn [fst snd] in *.
  destruct IH as [I1 [I2 I3]]. split; [exact I1|]. split; [exact I2|]. intros i [K|K]; [exact (S3 i K)|exact (I3 i K)].
Qed.
Theorem C71_initialise_again s t os v w os2 : (w = new_world s \/ life_step t (fst (life_run t (new_world s) os)) (GraphRemoveNode v) = (w, Done)) ->
  (forall u, ~ In (GraphInit u) os2) ->
  (forall i, ~ In (Returned i) (snd (life_run t w os2)))
  /\ forall u, life_step t (fst (life_run t w os2)) (EstInit u) = (fst (life_run t w os2), Raised TypeError).
Proof.
  intros HW HN. assert (H : ng_pinfo (w_graph w) = None /\ ng_time_filtering (w_graph w) = None).
  { destruct HW as [->|HW]; [split; reflexivity|]. cbn [life_step] in HW. destruct (g_remove_node _ v); [|discriminate]. destruct (structure_remove_node _ v); [|discriminate].
    injection HW as <-. split; reflexivity. }
  destruct (uninitialised t os2 w (proj1 H) (proj2 H) HN) as [U1 [U2 U3]]. split; [exact U3|]. intros u. cbn [life_step]. unfold est_init. rewrite U1. reflexivity.
Qed.
Print Assumptions C71_initialise_again.

(** two binary variables; X changes once after 1, Y stays in state 1 *)
Definition ls := MkStructure ["X";"Y"] [0;1] [2;2] [("Y","X")] 2.
Definition lt := MkTrajectory [1; Q2Qc 3]%Qc [[0;1;1;-1]; [1;1;-1;-1]]%Z 4 3.
Definition history := [EstInit "X"; EstCompute "X"; GraphInit "Q"; GraphInit "X"; EstInit "X"; EstCompute "X"; EstCompute "X";
  GraphRemoveEdges [("Y","X")]; GraphAddEdges [("X","Y")]; GraphInit "Y"; EstInit "X"; EstCompute "Q"; GraphRemoveNode "Q"].
Example C71_case : wf_structure ls /\ edges_within (nodes_labels ls) (edges_list ls) /\ legal_lives lt (new_world ls) history
  /\ snd (life_run lt (new_world ls) history) = [Raised TypeError; Raised KeyError; Raised NetworkXError; Done; Done; Returned 0; Raised AttributeError;
       Done; Done; Done; Done; Raised KeyError; Raised NetworkXError]
  /\ exists o, nth_error (w_heap (fst (life_run lt (new_world ls) history))) 0 = Some o /\ map c_times (o_cims o) = [[0;0];[1; Q2Qc 3]]%Qc.
Proof.
  split; [repeat split; repeat constructor; cbn; intuition discriminate|]. split; [intros e [<-|[]]; cbn; tauto|].
  split; [vm_compute; do 8 (split; [exact I|]); split; [intros e [<-|[]]; split; [left|right; left]; reflexivity|]; repeat split|].
  split; [vm_compute; reflexivity|]. eexists. split; vm_compute; reflexivity.
Qed.
(** finding: when the graph was initialised for another node nothing is noticed, and that node's times are returned
    under the wrong name: X is in state 0 for 1 and in state 1 for 3, Y is always in state 1 *)
Theorem C71_wrong_node_unnoticed_refuted : exists s t o,
  wf_structure s
  /\ let (w, xs) := life_run t (new_world s) [GraphInit "Y"; EstInit "X"; EstCompute "X"] in
     xs = [Done; Done; Returned 0] /\ nth_error (w_heap w) 0 = Some o
  /\ o_node o = "X" /\ map c_times (o_cims o) = [[0; Q2Qc 4]]%Qc
  /\ let (w', xs') := life_run t (new_world s) [GraphInit "X"; EstInit "X"; EstCompute "X"] in
     exists o', xs' = [Done; Done; Returned 0] /\ nth_error (w_heap w') 0 = Some o' /\ map c_times (o_cims o') = [[1; Q2Qc 3]]%Qc.
Proof.
  exists (MkStructure ["X";"Y"] [0;1] [2;2] [] 2), lt. eexists.
  split; [repeat split; repeat constructor; cbn; intuition discriminate|].
  vm_compute. split; [reflexivity|]. split; [reflexivity|]. split; [reflexivity|]. split; [reflexivity|].
  eexists. split; [reflexivity|]. split; reflexivity.
Qed.
Print Assumptions C71_wrong_node_unnoticed_refuted.
