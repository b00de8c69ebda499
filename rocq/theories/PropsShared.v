(** Property theorems C84: several estimators, and parameter estimation, on one SamplePath. *)
From Verif Require Import Base Lib ModelStructure ModelGraph ModelCims ModelData ModelParams ModelCache ModelCtpc ModelSearch ModelEstimators ModelShared
  SpecStructure SpecGraph SpecComb SpecParams SpecCtpc SpecHistory SpecEstimators SpecShared ProofComb ProofGraph ProofParams3 ProofEstimators ProofEstimators2 ProofShared ProofShared2
  PropsParams PropsSearch PropsEstimators.

Section histories.
Variable Sc : Type.
Variable gt : Sc -> Sc -> bool.
Notation history := (serve_all Sc gt).
Variables (w0 w' : shared Sc) (rs : list (request Sc)) (outs : list reply).
Hypothesis Hstart : sh_objects w0 = [].
Hypothesis Hrun : history w0 rs = Some (outs, w').
Notation s := (sh_struct w0).
Notation t := (sh_traj w0).

(** The estimators do not influence each other: every object answers as if the others did not exist *)
Theorem C84_isolation i : exists outs' w'', history w0 (alone i rs) = Some (outs', w'') /\ map unprinted outs' = map unprinted (select (concerns i 0 rs) outs).
Proof.
  apply (isolation Sc gt i rs 0 w0 w0 outs w'); [|exact Hrun]. split; [split; [|split]; reflexivity|]. split; [rewrite Hstart; reflexivity|]. left. split; [lia|exact Hstart].
Qed.
(** a score-based estimator has no memory: with the same random numbers and search parameters every call returns the same
    edges, in a pool or not, whatever happened in between *)
Theorem C84_score_based_memoryless i n n' known score d p mp pn mp' pn' es pr es' pr' : nth_error (filter creates rs) i = Some (NewSb known score) ->
  nth_error rs n = Some (Estimate i d p mp pn) -> nth_error rs n' = Some (Estimate i d p mp' pn') ->
  nth_error outs n = Some (Edges es pr) -> nth_error outs n' = Some (Edges es' pr') -> es = es'.
Proof. exact (sb_memoryless Sc gt rs w0 outs w' i n n' known score d p mp pn mp' pn' es pr es' pr' Hstart Hrun). Qed.

(** adjacency_matrix and save_results of an object are about its last successful call of estimate_structure: calls on other
    objects, and calls on it that raised, do not matter *)
Theorem C84_latest_answer i n n' d p mp pn es pr : NoDup (nodes_labels s) -> nodes_labels s <> [] ->
  nth_error rs n = Some (Estimate i d p mp pn) -> nth_error outs n = Some (Edges es pr) -> n < n' ->
  (forall m d0 p0 mp0 pn0 es0 pr0, n < m < n' -> nth_error rs m = Some (Estimate i d0 p0 mp0 pn0) -> nth_error outs m <> Some (Edges es0 pr0)) ->
  (nth_error rs n' = Some (Adjacency i) -> exists m, nth_error outs n' = Some (Matrix m) /\ is_adjacency_of m (nodes_labels s) es)
  /\ (nth_error rs n' = Some (Save i) -> exists nl, nth_error outs n' = Some (Saved nl) /\ forall e, In e (nl_links nl) <-> In e es).
Proof.
  intros Hnd Hne Hn Ho Hlt Hq.
  assert (Hq' : forall m r0 a0, n < m < n' -> nth_error rs m = Some r0 -> nth_error outs m = Some a0 -> ~ answers Sc i r0 a0).
  { intros m r0 a0 Hm Hr Ha [A [B [es0 [pr0 ->]]]]. destruct r0 as [| |j d0 p0 mp0 pn0| | | |]; try discriminate. cbn [on_object] in B. apply Nat.eqb_eq in B. subst j. exact (Hq m d0 p0 mp0 pn0 es0 pr0 Hm Hr Ha). }
  split; intros Hr; (destruct (nth_error outs n') as [a|] eqn:Ea;
    [|apply nth_error_None in Ea; rewrite (serve_length Sc gt _ _ _ _ Hrun) in Ea; assert (n' < length rs) by (apply nth_error_Some; congruence); lia]);
    destruct (latest Sc gt rs w0 outs w' i n n' d p mp pn es pr _ a Hrun Hn Ho Hlt Hq' Hr Ea) as [l [wn [w1 [A [B [o [C D]]]]]]];
    cbn [serve] in B; rewrite C, D in B.
  - pose proof (struct_clean Sc gt _ _ _ _ A) as E. apply (f_equal nodes_labels) in E. cbn [clean_structure_edges nodes_labels] in E. rewrite E in B.
    destruct (adjacency_built es (nodes_labels s) Hne Hnd) as [m [K1 K2]]. unfold replied in B. rewrite K1 in B. injection B as <- _. exists m. auto.
  - injection B as <- _. eexists. split; [reflexivity|]. intros e. apply built_view.
Qed.

(** every object that was constructed goes on answering, whatever calls have raised; so do new objects and estimations of parameters *)
Theorem C84_always_answers i : nth_error (select (map creates rs) outs) i = Some Made ->
  (forall r, In r [Adjacency i; Spurious i; Save i] -> exists a w'', serve Sc gt w' r = Some (a, w''))
  /\ (forall d p pn, (exists a w'', serve Sc gt w' (Estimate i d p false pn) = Some (a, w''))
        \/ (exists known score, nth_error (filter creates rs) i = Some (NewSb known score)))
  /\ (forall r, creates r = true \/ (exists v, r = Parameters v) -> exists a w'', serve Sc gt w' r = Some (a, w'')).
Proof.
  intros Hi. destruct (usable Sc gt rs w0 outs w' i Hstart Hrun Hi) as [o [Ho Hf]]. split; [|split].
  - intros r Hr. cbn [In] in Hr. destruct o as [thr tests st g|score m g|]; [| |destruct (Hf eq_refl)];
      (destruct Hr as [<-|[<-|[<-|[]]]]; cbn [serve]; rewrite Ho; cbn [graph_of]; unfold replied; eauto).
  - intros d p pn. assert (F0 : Forall2 (comes_from Sc s (sh_tot w0)) [] (sh_objects w0)) by (rewrite Hstart; constructor).
    pose proof (comes_all Sc gt s (sh_tot w0) rs w0 outs w' [] eq_refl eq_refl Hrun F0) as F. cbn [app] in F.
    destruct (nth_error (filter creates rs) i) as [q|] eqn:Eq.
    2:{ apply nth_error_None in Eq. apply Forall2_length in F. assert (i < length (sh_objects w')) by (apply nth_error_Some; congruence). lia. }
    assert (Cq : creates q = true) by (apply nth_error_In, filter_In in Eq; apply Eq).
    destruct q as [known thr tests|known score| | | | |]; try discriminate; [left|right; eauto].
    destruct (Forall2_nth_error _ _ _ F i _ Eq) as [o' [Ho' K]]. rewrite Ho in Ho'. injection Ho' as <-. cbn [comes_from] in K.
    destruct (build_removable_edges_matrix s (sh_tot w0) known); [|destruct (Hf K)]. destruct K as [st [g ->]]. cbn [serve]. rewrite Ho. unfold estimate_cb.
    destruct pn as [[|n]|]; cbn; try (eexists _, _; reflexivity); destruct (cb_estimate_structure _ _) as [[? ?]|?]; eexists _, _; reflexivity.
  - intros r [Hr|[v ->]]; [|cbn [serve]; unfold replied; eauto]. destruct r; try discriminate; cbn [serve]; [destruct (new_cb_estimator _ _ _ _ _ _)|destruct (new_sb_estimator _ _ _ _)]; eauto.
Qed.

(** Side effects on the SamplePath: the first call of estimate_structure, also one that raises, erases the known edges of the
    structure; nothing else changes *)
Theorem C84_structure_erased :
  sh_struct w' = (if existsb is_estimate rs then MkStructure (nodes_labels s) (nodes_indexes s) (nodes_values s) [] (total_variables_number s) else s)
  /\ sh_traj w' = t /\ sh_tot w' = sh_tot w0.
Proof. exact (serve_all_struct Sc gt rs w0 outs w' Hrun). Qed.
(** so precision and recall are printed at most by the first call *)
Theorem C84_scores_printed_once n es prec rec : nth_error outs n = Some (Edges es (Some (PrintedScores prec rec))) -> existsb is_estimate (firstn n rs) = false.
Proof. exact (printed_first Sc gt rs w0 outs w' n es prec rec Hrun). Qed.
(** and spurious_edges of every object is empty from then on *)
Theorem C84_spurious_edges_empty n i : nth_error rs n = Some (Spurious i) -> existsb is_estimate (firstn n rs) = true -> nth_error outs n = Some (Listed []).
Proof.
  intros Hn He. destruct (nth_error outs n) as [a|] eqn:Ea.
  2:{ apply nth_error_None in Ea. rewrite (serve_length Sc gt _ _ _ _ Hrun) in Ea. assert (n < length rs) by (apply nth_error_Some; congruence). lia. }
  destruct (serve_nth Sc gt rs w0 outs w' n _ _ Hrun Hn Ea) as [l [wn [w1 [A B]]]]. destruct (serve_all_struct Sc gt _ _ _ _ A) as [ES _]. rewrite He in ES.
  cbn [serve] in B. destruct (nth_error (sh_objects wn) i) as [o|]; [|discriminate]. destruct (graph_of Sc o) as [g|]; [|discriminate]. unfold replied in B.
  rewrite spurious_no_prior in B by (rewrite ES; reflexivity). injection B as <- _. reflexivity.
Qed.
(** Finding: parameters are estimated for the edges the structure holds at that moment.  Before the first estimate_structure
    these are the known edges, afterwards every variable is treated as having no parents *)
Theorem C84_parameters n v c ni pis ps : wf_structure s -> data_ok s t -> edges_within (nodes_labels s) (edges_list s) ->
  nth_error rs n = Some (Parameters v) ->
  let E := if existsb is_estimate (firstn n rs) then [] else edges_list s in
  node_view s E v c ni pis ps -> 0 < c -> compat c ps ->
  exists g soc, ng_fast_init (fresh_graph (clean_structure_edges s) E) v = Ok g /\ compute_parameters_for_node t g v = Ok soc
    /\ nth_error outs n = Some (Params soc) /\ get_cims_number soc = nat_prod ps.
Proof.
  intros Hwf Hd Hw Hn E V Hc Hp. pose proof (params_now Sc gt rs w0 outs w' n v c ni pis ps Hwf Hd Hw Hrun Hn V Hc Hp) as K.
  destruct (fresh_params (clean_structure_edges s) t E v c ni pis ps Hwf Hd) as [g [G1 G2]].
  - unfold E. destruct (existsb _ _); [intros e []|exact Hw].
  - intros e [].
  - cbn [clean_structure_edges edges_list]. rewrite app_nil_r. exact V.
  - exact Hc.
  - exact Hp.
  - exists g. eexists. split; [exact G1|]. split; [exact G2|]. split; [exact K|]. unfold get_cims_number. cbn [so_actual_cims]. rewrite map_length. apply le_enum_length.
Qed.
End histories.
(** a constraint-based object that is called alone does what [calls] (C83) says *)
Theorem C84_constraint_based_alone Sc gt (w : shared Sc) known thr tests est d p pn modes ess est' : sh_objects w = [] -> pn <> Some 0 ->
  new_cb_estimator (sh_struct w) (sh_traj w) (sh_tot w) known thr tests = Ok est -> calls est modes = Ok (ess, est') ->
  exists w', serve_all Sc gt w (NewCb known thr tests :: map (fun mp => Estimate 0 d p mp pn) modes) = Some (Made :: map (fun es => Edges es None) ess, w').
Proof. exact (cb_alone Sc gt w known thr tests est d p pn modes ess est'). Qed.
Print Assumptions C84_isolation. Print Assumptions C84_always_answers. Print Assumptions C84_score_based_memoryless. Print Assumptions C84_latest_answer. Print Assumptions C84_structure_erased.
Print Assumptions C84_scores_printed_once. Print Assumptions C84_spurious_edges_empty. Print Assumptions C84_parameters. Print Assumptions C84_constraint_based_alone.

(** two score-based estimators and one constraint-based one on the data of C10, with the known edge Y -> X *)
Definition pshared : shared Z := MkShared (MkStructure ["X";"Y";"Z"] [0;1;2] [2;2;2] [("Y","X")] 3) pt 3 [].
Definition pdraws : label -> nat -> nat := fun _ k => k.
Definition ptests : nat -> cim -> cim -> bool := fun _ _ _ => true.
Definition prequests : list (request Z) :=
  [NewSb [("Y","X")] wscore; NewCb [("Y","X")] 1%Qc ptests; Parameters "X"; Spurious 0;
   Estimate 1 pdraws ehill true None; Estimate 0 pdraws ehill true None; NewSb [] wscore; Estimate 0 pdraws ehill false (Some 0);
   Adjacency 0; Adjacency 1; Estimate 2 pdraws ehill true None; Save 0; Estimate 0 pdraws ehill true None; Parameters "X"; Spurious 0].
Example C84_case : exists outs w' a b, serve_all Z wgt pshared prequests = Some (outs, w')
  /\ nth_error outs 5 = Some (Edges a (Some (PrintedError ZeroDivisionError))) /\ nth_error outs 7 = Some (RaisedR ValueError)
  /\ nth_error outs 12 = Some (Edges a (Some (PrintedError ZeroDivisionError))) /\ nth_error outs 4 = Some (Edges b None) /\ a <> b /\ a <> []
  /\ (exists so, nth_error outs 2 = Some (Params so) /\ get_cims_number so = 2)
  /\ (exists so, nth_error outs 13 = Some (Params so) /\ get_cims_number so = 1)
  /\ concerns 0 0 prequests = [true;false;false;false;false;true;false;true;true;false;false;true;true;false;false].
Proof.
  do 4 eexists. split; [vm_compute; reflexivity|]. split; [reflexivity|]. split; [reflexivity|]. split; [reflexivity|]. split; [reflexivity|].
  split; [discriminate|]. split; [discriminate|]. split; [eexists; split; reflexivity|]. split; [eexists; split; reflexivity|]. reflexivity.
Qed.
