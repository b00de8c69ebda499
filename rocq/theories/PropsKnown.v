(** Property theorems C92: telling the estimators what they would find anyway. *)
From Verif Require Import Base Lib ModelStructure ModelGraph ModelCims ModelData ModelParams ModelCache ModelCtpc ModelSearch ModelEstimators
  SpecStructure SpecGraph SpecComb SpecParams SpecData SpecCtpc SpecSearch SpecInvariance SpecAlgorithm SpecTuning
  ProofStructure ProofGraph ProofInvariance ProofCache ProofCtpc2 ProofCtpc7 ProofSearch ProofSearch3 ProofAlgorithm3 ProofKnown PropsData PropsParams PropsSearch PropsCtpc PropsAlgorithm.
Open Scope nat_scope.

Section data.
Variables (vars : list label) (cards : list nat) (prior : option (list edge)) (rs : list raw) (k : nat) (thr : Qc) (tests : nat -> cim -> cim -> bool).
Hypothesis HL : legal_input vars cards rs.
Hypothesis HE : equal_cards cards k.
Notation run known mp es := (exists s t est est', imports_to vars cards prior rs s t
  /\ new_cb_estimator s t (length vars) known thr tests = Ok est /\ cb_estimate_structure est mp = Ok (es, est')).
(** edges that the constraint-based estimator reports can be given to it as known edges, some or all of them: it reports the same *)
Theorem C92_known_edges_it_would_find known known' mp mp' es es' : run known mp es -> run known' mp' es' ->
  (forall a b, In (a, b) known -> a <> b -> In (a, b) known') -> (forall a b, In (a, b) known' -> a <> b -> In (a, b) known \/ In (a, b) es) -> forall e, In e es' <-> In e es.
Proof.
  intros [s [t [est [est1 [HI [HN R0]]]]]] [s' [t' [est' [est1' [HI' [HN' R0']]]]]] I HF [p v].
  apply (imports_det vars cards prior rs s t HL) in HI as [-> ->]. apply (imports_det vars cards prior rs s' t' HL) in HI' as [-> ->].
  destruct (est_facts _ _ _ _ _ _ _ _ HL HN) as [W [N1 [N2 [D [E1 E2]]]]]. destruct (est_facts _ _ _ _ _ _ _ _ HL HN') as [_ [_ [_ [_ [E1' E2']]]]]. destruct HE as [Hk HU].
  destruct (new_estimator_ok _ _ _ _ _ _ _ W N1 N2 HN) as [Hok _]. destruct (new_estimator_ok _ _ _ _ _ _ _ W N1 N2 HN') as [Hok' _].
  destruct (in_dec string_dec v vars) as [Hv|Hv].
  2:{ destruct (C24_results_are_well_formed est mp es est1 Hok R0) as [_ [A _]]. destruct (C24_results_are_well_formed est' mp' es' est1' Hok' R0') as [_ [A' _]]. rewrite E1 in A. rewrite E1' in A'.
      split; intros H; exfalso; apply Hv; [apply (A' p v H)|apply (A p v H)]. }
  rewrite (estimate_alg _ _ _ k known thr tests est W N1 N2 eq_refl D Hk HU HN mp es est1 v R0 Hv).
  rewrite (estimate_alg _ _ _ k known' thr tests est' W N1 N2 eq_refl D Hk HU HN' mp' es' est1' v R0' Hv).
  rewrite (ctpc_more _ (protected_of (struct_of vars cards prior) known v) (protected_of (struct_of vars cards prior) known' v)); [tauto| | |].
  - apply (NoDup_filter _ (proj1 W)).
  - intros q Hq. apply filter_In in Hq as [Q1 Q2]. apply filter_In. split; [exact Q1|]. apply emem_In, I; [apply emem_In, Q2|]. apply others_In in Q1. tauto.
  - intros q Hq Hq'. apply filter_In in Hq' as [_ Q2]. apply emem_In in Q2. destruct (HF _ _ Q2 ltac:(apply others_In in Hq; tauto)) as [X|X]; [left; apply filter_In; split; [exact Hq|apply emem_In, X]|right].
    apply (estimate_alg _ _ _ k known thr tests est W N1 N2 eq_refl D Hk HU HN mp es est1 v R0 Hv q), X.
Qed.
(** in particular its result, given back as known edges, is a fixed point *)
Theorem C92_result_given_back known mp mp' es es' : run known mp es -> run es mp' es' -> forall e, In e es' <-> In e es.
Proof.
  intros R0 R1. apply (C92_known_edges_it_would_find known es mp mp' es es' R0 R1); [|intros a b He _; right; exact He].
  destruct R0 as [s [t [est [est1 [HI [HN R0]]]]]]. apply (imports_det vars cards prior rs s t HL) in HI as [-> ->].
  destruct (est_facts _ _ _ _ _ _ _ _ HL HN) as [W [N1 [N2 [D [E1 E2]]]]]. intros a b Hab Nab.
  exact (C23_known_edges_are_kept _ _ _ known thr tests est mp es est1 a b W N1 N2 HN R0 Hab Nab).
Qed.
End data.
(** the score-based search: started again from its own result as known edges, it does not return anything worse *)
Section search.
Variables (Sc : Type) (score : list cim -> result Sc) (gt : Sc -> Sc -> bool) (t : trajectory) (draws draws' : nat -> nat).
Variables (s : structure) (known known' : list edge) (m m' : list (list bool)) (v : label).
Hypothesis Hok : search_ready s known m v.
Hypothesis Hok' : search_ready s known' m' v.
Hypothesis HG : strict_order gt.
Lemma start_again es : NoDup es -> (forall a b, In (a, b) es -> b = v /\ In a (nodes_labels s)) -> (forall a, In (a, v) known' <-> In (a, v) es) ->
  score_of score t s v (edges_into v (known_parents s known' v)) = score_of score t s v es.
Proof.
  intros N SH HK. pose proof (kp_NoDup s known' m' v Hok') as NK.
  assert (I : forall p, In p (known_parents s known' v) -> In p (nodes_labels s)) by (intros p Hp; apply filter_In in Hp; tauto).
  rewrite (score_of_pscore Sc score t s known' m' v Hok' _ (known_parents s known' v) NK I) by (intros e; tauto).
  symmetry. apply (score_of_pscore Sc score t s known' m' v Hok' es (known_parents s known' v) NK I). intros [a b]. rewrite edges_into_In. cbn [fst snd].
  rewrite (known_parents_In s known' m' v Hok' a), HK. split; [intros H; destruct (SH a b H) as [-> _]; auto|]. intros [H ->]. exact H.
Qed.
Theorem C92_hill_climbing_again mp n pat mp' n' pat' es tr es' tr' :
  hill_climbing Sc score gt t draws s m v mp n pat = Ok (es, tr) -> (forall a, In (a, v) known' <-> In (a, v) es) ->
  hill_climbing Sc score gt t draws' s m' v mp' n' pat' = Ok (es', tr') -> no_worse gt score t s v es es'.
Proof.
  intros H HK H'. destruct (concl_shape Sc score gt t s known m v Hok mp n pat es tr (hill_outcome Sc score gt t draws s known m v Hok mp n pat es tr H)) as [N SH].
  destruct (C28_hill_climbing_never_worse Sc score gt t draws' s known' m' v mp' n' pat' es' tr' Hok' HG H') as [a [b [A1 [A2 [A3 _]]]]].
  rewrite (start_again es N ltac:(intros x y Hxy; destruct (SH x y Hxy); tauto) HK) in A1. exists a, b. split; [exact A1|]. split; [exact A2|]. destruct A3 as [A3|[A3 _]]; auto.
Qed.
Theorem C92_tabu_search_again mp n pat len dur mp' n' pat' len' dur' es tr es' tr' :
  tabu_search Sc score gt t draws s m v mp n pat len dur = Ok (es, tr) -> (forall a, In (a, v) known' <-> In (a, v) es) ->
  tabu_search Sc score gt t draws' s m' v mp' n' pat' len' dur' = Ok (es', tr') -> no_worse gt score t s v es es'.
Proof.
  intros H HK H'. destruct (concl_shape Sc score gt t s known m v Hok mp n pat es _ (proj1 (tabu_outcome Sc score gt t draws s known m v Hok mp n pat len dur es tr H))) as [N SH].
  destruct (C28_tabu_search_never_worse Sc score gt t draws' s known' m' v mp' n' pat' len' dur' es' tr' Hok' HG H') as [a [b [A1 [A2 [A3 _]]]]].
  rewrite (start_again es N ltac:(intros x y Hxy; destruct (SH x y Hxy); tauto) HK) in A1. exists a, b. split; [exact A1|]. split; [exact A2|]. destruct A3 as [A3|[A3 _]]; auto.
Qed.
End search.
Print Assumptions C92_known_edges_it_would_find. Print Assumptions C92_result_given_back. Print Assumptions C92_hill_climbing_again. Print Assumptions C92_tabu_search_again.

(** ** concrete data: X changes in every trajectory with W = 0 and in half of those with W = 1, whatever Y *)
Definition kvars : list label := ["X";"W";"Y"].
Definition kraw (w y x' : Z) : raw := [(0%Qc, [0%Z; w; y]); (1%Qc, [x'; w; y])].
Definition kraws : list raw := flat_map (fun y => [kraw 0 y 1; kraw 0 y 1; kraw 1 y 1; kraw 1 y 0]) [0;1]%Z.
(** a test that rejects when the rates of leaving state 0 differ and both matrices have at least three transitions *)
Definition ktests (_ : nat) (c1 c2 : cim) : bool :=
  let n1 := nth 1 (hd [] (c_trans c1)) 0%Z in let n2 := nth 1 (hd [] (c_trans c2)) 0%Z in
  ((n1 <? 3)%Z || (n2 <? 3)%Z) || (if Qc_eq_dec (Qc_of_Z n1 * hd 0%Qc (c_times c2))%Qc (Qc_of_Z n2 * hd 0%Qc (c_times c1))%Qc then true else false).
Example kraws_legal : legal_input kvars [2;2;2] kraws /\ equal_cards [2;2;2] 2.
Proof.
  split.
  - split; [|split; [discriminate|split; [reflexivity|split; [|eexists; split; [left; reflexivity|cbn; lia]]]]].
    + unfold good_header. repeat split; try (repeat constructor; cbn; intuition discriminate); try (cbn; intuition discriminate).
    + unfold kraws. cbn [flat_map app]. repeat (constructor; [split; [intros ab [<-|[]]; split; repeat constructor; cbn; lia|intros o [<-|[<-|[]]]; reflexivity]|]). constructor.
  - split; [lia|]. intros x [<-|[<-|[<-|[]]]]; reflexivity.
Qed.
Notation krun known es := (exists s t est est', imports_to kvars [2;2;2] None kraws s t
  /\ new_cb_estimator s t (length kvars) known 1%Qc ktests = Ok est /\ cb_estimate_structure est false = Ok (es, est')).
(** finding: a known edge that would not be found can make another edge disappear (the data given Y are too few to see the effect of W),
    although that other edge, given as known, changes nothing *)
Theorem C92_another_known_edge_refuted : krun [] [("W","X")] /\ krun [("W","X")] [("W","X")] /\ krun [("Y","X")] [("Y","X")].
Proof.
  assert (HL : legal_input kvars [2;2;2] kraws) by exact (proj1 kraws_legal).
  repeat split; exists (struct_of kvars [2;2;2] None), (traj_of kvars kraws); do 2 eexists; (split; [apply imports_exists; exact HL|]; split; [vm_compute; reflexivity|vm_compute; reflexivity]).
Qed.
Print Assumptions C92_another_known_edge_refuted.
(** restarting the search of C28 from its result *)
Example C92_case_again : exists es tr m' es' tr', search_ready px sknown smat "X" /\ search_ready px es m' "X" /\ strict_order wgt
  /\ hill_climbing Z wscore wgt pt (fun k => k) px smat "X" None 3 None = Ok (es, tr)
  /\ hill_climbing Z wscore wgt pt (fun k => S k) px m' "X" None 4 None = Ok (es', tr').
Proof.
  do 5 eexists. split; [exact sready|]. split; [|split; [exact wgt_order|split; [vm_compute; reflexivity|]]].
  - split; [exact px_wf|]. split; [reflexivity|]. split; [reflexivity|]. split; [|split; [reflexivity|cbn; tauto]]. intros e He. cbn in He. repeat destruct He as [<-|He]; cbn; tauto.
  - vm_compute. reflexivity.
Qed.
