(** Property theorems C91: what the limits of the score-based search (iterations, patience, max_parents, tabu_length) do. *)
From Verif Require Import Base Lib ModelStructure ModelGraph ModelCims ModelData ModelParams ModelCtpc ModelSearch ModelEstimators
  SpecStructure SpecGraph SpecParams SpecCtpc SpecSearch SpecEstimators SpecTuning
  ProofStructure ProofGraph ProofSearch ProofSearch2 ProofSearch3 ProofEstimators2 ProofCache ProofTuning PropsParams PropsSearch PropsEstimators.

Section search.
Variables (Sc : Type) (score : list cim -> result Sc) (gt : Sc -> Sc -> bool) (t : trajectory) (draws : nat -> nat).
Variables (s : structure) (known : list edge) (m : list (list bool)) (v : label).
Hypothesis Hok : search_ready s known m v.
Notation hill mp n pat := (hill_climbing Sc score gt t draws s m v mp n pat).
Notation tabu mp n pat len dur := (tabu_search Sc score gt t draws s m v mp n pat len dur).
Lemma worse tr more es es' sc0 sc sc' : strict_order gt -> score_of score t s v es = Ok sc -> score_of score t s v es' = Ok sc' ->
  improving gt sc0 tr sc -> improving gt sc0 (tr ++ more) sc' -> no_worse gt score t s v es es'.
Proof.
  intros HG E1 E2 I1 I2. exists sc, sc'. split; [exact E1|]. split; [exact E2|]. destruct (improving_cases gt sc more sc' HG (improving_det gt sc0 tr sc I1 more sc' I2)) as [H|[H _]]; auto.
Qed.
(** with the same random numbers, a search that may go on for longer (more iterations, more patience) first does exactly what the shorter
    one does, and does not end with a worse score *)
Theorem C91_hill_climbing_goes_on mp n n' pat pat' r' : strict_order gt -> n <= n' -> at_least_as_patient pat pat' -> hill mp n' pat' = Ok r' ->
  exists r, hill mp n pat = Ok r /\ continues r r' /\ no_worse gt score t s v (fst r) (fst r').
Proof.
  intros HG Hn HP H'. pose proof H' as H. destruct r' as [es' tr']. unfold hill_climbing in H. apply bind_ok in H as [[g cands] [E0 H]]. apply bind_ok in H as [[best g1] [E1 H]]. apply bind_ok in H as [[g2 tr2] [H E]]. injection E as <- <-.
  destruct (hill_more Sc score gt t draws v cands mp pat pat' HP n n' g1 best 0 0 g2 tr2 Hn H) as [g3 [tr3 [H3 [more [E3 E4]]]]].
  assert (R1 : hill mp n pat = Ok (ng_edges g3, tr3)) by (unfold hill_climbing; rewrite E0; cbn [bind]; rewrite E1; cbn [bind]; rewrite H3; reflexivity).
  exists (ng_edges g3, tr3). split; [exact R1|]. split; [exists more; split; [exact E3|intros X; cbn [fst]; rewrite (E4 X); reflexivity]|]. cbn [fst].
  destruct (C28_hill_climbing_never_worse Sc score gt t draws s known m v mp n' pat' _ _ Hok HG H') as [a0 [a [A1 [A2 [_ [A3 _]]]]]].
  destruct (C28_hill_climbing_never_worse Sc score gt t draws s known m v mp n pat _ _ Hok HG R1) as [b0 [b [B1 [B2 [_ [B3 _]]]]]].
  assert (a0 = b0) by congruence. subst b0. rewrite E3 in A3. exact (worse tr3 more _ _ a0 b a HG B2 A2 B3 A3).
Qed.
Theorem C91_tabu_search_goes_on mp n n' pat pat' len dur r' : strict_order gt -> n <= n' -> at_least_as_patient pat pat' -> tabu mp n' pat' len dur = Ok r' ->
  exists r, tabu mp n pat len dur = Ok r /\ continues r r' /\ no_worse gt score t s v (fst r) (fst r').
Proof.
  intros HG Hn HP H'. pose proof H' as H. destruct r' as [es' tr']. unfold tabu_search in H. apply bind_ok in H as [[g cands] [E0 H]]. apply bind_ok in H as [[best g1] [E1 H]]. apply bind_ok in H as [[g2 tr2] [H E]]. injection E as <- <-.
  destruct (tabu_more Sc score gt t draws v _ mp pat pat' _ _ HP n n' g1 best 0 0 [] [] 0 g2 tr2 Hn H) as [g3 [tr3 [H3 [more [E3 E4]]]]].
  assert (R1 : tabu mp n pat len dur = Ok (ng_edges g3, tr3)) by (unfold tabu_search; rewrite E0; cbn [bind]; rewrite E1; cbn [bind]; rewrite H3; reflexivity).
  exists (ng_edges g3, tr3). split; [exact R1|]. split; [exists more; split; [exact E3|intros X; cbn [fst]; rewrite (E4 X); reflexivity]|]. cbn [fst].
  destruct (C28_tabu_search_never_worse Sc score gt t draws s known m v mp n' pat' len dur _ _ Hok HG H') as [a0 [a [A1 [A2 [_ [A3 _]]]]]].
  destruct (C28_tabu_search_never_worse Sc score gt t draws s known m v mp n pat len dur _ _ Hok HG R1) as [b0 [b [B1 [B2 [_ [B3 _]]]]]].
  assert (a0 = b0) by congruence. subst b0. rewrite E3, map_app in A3. exact (worse _ _ _ _ a0 b a HG B2 A2 B3 A3).
Qed.
(** limits that cannot be reached make no difference, not even to failures *)
Theorem C91_patience_without_effect mp n p len dur : n <= p -> hill mp n (Some p) = hill mp n None /\ tabu mp n (Some p) len dur = tabu mp n None len dur.
Proof.
  intros Hp. unfold hill_climbing, tabu_search. split; apply bind_ext'; intros [g cands]; apply bind_ext'; intros [best g1].
  - rewrite (hill_patience Sc score gt t draws v cands mp p n) by lia. reflexivity.
  - rewrite (tabu_patience Sc score gt t draws v _ mp p) by lia. reflexivity.
Qed.
Theorem C91_max_parents_without_effect k n pat len dur : length (known_parents s known v) + length (candidate_parents s known v) <= k ->
  hill (Some k) n pat = hill None n pat /\ tabu (Some k) n pat len dur = tabu None n pat len dur.
Proof.
  intros Hk. unfold hill_climbing, tabu_search. destruct (start_spec s known m v Hok) as [g [P [-> [Rg HK]]]]. cbn [bind]. rewrite (cands_set s known m v Hok).
  pose proof (rep_score Sc score t s v (proj1 Hok) (Hed _ _ _ _ Hok) (Hv _ _ _ _ Hok) g P Rg) as HS.
  assert (HC : forall c, In c (candidate_parents s known v) -> In c (nodes_labels s)) by (intros c Hc; apply filter_In in Hc; tauto).
  destruct (pscore Sc score t s v P) as [sc|x] eqn:EP; [|rewrite HS; split; reflexivity]. destruct HS as [g1 [-> R1]]. cbn [bind]. split.
  - rewrite (hill_limit Sc score gt t draws s v (proj1 Hok) (Hed _ _ _ _ Hok) (Hv _ _ _ _ Hok) _ (known_parents s known v) HC k Hk pat n g1 P); [reflexivity|exact R1|]. intros x Hx. left. apply HK, Hx.
  - rewrite (tabu_limit Sc score gt t draws s v (proj1 Hok) (Hed _ _ _ _ Hok) (Hv _ _ _ _ Hok) _ (known_parents s known v) HC k Hk (Some k) None pat _ _ _ (or_intror (conj eq_refl eq_refl)) (or_introl eq_refl) n g1 P); [reflexivity|exact R1| | |cbn; lia].
    + intros _ x Hx. left. apply HK, Hx.
    + split; [constructor|]. split; [intros x; tauto|intros y []].
Qed.
Theorem C91_tabu_length_without_effect mp n pat l dur : length (candidate_parents s known v) <= l -> tabu mp n pat (Some l) dur = tabu mp n pat None dur.
Proof.
  intros Hl. unfold tabu_search. destruct (start_spec s known m v Hok) as [g [P [-> [Rg HK]]]]. cbn [bind]. rewrite (cands_set s known m v Hok).
  pose proof (rep_score Sc score t s v (proj1 Hok) (Hed _ _ _ _ Hok) (Hv _ _ _ _ Hok) g P Rg) as HS.
  assert (HC : forall c, In c (candidate_parents s known v) -> In c (nodes_labels s)) by (intros c Hc; apply filter_In in Hc; tauto).
  destruct (pscore Sc score t s v P) as [sc|x] eqn:EP; [|rewrite HS; reflexivity]. destruct HS as [g1 [-> R1]]. cbn [bind opt_default].
  rewrite (tabu_limit Sc score gt t draws s v (proj1 Hok) (Hed _ _ _ _ Hok) (Hv _ _ _ _ Hok) _ (known_parents s known v) HC _ (le_n _) mp mp pat l (length (candidate_parents s known v)) _ (or_introl eq_refl) (or_intror (conj Hl (le_n _))) n g1 P); [reflexivity|exact R1| | |cbn; lia].
  - intros _ x Hx. left. apply HK, Hx.
  - split; [constructor|]. split; [intros x; tauto|intros y []].
Qed.
Lemma counted : length (known_parents s known v) + length (candidate_parents s known v) <= length (nodes_labels s).
Proof.
  rewrite <- app_length. destruct Hok as [[HN _] _]. apply NoDup_incl_length.
  - apply NoDup_app_intro; try (apply NoDup_filter, HN). intros x Hx Hy. apply filter_In in Hx as [_ Hx]. apply filter_In in Hy as [_ Hy]. rewrite Hx in Hy. rewrite andb_false_r in Hy. discriminate.
  - intros x Hx. apply in_app_iff in Hx as [Hx|Hx]; apply filter_In in Hx; apply Hx.
Qed.
End search.
(** the whole call: max_parents and tabu_length not below the number of variables and patience not below the number of iterations have no
    effect on the edges returned, on what is printed, on the object afterwards or on failures, in either mode *)
Theorem C91_estimate_structure_without_effect Sc score gt est known draws p dm pn : sb_ready est known ->
  (forall k, sp_max_parents p = Some k -> length (nodes_labels (sb_struct est)) <= k) ->
  (forall k, sp_patience p = Some k -> sp_iterations p <= k) ->
  (forall k, sp_tabu_length p = Some k -> length (nodes_labels (sb_struct est)) <= k) ->
  sb_estimate_structure Sc score gt est draws p dm pn
    = sb_estimate_structure Sc score gt est draws (MkSbParams None (sp_iterations p) None None (sp_tabu_duration p) (sp_optimizer p)) dm pn.
Proof.
  intros Hr H1 H2 H3.
  assert (HF : forall v, In v (nodes_labels (sb_struct est)) -> estimate_parents Sc score gt (sb_cleaned est) (draws v) v p
    = estimate_parents Sc score gt (sb_cleaned est) (draws v) v (MkSbParams None (sp_iterations p) None None (sp_tabu_duration p) (sp_optimizer p))).
  { intros v Hv. pose proof (sb_search_ready est known v Hr Hv) as HR. change (sb_struct (sb_cleaned est)) with (clean_structure_edges (sb_struct est)) in HR.
    pose proof (counted _ _ _ _ HR) as HC. change (nodes_labels (clean_structure_edges (sb_struct est))) with (nodes_labels (sb_struct est)) in HC.
    unfold estimate_parents. destruct p as [mp n pat len dur opt]. cbn [sp_max_parents sp_iterations sp_patience sp_tabu_length sp_tabu_duration sp_optimizer sb_cleaned sb_struct sb_traj sb_matrix] in *.
    assert (HM : forall pat len, hill_climbing Sc score gt (sb_traj est) (draws v) (clean_structure_edges (sb_struct est)) (sb_matrix est) v mp n pat = hill_climbing Sc score gt (sb_traj est) (draws v) (clean_structure_edges (sb_struct est)) (sb_matrix est) v None n pat
       /\ tabu_search Sc score gt (sb_traj est) (draws v) (clean_structure_edges (sb_struct est)) (sb_matrix est) v mp n pat len dur = tabu_search Sc score gt (sb_traj est) (draws v) (clean_structure_edges (sb_struct est)) (sb_matrix est) v None n pat len dur).
    { intros pat' len'. destruct mp as [k|]; [|split; reflexivity]. apply (C91_max_parents_without_effect Sc score gt (sb_traj est) (draws v) _ known _ v HR). specialize (H1 k eq_refl). lia. }
    assert (HPt : forall len, hill_climbing Sc score gt (sb_traj est) (draws v) (clean_structure_edges (sb_struct est)) (sb_matrix est) v None n pat = hill_climbing Sc score gt (sb_traj est) (draws v) (clean_structure_edges (sb_struct est)) (sb_matrix est) v None n None
       /\ tabu_search Sc score gt (sb_traj est) (draws v) (clean_structure_edges (sb_struct est)) (sb_matrix est) v None n pat len dur = tabu_search Sc score gt (sb_traj est) (draws v) (clean_structure_edges (sb_struct est)) (sb_matrix est) v None n None len dur).
    { intros len'. destruct pat as [k|]; [|split; reflexivity]. apply C91_patience_without_effect. apply H2. reflexivity. }
    assert (HLn : tabu_search Sc score gt (sb_traj est) (draws v) (clean_structure_edges (sb_struct est)) (sb_matrix est) v None n None len dur = tabu_search Sc score gt (sb_traj est) (draws v) (clean_structure_edges (sb_struct est)) (sb_matrix est) v None n None None dur).
    { destruct len as [k|]; [|reflexivity]. apply (C91_tabu_length_without_effect Sc score gt (sb_traj est) (draws v) _ known _ v HR). specialize (H3 k eq_refl). lia. }
    destruct (String.eqb opt "tabu"); [rewrite (proj2 (HM pat len)), (proj2 (HPt len)), HLn|rewrite (proj1 (HM pat len)), (proj1 (HPt len))]; reflexivity. }
  unfold sb_estimate_structure. cbn [sb_struct sb_traj sb_matrix sb_graph clean_structure_edges nodes_labels].
  change (MkSbEst _ (sb_traj est) (sb_matrix est) (sb_graph est)) with (sb_cleaned est).
  set (f1 := fun v => estimate_parents Sc score gt (sb_cleaned est) (draws v) v p) in *.
  set (f2 := fun v => estimate_parents Sc score gt (sb_cleaned est) (draws v) v (MkSbParams None (sp_iterations p) None None (sp_tabu_duration p) (sp_optimizer p))) in *.
  assert (EM : res_map f1 (nodes_labels (sb_struct est)) = res_map f2 (nodes_labels (sb_struct est))) by (apply res_map_ext; exact HF).
  assert (EP : pool_map f1 (nodes_labels (sb_struct est)) = pool_map f2 (nodes_labels (sb_struct est))).
  { unfold pool_map. rewrite EM. replace (existsb (fun v => match f2 v with Err Blocked => true | _ => false end) (nodes_labels (sb_struct est))) with (existsb (fun v => match f1 v with Err Blocked => true | _ => false end) (nodes_labels (sb_struct est))); [reflexivity|].
    assert (HF' : forall v, In v (nodes_labels (sb_struct est)) -> f1 v = f2 v) by exact HF. clear -HF'. induction (nodes_labels (sb_struct est)) as [|a l IH]; [reflexivity|]. cbn [existsb]. rewrite (HF' a (or_introl eq_refl)), IH; [reflexivity|]. intros v Hv. apply HF'. right. exact Hv. }
  rewrite EM, EP. reflexivity.
Qed.
Print Assumptions C91_hill_climbing_goes_on. Print Assumptions C91_tabu_search_goes_on. Print Assumptions C91_patience_without_effect.
Print Assumptions C91_max_parents_without_effect. Print Assumptions C91_tabu_length_without_effect. Print Assumptions C91_estimate_structure_without_effect.
(** the hypotheses can be met: the first step of a search of seven, and limits that are never reached *)
Example C91_case_goes_on : exists es1 es7 tr1 tr7,
  search_ready px sknown smat "X" /\ strict_order wgt /\ at_least_as_patient (Some 1) (Some 3) /\ ~ at_least_as_patient None (Some 3)
  /\ hill_climbing Z wscore wgt pt (fun k => k) px smat "X" None 1 (Some 1) = Ok (es1, tr1) /\ length tr1 = 1
  /\ hill_climbing Z wscore wgt pt (fun k => k) px smat "X" None 7 (Some 3) = Ok (es7, tr7) /\ length tr7 = 4.
Proof.
  do 4 eexists. split; [exact sready|]. split; [exact wgt_order|]. split; [cbn; lia|]. split; [cbn; tauto|]. split; [vm_compute; reflexivity|]. split; [reflexivity|]. split; [vm_compute; reflexivity|]. reflexivity.
Qed.
Example C91_case_without_effect :
  let p := MkSbParams (Some 3) 5 (Some 5) (Some 4) None "tabu" in
  sb_ready sbest sknown /\ (forall k, sp_max_parents p = Some k -> length (nodes_labels (sb_struct sbest)) <= k)
  /\ (forall k, sp_patience p = Some k -> sp_iterations p <= k) /\ (forall k, sp_tabu_length p = Some k -> length (nodes_labels (sb_struct sbest)) <= k)
  /\ (exists es pr est', sb_estimate_structure Z wscore wgt sbest (fun _ k => k) p true None = Ok (es, pr, est') /\ es <> []).
Proof.
  cbn zeta. split; [exact sbest_ready|]. split; [intros k E; injection E as <-; cbn; lia|]. split; [intros k E; injection E as <-; cbn; lia|]. split; [intros k E; injection E as <-; cbn; lia|].
  do 3 eexists. split; [vm_compute; reflexivity|discriminate].
Qed.
