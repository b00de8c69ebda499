(** C85 on the whole chain from the trajectories to the CIMs. *)
From Verif Require Import Base Lib ModelStructure ModelGraph ModelCims ModelData ModelParams ModelFamScore SpecStructure SpecGraph SpecComb SpecParams SpecData SpecCtpc SpecInvariance SpecFloating SpecBias
  ProofGraph ProofComb ProofParams ProofParams2 ProofParams3 ProofInvariance ProofConserve ProofUnit3 ProofIndep ProofUnit ProofFamScore2 ProofBias ProofBias2.
From Coq Require Import Reals Lra.
Close Scope R_scope. Open Scope nat_scope.

Section node.
Variables (vars : list label) (cards : list nat) (prior : option (list edge)) (es : list edge) (v : label) (c ni : nat) (pis ps : list nat).
Notation learned := (learned vars cards prior es v c ni pis ps).

Lemma learned_char rs soc : legal_input vars cards rs -> learned rs soc ->
  soc = MkSetOfCims (build_p_comb_structure_for_a_node ps) (map (raw_cim rs ni pis c) (le_enum ps)).
Proof.
  intros HL [s [t [g [H [A1 [A2 [A3 [A4 [A5 [G1 G2]]]]]]]]]]. apply (imports_det vars cards prior rs s t HL) in H as [-> ->].
  destruct (raw_params vars cards prior rs es v c ni pis ps HL A1 A2 A3 A4 A5) as [g' [K1 K2]]. rewrite G1 in K1. injection K1 as <-. rewrite G2 in K2. injection K2 as ->. reflexivity.
Qed.
Lemma learned_exists rs : legal_input vars cards rs -> edges_within vars es -> edges_within vars (match prior with None => [] | Some l => l end) ->
  (forall s t, imports_to vars cards prior rs s t -> node_view s (es ++ edges_list s) v c ni pis ps) -> 0 < c -> compat c ps -> exists soc, learned rs soc.
Proof.
  intros HL A1 A2 A3 A4 A5. pose proof (imports_exists vars cards prior rs HL) as HI. specialize (A3 _ _ HI).
  destruct (raw_params vars cards prior rs es v c ni pis ps HL A1 A2 A3 A4 A5) as [g' [K1 K2]]. eexists. eexists _, _, g'. split; [exact HI|]. do 5 (split; [assumption|]). split; [exact K1|exact K2].
Qed.
Lemma learned_more rs rs' soc : legal_input vars cards rs -> legal_input vars cards rs' -> learned rs soc -> exists soc', learned rs' soc'.
Proof.
  intros HL HL' [s [t [g [H [A1 [A2 [A3 [A4 [A5 [G1 G2]]]]]]]]]]. apply (imports_det vars cards prior rs s t HL) in H as [-> ->].
  apply learned_exists; try assumption. intros s' t' H'. apply (imports_det vars cards prior rs' s' t' HL') in H' as [-> _]. exact A3.
Qed.
Lemma entry_is rs soc u x y q : legal_input vars cards rs -> learned rs soc -> config_ok ps u -> x < c -> y < c ->
  (intensity ps soc u x y q <-> q = (Qc_of_Z (net_transitions rs ni pis c u x y) + 1) / (time_spent rs ni pis u x + 1))%Qc.
Proof.
  intros HL H Hu Hx Hy. rewrite (learned_char rs soc HL H). unfold intensity. cbn [so_actual_cims].
  destruct (bias_entry rs ni pis c u x y Hx Hy) as [row [R1 R2]].
  assert (E : nth_error (map (raw_cim rs ni pis c) (le_enum ps)) (config_rank ps u) = Some (raw_cim rs ni pis c u)) by (rewrite map_nth_error_iff, (le_enum_rank ps u Hu); reflexivity).
  split.
  - intros [cm [row' [K1 [K2 K3]]]]. rewrite E in K1. injection K1 as <-. rewrite R1 in K2. injection K2 as <-. rewrite R2 in K3. injection K3 as <-. reflexivity.
  - intros ->. exists (raw_cim rs ni pis c u), row. auto.
Qed.
Lemma spent_nonneg rs u x : Forall clock_ok rs -> (0 <= time_spent rs ni pis u x)%Qc.
Proof. apply raw_dwell_nonneg. Qed.
Lemma net_sign rs u x y : (x <> y -> (0 <= net_transitions rs ni pis c u x y)%Z) /\ (x = y -> (net_transitions rs ni pis c u x y <= 0)%Z).
Proof.
  unfold net_transitions. split; intros E.
  - destruct (Nat.eqb_spec x y); [contradiction|]. apply raw_jumps_nonneg.
  - subst y. rewrite Nat.eqb_refl. apply Z.opp_nonpos_nonneg. induction (seq 0 c) as [|z l IH]; [cbn; lia|]. cbn [map]. rewrite Zsum_cons.
    pose proof (raw_jumps_nonneg rs ni z (ni :: pis) (x :: u)). destruct (z =? x); lia.
Qed.
End node.
