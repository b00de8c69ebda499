(** The choice and the order of the columns: scores (C80). *)
From Coq Require Import Reals.
From Verif Require Import Base Lib LibQc ModelStructure ModelGraph ModelCims ModelData ModelParams ModelCache ModelCtpc ModelSearch ModelEstimators ModelFamScore
  SpecStructure SpecGraph SpecComb SpecParams SpecData SpecCtpc SpecInvariance SpecColumns
  ProofStructure ProofGraph ProofComb ProofParams ProofParams2 ProofParams3 ProofData ProofCtpc ProofSearch ProofInvariance ProofCoding2 ProofColumns ProofColumns2 ProofColumns3.
From Verif Require ProofRedundant2.
Open Scope nat_scope.

Section sel.
Variables (sg : list nat) (vars : list label) (cards : list nat) (prior : option (list edge)) (rs : list raw) (k : nat).
Hypothesis HS : selection sg (length vars).
Hypothesis HL : legal_input vars cards rs.
Hypothesis HE : equal_cards cards k.
Let vars' := pick sg vars.
Let s := struct_of vars cards prior.
Let s' := struct_of (pick sg vars) (pick sg cards) prior.
Let rs' := picked sg rs.

Lemma pscore_columns lg tau alpha v K : In v vars' -> (forall l, In l K -> In l vars') ->
  pscore R (fun cims => get_fam_score lg cims tau alpha) (traj_of vars' rs') (clean_structure_edges s') v K
  = pscore R (fun cims => get_fam_score lg cims tau alpha) (traj_of vars rs) (clean_structure_edges s) v K.
Proof.
  intros Hv HK. destruct HE as [Hk HU]. pose proof (legal_picked sg vars cards HS rs HL) as HL'. fold vars' rs' in HL'.
  unfold pscore. rewrite !set_params_clean. change (total_variables_number (clean_structure_edges s)) with (length vars).
  change (total_variables_number (clean_structure_edges s')) with (length vars').
  pose proof (raw_set_params vars' (pick sg cards) prior rs' k v K HL' Hk (proj2 (equal' sg cards k HE)) Hv HK) as E'. cbn zeta in E'.
  change (struct_of vars' (pick sg cards) prior) with s' in E'. rewrite E'. clear E'.
  unfold s. rewrite (raw_set_params vars cards prior rs k v K HL Hk HU (pick_In _ _ _ Hv) (fun l Hl => pick_In _ _ _ (HK l Hl))).
  fold s. cbn [bind so_actual_cims].
  assert (Q1 : Permutation (parents_in s' K) (parents_in s K)).
  { apply (filter_pick sg vars cards prior rs HS HL). intros l _ Hl. apply lmem_In in Hl. apply HK, Hl. }
  assert (Q2 : forall l, In l (parents_in s' K) -> In l vars') by (intros l Hl; unfold parents_in in Hl; apply filter_In in Hl; apply Hl).
  assert (EC : val_of s' v = val_of s v) by (apply (idx_pick sg vars cards prior rs HS HL), Hv).
  assert (EV : map (val_of s') (parents_in s' K) = map (val_of s) (parents_in s' K)).
  { apply map_ext_in. intros l Hl. apply (idx_pick sg vars cards prior rs HS HL), Q2, Hl. }
  rewrite EC, EV. symmetry. apply (ProofRedundant2.full_perm lg (val_of s v)).
  - apply enum_perm; [|exact Q1|].
    + apply NoDup_filter'. exact (proj1 (wf_s vars cards prior rs HL)).
    + intros a _. exact (cim_pick sg vars cards prior rs HS HL v _ _ (val_of s v) a Hv Q1 Q2).
  - apply Forall_map, Forall_forall. intros u _. apply raw_full.
Qed.

Lemma same_labels : Permutation sg (seq 0 (length vars)) -> same_set vars' vars.
Proof.
  intros HP l. split; [apply pick_In|]. intros Hl. apply In_nth_error in Hl as [i Hi].
  assert (Hs : In i sg). { apply (Permutation_in i (Permutation_sym HP)), in_seq. split; [lia|]. apply nth_error_Some. congruence. }
  apply In_nth_error in Hs as [j Hj]. apply (nth_error_In _ j). unfold vars'. rewrite pick_nth by apply HS. rewrite Hj. exact Hi.
Qed.
Lemma same_rows : sg = seq 0 (length vars) -> vars' = vars /\ pick sg cards = cards /\ rs' = rs.
Proof.
  intros E. destruct HL as [HG [HV [HC [HR _]]]]. unfold vars', rs'. rewrite E. split; [apply pick_all|]. split; [rewrite <- HC; apply pick_all|].
  unfold picked. rewrite <- (map_id rs) at 2. apply map_ext_in. intros r Hr. rewrite Forall_forall in HR. destruct (HR r Hr) as [_ Hr'].
  rewrite <- (map_id r) at 2. apply map_ext_in. intros [t0 row] Ho. cbn [fst snd].
  pose proof (Hr' _ Ho) as El. cbn in El. rewrite <- HC. rewrite <- El. rewrite pick_all. reflexivity.
Qed.
End sel.
