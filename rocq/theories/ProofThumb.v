(** The threshold of the sample-size rule of thumb (C94). *)
From Coq Require Import Reals.
From Verif Require Import Base Lib LibQc ModelStructure ModelGraph ModelCims ModelData ModelParams ModelCache ModelCtpc
  SpecStructure SpecGraph SpecComb SpecParams SpecData SpecCtpc SpecRecover SpecInvariance SpecConserve SpecAlgorithm SpecHistory
  ProofStructure ProofGraph ProofComb ProofParams ProofParams2 ProofParams3 ProofCache
  ProofCtpc ProofCtpc2 ProofCtpc3 ProofCtpc4 ProofCtpc5 ProofCtpc6 ProofCtpc7 ProofAlgorithm ProofAlgorithm2 ProofAlgorithm3
  ProofHistory ProofHistory2 ProofHistory3 ProofRecover ProofInvariance ProofLevels ProofFew3 ProofFew4 ProofCoding3.
Close Scope R_scope. Open Scope nat_scope.

(** ** One test under two thresholds *)
Section two.
Variables (s : structure) (t : trajectory) (thr thr' : Qc) (tests : nat -> cim -> cim -> bool) (cs : nat).
Let e := MkEnv s t thr tests.
Let e' := MkEnv s t thr' tests.
Hypothesis HT : (thr <= thr')%Qc.

Lemma few_mono th c : too_few e cs th c = true -> too_few e' cs th c = true.
Proof.
  unfold too_few. rewrite !andb_true_iff. intros [A B]. split; [exact A|]. revert B. unfold below_threshold. cbn [e e' e_threshold].
  destruct (th =? 0); [trivial|]. destruct (Qccompare _ thr) eqn:E; try discriminate. intros _. apply Qclt_alt in E.
  pose proof (Qclt_le_trans _ _ _ E HT) as L. apply (proj1 (Qclt_alt _ _)) in L. destruct (Qccompare _ thr') eqn:F; [|reflexivity|]; exfalso; unfold Qccompare in L, F; congruence.
Qed.
Lemma cims_raise c1 th l : verdict_cims e' cs c1 th l = verdict_cims e cs c1 th l \/ verdict_cims e' cs c1 th l = (false, true).
Proof.
  induction l as [|c2 l IH]; [left; reflexivity|]. cbn [verdict_cims]. destruct (too_few e' cs th c1) eqn:E'; [right; reflexivity|].
  destruct (too_few e cs th c1) eqn:E; [apply few_mono in E; congruence|]. change (e_tests e') with (e_tests e). destruct (e_tests e cs c1 c2); [exact IH|left; reflexivity].
Qed.
Lemma configs_raise so flt th l : verdict_configs e' cs so flt th l = verdict_configs e cs so flt th l \/ (verdict_configs e' cs so flt th l = Ok (false, true) /\ True)
  \/ exists x, verdict_configs e cs so flt th l = Err x.
Proof.
  induction l as [|[c1 pc] l IH]; [left; reflexivity|]. cbn [verdict_configs]. destruct (filter_cims_with_mask so flt pc) as [cc|x]; cbn [bind]; [|left; reflexivity].
  destruct (cims_raise c1 th cc) as [E|E]; rewrite E; [|right; left; split; [reflexivity|exact I]].
  destruct (verdict_cims e cs c1 th cc) as [[] mk]; [exact IH|left; reflexivity].
Qed.
Lemma verdict_raise tot v p S b mk : verdict e tot v p S cs = Ok (b, mk) ->
  verdict e' tot v p S cs = Ok (b, mk) \/ verdict e' tot v p S cs = Ok (false, true).
Proof.
  unfold verdict. cbn [e e' e_struct e_traj]. intros H. apply bind_ok in H as [so2 [E2 H]]. apply bind_ok in H as [so1 [E1 H]]. apply bind_ok in H as [th [Eh H]].
  rewrite E2. cbn [bind]. rewrite E1. cbn [bind]. rewrite Eh. cbn [bind].
  destruct (configs_raise so2 (filter_of s p S) th (combine (so_actual_cims so1) (so_p_combs so1))) as [K|[[K _]|[x K]]].
  - left. rewrite <- H. exact K.
  - right. exact K.
  - fold e in H. rewrite K in H. discriminate.
Qed.
End two.
Lemma verdict_sets e tot v p S S' cs : same_set S S' -> verdict e tot v p S cs = verdict e tot v p S' cs.
Proof.
  intros H. unfold verdict. rewrite (set_params_ext _ _ _ _ S S' H).
  rewrite (set_params_ext _ _ _ _ (p :: S) (p :: S')) by (intros z; cbn [In]; rewrite (H z); tauto).
  assert (EM : forall T T' : list label, same_set T T' -> isin_mask (nodes_labels (e_struct e)) T = isin_mask (nodes_labels (e_struct e)) T').
  { intros T T' K. apply map_ext. intros l. apply eq_true_iff_eq. rewrite !lmem_In. apply K. }
  unfold thumb_of, filter_of. rewrite (EM S S' H), (EM (S ++ [p]) (S' ++ [p])) by (intros z; rewrite !in_app_iff, (H z); tauto). reflexivity.
Qed.

(** ** Nothing gives up: all calls agree *)
Section quiet.
Variables (s : structure) (t : trajectory) (thr : Qc) (tests : nat -> cim -> cim -> bool) (tot k : nat).
Let e := MkEnv (clean_structure_edges s) t thr tests.
Hypothesis Hwf : wf_structure s.
Hypothesis Hnd : NoDup (nodes_indexes s).
Hypothesis Hlt : forall i, In i (nodes_indexes s) -> i < tot.
Hypothesis Htot : total_variables_number s = tot.
Hypothesis Hd : data_ok s t.
Hypothesis Hk : 0 < k.
Hypothesis HU : forall x, In x (nodes_values s) -> x = k.
Hypothesis HQ : forall v p sep, test_ok s v p sep -> snd (the_ask e tot v k p sep) = false.

Lemma quiet_unmarked m mp : square tot m -> exists es g, cb_estimate_structure (at_matrix s t thr tests tot m) mp = Ok (es, MkCbEst e tot (MkState m empty_cache) g).
Proof.
  intros Sm. pose proof (has_protection s t thr tests tot Hwf Hlt m Sm) as HP. set (pr := fun v => _) in HP.
  destruct (estimate_step s t thr tests tot k Hwf Hnd Hlt Htot Hd Hk HU m pr mp Sm HP) as [es [m' [g [E [_ [S' [K [_ [_ P]]]]]]]]].
  exists es, g. rewrite E. assert (m' = m); [|subst; reflexivity].
  apply (open_ext s tot Hwf Hlt m m' Sm S' K). intros [p v] Hx. apply pairs_In in Hx as [Hv Hp].
  unfold open_pair. cbn [fst snd]. rewrite (P v Hv p Hp : mat_get m' (idx_of s p) (idx_of s v) = _). rewrite (HP v Hv p Hp : mat_get m (idx_of s p) (idx_of s v) = _).
  f_equal. destruct mp; [|reflexivity]. apply eq_true_iff_eq. rewrite !lmem_In. split; [|apply rounds_keep].
  intros Hin. apply (rounds_gave_up _ (others s v)) in Hin; [|apply NoDup_filter', Hwf|intros q Hq; exact Hq]. destruct Hin as [Hin|[sep [A1 [A2 [A3 A4]]]]]; [exact Hin|exfalso].
  assert (Ht : test_ok s v p sep).
  { apply others_In in A1 as [B1 B2]. split; [exact Hv|]. split; [exact B1|]. split.
    - constructor; [|exact A2]. intros [Q|Q]; [congruence|]. apply A3, others_In in Q. tauto.
    - intros q Hq. apply A3, others_In in Hq. tauto. }
  pose proof (HQ v p sep Ht) as F. fold e in A4. rewrite A4 in F. discriminate.
Qed.
Lemma quiet_calls est m modes ess est' : is_at s t thr tests tot est m -> calls est modes = Ok (ess, est') -> forall a b, In a ess -> In b ess -> a = b.
Proof.
  intros HI H a b Ha Hb. pose proof HI as [_ [_ [_ Sm]]]. destruct (quiet_unmarked m true Sm) as [es [g E]].
  pose proof (calls_fixed s t thr tests tot k Hwf Hnd Hlt Htot Hd Hk HU m es _ g Sm E eq_refl modes est ess est' HI H) as K. rewrite (K a Ha), (K b Hb). reflexivity.
Qed.
End quiet.
