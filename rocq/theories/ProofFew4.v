(** Few observed changes and the constraint-based estimator (C87). *)
From Verif Require Import Base Lib LibQc ModelStructure ModelGraph ModelCims ModelData ModelParams ModelCache ModelCtpc
  SpecStructure SpecGraph SpecComb SpecParams SpecData SpecCtpc SpecRecover SpecInvariance SpecConserve SpecFloating SpecRedundant
  ProofStructure ProofGraph ProofComb ProofData ProofData3 ProofParams ProofParams2 ProofParams3 ProofConserve ProofInvariance ProofCache
  ProofCtpc ProofCtpc2 ProofCtpc3 ProofCtpc4 ProofCtpc5 ProofCtpc7 ProofAlgorithm3 ProofHistory3 ProofRecover ProofLevels ProofCtpc6 ProofFew3.
Close Scope R_scope. Open Scope nat_scope.

Lemma changes_nonneg rs ni : (0 <= observed_changes rs ni)%Z.
Proof. unfold observed_changes. induction rs as [|r l IH]; [apply Z.le_refl|]. cbn [map]. rewrite Zsum_cons. lia. Qed.

Section cb.
Variables (vars : list label) (cards : list nat) (prior : option (list edge)) (rs : list raw) (k : nat).
Hypothesis HL : legal_input vars cards rs.
Hypothesis HE : equal_cards cards k.
Notation s := (struct_of vars cards prior).
Notation t := (traj_of vars rs).
Variables (known : list edge) (thr : Qc) (tests : nat -> cim -> cim -> bool) (est : cb_estimator).
Hypothesis HN : new_cb_estimator s t (length vars) known thr tests = Ok est.
Lemma few_wf : wf_structure s. Proof. exact (legal_wf vars cards prior rs HL). Qed.
Lemma few_nd : NoDup (nodes_indexes s). Proof. apply seq_NoDup. Qed.
Lemma few_lt : forall i, In i (nodes_indexes s) -> i < length vars. Proof. intros i Hi. cbn in Hi. apply in_seq in Hi. lia. Qed.
Lemma few_ok : estimator_ok est /\ cb_e est = MkEnv s t thr tests /\ cb_tot est = length vars.
Proof. destruct (new_estimator_ok s t (length vars) known thr tests est few_wf few_nd few_lt HN) as [A [B [C _]]]. auto. Qed.
Lemma few_uniform : uniform_data est k.
Proof.
  destruct few_ok as [_ [B C]]. unfold uniform_data. rewrite B, C. cbn [e_struct e_traj]. split; [exact (proj1 HE)|]. split; [exact (proj2 HE)|]. split; [reflexivity|]. exact (legal_data vars cards prior rs HL).
Qed.
Lemma parents_in_length S : NoDup S -> (forall q, In q S -> In q vars) -> length (parents_in s S) = length S.
Proof.
  intros NS HS. apply Nat.le_antisymm; apply NoDup_incl_length.
  - unfold parents_in. apply NoDup_filter', few_wf.
  - intros x Hx. apply filter_In in Hx as [_ Hx]. apply lmem_In, Hx.
  - exact NS.
  - intros x Hx. apply filter_In. split; [apply HS, Hx|apply lmem_In, Hx].
Qed.
Lemma few_verdict v ni p S : 2 < k -> nth_error vars ni = Some v -> test_ok s v p S -> (Qc_of_Z (observed_changes rs ni) < thr * thumb k (length S))%Qc ->
  verdict (MkEnv s t thr tests) (length vars) v p S k = Ok (false, true).
Proof.
  intros Hk Hn Ht Hf. destruct (raw_idx vars cards prior rs HL v ni Hn) as [Hv Hi].
  pose proof (legal_data vars cards prior rs HL) as Hd. set (e := MkEnv s t thr tests).
  assert (PL : length (parents_in s S) = length S). { apply parents_in_length; [|exact (proj2 (proj2 (proj2 Ht)))]. destruct Ht as [_ [_ [N _]]]. inversion N as [|? ? _ N1]. inversion N1. assumption. }
  destruct (verdict_meaning e (length vars) k v p S few_wf Hd eq_refl (proj1 HE) (proj2 HE) Ht) as [b [mk [E1 E2]]].
  assert (Hb : b = false).
  { destruct b; [|reflexivity]. exfalso. destruct (proj1 E2 eq_refl (fun _ => 0) (fun _ => proj1 HE)) as [F _].
    cbn [e e_threshold e_traj e_struct] in F. rewrite Hi in F. revert F. apply (not_enough vars cards prior rs k HL HE thr v ni); [exact Hk|exact Hn|]. fold (parents_in s S). rewrite PL. exact Hf. }
  rewrite E1. subst b. f_equal. f_equal. clear E2. unfold verdict in E1. cbn [e e_struct e_traj] in E1.
  apply bind_ok in E1 as [so2 [_ E1]]. apply bind_ok in E1 as [so1 [P1 E1]]. apply bind_ok in E1 as [th [HT E1]].
  refine (verdict_few e k so2 _ th _ false mk _ E1 eq_refl). intros c1 pc Hin. apply in_combine_l in Hin.
  assert (EV : so_actual_cims so1 = map (data_cim t (length vars) ni (map (idx_of s) (parents_in s S)) k) (le_enum (map (val_of s) (parents_in s S)))).
  { rewrite (set_params_exact s t (length vars) v S few_wf Hd eq_refl Hv) in P1.
    - injection P1 as <-. cbn [so_actual_cims]. rewrite Hi. destruct (wf_lookup s v few_wf Hv) as [q [_ [_ [E3 _]]]]. rewrite (proj2 HE (val_of s v)) by (eapply nth_error_In, E3). reflexivity.
    - destruct (wf_lookup s v few_wf Hv) as [q [_ [_ [E3 _]]]]. rewrite (proj2 HE (val_of s v)) by (eapply nth_error_In, E3). exact (proj1 HE).
    - intros q Hq _. assert (X : forall l, In l vars -> val_of s l = k) by (intros l Hl; destruct (wf_lookup s l few_wf Hl) as [i [_ [_ [E3 _]]]]; apply (proj2 HE); eapply nth_error_In, E3).
      apply in_map_iff in Hq as [l [<- Hl]]. rewrite (X v Hv). apply X. apply filter_In in Hl. exact (proj1 Hl).
    - exact (proj2 (proj2 (proj2 Ht))). }
  rewrite EV in Hin. apply in_map_iff in Hin as [u [<- _]]. apply not_false_iff_true. intros F.
  rewrite <- Hi in F. apply (too_few_iff e (length vars) k v p S few_wf eq_refl (proj1 HE) (proj2 HE) Ht _ u th HT) in F. cbn [e e_threshold e_traj e_struct] in F. rewrite Hi in F.
  revert F. apply (not_enough vars cards prior rs k HL HE thr v ni); [exact Hk|exact Hn|]. fold (parents_in s S). rewrite PL. exact Hf.
Qed.
Lemma few_gives_up v ni p S : 2 < k -> nth_error vars ni = Some v -> test_ok s v p S -> ~ In (p, v) known -> (Qc_of_Z (observed_changes rs ni) < thr * thumb k (length S))%Qc ->
  gives_up est v p S.
Proof.
  intros Hk Hn Ht Hkn Hf. destruct (ask_faithful s t (length vars) k known thr tests est few_wf few_nd few_lt eq_refl (legal_data vars cards prior rs HL) (proj1 HE) (proj2 HE) HN v p S Ht) as [_ G].
  apply (G Hkn). unfold the_ask. rewrite (few_verdict v ni p S Hk Hn Ht Hf). reflexivity.
Qed.
Lemma few_false v ni p S : 2 < k -> nth_error vars ni = Some v -> test_ok s v p S -> (Qc_of_Z (observed_changes rs ni) < thr * thumb k (length S))%Qc ->
  ~ test_answers (cb_e est) (cb_tot est) (st_matrix (cb_st est)) v p S true.
Proof.
  intros Hk Hn Ht Hf H. destruct (ask_faithful s t (length vars) k known thr tests est few_wf few_nd few_lt eq_refl (legal_data vars cards prior rs HL) (proj1 HE) (proj2 HE) HN v p S Ht) as [G _].
  destruct few_ok as [_ [B C]]. rewrite B, C in H. apply G in H. unfold the_ask in H. rewrite (few_verdict v ni p S Hk Hn Ht Hf) in H. discriminate.
Qed.
(** an edge is missing because a test with enough observed changes separated its ends *)
Lemma absent_separated mp es est' v q : cb_estimate_structure est mp = Ok (es, est') -> In v vars -> In q vars -> q <> v -> ~ In (q, v) es ->
  exists sep, test_ok s v q sep /\ test_answers (cb_e est) (cb_tot est) (st_matrix (cb_st est)) v q sep true.
Proof.
  intros R1 Hv Hql Hqv E. destruct few_ok as [Hok [He Ht]]. assert (Es : e_struct (cb_e est) = s) by (rewrite He; reflexivity).
  destruct (estimate_char est Hok mp es est' R1) as [_ [W _]]. destruct (W v) as [esv [stv [Ho [He' _]]]]; [rewrite Es; exact Hv|]. clear W.
  destruct (optimize_justified (cleaned_est est) (cleaned_ok est Hok) v esv stv) as [_ [kept [K1 [K2 [K3 _]]]]]; [change (In v (nodes_labels (e_struct (cb_e est)))); rewrite Es; exact Hv|exact Ho|].
  change (others (e_struct (cb_e (cleaned_est est))) v) with (others (e_struct (cb_e est)) v) in K1, K3. rewrite Es in K1, K3.
  destruct (K3 q) as [sep [S1 [S2 [cs [i [j [st1 [A1 [A2 [A3 A4]]]]]]]]]].
  { apply others_In. auto. } { intros Hk'. apply E, He', K2. auto. }
  cbn [cleaned_est cb_e cb_tot cb_st] in A1, A2, A3, A4. rewrite complete_test_cleaned in A4. exists sep. split.
  - split; [exact Hv|]. split; [exact Hql|]. split.
    + constructor; [|constructor; [exact S2|]].
      * intros [F|F]; [congruence|]. apply (sublist_In _ _ _ S1) in F. apply others_In in F. tauto.
      * eapply sublist_NoDup; [exact S1|apply NoDup_filter'; apply few_wf].
    + intros z Hz. apply (sublist_In _ _ _ S1) in Hz. apply others_In in Hz. tauto.
  - exists cs, i, j, st1. auto.
Qed.
Lemma absent_data mp es est' v ni q : cb_estimate_structure est mp = Ok (es, est') -> nth_error vars ni = Some v -> In q vars -> q <> v -> ~ In (q, v) es ->
  exists sep, test_ok s v q sep /\ test_answers (cb_e est) (cb_tot est) (st_matrix (cb_st est)) v q sep true
    /\ (2 < k -> (thr * thumb k (length sep) <= Qc_of_Z (observed_changes rs ni))%Qc).
Proof.
  intros H Hn Hq Hqv Ha. destruct (absent_separated mp es est' v q H (nth_error_In _ _ Hn) Hq Hqv Ha) as [sep [A B]]. exists sep. split; [exact A|]. split; [exact B|].
  intros Hk. destruct (Qclt_le_dec (Qc_of_Z (observed_changes rs ni)) (thr * thumb k (length sep))) as [L|L]; [|exact L]. exfalso. exact (few_false v ni q sep Hk Hn A L B).
Qed.
Lemma all_reported mp es est' v ni q : 2 < k -> cb_estimate_structure est mp = Ok (es, est') -> nth_error vars ni = Some v -> In q vars -> q <> v ->
  (Qc_of_Z (observed_changes rs ni) < thr * thumb k 0)%Qc -> In (q, v) es.
Proof.
  intros Hk H Hn Hq Hqv Hf. destruct (in_dec edge_dec (q, v) es) as [I|I]; [exact I|exfalso].
  destruct (absent_data mp es est' v ni q H Hn Hq Hqv I) as [sep [_ [_ L]]]. specialize (L Hk).
  assert (P0 : (0 < thumb k 0)%Qc). { apply Qc_of_Z_pos. assert (0 < k ^ (1 + 0)) by (apply Nat.neq_0_lt_0, Nat.pow_nonzero; lia). assert (0 < k - 1) by lia. nia. }
  assert (T : (0 <= thr)%Qc).
  { destruct (Qclt_le_dec thr 0) as [N|N]; [exfalso|exact N]. pose proof (Qcmult_lt_compat_r _ _ _ P0 N) as X. rewrite Qcmult_0_l in X.
    apply (Qclt_not_le _ _ (Qclt_trans _ _ _ Hf X)). apply Qc_of_Z_nonneg, changes_nonneg. }
  apply (Qclt_not_le _ _ Hf). eapply Qcle_trans; [|exact L]. rewrite !(Qcmult_comm thr). apply Qcmult_le_compat_r; [|exact T]. apply Qc_of_Z_le, inj_le, Nat.mul_le_mono_l.
  apply Nat.pow_le_mono_r; lia.
Qed.
(** ** a variable that never changes *)
Lemma still_zero v ni pis u x : nth_error vars ni = Some v -> observed_changes rs ni = 0%Z -> x < k -> nth x (nth x (c_trans (data_cim t (length vars) ni pis k u)) []) 0%Z = 0%Z.
Proof.
  intros Hn H0 Hx. unfold data_cim, compute_cim_coefficients, new_cim, exact_counts; cbn [c_trans].
  rewrite (nth_error_nth _ x [] (eq_trans (map_nth_error_iff _ _ x) (f_equal (option_map _) (nth_seq_lt k x Hx)))).
  rewrite (nth_error_nth _ x 0%Z (eq_trans (map_nth_error_iff _ _ x) (f_equal (option_map _) (nth_seq_lt k x Hx)))).
  rewrite Nat.eqb_refl. apply Zsum_zero. intros y _. destruct (Nat.eqb_spec y x) as [->|N]; [reflexivity|]. apply (raw_still vars cards rs HL v ni Hn H0). congruence.
Qed.
Lemma still_answers v ni p S : nth_error vars ni = Some v -> observed_changes rs ni = 0%Z -> k <= 2 -> test_ok s v p S ->
  (forall c1 c2, (exists pis u, c1 = data_cim t (length vars) ni pis k u) -> (exists pis u, c2 = data_cim t (length vars) ni pis k u) ->
     (forall x, x < k -> nth x (nth x (c_trans c2) []) 0%Z = 0%Z) -> tests k c1 c2 = true) ->
  ~ test_answers (cb_e est) (length vars) (st_matrix (cb_st est)) v p S false.
Proof.
  intros Hn H0 Hk Ht HT H. destruct (raw_idx vars cards prior rs HL v ni Hn) as [Hv Hi]. pose proof (legal_data vars cards prior rs HL) as Hd.
  destruct (ask_faithful s t (length vars) k known thr tests est few_wf few_nd few_lt eq_refl Hd (proj1 HE) (proj2 HE) HN v p S Ht) as [G _].
  destruct few_ok as [_ [B C]]. rewrite B in H. apply G in H. unfold the_ask in H.
  destruct (verdict_meaning (MkEnv s t thr tests) (length vars) k v p S few_wf Hd eq_refl (proj1 HE) (proj2 HE) Ht) as [b [mk [E1 E2]]].
  rewrite E1 in H. cbn [fst] in H. subst b. enough (X : false = true) by discriminate. apply E2. intros a Ha. cbn [e_struct e_traj e_threshold e_tests]. rewrite Hi. split.
  - intros K. lia.
  - cbn [e_tests]. apply HT; [eexists _, _; reflexivity|eexists _, _; reflexivity|]. intros x Hx. exact (still_zero v ni _ _ x Hn H0 Hx).
Qed.
Lemma still_binary mp es est' v ni q : k <= 2 -> cb_estimate_structure est mp = Ok (es, est') -> nth_error vars ni = Some v -> observed_changes rs ni = 0%Z ->
  (forall c1 c2, (exists pis u, c1 = data_cim t (length vars) ni pis k u) -> (exists pis u, c2 = data_cim t (length vars) ni pis k u) ->
     (forall x, x < k -> nth x (nth x (c_trans c2) []) 0%Z = 0%Z) -> tests k c1 c2 = true) ->
  In (q, v) es -> In (q, v) known.
Proof.
  intros Hk H Hn H0 HT. apply (accepted_estimate s t (length vars) known thr tests est mp es est' v q [] few_wf few_nd few_lt); auto.
  - intros x Hx. rewrite (proj2 HE x Hx). exact Hk.
  - intros S _ Ht. exact (still_answers v ni q S Hn H0 Hk Ht HT).
  - intros z [].
Qed.
End cb.
