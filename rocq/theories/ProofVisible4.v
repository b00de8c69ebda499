(** C90: the first test, and the answer settles. *)
From Coq Require Import Reals Lra Classical_Prop.
From Verif Require Import Base Lib LibQc ModelStructure ModelGraph ModelCims ModelData ModelParams ModelCache ModelCtpc ModelFamScore ModelIndep
  SpecStructure SpecGraph SpecComb SpecParams SpecData SpecCtpc SpecRecover SpecAlgorithm SpecFamScore SpecInvariance SpecBias SpecIndep SpecEnough SpecEnoughCb SpecVisible SpecFloating
  ProofStructure ProofGraph ProofComb ProofParams ProofParams2 ProofParams3 ProofCache ProofConserve ProofCtpc ProofCtpc2 ProofCtpc3 ProofCtpc4 ProofCtpc5 ProofCtpc6 ProofCtpc7 ProofFamScore2 ProofInvariance ProofUnit3 ProofIndep2 ProofBias
  ProofCbSim ProofRecover ProofAlgorithm ProofAlgorithm2 ProofAlgorithm3 ProofFew3 ProofFew4 ProofCost2 ProofEnough2 ProofEnough3 ProofEnough4 ProofEnough5 ProofEnoughCb ProofEnoughCb3 ProofEnoughCb4 ProofVisible ProofVisible2 ProofVisible3.
Close Scope R_scope. Open Scope nat_scope.

Lemma rounds_incl ask : forall f b pr u, NoDup u -> incl (rounds ask f b pr u) u.
Proof.
  induction f as [|f IH]; intros b pr u ND; [apply incl_refl|]. cbn [rounds]. destruct (b <? length u); [|apply incl_refl].
  destruct (one_round ask b pr [] u) as [kept pr'] eqn:E. pose proof (round_sub ask b u [] pr ND) as [A [B _]]. rewrite E in A, B. cbn [fst] in A, B. eapply incl_tran; [apply IH, A|exact B].
Qed.
(** a candidate that passes the first test is not a parent *)
Lemma first_test_out ask pr u a : NoDup u -> lmem a pr = false -> fst (ask a []) = true -> ~ In a (ctpc_parents ask pr u).
Proof.
  intros ND Hp Ha I. rewrite (ctpc_drop ask ask (fun l => negb (String.eqb l a)) pr pr u ND) in I.
  - unfold ctpc_parents in I. apply rounds_incl in I; [|apply NoDup_filter', ND]. apply filter_In in I as [_ I]. rewrite String.eqb_refl in I. discriminate.
  - intros p _ E. apply negb_false_iff, String.eqb_eq in E. subst p. auto.
  - intros q _. reflexivity.
  - reflexivity.
Qed.
(** ** the verdict as a function of the answers *)
Lemma filter_map_cims {A C} (F : A -> C) (U : list A) pc flt comb :
  filter_cims_with_mask (MkSetOfCims pc (map F U)) flt comb = (let* us := filter_cims_with_mask (MkSetOfCims pc U) flt comb in Ok (map F us)).
Proof.
  unfold filter_cims_with_mask. destruct (length flt <=? 1); [reflexivity|]. cbn [so_actual_cims so_p_combs]. induction (filter_indices pc flt comb) as [|i l IH]; [reflexivity|].
  cbn [res_map]. unfold nth_res at 1. rewrite map_nth_error_iff. unfold nth_res at 2. destruct (nth_error U i) as [u|]; cbn [option_map bind]; [|reflexivity]. rewrite IH.
  destruct (res_map (nth_res U) l); reflexivity.
Qed.
Lemma filter_cims_in {A} (U : list A) pc flt comb us : filter_cims_with_mask (MkSetOfCims pc U) flt comb = Ok us -> incl us U.
Proof.
  unfold filter_cims_with_mask. destruct (length flt <=? 1); [intros H; injection H as <-; apply incl_refl|]. cbn [so_actual_cims so_p_combs]. intros H x Hx.
  revert us H Hx. induction (filter_indices pc flt comb) as [|i l IH]; intros us H Hx; cbn [res_map] in H; [injection H as <-; destruct Hx|].
  apply bind_ok in H as [y [Hy H]]. apply bind_ok in H as [ys [Hys H]]. injection H as <-. unfold nth_res in Hy. destruct (nth_error U i) eqn:E; [|discriminate]. injection Hy as <-.
  destruct Hx as [<-|Hx]; [eapply nth_error_In, E|exact (IH ys Hys Hx)].
Qed.
Lemma verdict_map {A} (e e' : cb_env) cs (F1 F1' F2 F2' : A -> cim) (U1 U2 : list A) pc1 pc2 flt th :
  (forall u1 u2, In u1 U1 -> In u2 U2 -> e_tests e cs (F1 u1) (F2 u2) = e_tests e' cs (F1' u1) (F2' u2)) -> (forall u1, In u1 U1 -> too_few e cs th (F1 u1) = too_few e' cs th (F1' u1)) ->
  verdict_configs e cs (MkSetOfCims pc2 (map F2 U2)) flt th (combine (map F1 U1) pc1) = verdict_configs e' cs (MkSetOfCims pc2 (map F2' U2)) flt th (combine (map F1' U1) pc1).
Proof.
  intros HT HF. revert pc1. induction U1 as [|u1 U1 IH]; intros pc1; [reflexivity|]. destruct pc1 as [|pc pcs]; [reflexivity|]. cbn [map combine verdict_configs]. rewrite !filter_map_cims.
  destruct (filter_cims_with_mask (MkSetOfCims pc2 U2) flt pc) as [us|x] eqn:E; cbn [bind]; [|reflexivity]. apply filter_cims_in in E.
  assert (EQ : verdict_cims e cs (F1 u1) th (map F2 us) = verdict_cims e' cs (F1' u1) th (map F2' us)).
  { induction us as [|u2 us IHu]; [reflexivity|]. cbn [map verdict_cims]. rewrite (HF u1 (or_introl eq_refl)), (HT u1 u2 (or_introl eq_refl) (E u2 (or_introl eq_refl))), IHu; [reflexivity|]. intros z Hz. apply E. right. exact Hz. }
  rewrite EQ, IH; [reflexivity| |]; intros; [apply HT|apply HF]; try right; assumption.
Qed.

Section runs.
Variables (vars : list label) (cards : list nat) (k : nat) (rs : list raw).
Hypothesis HL : legal_input vars cards rs.
Hypothesis HE : equal_cards cards k.
Hypothesis Hk : 2 <= k.
Hypothesis HC : Forall clock_strict rs.
Variables (P : test_params) (thr : Qc).
Hypothesis HQ : quantiles_ok P.
Hypothesis HS : quantiles_settle P.
Hypothesis HT : (0 < thr)%Qc.
Notation estimator n prior known est := (exists s t, imports_to vars cards prior (copies n rs) s t /\ new_cb_estimator s t (length vars) known thr (the_tests P) = Ok est).
Notation run prior n known mp es := (exists s t est est', imports_to vars cards prior (copies n rs) s t
  /\ new_cb_estimator s t (length vars) known thr (the_tests P) = Ok est /\ cb_estimate_structure est mp = Ok (es, est')).
Notation eventually Q := (exists N, forall n : nat, N <= n -> Q n).
Notation lacking v K := (2 < k /\ silent vars k rs v K).
Notation s := (struct_of vars cards None).
Notation us K := (le_enum (map (fun _ => k) (parents_in s K))).
Notation cim_n n v K u := (raw_cim (copies n rs) (idx_of s v) (cols_of vars cards None K) k u).
Lemma cb_first_test : eventually (fun n => forall prior known mp es v a, run prior n known mp es -> In v vars -> In a vars -> a <> v ->
  ~ visible vars k rs v [] a -> ~ lacking v [] -> ~ In (a, v) known -> ~ In (a, v) es).
Proof.
  destruct (settles_all vars cards k rs Hk HC P thr HQ HS HT) as [N [N2 H]]. exists N. intros n Hn prior known mp es v a [s0 [t [est [est' [HI [HN E]]]]]] Hv Ha Nav Vis Lac Kn I.
  pose proof (copies_legal vars cards n rs ltac:(lia) HL) as HLn. apply (imports_det vars cards prior _ s0 t HLn) in HI as [-> ->].
  assert (Ht : test_ok (struct_of vars cards prior) v a []).
  { split; [exact Hv|]. split; [exact Ha|]. split; [|intros l []]. constructor; [intros [X|[]]; congruence|constructor; [intros []|constructor]]. }
  destruct (verdict_settles vars cards k rs HL HE Hk HC P thr HQ prior n v a [] ltac:(lia) Ht (H n Hn v a [] Hv Ha ltac:(intros l []))) as [b [mk [EV [EB _]]]].
  apply (estimate_alg (struct_of vars cards prior) (traj_of vars (copies n rs)) (length vars) k known thr (the_tests P) est (few_wf vars cards prior _ HLn) (few_nd vars cards prior) (few_lt vars cards prior) eq_refl
    (legal_data vars cards prior _ HLn) (proj1 HE) (proj2 HE) HN mp es est' v E Hv) in I.
  revert I. apply first_test_out.
  - apply NoDup_filter'. apply (few_wf vars cards prior _ HLn).
  - apply lmem_false. unfold protected_of. rewrite filter_In. intros [_ X]. apply emem_In in X. contradiction.
  - unfold the_ask. rewrite EV. cbn [fst]. apply EB. auto.
Qed.
(** all the comparisons have settled *)
Definition stable_from (N : nat) : Prop := forall n m v p K, N <= n -> N <= m -> In v vars -> In p vars -> incl K vars ->
  (forall u1 u2 x, In u1 (us K) -> In u2 (us (p :: K)) -> x < k -> (state_accepts P k (cim_n n v K u1) (cim_n n v (p :: K) u2) x <-> state_accepts P k (cim_n m v K u1) (cim_n m v (p :: K) u2) x))
  /\ (forall u1, In u1 (us K) -> (enough_data thr k k (map (fun _ => k) (parents_in s K)) (cim_n n v K u1) <-> enough_data thr k k (map (fun _ => k) (parents_in s K)) (cim_n m v K u1))).
Lemma stable_eventually : exists N, 2 <= N /\ stable_from N.
Proof.
  destruct (settles_all vars cards k rs Hk HC P thr HQ HS HT) as [N1 [N2 H]].
  destruct (all_eventually (fun (y : label * (list label * label)) n => let '(v, (K, p)) := y in forall u1 u2 x, In u1 (us K) -> In u2 (us (p :: K)) -> x < k ->
      (state_accepts P k (cim_n n v K u1) (cim_n n v (p :: K) u2) x <-> cell_ideal rs k (idx_of s v) (cols_of vars cards None K) u1 (cols_of vars cards None (p :: K)) u2 x)) (list_prod vars (list_prod (all_sub vars) vars))) as [N3 H3].
  { intros [v [K p]] _.
    destruct (all_eventually (fun (y : list nat * (list nat * nat)) n => let '(u1, (u2, x)) := y in
      (state_accepts P k (cim_n n v K u1) (cim_n n v (p :: K) u2) x <-> cell_ideal rs k (idx_of s v) (cols_of vars cards None K) u1 (cols_of vars cards None (p :: K)) u2 x)) (list_prod (us K) (list_prod (us (p :: K)) (seq 0 k)))) as [n0 H0].
    - intros [u1 [u2 x]] Hy. apply in_prod_iff in Hy as [_ Hy]. apply in_prod_iff in Hy as [_ Hx]. apply in_seq in Hx.
      destruct (cell_limit P rs k (idx_of s v) (cols_of vars cards None K) u1 (cols_of vars cards None (p :: K)) u2 x HQ HS HC Hk ltac:(lia)) as [n0 [_ H0]]. exists n0. exact H0.
    - exists n0. intros n Hn u1 u2 x U1 U2 Hx. apply (H0 n Hn (u1, (u2, x))). apply in_prod_iff. split; [exact U1|]. apply in_prod_iff. split; [exact U2|apply in_seq; lia]. }
  exists (N1 + N3). split; [lia|]. intros n m v p K Hn Hm Hv Hp HK. split.
  - intros u1 u2 x U1 U2 Hx.
    assert (E1 : parents_in s (parents_in s K) = parents_in s K).
    { apply parents_in_ext. intros l. unfold parents_in. rewrite filter_In, lmem_In. split; [tauto|]. intros Hl. auto. }
    assert (E2 : parents_in s (p :: parents_in s K) = parents_in s (p :: K)).
    { apply parents_in_ext. intros l. cbn [In]. unfold parents_in. rewrite filter_In, lmem_In. split; [tauto|]. intros [<-|Hl]; auto. }
    assert (IN : In (v, (parents_in s K, p)) (list_prod vars (list_prod (all_sub vars) vars))).
    { apply in_prod_iff. split; [exact Hv|]. apply in_prod_iff. split; [|exact Hp]. apply all_sub_In, sublist_filter. }
    pose proof (H3 n ltac:(lia) _ IN) as A. pose proof (H3 m ltac:(lia) _ IN) as B. cbn beta iota in A, B. unfold cols_of in A, B |- *. rewrite E1, E2 in A, B.
    rewrite (A u1 u2 x U1 U2 Hx), (B u1 u2 x U1 U2 Hx). reflexivity.
  - intros u1 U1. rewrite (proj2 (H n ltac:(lia) v p K Hv Hp HK) u1 U1), (proj2 (H m ltac:(lia) v p K Hv Hp HK) u1 U1). reflexivity.
Qed.
Lemma bool_iff (a b : bool) : (a = true <-> b = true) -> a = b.
Proof. destruct a, b; intuition congruence. Qed.
Lemma verdict_stable N prior n m v p K : 1 <= n -> 1 <= m -> stable_from N -> N <= n -> N <= m -> test_ok (struct_of vars cards prior) v p K ->
  verdict (MkEnv (struct_of vars cards prior) (traj_of vars (copies n rs)) thr (the_tests P)) (length vars) v p K k
  = verdict (MkEnv (struct_of vars cards prior) (traj_of vars (copies m rs)) thr (the_tests P)) (length vars) v p K k.
Proof.
  intros Hn Hm HST Nn Nm Ht. pose proof Ht as [Hv [Hp [ND HK]]]. cbn in Hv, Hp, HK. assert (HpK : incl (p :: K) vars) by (intros l [<-|Hl]; [exact Hp|apply HK, Hl]).
  pose proof (copies_legal vars cards n rs Hn HL) as HLn. pose proof (copies_legal vars cards m rs Hm HL) as HLm. pose proof (legal_wf vars cards prior _ HLn) as Hwf.
  assert (Vk : val_of (struct_of vars cards prior) v = k) by (destruct (wf_lookup _ v Hwf Hv) as [i [_ [_ [E3 _]]]]; apply HE; eapply nth_error_In, E3).
  assert (CE : forall n Q u, 1 <= n -> incl Q vars -> data_cim (traj_of vars (copies n rs)) (length vars) (idx_of s v) (cols_of vars cards None Q) k u = cim_n n v Q u).
  { intros n' Q u Hn' HQ'. apply (raw_cim_exact vars cards); [apply copies_legal; assumption|]. constructor; [apply (idx_lt vars cards k rs HL HE); exact Hv|]. unfold cols_of. apply Forall_map, Forall_forall. intros l Hl. apply (idx_lt vars cards k rs HL HE). unfold parents_in in Hl. apply filter_In in Hl. tauto. }
  assert (CC : forall n Q u, 1 <= n -> incl Q vars -> computed_cim k (cim_n n v Q u)) by (intros n' Q u Hn' HQ'; rewrite <- CE by assumption; apply exact_cim_computed, (raw_nonneg vars), copies_clock, strict_ok, HC).
  unfold verdict. cbn [e_struct e_traj].
  rewrite !(raw_set_params vars cards prior (copies n rs) k v _ HLn) by (auto; try lia; apply HE). rewrite !(raw_set_params vars cards prior (copies m rs) k v _ HLm) by (auto; try lia; apply HE). cbn [bind so_actual_cims so_p_combs].
  rewrite !(en_vals vars cards prior k _ HLn HE), Vk.
  destruct (thumb_of (struct_of vars cards prior) k p K) as [th|x] eqn:ET; cbn [bind]; [|reflexivity].
  destruct (HST n m v p K Nn Nm Hv Hp HK) as [SA SE].
  apply verdict_map.
  - intros u1 u2 U1 U2. cbn [e_tests]. apply bool_iff.
    change (raw_cim ?d (idx_of (struct_of vars cards prior) v) (map (idx_of (struct_of vars cards prior)) (parents_in (struct_of vars cards prior) ?Q)) k ?u) with (raw_cim d (idx_of s v) (cols_of vars cards None Q) k u).
    rewrite !(the_tests_iff P HQ k) by (apply CC; assumption). split; intros F x Hx; [apply (proj1 (SA u1 u2 x U1 U2 Hx)), F, Hx|apply (proj2 (SA u1 u2 x U1 U2 Hx)), F, Hx].
  - intros u1 U1. specialize (SE u1 U1).
    pose proof (too_few_iff (MkEnv (struct_of vars cards prior) (traj_of vars (copies n rs)) thr (the_tests P)) (length vars) k v p K Hwf eq_refl (proj1 HE) (proj2 HE) Ht (cols_of vars cards None K) u1 th ET) as A.
    pose proof (too_few_iff (MkEnv (struct_of vars cards prior) (traj_of vars (copies m rs)) thr (the_tests P)) (length vars) k v p K (legal_wf vars cards prior _ HLm) eq_refl (proj1 HE) (proj2 HE) Ht (cols_of vars cards None K) u1 th ET) as B.
    cbn [e_threshold e_traj e_struct] in A, B.
    change (idx_of (struct_of vars cards prior) v) with (idx_of s v) in A, B. rewrite (CE n K u1 Hn HK) in A. rewrite (CE m K u1 Hm HK) in B.
    change (filter (fun l => lmem l K) (nodes_labels (struct_of vars cards prior))) with (parents_in s K) in A, B. rewrite <- A, <- B in SE.
    change (raw_cim ?d (idx_of (struct_of vars cards prior) v) (map (idx_of (struct_of vars cards prior)) (parents_in (struct_of vars cards prior) ?Q)) k ?u) with (raw_cim d (idx_of s v) (cols_of vars cards None Q) k u).
    destruct (too_few _ k th (cim_n n v K u1)), (too_few _ k th (cim_n m v K u1)); intuition congruence.
Qed.
(** the answer no longer changes *)
Lemma cb_settles : exists N, forall n m prior known mp es es', N <= n -> N <= m -> run prior n known mp es -> run prior m known mp es' -> es = es'.
Proof.
  destruct stable_eventually as [N [N2 H]]. exists N. intros n m prior known mp es es' Hn Hm [s1 [t1 [est1 [est1' [I1 [E1 R1]]]]]] [s2 [t2 [est2 [est2' [I2 [E2 R2]]]]]].
  pose proof (copies_legal vars cards n rs ltac:(lia) HL) as HLn. pose proof (copies_legal vars cards m rs ltac:(lia) HL) as HLm.
  apply (imports_det vars cards prior _ s1 t1 HLn) in I1 as [-> ->]. apply (imports_det vars cards prior _ s2 t2 HLm) in I2 as [-> ->].
  unfold new_cb_estimator in E1, E2. destruct (build_removable_edges_matrix (struct_of vars cards prior) (length vars) known) as [mx|x]; cbn [bind] in E1, E2; [|discriminate].
  assert (X1 : est1 = MkCbEst (MkEnv (struct_of vars cards prior) (traj_of vars (copies n rs)) thr (the_tests P)) (length vars) (MkState mx empty_cache) (build_complete_graph (nodes_labels (struct_of vars cards prior)))) by congruence.
  assert (X2 : est2 = MkCbEst (MkEnv (struct_of vars cards prior) (traj_of vars (copies m rs)) thr (the_tests P)) (length vars) (MkState mx empty_cache) (build_complete_graph (nodes_labels (struct_of vars cards prior)))) by congruence.
  clear E1 E2. subst est1 est2.
  pose proof (cb_sim (struct_of vars cards prior) (traj_of vars (copies n rs)) (traj_of vars (copies m rs)) (length vars) mx thr thr (the_tests P) (the_tests P) (build_complete_graph (nodes_labels (struct_of vars cards prior))) mp (legal_wf vars cards prior _ HLn)) as C.
  rewrite R1, R2 in C. apply C. clear C R1 R2. intros v p K Ht.
  replace (val_of (struct_of vars cards prior) v) with k by (symmetry; destruct (wf_lookup _ v (legal_wf vars cards prior _ HLn) (proj1 Ht)) as [i [_ [_ [E3 _]]]]; apply HE; eapply nth_error_In, E3).
  apply (verdict_stable N); auto; lia.
Qed.
End runs.
