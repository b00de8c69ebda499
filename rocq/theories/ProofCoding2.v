(** The coding of the states: FamScore and the score-based estimator. *)
From Coq Require Import Reals Lra.
From Verif Require Import Base Lib ModelStructure ModelGraph ModelCims ModelData ModelParams ModelCache ModelCtpc ModelSearch ModelEstimators ModelFamScore
  SpecStructure SpecGraph SpecComb SpecParams SpecData SpecCtpc SpecSearch SpecEstimators SpecConserve SpecInvariance SpecRename SpecUnit SpecCoding
  ProofStructure ProofGraph ProofComb ProofParams ProofParams2 ProofCtpc ProofCtpc2 ProofCtpc4 ProofFamScore ProofFamScore2 ProofIndep
  ProofSearch ProofSearch2 ProofSearch3 ProofEstimators2 ProofInvariance ProofConserve ProofSim ProofCoding.
Open Scope nat_scope.

Lemma sum_perm {A} (f : A -> result R) l l' E : Permutation l l' -> (forall a e, In a l -> f a = Err e -> e = E) ->
  (let* r := res_map f l in Ok (Rsum r)) = (let* r := res_map f l' in Ok (Rsum r)).
Proof.
  intros HP. induction HP as [|a l l' HP IH|a b l|l l1 l2 HP1 IH1 HP2 IH2]; intros H.
  - reflexivity.
  - specialize (IH (fun a0 e I => H a0 e (or_intror I))). cbn [res_map]. destruct (f a) as [x|e]; cbn [bind]; [|reflexivity].
    destruct (res_map f l) as [r|e1], (res_map f l') as [r'|e2]; cbn [bind] in *; try discriminate.
    + injection IH as IH. unfold Rsum in *. cbn [fold_right]. rewrite IH. reflexivity.
    + congruence.
  - cbn [res_map]. destruct (f a) as [x|e] eqn:Ea, (f b) as [y|e'] eqn:Eb; cbn [bind].
    + destruct (res_map f l) as [r|e]; cbn [bind]; [|reflexivity]. unfold Rsum. cbn [fold_right]. f_equal. lra.
    + reflexivity.
    + reflexivity.
    + f_equal. rewrite (H b e'), (H a e); auto; [right; left|left]; reflexivity.
  - rewrite IH1 by exact H. apply IH2. intros a e Ha. apply H. eapply Permutation_in; [apply Permutation_sym, HP1|exact Ha].
Qed.
Lemma sum_ext {A B} (f : A -> result R) (g : B -> result R) l l' : Forall2 (fun a b => f a = g b) l l' ->
  (let* r := res_map f l in Ok (Rsum r)) = (let* r := res_map g l' in Ok (Rsum r)).
Proof.
  intros H. assert (X : res_map f l = res_map g l'); [|rewrite X; reflexivity].
  induction H as [|a b l l' Hab H IH]; [reflexivity|]. cbn [res_map]. rewrite Hab, IH. reflexivity.
Qed.
Lemma Forall2_map_r {A B C} (Q : A -> C -> Prop) (f : B -> C) l l' : Forall2 (fun a b => Q a (f b)) l l' -> Forall2 Q l (map f l').
Proof. induction 1; constructor; auto. Qed.
Lemma Forall2_same {A} (Q : A -> A -> Prop) l : (forall a, In a l -> Q a a) -> Forall2 Q l l.
Proof. induction l as [|a l IH]; intros H; constructor; [apply H; left; reflexivity|apply IH; intros; apply H; right; assumption]. Qed.

(** an n x n table of counts with its n residence times *)
Definition full_cim (n : nat) (c : cim) : Prop :=
  length (c_times c) = n /\ forall x y, x < n -> y < n -> exists z, entry_at (c_trans c) x y = Some z.
Lemma entry_rows {A} (m : list (list A)) x y z : entry_at m x y = Some z -> (let* row := nth_res m x in nth_res row y) = Ok z.
Proof. unfold entry_at, nth_res. destruct (nth_error m x) as [row|]; cbn [bind]; [|discriminate]. intros ->. reflexivity. Qed.

Section fam.
Variables (lg : R -> R) (n : nat) (f : nat -> nat).
Hypothesis Hf : forall x, x < n -> f x < n.
Hypothesis Hinj : forall x y, x < n -> y < n -> f x = f y -> x = y.
Hypothesis Hperm : Permutation (map f (seq 0 n)) (seq 0 n).

Definition one_q (tau alpha : R) (c : cim) (i : nat) : result R :=
  let* row := nth_res (c_trans c) i in let* m := nth_res row i in let* t := nth_res (c_times c) i in single_cim_xu_marginal_likelihood_q lg m t tau alpha.
Lemma variable_q_alt tau alpha c : variable_cim_xu_marginal_likelihood_q lg c tau alpha = (let* l := res_map (one_q tau alpha c) (seq 0 (length (c_times c))) in Ok (Rsum l)).
Proof. reflexivity. Qed.
Lemma one_q_err tau alpha c i e : full_cim n c -> i < n -> one_q tau alpha c i = Err e -> e = ValueError.
Proof.
  intros [H1 H2] Hi. unfold one_q. destruct (H2 i i Hi Hi) as [z Hz]. unfold entry_at in Hz. unfold nth_res at 1.
  destruct (nth_error (c_trans c) i) as [row|]; [|discriminate]. cbn [bind]. unfold nth_res at 1. rewrite Hz. cbn [bind].
  destruct (nth_res_lt (c_times c) i) as [t Ht]; [lia|]. rewrite Ht. cbn [bind]. unfold single_cim_xu_marginal_likelihood_q, py_log.
  destruct (Rlt_dec 0 tau); cbn [bind]; [|congruence]. destruct (Rlt_dec 0 (tau + Qc2R t)); cbn [bind]; congruence.
Qed.
Lemma variable_q_err tau alpha c e : full_cim n c -> variable_cim_xu_marginal_likelihood_q lg c tau alpha = Err e -> e = ValueError.
Proof.
  intros HF. rewrite variable_q_alt, (proj1 HF).
  assert (X : forall l, (forall i, In i l -> i < n) -> forall e, res_map (one_q tau alpha c) l = Err e -> e = ValueError).
  { induction l as [|i l IH]; intros Hl e0 E; [discriminate|]. cbn [res_map] in E. destruct (one_q tau alpha c i) as [x|e1] eqn:E1; cbn [bind] in E.
    - destruct (res_map (one_q tau alpha c) l) as [r|e2]; cbn [bind] in E; [discriminate|]. injection E as <-. apply (IH (fun i I => Hl i (or_intror I)) e2 eq_refl).
    - injection E as <-. apply (one_q_err tau alpha c i e1 HF (Hl i (or_introl eq_refl)) E1). }
  destruct (res_map (one_q tau alpha c) (seq 0 n)) as [r|e1] eqn:E; cbn [bind]; [discriminate|]. intros K. injection K as <-.
  apply (X (seq 0 n)); [intros i Hi; apply in_seq in Hi; lia|exact E].
Qed.
Lemma variable_q_recoded tau alpha c c' : full_cim n c -> full_cim n c' -> same_recoded f n c c' ->
  variable_cim_xu_marginal_likelihood_q lg c' tau alpha = variable_cim_xu_marginal_likelihood_q lg c tau alpha.
Proof.
  intros HF HF' [_ [_ [_ [H1 [H2 _]]]]]. rewrite !variable_q_alt, (proj1 HF), (proj1 HF').
  rewrite (sum_perm (one_q tau alpha c') _ _ ValueError (Permutation_sym Hperm)).
  2:{ intros i e Hi. apply in_seq in Hi. apply one_q_err; [exact HF'|lia]. }
  symmetry. apply sum_ext. apply Forall2_map_r, Forall2_same. intros x Hx. apply in_seq in Hx. assert (Lx : x < n) by lia.
  unfold one_q. destruct (H2 x x Lx Lx) as [E2 N2]. unfold entry_at in E2, N2. unfold nth_res.
  destruct (nth_error (c_trans c) x) as [row|]; [|contradiction]. destruct (nth_error row x) as [z|] eqn:Ez; [|contradiction].
  destruct (nth_error (c_trans c') (f x)) as [row'|]; [|discriminate]. cbn [bind]. rewrite Ez, E2. cbn [bind].
  rewrite (proj1 (H1 x Lx)). reflexivity.
Qed.

Definition m_at (c : cim) (x y : nat) : Z := match entry_at (c_trans c) x y with Some z => z | None => 0%Z end.
Definition one_theta (c : cim) (alpha axx : R) (x : nat) : R :=
  (lg alpha - lg (alpha + IZR (m_at c x x)) + Rsum (map (fun j => lg (axx + IZR (m_at c x j)) - lg axx) (filter (fun j => negb (j =? x)%nat) (seq 0 n))))%R.
Lemma single_theta_closed c alpha axx x : full_cim n c -> x < n -> single_cim_xu_marginal_likelihood_theta lg x c alpha axx = Ok (one_theta c alpha axx x).
Proof.
  intros [H1 H2] Hx. unfold single_cim_xu_marginal_likelihood_theta. rewrite H1, py_remove_seq by lia. cbn [bind].
  assert (X : exists row, nth_error (c_trans c) x = Some row /\ forall y, y < n -> nth_error row y = Some (m_at c x y)).
  { destruct (H2 x x Hx Hx) as [z Hz]. unfold entry_at in Hz. destruct (nth_error (c_trans c) x) as [row|] eqn:E; [|discriminate]. exists row. split; [reflexivity|].
    intros y Hy. destruct (H2 x y Hx Hy) as [w Hw]. unfold m_at. rewrite Hw. unfold entry_at in Hw. rewrite E in Hw. exact Hw. }
  destruct X as [row [E Hrow]]. unfold nth_res at 1. rewrite E. cbn [bind]. unfold nth_res at 1. rewrite (Hrow x Hx). cbn [bind].
  rewrite (res_map_pure _ (fun j => lg (axx + IZR (m_at c x j)) - lg axx)%R).
  - reflexivity.
  - intros j Hj. apply filter_In in Hj as [Hj _]. apply in_seq in Hj. unfold nth_res. rewrite Hrow by lia. reflexivity.
Qed.
Lemma others_perm x : x < n -> Permutation (map f (filter (fun j => negb (j =? x)) (seq 0 n))) (filter (fun j => negb (j =? f x)) (seq 0 n)).
Proof.
  intros Hx. assert (FP : forall (p : nat -> bool) l l', Permutation l l' -> Permutation (filter p l) (filter p l')).
  { intros p l l' H. induction H as [|a l l' H IH|a b l|l l1 l2 H1 IH1 H2 IH2]; cbn [filter].
    - constructor.
    - destruct (p a); [constructor|]; exact IH.
    - destruct (p a), (p b); try apply perm_swap; apply Permutation_refl.
    - eapply perm_trans; eassumption. }
  eapply perm_trans; [|apply FP, Hperm]. match goal with |- Permutation ?a ?b => replace b with a; [apply Permutation_refl|] end.
  symmetry. apply (filter_map_len f). intros a Ha. apply in_seq in Ha. f_equal. apply eq_true_iff_eq. rewrite !Nat.eqb_eq. split; [apply Hinj; lia|intros ->; reflexivity].
Qed.
Lemma m_at_recoded c c' x y : same_recoded f n c c' -> x < n -> y < n -> m_at c' (f x) (f y) = m_at c x y.
Proof. intros [_ [_ [_ [_ [H2 _]]]]] Hx Hy. unfold m_at. rewrite (proj1 (H2 x y Hx Hy)). reflexivity. Qed.
Lemma one_theta_recoded c c' alpha axx x : same_recoded f n c c' -> x < n -> one_theta c' alpha axx (f x) = one_theta c alpha axx x.
Proof.
  intros HS Hx. unfold one_theta. rewrite (m_at_recoded c c' x x HS Hx Hx). f_equal.
  rewrite <- (Rsum_perm _ _ (Permutation_map _ (others_perm x Hx))). rewrite map_map. apply Rsum_ext. intros j Hj.
  apply filter_In in Hj as [Hj _]. apply in_seq in Hj. rewrite (m_at_recoded c c' x j HS Hx) by lia. reflexivity.
Qed.
Lemma variable_theta_closed c alpha axx : full_cim n c -> variable_cim_xu_marginal_likelihood_theta lg c alpha axx = Ok (Rsum (map (one_theta c alpha axx) (seq 0 n))).
Proof.
  intros HF. unfold variable_cim_xu_marginal_likelihood_theta. rewrite (proj1 HF). apply res_map_sum. intros x Hx. apply in_seq in Hx. apply single_theta_closed; [exact HF|lia].
Qed.
Lemma variable_theta_recoded c c' alpha axx : full_cim n c -> full_cim n c' -> same_recoded f n c c' ->
  variable_cim_xu_marginal_likelihood_theta lg c' alpha axx = variable_cim_xu_marginal_likelihood_theta lg c alpha axx.
Proof.
  intros HF HF' HS. rewrite !variable_theta_closed by assumption. f_equal. rewrite <- (Rsum_perm _ _ (Permutation_map _ Hperm)), map_map.
  apply Rsum_ext. intros x Hx. apply in_seq in Hx. apply one_theta_recoded; [exact HS|lia].
Qed.

(** one CIM object per configuration, in another order and with its states renumbered *)
Lemma fam_recoded cims cims' cims1 tau alpha : Forall (full_cim n) cims -> Forall (full_cim n) cims1 ->
  Permutation cims1 cims' -> Forall2 (same_recoded f n) cims cims1 -> get_fam_score lg cims' tau alpha = get_fam_score lg cims tau alpha.
Proof.
  intros HA HB HP HS.
  assert (HB' : Forall (full_cim n) cims') by (eapply Permutation_Forall; eassumption).
  assert (Q : marginal_likelihood_q lg cims' tau alpha = marginal_likelihood_q lg cims tau alpha).
  { unfold marginal_likelihood_q. rewrite (sum_perm _ cims' cims1 ValueError (Permutation_sym HP)).
    - symmetry. apply sum_ext. clear HP HB'. induction HS as [|c c1 cs cs1 H HS IH]; constructor.
      + symmetry. apply variable_q_recoded; [exact (Forall_inv HA)|exact (Forall_inv HB)|exact H].
      + apply IH; [exact (Forall_inv_tail HA)|exact (Forall_inv_tail HB)].
    - intros c e Hc. rewrite Forall_forall in HB'. apply variable_q_err, HB', Hc. }
  assert (T : forall axx, marginal_likelihood_theta lg cims' alpha axx = marginal_likelihood_theta lg cims alpha axx).
  { intros axx. unfold marginal_likelihood_theta. rewrite (sum_perm _ cims' cims1 ValueError (Permutation_sym HP)).
    - symmetry. apply sum_ext. clear HP HB' Q. induction HS as [|c c1 cs cs1 H HS IH]; constructor.
      + symmetry. apply variable_theta_recoded; [exact (Forall_inv HA)|exact (Forall_inv HB)|exact H].
      + apply IH; [exact (Forall_inv_tail HA)|exact (Forall_inv_tail HB)].
    - intros c e Hc. rewrite Forall_forall in HB'. rewrite variable_theta_closed by (apply HB', Hc). discriminate. }
  unfold get_fam_score. destruct cims as [|c cs].
  - inversion HS; subst. apply Permutation_nil in HP. subst. reflexivity.
  - destruct cims' as [|c' cs']. { apply Permutation_sym, Permutation_nil in HP. subst. inversion HS. }
    cbn [nth_res nth_error bind]. rewrite (proj1 (Forall_inv HA)), (proj1 (Forall_inv HB')). destruct (n =? 1); [reflexivity|]. rewrite Q, T. reflexivity.
Qed.
End fam.

Lemma raw_full rs ni pis c u : full_cim c (raw_cim rs ni pis c u).
Proof.
  split; [unfold raw_cim; cbn [compute_cim_coefficients new_cim c_times]; rewrite map_length; apply seq_length|].
  intros x y Hx Hy. eexists. apply raw_trans_at; assumption.
Qed.

Section est.
Variables (vars : list label) (cards : list nat) (prior : option (list edge)) (code : nat -> nat -> nat).
Hypothesis HC : coding code cards.
Let s := struct_of vars cards prior.

Lemma idx_card l : wf_structure s -> In l vars -> nth_error cards (idx_of s l) = Some (val_of s l).
Proof. intros Hwf Hl. destruct (wf_lookup s l Hwf Hl) as [_ [_ [_ [_ [A B]]]]]. exact (struct_of_card vars cards prior l _ _ A B). Qed.
Lemma cols_of_parents K : wf_structure s -> cols_cards cards (map (idx_of s) (parents_in s K)) (map (val_of s) (parents_in s K)).
Proof.
  intros Hwf. assert (H : forall p, In p (parents_in s K) -> In p vars) by (intros p H; unfold parents_in in H; apply filter_In in H; tauto).
  unfold cols_cards. induction (parents_in s K) as [|p l IH]; cbn [map]; constructor; [apply idx_card; [exact Hwf|apply H; left; reflexivity]|].
  apply IH. intros q Hq. apply H. right. exact Hq.
Qed.

Lemma pscore_recoded lg tau alpha rs k v K : legal_input vars cards rs -> equal_cards cards k -> In v vars -> (forall l, In l K -> In l vars) ->
  pscore R (fun cims => get_fam_score lg cims tau alpha) (traj_of vars (recoded code rs)) s v K
  = pscore R (fun cims => get_fam_score lg cims tau alpha) (traj_of vars rs) s v K.
Proof.
  intros HL [Hk HU] Hv HK. pose proof (legal_wf vars cards prior rs HL) as Hwf. fold s in Hwf. unfold pscore. change (total_variables_number s) with (length vars).
  unfold s. rewrite (raw_set_params vars cards prior rs k v K HL Hk HU Hv HK), (raw_set_params vars cards prior (recoded code rs) k v K (legal_recoded code cards HC _ _ HL) Hk HU Hv HK).
  fold s. cbn [bind so_actual_cims]. set (ni := idx_of s v). set (c := val_of s v). set (pis := map (idx_of s) (parents_in s K)). set (ps := map (val_of s) (parents_in s K)).
  pose proof (idx_card v Hwf Hv) as Hni. fold ni c in Hni. pose proof (cols_of_parents K Hwf) as Hps. fold pis ps in Hps.
  assert (HR : Forall (raw_ok cards) rs) by apply HL. destruct (HC ni c Hni) as [HB HI].
  apply (fam_recoded lg c (code ni) HI (seq_recoded code cards HC ni c Hni) _ _
    (map (fun u => raw_cim (recoded code rs) ni pis c (recode_config code pis u)) (le_enum ps))).
  - apply Forall_map, Forall_forall. intros u _. apply raw_full.
  - apply Forall_map, Forall_forall. intros u _. apply raw_full.
  - rewrite <- (map_map (recode_config code pis) (raw_cim (recoded code rs) ni pis c)). apply Permutation_map, (configs_recoded code cards HC), Hps.
  - assert (X : forall l, (forall u, In u l -> config_ok ps u) -> Forall2 (same_recoded (code ni) c) (map (raw_cim rs ni pis c) l)
       (map (fun u => raw_cim (recoded code rs) ni pis c (recode_config code pis u)) l)).
    { induction l as [|u l IH]; intros Hl; cbn [map]; constructor; [|apply IH; intros; apply Hl; right; assumption].
      apply (raw_cim_recoded code cards HC rs ni c pis ps u HR Hni Hps). apply Hl. left. reflexivity. }
    apply X. intros u Hu. apply le_enum_ok, Hu.
Qed.
End est.
