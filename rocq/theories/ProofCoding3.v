(** The coding of the states: the statistical tests and the constraint-based estimator. *)
From Coq Require Import Reals Lra.
From Verif Require Import Base Lib ModelStructure ModelGraph ModelCims ModelData ModelParams ModelCache ModelCtpc ModelFamScore ModelIndep
  SpecStructure SpecGraph SpecComb SpecParams SpecData SpecCtpc SpecFloating SpecInvariance SpecFamScore SpecIndep SpecCoding
  ProofStructure ProofGraph ProofComb ProofParams ProofParams2 ProofParams3 ProofCtpc ProofCtpc2 ProofCtpc4 ProofFamScore ProofFamScore2 ProofIndep ProofIndep2
  ProofInvariance ProofConserve ProofFloating5 ProofUnit3 ProofCoding ProofCoding2 ProofCbSim.
Open Scope nat_scope.

Lemma jumps_m c x y : jumps_of c x y = m_at c x y.
Proof.
  unfold jumps_of, m_at, entry_at. destruct (nth_error (c_trans c) x) as [row|] eqn:E.
  - rewrite (nth_error_nth _ _ _ E). destruct (nth_error row y) as [z|] eqn:E2; [apply (nth_error_nth _ _ _ E2)|]. apply nth_overflow, nth_error_None, E2.
  - rewrite (nth_overflow (c_trans c)) by (apply nth_error_None, E). destruct y; reflexivity.
Qed.

Section state.
Variables (P : test_params) (n : nat) (f : nat -> nat) (c1 c2 c1' c2' : cim).
Hypothesis Hf : forall x, x < n -> f x < n.
Hypothesis Hinj : forall x y, x < n -> y < n -> f x = f y -> x = y.
Hypothesis Hperm : Permutation (map f (seq 0 n)) (seq 0 n).
Hypothesis H1 : same_recoded f n c1 c1'.
Hypothesis H2 : same_recoded f n c2 c2'.

Lemma exits_r c c' x : same_recoded f n c c' -> x < n -> exits c' (f x) = exits c x.
Proof. intros H Hx. unfold exits. rewrite !jumps_m. apply (m_at_recoded n f c c' x x H Hx Hx). Qed.
Lemma time_r c c' x : same_recoded f n c c' -> x < n -> time_in c' (f x) = time_in c x.
Proof.
  intros [_ [_ [_ [H _]]]] Hx. unfold time_in. destruct (H x Hx) as [E N]. destruct (nth_error (c_times c) x) as [T|] eqn:ET; [|contradiction].
  rewrite (nth_error_nth _ _ _ E), (nth_error_nth _ _ _ ET). reflexivity.
Qed.
Lemma f_onto y : y < n -> exists x, x < n /\ f x = y.
Proof.
  intros Hy. assert (I : In y (map f (seq 0 n))) by (eapply Permutation_in; [apply Permutation_sym, Hperm|apply in_seq; lia]).
  apply in_map_iff in I as [x [E I]]. apply in_seq in I. exists x. split; [lia|exact E].
Qed.
Lemma unseen_r x : x < n -> unseen_cell n c1' c2' (f x) <-> unseen_cell n c1 c2 x.
Proof.
  intros Hx. unfold unseen_cell. split.
  - intros [y [Hy [N [A B]]]]. destruct (f_onto y Hy) as [j [Hj <-]]. exists j. rewrite jumps_m, (m_at_recoded n f c1 c1' x j H1 Hx Hj) in A.
    rewrite jumps_m, (m_at_recoded n f c2 c2' x j H2 Hx Hj) in B. rewrite !jumps_m. split; [exact Hj|]. split; [intros ->; apply N; reflexivity|]. auto.
  - intros [j [Hj [N [A B]]]]. exists (f j). rewrite !jumps_m in *. rewrite (m_at_recoded n f c1 c1' x j H1 Hx Hj), (m_at_recoded n f c2 c2' x j H2 Hx Hj).
    split; [apply Hf, Hj|]. split; [intros E; apply N, Hinj; auto|]. auto.
Qed.
Lemma combine_maps {A B C} (g : A -> B) (h : A -> C) l : combine (map g l) (map h l) = map (fun a => (g a, h a)) l.
Proof. induction l as [|a l IH]; [reflexivity|]. cbn [map combine]. rewrite IH. reflexivity. Qed.
Lemma row_r c c' x : same_recoded f n c c' -> x < n -> Rsum (jump_row n c' (f x)) = Rsum (jump_row n c x).
Proof.
  intros H Hx. unfold jump_row. rewrite <- (Rsum_perm _ _ (Permutation_map _ (others_perm n f Hinj Hperm x Hx))). rewrite map_map. apply Rsum_ext.
  intros j Hj. apply filter_In in Hj as [Hj _]. apply in_seq in Hj. rewrite !jumps_m, (m_at_recoded n f c c' x j H Hx) by lia. reflexivity.
Qed.
Lemma pearson_r x : x < n -> pearson (jump_row n c1' (f x)) (jump_row n c2' (f x)) = pearson (jump_row n c1 x) (jump_row n c2 x).
Proof.
  intros Hx. unfold pearson. rewrite (row_r c1 c1' x H1 Hx), (row_r c2 c2' x H2 Hx). 
  set (N := (Rsum (jump_row n c1 x) + Rsum (jump_row n c2 x))%R). set (N1 := Rsum (jump_row n c1 x)). set (N2 := Rsum (jump_row n c2 x)). unfold jump_row. rewrite !combine_maps, !map_map.
  unfold other_states. match goal with |- Rsum (map ?F (filter (fun j => negb (j =? f x)) _)) = _ => rewrite <- (Rsum_perm _ _ (Permutation_map F (others_perm n f Hinj Hperm x Hx))) end. rewrite map_map. apply Rsum_ext.
  intros j Hj. apply filter_In in Hj as [Hj _]. apply in_seq in Hj. cbn [fst snd].
  rewrite !jumps_m, (m_at_recoded n f c1 c1' x j H1 Hx), (m_at_recoded n f c2 c2' x j H2 Hx) by lia. reflexivity.
Qed.
Lemma state_r x : x < n -> state_accepts P n c1' c2' (f x) <-> state_accepts P n c1 c2 x.
Proof.
  intros Hx. unfold state_accepts, smoothed_ratio.
  rewrite (exits_r c1 c1' x H1 Hx), (exits_r c2 c2' x H2 Hx), (time_r c1 c1' x H1 Hx), (time_r c2 c2' x H2 Hx), (unseen_r x Hx), (pearson_r x Hx). tauto.
Qed.
Lemma tests_r : quantiles_ok P -> computed_cim n c1 -> computed_cim n c2 -> computed_cim n c1' -> computed_cim n c2' ->
  the_tests P n c1' c2' = the_tests P n c1 c2.
Proof.
  intros HQ K1 K2 K1' K2'. apply eq_true_iff_eq. rewrite !the_tests_iff by assumption. split; intros H x Hx.
  - apply state_r; auto.
  - destruct (f_onto x Hx) as [y [Hy <-]]. apply state_r; auto.
Qed.
Lemma diagonal_r c c' : same_recoded f n c c' ->
  Zsum (map (fun x => nth x (nth x (c_trans c') []) 0%Z) (seq 0 n)) = Zsum (map (fun x => nth x (nth x (c_trans c) []) 0%Z) (seq 0 n)).
Proof.
  intros H. rewrite <- (Zsum_perm _ _ (Permutation_map _ Hperm)), map_map. apply Zsum_ext. intros x Hx. apply in_seq in Hx.
  change (jumps_of c' (f x) (f x) = jumps_of c x x). apply (exits_r c c' x H). lia.
Qed.
End state.

(** tests that never give up *)
Lemma no_mark e tot v p S cs : (cs <= 2 \/ (e_threshold e <= 0)%Qc) ->
  (forall K so c, (K = S \/ K = p :: S) -> set_params (e_struct e) (e_traj e) tot v K = Ok so -> In c (so_actual_cims so) -> (0 <= diagonal_sum (c_trans c))%Z) ->
  forall b mk, verdict e tot v p S cs = Ok (b, mk) -> mk = false.
Proof.
  intros Hc HD b mk EV. destruct mk; [exfalso|reflexivity]. unfold verdict in EV. apply bind_ok in EV as [so2 [E2 EV]]. apply bind_ok in EV as [so1 [E1 EV]]. apply bind_ok in EV as [th [_ EV]].
  assert (TF : forall c1, In c1 (so_actual_cims so1) -> too_few e cs th c1 = false).
  { intros c1 Hin. unfold too_few. destruct Hc as [Hc|Hc]; [destruct (Nat.ltb_spec 2 cs); [lia|reflexivity]|].
    rewrite andb_false_iff. right. unfold below_threshold. destruct (th =? 0) eqn:Eth; [reflexivity|]. apply Nat.eqb_neq in Eth.
    destruct (Qccompare _ _) eqn:EC; try reflexivity. exfalso. apply Qclt_alt in EC. specialize (HD S so1 c1 (or_introl eq_refl) E1 Hin).
    assert (0 <= Qc_of_Z (diagonal_sum (c_trans c1)) / Qc_of_Z (Z.of_nat th))%Qc.
    { unfold Qcdiv. replace 0%Qc with (0 * / Qc_of_Z (Z.of_nat th))%Qc by ring. apply Qcmult_le_compat_r; [apply Qc_of_Z_nonneg, HD|].
      apply Qclt_le_weak. rewrite <- (Qcmult_1_l (/ _)). apply Qcdiv_pos; [reflexivity|]. apply Qc_of_Z_pos. lia. }
    exact (Qcle_not_lt _ _ (Qcle_trans _ _ _ Hc H) EC). }
  assert (X : forall l, (forall c1 pc, In (c1, pc) l -> too_few e cs th c1 = false) -> verdict_configs e cs so2 (filter_of (e_struct e) p S) th l = Ok (b, true) -> False).
  { induction l as [|[c1 pc] l IH]; intros Hl; cbn [verdict_configs]; [discriminate|].
    intros K. apply bind_ok in K as [cc [_ K]]. specialize (Hl c1 pc (or_introl eq_refl)) as T1.
    assert (snd (verdict_cims e cs c1 th cc) = false).
    { clear K. induction cc as [|c2 cc IHc]; cbn [verdict_cims]; [reflexivity|]. rewrite T1. destruct (e_tests e cs c1 c2); [exact IHc|reflexivity]. }
    destruct (verdict_cims e cs c1 th cc) as [[] mk]; [apply IH; [intros c0 pc0 I; apply (Hl c0 pc0); right; exact I|exact K]|]. injection K as _ ->. discriminate. }
  apply (X _ (fun c1 pc I => TF c1 (in_combine_l _ _ _ _ I)) EV).
Qed.

Section est.
Variables (vars : list label) (cards : list nat) (prior : option (list edge)) (code : nat -> nat -> nat) (P : test_params) (thr : Qc) (rs : list raw) (k : nat).
Hypothesis HC : coding code cards.
Hypothesis HQ : quantiles_ok P.
Hypothesis HL : legal_input vars cards rs.
Hypothesis HT : Forall clock_ok rs.
Hypothesis HE : equal_cards cards k.
Let s := struct_of vars cards prior.
Let rs' := recoded code rs.
Let e := MkEnv s (traj_of vars rs) thr (the_tests P).
Let e' := MkEnv s (traj_of vars rs') thr (the_tests P).

Lemma raw_computed data ni pis c u : legal_input vars cards data -> Forall clock_ok data -> Forall (fun i => i < length vars) (ni :: pis) -> computed_cim c (raw_cim data ni pis c u).
Proof.
  intros HL' HT' HF. rewrite <- (raw_cim_exact vars cards data ni pis c u HL' HF). apply exact_cim_computed. cbn [t_times traj_of].
  pose proof (raw_times_nonneg data HT') as H. apply Forall_forall. intros q Hq. rewrite Forall_forall in H. specialize (H q Hq).
  destruct (Qclt_le_dec q 0) as [N|N]; [|exact N]. exfalso. assert (Qc2R q < Qc2R 0)%R by (apply Qreals.Qlt_Rlt; exact N). rewrite Qc2R_0 in H0. lra.
Qed.
Lemma Hwf : wf_structure s.
Proof. exact (legal_wf vars cards prior rs HL). Qed.
Lemma HL' : legal_input vars cards rs'.
Proof. apply legal_recoded; assumption. Qed.
Lemma HT' : Forall clock_ok rs'.
Proof. apply clock_recoded; assumption. Qed.
Lemma card_k i c : nth_error cards i = Some c -> c = k.
Proof. intros H. apply HE. exact (nth_error_In _ _ H). Qed.
Lemma idx_k l : In l vars -> nth_error cards (idx_of s l) = Some k.
Proof. intros Hl. pose proof (idx_card vars cards prior l Hwf Hl) as H. fold s in H. rewrite H. f_equal. exact (card_k _ _ H). Qed.
Lemma idx_lt l : In l vars -> idx_of s l < length vars.
Proof. intros Hl. destruct HL as [_ [_ [E _]]]. rewrite <- E. apply nth_error_Some. rewrite (idx_k l Hl). discriminate. Qed.

(** assignments in the other numbering *)
Definition recode_assignment (a : label -> nat) (l : label) : nat := if lmem l vars then code (idx_of s l) (a l) else a l.
Lemma recode_assignment_lt a : (forall l, a l < k) -> forall l, recode_assignment a l < k.
Proof.
  intros Ha l. unfold recode_assignment. destruct (lmem l vars) eqn:E; [|apply Ha]. apply lmem_In in E. apply (HC _ _ (idx_k l E)). apply Ha.
Qed.
Lemma recode_assignment_map a ls : (forall l, In l ls -> In l vars) -> map (recode_assignment a) ls = recode_config code (map (idx_of s) ls) (map a ls).
Proof.
  intros H. unfold recode_config. rewrite combine_maps, map_map. apply map_ext_in. intros l Hl. cbn [fst snd]. unfold recode_assignment.
  rewrite (proj2 (lmem_In l vars) (H l Hl)). reflexivity.
Qed.
Definition decode_assignment (b : label -> nat) (l : label) : nat :=
  if lmem l vars then match find (fun x => code (idx_of s l) x =? b l) (seq 0 k) with Some x => x | None => 0 end else b l.
Lemma decode_assignment_ok b : (forall l, b l < k) -> (forall l, decode_assignment b l < k) /\ forall l, In l vars -> recode_assignment (decode_assignment b) l = b l.
Proof.
  intros Hb. assert (X : forall l, In l vars -> exists x, find (fun x => code (idx_of s l) x =? b l) (seq 0 k) = Some x /\ x < k /\ code (idx_of s l) x = b l).
  { intros l Hl. destruct (find (fun x => code (idx_of s l) x =? b l) (seq 0 k)) as [x|] eqn:E.
    - apply find_some in E as [E1 E2]. apply in_seq in E1. apply Nat.eqb_eq in E2. exists x. split; [reflexivity|]. split; [lia|exact E2].
    - exfalso. assert (I : In (b l) (map (code (idx_of s l)) (seq 0 k))).
      { eapply Permutation_in; [apply Permutation_sym, (seq_recoded code cards HC _ k (idx_k l Hl))|]. apply in_seq. specialize (Hb l). lia. }
      apply in_map_iff in I as [x [Ex Ix]]. pose proof (find_none _ _ E x Ix) as F. cbn beta in F. rewrite Ex, Nat.eqb_refl in F. discriminate. }
  split.
  - intros l. unfold decode_assignment. destruct (lmem l vars) eqn:E; [|apply Hb]. apply lmem_In in E. destruct (X l E) as [x [-> [Hx _]]]. exact Hx.
  - intros l Hl. unfold recode_assignment, decode_assignment. rewrite (proj2 (lmem_In l vars) Hl). destruct (X l Hl) as [x [-> [_ Hx]]]. exact Hx.
Qed.

Lemma data_raw data v ls u : legal_input vars cards data -> In v vars -> (forall l, In l ls -> In l vars) ->
  data_cim (traj_of vars data) (length vars) (idx_of s v) (map (idx_of s) ls) k u = raw_cim data (idx_of s v) (map (idx_of s) ls) k u.
Proof.
  intros HLd Hv Hls. apply (raw_cim_exact vars cards data (idx_of s v) (map (idx_of s) ls) k u HLd). constructor; [apply idx_lt, Hv|].
  apply Forall_forall. intros i Hi. apply in_map_iff in Hi as [l [<- Hl]]. apply idx_lt, Hls, Hl.
Qed.
Lemma computed_raw data v ls u : legal_input vars cards data -> Forall clock_ok data -> In v vars -> (forall l, In l ls -> In l vars) ->
  computed_cim k (raw_cim data (idx_of s v) (map (idx_of s) ls) k u).
Proof.
  intros HLd HTd Hv Hls. apply raw_computed; auto. constructor; [apply idx_lt, Hv|].
  apply Forall_forall. intros i Hi. apply in_map_iff in Hi as [l [<- Hl]]. apply idx_lt, Hls, Hl.
Qed.
Lemma cols_k ls : (forall l, In l ls -> In l vars) -> cols_cards cards (map (idx_of s) ls) (map (fun _ => k) ls).
Proof.
  intros Hls. unfold cols_cards. induction ls as [|l ls IH]; cbn [map]; constructor; [apply idx_k, Hls; left; reflexivity|]. apply IH. intros; apply Hls; right; assumption.
Qed.
Lemma cim_r v ls a : In v vars -> (forall l, In l ls -> In l vars) -> (forall l, a l < k) ->
  same_recoded (code (idx_of s v)) k (raw_cim rs (idx_of s v) (map (idx_of s) ls) k (map a ls))
    (raw_cim rs' (idx_of s v) (map (idx_of s) ls) k (map (recode_assignment a) ls)).
Proof.
  intros Hv Hls Ha. rewrite recode_assignment_map by exact Hls. eapply (raw_cim_recoded code cards HC rs (idx_of s v) k _ (map (fun _ => k) ls)).
  - apply HL.
  - apply idx_k, Hv.
  - apply cols_k, Hls.
  - clear Hls. induction ls as [|l ls IH]; cbn [map]; constructor; [apply Ha|exact IH].
Qed.
Lemma pair_r v sp lp a : In v vars -> (forall l, In l sp -> In l vars) -> (forall l, In l lp -> In l vars) -> (forall l, a l < k) ->
  pair_accepts e' (length vars) k (idx_of s v) sp lp (map (idx_of s) sp) (map (idx_of s) lp) (recode_assignment a)
  <-> pair_accepts e (length vars) k (idx_of s v) sp lp (map (idx_of s) sp) (map (idx_of s) lp) a.
Proof.
  intros Hv Hs Hl Ha. unfold pair_accepts. cbn [e e' e_traj e_threshold e_tests].
  rewrite !(data_raw rs) by (auto using HL). rewrite !(data_raw rs') by (auto using HL').
  pose proof (cim_r v sp a Hv Hs Ha) as R1. pose proof (cim_r v lp a Hv Hl Ha) as R2. destruct (HC _ _ (idx_k v Hv)) as [HB HI].
  pose proof (seq_recoded code cards HC _ k (idx_k v Hv)) as HPm.
  rewrite (tests_r P k (code (idx_of s v)) _ _ _ _ HB HI HPm R1 R2 HQ); [|apply computed_raw; auto using HL', HT'..].
  unfold enough_data. rewrite (diagonal_r k (code (idx_of s v)) HPm _ _ R1). tauto.
Qed.

Lemma vals_are_k x : In x (nodes_values s) -> x = k.
Proof. apply HE. Qed.
Lemma verdict_bool v p K : test_ok s v p K -> exists b mk mk', verdict e (length vars) v p K k = Ok (b, mk) /\ verdict e' (length vars) v p K k = Ok (b, mk').
Proof.
  intros Ht. destruct HE as [Hk _].
  destruct (verdict_meaning e (length vars) k v p K Hwf (legal_data vars cards prior rs HL) eq_refl Hk vals_are_k Ht) as [b [mk [E1 B1]]].
  destruct (verdict_meaning e' (length vars) k v p K Hwf (legal_data vars cards prior rs' HL') eq_refl Hk vals_are_k Ht) as [b' [mk' [E2 B2]]].
  exists b, mk, mk'. split; [exact E1|]. rewrite E2. do 2 f_equal. symmetry. apply eq_true_iff_eq. rewrite B1, B2. clear E1 E2 B1 B2 mk mk' b b'.
  change (e_struct e) with s. change (e_struct e') with s. destruct Ht as [Hv _].
  assert (HI : forall K' l, In l (parents_in s K') -> In l vars) by (intros K' l H; unfold parents_in in H; apply filter_In in H; tauto).
  split; intros H a Ha.
  - destruct (decode_assignment_ok a Ha) as [D1 D2]. specialize (H (decode_assignment a) D1).
    pose proof (proj2 (pair_r v (parents_in s K) (parents_in s (p :: K)) (decode_assignment a) Hv (HI K) (HI (p :: K)) D1) H) as H'. clear H. rename H' into H. unfold pair_accepts in *.
    assert (EM : forall K', map (recode_assignment (decode_assignment a)) (parents_in s K') = map a (parents_in s K')).
    { intros K'. apply map_ext_in. intros l Hl. apply D2, (HI K' l Hl). }
    rewrite !EM in H. exact H.
  - specialize (H (recode_assignment a) (recode_assignment_lt a Ha)). exact (proj1 (pair_r v (parents_in s K) (parents_in s (p :: K)) a Hv (HI K) (HI (p :: K)) Ha) H).
Qed.
Lemma diagonal_nonneg data v K so c : legal_input vars cards data -> In v vars -> (forall l, In l K -> In l vars) ->
  set_params s (traj_of vars data) (length vars) v K = Ok so -> In c (so_actual_cims so) -> (0 <= diagonal_sum (c_trans c))%Z.
Proof.
  intros HLd Hv HK E Hin. destruct HE as [Hk HU]. unfold s in E. rewrite (raw_set_params vars cards prior data k v K HLd Hk HU Hv HK) in E. injection E as <-.
  cbn [so_actual_cims] in Hin. apply in_map_iff in Hin as [u [<- _]].
  assert (ED : forall c, diagonal_sum (c_trans c) = SpecConserve.diagonal_counts c) by reflexivity.
  rewrite ED, raw_cim_diagonal.
  assert (X : forall l : list Z, Forall (fun z => (0 <= z)%Z) l -> (0 <= Zsum l)%Z).
  { induction 1 as [|z l Hz Hl IH]; [cbn; lia|]. unfold Zsum in *. cbn [fold_right]. lia. }
  apply X, Forall_map, Forall_forall. intros x _. apply X, Forall_map, Forall_forall. intros y _. destruct (y =? x); [lia|apply ProofUnit3.raw_jumps_nonneg].
Qed.
Lemma verdict_r v p K : k <= 2 \/ (thr <= 0)%Qc -> test_ok s v p K -> verdict e (length vars) v p K (val_of s v) = verdict e' (length vars) v p K (val_of s v).
Proof.
  intros Hc Ht. pose proof Ht as [Hv [Hp [_ HK]]]. pose proof (idx_card vars cards prior v Hwf Hv) as Ev. fold s in Ev. rewrite (idx_k v Hv) in Ev. injection Ev as <-.
  destruct (verdict_bool v p K Ht) as [b [mk [mk' [E1 E2]]]].
  assert (M : mk = false).
  { eapply (no_mark e (length vars) v p K k Hc); [|exact E1]. intros K0 so c HK0. apply (diagonal_nonneg rs v K0 so c HL Hv).
    destruct HK0 as [->| ->]; [exact HK|intros l [<-|Hl]; auto]. }
  assert (M' : mk' = false).
  { eapply (no_mark e' (length vars) v p K k Hc); [|exact E2]. intros K0 so c HK0. apply (diagonal_nonneg rs' v K0 so c HL' Hv).
    destruct HK0 as [->| ->]; [exact HK|intros l [<-|Hl]; auto]. }
  subst. congruence.
Qed.
End est.
