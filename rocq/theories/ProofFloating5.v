(** The float64 estimation of imported raw data (C69). *)
From Flocq Require Import Core BinarySingleNaN.
From Coq Require Import Reals Lra Psatz.
From Verif Require Import Base Lib ModelStructure ModelGraph ModelCims ModelData ModelParams ModelFamScore ModelFloating
  SpecStructure SpecGraph SpecComb SpecParams SpecData SpecInvariance SpecFloating
  ProofStructure ProofGraph ProofComb ProofIndex ProofParams ProofParams2 ProofParams3 ProofFamScore2 ProofIndep ProofData3 ProofInvariance ProofConserve
  ProofFloating ProofFloating2 ProofFloating3 ProofFloating4.
Open Scope nat_scope.

Lemma B_pow n : B (Z.of_nat n) = (2 ^ n)%R.
Proof. rewrite <- (IZR_Zpower radix2) by lia. rewrite pow_IZR. reflexivity. Qed.
Lemma fclose_within k x y : (2 * INR k * u <= 1)%R -> fclose k x y -> within k x y.
Proof.
  intros Hk [F C]. split; [exact F|]. pose proof (close_error k _ _ Hk C) as H. replace (INR k / 2 ^ 52)%R with (2 * INR k * u)%R; [exact H|].
  unfold Rdiv. rewrite <- u_52. ring.
Qed.
Lemma Qc2R_minus a b : Qc2R (a - b)%Qc = (Qc2R a - Qc2R b)%R.
Proof. unfold Qcminus. rewrite Qc2R_plus, Qc2R_opp. reflexivity. Qed.
Lemma Qc2R_le a b : (a <= b)%Qc -> (Qc2R a <= Qc2R b)%R.
Proof. intros H. assert (H' : (0 <= b - a)%Qc) by (apply -> Qcle_minus_iff; exact H). apply Qc2R_nonneg in H'. rewrite Qc2R_minus in H'. lra. Qed.

Lemma raw_times_nonneg rs : Forall clock_ok rs -> Forall (fun q => (0 <= Qc2R q)%R) (raw_times rs).
Proof.
  intros H. unfold raw_times. apply Forall_forall. intros q Hq. apply in_map_iff in Hq as [ab [<- Hab]]. apply in_flat_map in Hab as [r [Hr Hab]].
  rewrite Forall_forall in H. specialize (H r Hr ab Hab). apply Qc2R_le in H. rewrite Qc2R_minus. lra.
Qed.
Lemma raw_times_total rs : Qcsum (raw_times rs) = Qcsum (map duration rs).
Proof.
  unfold raw_times. induction rs as [|r rs IH]; [reflexivity|]. cbn [flat_map map]. rewrite map_app, Qcsum_app, IH, telescope. reflexivity.
Qed.
Lemma Rtotal_ge l y : Forall (fun y => (0 <= y)%R) l -> In y l -> (y <= Rtotal l)%R.
Proof.
  unfold Rtotal. induction l as [|a l IH]; intros H Hy; [destruct Hy|]. inversion H as [|? ? P0 P1]; subst. cbn [fold_right]. pose proof (Rtotal_pos l P1) as P; unfold Rtotal in P.
  destruct Hy as [->|Hy]; [lra|]. specialize (IH P1 Hy). lra.
Qed.
Lemma f_deltas_close ts r : read_as ts r -> (forall ab, In ab (steps r) -> (0 <= Qc2R (fst (snd ab) - fst (fst ab))%Qc <= B 1010)%R) ->
  Forall2 (fclose 1) (f_deltas ts) (map Qc2R (map (fun ab => (fst (snd ab) - fst (fst ab))%Qc) (steps r))).
Proof.
  unfold read_as, steps. induction 1 as [|x o ts r [Fx Ex] H IH]; intros Hb; [constructor|]. cbn [tl] in *. destruct H as [|x' o' ts r [Fx' Ex'] H]; [constructor|].
  cbn [combine map]. constructor.
  - pose proof (Hb (o, o') (or_introl eq_refl)) as Hb1. cbn [fst snd] in *. rewrite Qc2R_minus in *. rewrite <- Ex, <- Ex' in *. apply fsub_close; assumption.
  - apply IH. intros ab Hab. apply Hb. right. exact Hab.
Qed.
Lemma f_times_close tss rs : Forall2 read_as tss rs -> Forall clock_ok rs -> (Qc2R (Qcsum (map duration rs)) <= 2 ^ 1000)%R ->
  Forall2 (fclose 1) (f_times tss) (map Qc2R (raw_times rs)).
Proof.
  intros H Hc Ht. pose proof (raw_times_nonneg rs Hc) as Hn.
  assert (Hb : forall q, In q (raw_times rs) -> (0 <= Qc2R q <= B 1010)%R).
  { intros q Hq. split; [rewrite Forall_forall in Hn; apply Hn, Hq|]. apply Rle_trans with (B 1000); [|apply bpow_le; lia]. change 1000%Z with (Z.of_nat 1000). rewrite B_pow.
    apply Rle_trans with (2 := Ht). rewrite <- raw_times_total, <- Rtotal_Qc. apply Rtotal_ge; [|apply in_map, Hq].
    apply Forall_forall. intros y Hy. apply in_map_iff in Hy as [q' [<- Hq']]. rewrite Forall_forall in Hn. apply Hn, Hq'. }
  clear Hn Hc Ht. unfold raw_times, f_times in *. revert Hb. induction H as [|ts r tss rs H1 H2 IH]; intros Hb; [constructor|]. cbn [flat_map] in *. rewrite !map_app in *. apply Forall2_app.
  - apply f_deltas_close; [exact H1|]. intros ab Hab. apply Hb, in_or_app. left. apply in_map_iff. exists ab. auto.
  - apply IH. intros q Hq. apply Hb, in_or_app. right. exact Hq.
Qed.

Lemma f_fresh_params s t w es v c ni pis ps : wf_structure s -> data_ok s t ->
  edges_within (nodes_labels s) es -> edges_within (nodes_labels s) (edges_list s) ->
  node_view s (es ++ edges_list s) v c ni pis ps -> 0 < c -> compat c ps ->
  Forall2 (fclose 1) w (map Qc2R (t_times t)) -> Forall (fun q => (0 <= Qc2R q)%R) (t_times t) -> (Qc2R (Qcsum (t_times t)) <= B 1000)%R ->
  (Z.of_nat (length (t_rows t)) <= 2 ^ 51)%Z -> (Z.of_nat (nat_prod (c :: c :: c :: ps)) <= 2 ^ 53)%Z ->
  exists g fcs, ng_fast_init (fresh_graph s es) v = Ok g
    /\ f_compute_parameters_for_node w t g v = Ok (MkSetOfCims (build_p_comb_structure_for_a_node ps) fcs)
    /\ Forall2 (accurate (length (t_rows t))) fcs (map (exact_cim t (total_variables_number s) ni pis c) (le_enum ps)).
Proof.
  intros Hwf Hd H1 H2 [V1 [V2 [V3 V4]]] Hc Hp W1 W2 W3 Hn Hsz.
  assert (Hv : In v (nodes_labels s)) by (eapply states_number_In, V1).
  destruct (fast_init_fresh s es v Hwf H1 H2 Hv) as [g [G1 [G2 [G3 [G4 G5]]]]].
  assert (Ec : c = val_of s v) by (unfold val_of; rewrite V1; reflexivity).
  assert (Ei : ni = idx_of s v) by (unfold idx_of; rewrite V2; reflexivity).
  rewrite (filter_ext_In _ (fun l => emem (l, v) es || emem (l, v) (edges_list s))) in V3 by (intros; apply emem_app).
  rewrite (filter_ext_In _ (fun l => emem (l, v) es || emem (l, v) (edges_list s))) in V4 by (intros; apply emem_app).
  apply (Forall2_lookup _ (idx_of s)) in V3; [|intros a b K; unfold idx_of; rewrite K; reflexivity].
  apply (Forall2_lookup _ (val_of s)) in V4; [|intros a b K; unfold val_of; rewrite K; reflexivity].
  subst c ni pis ps. edestruct (f_params_rel s t g v) as [fcs [F1 F2]]; try eassumption. exists g, fcs. auto.
Qed.

Section data.
Variables (vars : list label) (cards : list nat) (prior : option (list edge)) (rs : list raw) (tss : list (list f64)).
Hypotheses (HL : legal_input vars cards rs) (HR : Forall2 read_as tss rs) (HC : Forall clock_ok rs)
  (HD : (Qc2R (Qcsum (map duration rs)) <= 2 ^ 1000)%R) (HN : (Z.of_nat (observed_steps rs) <= 2 ^ 51)%Z).
Let s := struct_of vars cards prior.

Lemma f_raw_params es v c ni pis ps : edges_within vars es -> edges_within vars (edges_list s) ->
  node_view s (es ++ edges_list s) v c ni pis ps -> 0 < c -> compat c ps -> (Z.of_nat (nat_prod (c :: c :: c :: ps)) <= 2 ^ 53)%Z ->
  exists g fcs, ng_fast_init (fresh_graph s es) v = Ok g
    /\ f_compute_parameters_for_node (f_times tss) (traj_of vars rs) g v = Ok (MkSetOfCims (build_p_comb_structure_for_a_node ps) fcs)
    /\ Forall2 (accurate (observed_steps rs)) fcs (map (ProofInvariance.raw_cim rs ni pis c) (le_enum ps)).
Proof.
  intros He Hp V Hc Hcp Hsz. assert (EL : length (t_rows (traj_of vars rs)) = observed_steps rs) by (cbn [t_rows traj_of]; unfold raw_rows; apply map_length).
  destruct (f_fresh_params s (traj_of vars rs) (f_times tss) es v c ni pis ps (legal_wf _ _ _ _ HL) (legal_data _ _ _ _ HL) He Hp V Hc Hcp) as [g [fcs [G1 [G2 G3]]]].
  - apply f_times_close; assumption.
  - apply raw_times_nonneg, HC.
  - cbn [t_times traj_of]. rewrite raw_times_total. change 1000%Z with (Z.of_nat 1000). rewrite B_pow. exact HD.
  - rewrite EL. exact HN.
  - exact Hsz.
  - exists g, fcs. split; [exact G1|]. split; [exact G2|]. rewrite EL in G3. replace (map (ProofInvariance.raw_cim rs ni pis c) (le_enum ps)) with (map (exact_cim (traj_of vars rs) (total_variables_number s) ni pis c) (le_enum ps)); [exact G3|].
    apply map_ext. intros us. cbn [total_variables_number s struct_of].
    apply (raw_cim_exact vars cards); [exact HL|]. destruct V as [_ [V2 [V3 _]]]. constructor; [eapply struct_of_indx, V2|].
    clear - V3. induction V3; constructor; [eapply struct_of_indx; eassumption|assumption].
Qed.
End data.

Lemma steps_u n m : (Z.of_nat n <= 2 ^ 51)%Z -> m <= n + 3 -> (2 * INR m * u <= 1)%R.
Proof.
  intros Hn Hm. assert (Hm' : (Z.of_nat m <= 2 ^ 52)%Z) by lia. rewrite INR_IZR_INZ. unfold u. replace 1%R with (2 * B 52 * B (-53))%R.
  - apply Rmult_le_compat_r; [apply bpow_ge_0|]. apply Rmult_le_compat_l; [lra|]. change (B 52) with (IZR (2 ^ 52)). apply IZR_le, Hm'.
  - rewrite Rmult_assoc, <- bpow_plus. change (52 + -53)%Z with (-1)%Z. change (B (-1)) with (/ 2)%R. lra.
Qed.

(** reading an accurate CIM entry by entry *)
Lemma accurate_read rs ni pis c us fc : (Z.of_nat (observed_steps rs) <= 2 ^ 51)%Z -> Forall clock_ok rs ->
  accurate (observed_steps rs) fc (ProofInvariance.raw_cim rs ni pis c us) ->
  length (fc_times fc) = c /\ forall x, x < c -> exists T row qrow,
    nth_error (fc_times fc) x = Some T /\ nth_error (fc_trans fc) x = Some row /\ nth_error (fc_cim fc) x = Some qrow
    /\ length row = c /\ length qrow = c
    /\ within (observed_steps rs + 1) T (Qc2R (raw_dwell rs (ni :: pis) (x :: us)))
    /\ forall x', x' < c -> nth_error row x' = Some (true_count rs ni pis c us x x')
        /\ exists q, nth_error qrow x' = Some q /\ within (observed_steps rs + 3) q (true_intensity rs ni pis c us x x').
Proof.
  intros Hn Hclk [A1 [A2 A3]]. set (n := observed_steps rs) in *. set (cm := ProofInvariance.raw_cim rs ni pis c us) in *.
  set (ts := map (fun x => raw_dwell rs (ni :: pis) (x :: us)) (seq 0 c)).
  assert (Et : c_times cm = ts) by reflexivity.
  set (ms := map (fun x => map (fun x' => true_count rs ni pis c us x x') (seq 0 c)) (seq 0 c)).
  assert (Em : c_trans cm = ms) by reflexivity.
  split; [rewrite (Forall2_length _ _ _ A1), Et; unfold ts; rewrite map_length, seq_length; reflexivity|]. intros x Hx.
  assert (Tx : nth_error (c_times cm) x = Some (raw_dwell rs (ni :: pis) (x :: us))) by (rewrite Et; unfold ts; rewrite map_nth_error_iff, nth_seq_lt by exact Hx; reflexivity).
  destruct (Forall2_nth_error_r _ _ _ A1 x _ Tx) as [T [T1 [T2 T3]]].
  set (row := map (fun x' => true_count rs ni pis c us x x') (seq 0 c)).
  assert (Mx : nth_error (c_trans cm) x = Some row) by (rewrite Em; unfold ms; rewrite map_nth_error_iff, nth_seq_lt by exact Hx; reflexivity).
  assert (HQ : (0 <= raw_dwell rs (ni :: pis) (x :: us))%Qc).
  { unfold raw_dwell. rewrite Forall_forall in Hclk. clear - Hclk. induction rs as [|r l IH]; [apply Qcle_refl|]. cbn [map]. rewrite Qcsum_cons. rewrite <- (Qcplus_0_l 0). apply Qcplus_le_compat; [|apply IH; intros r' Hr'; apply Hclk; right; exact Hr'].
    pose proof (Hclk r (or_introl eq_refl)) as Hk. unfold clock_ok in Hk. clear - Hk. induction (steps r) as [|ab l IH]; [apply Qcle_refl|]. cbn [filter]. assert (Hk' : forall ab, In ab l -> (fst (fst ab) <= fst (snd ab))%Qc) by (intros; apply Hk; right; assumption).
    destruct (row_shows _ _ _); [|apply IH, Hk']. cbn [map]. rewrite Qcsum_cons. rewrite <- (Qcplus_0_l 0). apply Qcplus_le_compat; [|apply IH, Hk']. apply -> Qcle_minus_iff. apply Hk. left; reflexivity. }
  assert (Y : (raw_dwell rs (ni :: pis) (x :: us) + 1)%Qc <> 0%Qc).
  { intros K. apply (f_equal Qc2R) in K. rewrite Qc2R_plus, Qc2R_1, Qc2R_0 in K. apply Qc2R_nonneg in HQ. lra. }
  assert (Qx : exists qr, nth_error (c_cim cm) x = Some qr /\ length qr = c).
  { change (c_cim cm) with (c_cim (compute_cim_coefficients (new_cim ts ms))). unfold compute_cim_coefficients, new_cim; cbn [c_cim c_times]. rewrite map_nth_error_iff.
    assert (Qg : forall A C (a : list A) (b : list C) m x1 x2, nth_error a m = Some x1 -> nth_error b m = Some x2 -> nth_error (combine a b) m = Some (x1, x2)).
    { clear. intros A C; induction a as [|p a IHa]; intros [|q b] [|m] x1 x2 A1 A2; cbn in *; try discriminate; [congruence|]. apply IHa; assumption. }
    erewrite Qg; [|unfold negate_diagonal; rewrite nth_error_mapi, map_nth_error_iff, <- Em, Mx; reflexivity|rewrite <- Et; exact Tx]. cbn [option_map fst].
    eexists. split; [reflexivity|]. rewrite map_length, mapi_length, map_length. unfold row. rewrite map_length, seq_length. reflexivity. }
  destruct Qx as [qr [Q1 Q2]]. destruct (Forall2_nth_error_r _ _ _ A3 x _ Q1) as [qf [QF1 QF2]].
  exists T, row, qf. split; [exact T1|]. split; [rewrite A2; exact Mx|]. split; [exact QF1|]. split; [unfold row; rewrite map_length, seq_length; reflexivity|].
  split; [rewrite (Forall2_length _ _ _ QF2); exact Q2|]. split; [apply fclose_within; [apply (steps_u n); [exact Hn|lia]|exact T2]|].
  intros x' Hx'. assert (Rx : nth_error row x' = Some (true_count rs ni pis c us x x')) by (unfold row; rewrite map_nth_error_iff, nth_seq_lt by exact Hx'; reflexivity).
  split; [exact Rx|].
  destruct (cim_entry ts ms x x' _ (true_count rs ni pis c us x x') ltac:(rewrite <- Et; exact Tx)) as [qr' [Q1' Q3]]; [exists row; rewrite <- Em; auto|].
  change (c_cim (compute_cim_coefficients (new_cim ts ms))) with (c_cim cm) in Q1'. rewrite Q1 in Q1'. injection Q1' as <-.
  destruct (Forall2_nth_error_r _ _ _ QF2 x' _ Q3) as [q [QF3 QF4]]. exists q. split; [exact QF3|]. unfold good_coef in QF4.
  apply fclose_within; [apply (steps_u n); [exact Hn|lia]|].
  match type of QF4 with fclose _ _ ?z => replace (true_intensity rs ni pis c us x x') with z; [exact QF4|] end.
  unfold true_intensity. rewrite (Nat.eqb_sym x' x). destruct (x =? x'); rewrite Qc2R_div by exact Y; rewrite ?Qc2R_minus, !Qc2R_plus, Qc2R_1, Qc2R_Z; f_equal; ring.
Qed.
