(** The unit of time: FamScore and the score-based estimator. *)
From Coq Require Import Reals Lra.
From Verif Require Import Base Lib ModelStructure ModelGraph ModelCims ModelData ModelParams ModelCache ModelCtpc ModelSearch ModelEstimators ModelFamScore
  SpecStructure SpecGraph SpecComb SpecParams SpecData SpecCtpc SpecSearch SpecEstimators SpecConserve SpecInvariance SpecRename SpecUnit
  ProofStructure ProofGraph ProofComb ProofParams ProofParams2 ProofCtpc ProofCtpc2 ProofCtpc4 ProofFamScore ProofFamScore2 ProofIndep
  ProofSearch ProofSearch2 ProofSearch3 ProofEstimators2 ProofInvariance ProofConserve ProofRename ProofSim.
Open Scope nat_scope.

Lemma sum_shift {A B} (Q : A -> B -> Prop) (f : A -> result R) (f' : B -> result R) (d : A -> R) l l' : Forall2 Q l l' ->
  (forall a b, In a l -> Q a b -> f' b = rmap (fun x => x - d a)%R (f a)) ->
  (let* r := res_map f' l' in Ok (Rsum r)) = rmap (fun x => x - Rsum (map d l))%R (let* r := res_map f l in Ok (Rsum r)).
Proof.
  induction 1 as [|a b l l' Hab F IH]; intros H.
  - cbn. f_equal. lra.
  - cbn [res_map]. rewrite (H a b) by (auto; left; reflexivity). specialize (IH (fun a0 b0 I => H a0 b0 (or_intror I))).
    destruct (f a) as [x|e]; cbn [bind rmap] in *; [|reflexivity].
    destruct (res_map f' l') as [r'|e'], (res_map f l) as [r|e]; cbn [bind rmap] in *; try discriminate.
    + injection IH as IH. unfold Rsum in *. cbn [fold_right map]. rewrite IH. f_equal. lra.
    + congruence.
Qed.
Lemma Forall2_diag {A} (l : list A) : Forall2 eq l l.
Proof. induction l; constructor; auto. Qed.

Lemma rmap_pt {A B} (f g : A -> B) r : (forall x, f x = g x) -> rmap f r = rmap g r.
Proof. intros H. destruct r; [cbn; rewrite H|]; reflexivity. Qed.

Lemma py_log_scale l x : (0 < l)%R -> py_log (l * x) = rmap (fun y => ln l + y)%R (py_log x).
Proof.
  intros Hl. unfold py_log. destruct (Rlt_dec 0 x) as [H|H].
  - destruct (Rlt_dec 0 (l * x)) as [K|K]; [|exfalso; apply K; apply Rmult_lt_0_compat; assumption]. cbn [rmap]. rewrite ln_mult by assumption. reflexivity.
  - destruct (Rlt_dec 0 (l * x)) as [K|K]; [|reflexivity]. exfalso. apply H. apply (Rmult_lt_reg_l l); [exact Hl|]. rewrite Rmult_0_r. exact K.
Qed.

Section fam.
Variables (lg : R -> R) (k : Qc).
Hypothesis Hk : (0 < Qc2R k)%R.
Let l := Qc2R k.

Lemma single_q_unit m T tau alpha : single_cim_xu_marginal_likelihood_q lg m (k * T)%Qc (l * tau)%R alpha
  = rmap (fun x => x - ln l * IZR m)%R (single_cim_xu_marginal_likelihood_q lg m T tau alpha).
Proof.
  unfold single_cim_xu_marginal_likelihood_q. rewrite Qc2R_mult. fold l. rewrite <- Rmult_plus_distr_l, !(py_log_scale l) by exact Hk.
  destruct (py_log tau) as [a|e]; cbn [rmap bind]; [|reflexivity]. destruct (py_log (tau + Qc2R T)) as [b|e]; cbn [rmap bind]; [|reflexivity]. f_equal. ring.
Qed.
Lemma Rsum_IZR {A} (f : A -> Z) xs c : Rsum (map (fun a => c * IZR (f a))%R xs) = (c * IZR (Zsum (map f xs)))%R.
Proof. induction xs as [|a xs IH]; [cbn; lra|]. unfold Rsum, Zsum in *. cbn [map fold_right]. rewrite IH, plus_IZR. ring. Qed.

Lemma variable_q_unit c c' tau alpha : square c -> same_in_unit k c c' ->
  variable_cim_xu_marginal_likelihood_q lg c' (l * tau)%R alpha
  = rmap (fun x => x - ln l * IZR (diagonal_counts c))%R (variable_cim_xu_marginal_likelihood_q lg c tau alpha).
Proof.
  intros Hs [H1 H2]. unfold variable_cim_xu_marginal_likelihood_q. rewrite H1, H2, map_length.
  match goal with |- bind (res_map ?F' _) _ = rmap _ (bind (res_map ?F _) _) =>
    rewrite (sum_shift eq F F' (fun i => ln l * IZR (nth i (nth i (c_trans c) []) 0%Z))%R _ _ (Forall2_diag (seq 0 (length (c_times c))))) end.
  - apply rmap_pt. intros x. rewrite Rsum_IZR. do 4 f_equal. unfold diagonal_counts. rewrite (mapi_seq _ ([] : list Z)), Hs. reflexivity.
  - intros i j _ <-. destruct (nth_res (c_trans c) i) as [row|e] eqn:E1; cbn [bind rmap]; [|reflexivity].
    destruct (nth_res row i) as [m|e] eqn:E2; cbn [bind rmap]; [|reflexivity].
    replace (nth_res (map (fun d : Qc => (k * d)%Qc) (c_times c)) i) with (rmap (fun d => k * d)%Qc (nth_res (c_times c) i)).
    2:{ unfold nth_res. rewrite nth_error_map. destruct (nth_error (c_times c) i); reflexivity. }
    destruct (nth_res (c_times c) i) as [T|e]; cbn [bind rmap]; [|reflexivity]. rewrite single_q_unit.
    apply nth_res_ok in E1, E2. rewrite (nth_error_nth _ _ _ E1), (nth_error_nth _ _ _ E2). reflexivity.
Qed.

Lemma variable_theta_unit c c' a axx : same_in_unit k c c' ->
  variable_cim_xu_marginal_likelihood_theta lg c' a axx = variable_cim_xu_marginal_likelihood_theta lg c a axx.
Proof.
  intros [H1 H2]. unfold variable_cim_xu_marginal_likelihood_theta, single_cim_xu_marginal_likelihood_theta. rewrite H1, H2, map_length. reflexivity.
Qed.
Lemma fam_unit cims cims' tau alpha : Forall square cims -> Forall2 (same_in_unit k) cims cims' ->
  get_fam_score lg cims' (l * tau)%R alpha = rmap (fun x => x - ln l * IZR (all_jumps cims))%R (get_fam_score lg cims tau alpha).
Proof.
  intros HS HF. unfold get_fam_score.
  assert (E0 : nth_res cims' 0 = nth_res cims 0 \/ exists c c', nth_res cims 0 = Ok c /\ nth_res cims' 0 = Ok c' /\ same_in_unit k c c').
  { destruct HF as [|c c' cs cs' H F]; [left; reflexivity|right]. exists c, c'. repeat split; auto; apply H. }
  assert (Q : marginal_likelihood_q lg cims' (l * tau)%R alpha = rmap (fun x => x - ln l * IZR (all_jumps cims))%R (marginal_likelihood_q lg cims tau alpha)).
  { unfold marginal_likelihood_q, all_jumps.
    rewrite (sum_shift (same_in_unit k) (fun c => variable_cim_xu_marginal_likelihood_q lg c tau alpha) _ (fun c => ln l * IZR (diagonal_counts c))%R cims cims' HF).
    - apply rmap_pt. intros x. rewrite Rsum_IZR. reflexivity.
    - intros a b Ha Hab. rewrite Forall_forall in HS. apply variable_q_unit; auto. }
  assert (T : forall a b, marginal_likelihood_theta lg cims' a b = marginal_likelihood_theta lg cims a b).
  { intros a b. unfold marginal_likelihood_theta. f_equal. clear Q E0 HS. induction HF as [|c c' cs cs' H F IH]; [reflexivity|]. cbn [res_map].
    rewrite (variable_theta_unit c c' a b H), IH. reflexivity. }
  destruct E0 as [E0|[c [c' [E1 [E2 [L _]]]]]].
  - rewrite E0. destruct (nth_res cims 0) as [c|e]; cbn [bind rmap]; [|reflexivity]. destruct (_ =? 1); [reflexivity|]. rewrite Q, T.
    destruct (marginal_likelihood_q lg cims tau alpha) as [q|e]; cbn [bind rmap]; [|reflexivity].
    destruct (marginal_likelihood_theta lg cims alpha _) as [th|e]; cbn [bind rmap]; [|reflexivity]. f_equal. ring.
  - rewrite E1, E2. cbn [bind]. rewrite L, map_length. destruct (_ =? 1); [reflexivity|]. rewrite Q, T.
    destruct (marginal_likelihood_q lg cims tau alpha) as [q|e]; cbn [bind rmap]; [|reflexivity].
    destruct (marginal_likelihood_theta lg cims alpha _) as [th|e]; cbn [bind rmap]; [|reflexivity]. f_equal. ring.
Qed.
End fam.

Lemma raw_jumps_total vars cards prior rs k v K : legal_input vars cards rs -> equal_cards cards k ->
  let s := struct_of vars cards prior in
  In v vars -> (forall l, In l K -> In l vars) ->
  all_jumps (map (raw_cim rs (idx_of s v) (map (idx_of s) (parents_in s K)) (val_of s v)) (le_enum (map (val_of s) (parents_in s K)))) = observed_changes rs (idx_of s v).
Proof.
  intros HL [Hk HC] s Hv HK. pose proof (legal_wf vars cards prior rs HL) as Hwf. fold s in Hwf.
  set (par := parents_in s K). set (es := map (fun p => (p, v)) par).
  assert (HW : forall l, In l vars -> structure_get_node_indx s l = Ok (idx_of s l) /\ structure_get_states_number s l = Ok (val_of s l)).
  { intros l Hl. destruct (wf_lookup s l Hwf Hl) as [_ [_ [_ [_ [A B]]]]]. auto. }
  assert (HV : node_view s es v (val_of s v) (idx_of s v) (map (idx_of s) par) (map (val_of s) par)).
  { assert (EP : filter (fun l => emem (l, v) es) (nodes_labels s) = par).
    { unfold par, parents_in. apply filter_ext_In. intros l Hl. apply eq_true_iff_eq. rewrite emem_In, lmem_In. unfold es. rewrite in_map_iff. split.
      - intros [q [E Hq]]. injection E as ->. unfold par, parents_in in Hq. apply filter_In in Hq as [_ Hq]. apply lmem_In, Hq.
      - intros Hl'. exists l. split; [reflexivity|]. unfold par, parents_in. apply filter_In. rewrite lmem_In. auto. }
    assert (HI : forall p, In p par -> In p vars) by (intros p H; unfold par, parents_in in H; apply filter_In in H; tauto).
    split; [apply HW, Hv|]. split; [apply HW, Hv|]. rewrite EP. clear EP es. clearbody par.
    split; (induction par as [|p r IH]; constructor; [apply HW, HI; left; reflexivity|apply IH; intros q Hq; apply HI; right; exact Hq]). }
  rewrite <- (jumps_counted_once rs (idx_of s v) (map (idx_of s) par) (val_of s v) (map (val_of s) par)).
  - unfold all_jumps. rewrite map_map. apply Zsum_ext. intros u _. apply raw_cim_diagonal.
  - intros r ab Hr Hab. apply (legal_step_rows vars cards prior rs es v _ _ _ _ HL HV r ab Hr Hab).
  - intros r ab Hr Hab. apply (legal_step_rows vars cards prior rs es v _ _ _ _ HL HV r ab Hr Hab).
Qed.
Lemma raw_square rs ni pis c u : square (raw_cim rs ni pis c u).
Proof. unfold square, raw_cim. cbn [compute_cim_coefficients new_cim c_trans c_times]. rewrite !map_length. reflexivity. Qed.

Lemma Qc2R_pos q : (0 < q)%Qc -> (0 < Qc2R q)%R.
Proof. intros H. rewrite <- Qc2R_0. unfold Qc2R. apply Qreals.Qlt_Rlt. exact H. Qed.
Lemma pscore_unit lg tau alpha q vars cards prior rs k v K : (0 < q)%Qc -> legal_input vars cards rs -> equal_cards cards k -> In v vars -> (forall l, In l K -> In l vars) ->
  let s := struct_of vars cards prior in
  related (fun a b => b = a - ln (Qc2R q) * IZR (observed_changes rs (idx_of s v)))%R
    (pscore R (fun cims => get_fam_score lg cims tau alpha) (traj_of vars rs) s v K)
    (pscore R (fun cims => get_fam_score lg cims (Qc2R q * tau)%R alpha) (traj_of vars (rescaled q rs)) s v K).
Proof.
  intros Hq HL [Hk HC] Hv HK s. unfold pscore. change (total_variables_number s) with (length vars).
  assert (Hq' : (0 < Qc2R q)%R) by (apply Qc2R_pos; exact Hq).
  unfold s. rewrite (raw_set_params vars cards prior rs k v K HL Hk HC Hv HK), (raw_set_params vars cards prior (rescaled q rs) k v K (legal_rescaled q _ _ _ HL) Hk HC Hv HK).
  cbn [bind so_actual_cims]. rewrite <- (raw_jumps_total vars cards prior rs k v K HL (conj Hk HC) Hv HK).
  match goal with |- related _ (get_fam_score lg ?a _ _) (get_fam_score lg ?b _ _) => set (A := a); set (B := b) end.
  rewrite (fam_unit lg q Hq' A B tau alpha).
  - destruct (get_fam_score lg A tau alpha); cbn [related rmap]; reflexivity.
  - apply Forall_map, Forall_forall. intros u _. apply raw_square.
  - unfold A, B. generalize (le_enum (map (val_of (struct_of vars cards prior)) (parents_in (struct_of vars cards prior) K))). intros L0.
    induction L0 as [|u L0 IH]; cbn [map]; constructor; [apply raw_cim_rescaled|exact IH].
Qed.
