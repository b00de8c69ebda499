(** Few observed changes: from the raw data, and the rule of thumb of the constraint-based estimator (C87). *)
From Verif Require Import Base Lib LibQc ModelStructure ModelGraph ModelCims ModelData ModelParams ModelCache ModelCtpc
  SpecStructure SpecGraph SpecComb SpecParams SpecData SpecCtpc SpecRecover SpecInvariance SpecConserve SpecFloating
  ProofStructure ProofGraph ProofComb ProofData ProofData3 ProofParams ProofParams2 ProofParams3 ProofConserve ProofInvariance ProofCache
  ProofCtpc ProofCtpc2 ProofCtpc3 ProofCtpc4 ProofCtpc5 ProofCtpc7 ProofAlgorithm3.
Open Scope nat_scope.

Lemma Zsum_mono {A} (f g : A -> Z) l : (forall x, In x l -> (f x <= g x)%Z) -> (Zsum (map f l) <= Zsum (map g l))%Z.
Proof. induction l as [|a l IH]; intros H; cbn [map]; [apply Z.le_refl|]. rewrite !Zsum_cons. pose proof (H a (or_introl eq_refl)). pose proof (IH (fun x Hx => H x (or_intror Hx))). lia. Qed.
Lemma filter_sub {A} (P Q : A -> bool) l : (forall x, In x l -> P x = true -> Q x = true) -> length (filter P l) <= length (filter Q l).
Proof.
  induction l as [|a l IH]; intros H; [reflexivity|]. cbn [filter]. pose proof (IH (fun x Hx => H x (or_intror Hx))) as I. pose proof (H a (or_introl eq_refl)) as Ha.
  destruct (P a); [rewrite (Ha eq_refl); cbn [length]; lia|destruct (Q a); cbn [length]; lia].
Qed.
Lemma shows_more row c cs x u : row_shows row (c :: cs) (x :: u) = true -> row_shows row [c] [x] = true.
Proof. unfold row_shows. cbn [combine forallb fst snd]. intros H. apply andb_true_iff in H as [H _]. rewrite H. reflexivity. Qed.
Lemma shows_two row a b cs x y u : row_shows row (a :: b :: cs) (x :: y :: u) = true -> row_shows row [a; b] [x; y] = true.
Proof. unfold row_shows. cbn [combine forallb fst snd]. rewrite !andb_true_iff. tauto. Qed.
Lemma jumps_le t tot ni pis u x y : (jumps t tot ni pis u x y <= jumps t tot ni [] [] x y)%Z.
Proof. unfold jumps, row_count. apply inj_le, filter_sub. intros r _. apply shows_two. Qed.
Lemma raw_jumps_changes rs ni x y : x <> y -> (raw_jumps rs ni y [ni] [x] <= observed_changes rs ni)%Z.
Proof.
  intros Hxy. unfold raw_jumps, observed_changes. apply Zsum_mono. intros r _. apply inj_le, filter_sub. intros [[ta ra] [tb rb]] _. cbn [fst snd]. unfold changes_state. cbn [fst snd].
  unfold row_shows. cbn [combine forallb fst snd]. rewrite !andb_true_r. intros H. apply andb_true_iff in H as [H1 H2].
  destruct (nth_error ra ni) as [za|]; [|discriminate]. destruct (nth_error rb ni) as [zb|]; [|discriminate]. apply Z.eqb_eq in H1, H2. subst.
  apply andb_true_iff. split; [apply Z.leb_le; lia|]. apply negb_true_iff, Z.eqb_neq. lia.
Qed.
Lemma jumps_nonneg t tot ni pis u x y : (0 <= jumps t tot ni pis u x y)%Z.
Proof. unfold jumps, row_count. lia. Qed.

Section data.
Variables (vars : list label) (cards : list nat) (prior : option (list edge)) (rs : list raw) (k : nat).
Hypothesis HL : legal_input vars cards rs.
Hypothesis HE : equal_cards cards k.
Notation s := (struct_of vars cards prior).
Notation t := (traj_of vars rs).
Lemma raw_still v ni : nth_error vars ni = Some v -> observed_changes rs ni = 0%Z -> forall pis u x y, x <> y -> jumps t (length vars) ni pis u x y = 0%Z.
Proof.
  intros Hn H0 pis u x y Hxy. pose proof (jumps_le t (length vars) ni pis u x y) as J. pose proof (jumps_nonneg t (length vars) ni pis u x y).
  assert (E : jumps t (length vars) ni [] [] x y = raw_jumps rs ni y [ni] [x]).
  { apply (raw_jumps_eq rs ni y [ni] [x] (length vars)); [exact (legal_len vars cards rs HL)|]. constructor; [|constructor]. apply nth_error_Some. congruence. }
  pose proof (raw_jumps_changes rs ni x y Hxy). lia.
Qed.
Lemma vars_NoDup : NoDup vars.
Proof. exact (proj1 (legal_wf vars cards prior rs HL)). Qed.
Lemma raw_idx v ni : nth_error vars ni = Some v -> In v (nodes_labels s) /\ idx_of s v = ni.
Proof.
  intros Hn. assert (Hv : In v vars) by (eapply nth_error_In, Hn). split; [exact Hv|]. pose proof (legal_wf vars cards prior rs HL) as W.
  destruct (wf_lookup s v W Hv) as [q [E1 [E2 [_ [_ _]]]]]. assert (q = ni); [|subst].
  { apply (NoDup_nth_error vars) ; [exact vars_NoDup|apply nth_error_Some; cbn in E1; congruence|]. cbn in E1. congruence. }
  cbn [nodes_indexes struct_of] in E2. rewrite nth_error_seq' in E2. destruct (ni <? length vars); [injection E2 as E2; auto|discriminate].
Qed.
(** the transitions behind one CIM are among the observed changes; behind the parentless CIM they are all of them *)
Lemma diagonal_le v ni pis u : nth_error vars ni = Some v ->
  (Zsum (map (fun x => nth x (nth x (c_trans (data_cim t (length vars) ni pis k u)) []) 0) (seq 0 k)) <= observed_changes rs ni)%Z.
Proof.
  intros Hn. destruct (raw_idx v ni Hn) as [Hv Hi]. pose proof (legal_wf vars cards prior rs HL) as W.
  assert (D : forall x, In x (seq 0 k) -> nth x (nth x (c_trans (data_cim t (length vars) ni pis k u)) []) 0%Z
     = Zsum (map (fun y => if y =? x then 0%Z else jumps t (length vars) ni pis u x y) (seq 0 k))).
  { intros x Hx. apply in_seq in Hx. unfold data_cim, compute_cim_coefficients, new_cim, exact_counts; cbn [c_trans].
    rewrite (nth_error_nth _ x [] (eq_trans (map_nth_error_iff _ _ x) (f_equal (option_map _) (nth_seq_lt k x (proj2 Hx))))).
    rewrite (nth_error_nth _ x 0%Z (eq_trans (map_nth_error_iff _ _ x) (f_equal (option_map _) (nth_seq_lt k x (proj2 Hx))))).
    rewrite Nat.eqb_refl. reflexivity. }
  rewrite (Zsum_ext _ _ _ D). destruct (wf_lookup s v W Hv) as [q [_ [_ [E3 [E4 E5]]]]]. rewrite Hi in E4. rewrite (proj2 HE (val_of s v)) in E5 by (eapply nth_error_In, E3).
  assert (V : node_view s [] v k ni [] []).
  { split; [exact E5|]. split; [exact E4|]. replace (filter (fun l => emem (l, v) []) (nodes_labels s)) with (@nil label) by (clear; induction (nodes_labels s); [reflexivity|assumption]). split; constructor. }
  rewrite <- (jumps_counted_once rs ni [] k []).
  2:{ intros r ab H1 H2. apply (legal_step_rows vars cards prior rs [] v k ni [] [] HL V r ab H1 H2). }
  2:{ intros r ab H1 H2. apply (legal_step_rows vars cards prior rs [] v k ni [] [] HL V r ab H1 H2). }
  change (le_enum []) with [@nil nat]. cbn [map]. rewrite Zsum_cons. change (Zsum []) with 0%Z. rewrite Z.add_0_r.
  apply Zsum_mono. intros x _. apply Zsum_mono. intros y _. destruct (y =? x); [lia|].
  rewrite <- (raw_jumps_eq rs ni y [ni] [x] (length vars)); [apply jumps_le|exact (legal_len vars cards rs HL)|]. constructor; [|constructor]. apply nth_error_Some. congruence.
Qed.
Lemma raw_nonneg : Forall clock_ok rs -> Forall (fun q => 0 <= q)%Qc (t_times t).
Proof.
  intros H. cbn [t_times traj_of]. unfold raw_times. apply Forall_forall. intros q Hq. apply in_map_iff in Hq as [ab [<- Hab]]. apply in_flat_map in Hab as [r [Hr Hab]].
  rewrite Forall_forall in H. specialize (H r Hr ab Hab). apply -> Qcle_minus_iff. exact H.
Qed.

(** ** a test that gives up at every configuration *)
Lemma verdict_few e cs so2 flt th l b mk : (forall c1 pc, In (c1, pc) l -> too_few e cs th c1 = true) -> verdict_configs e cs so2 flt th l = Ok (b, mk) -> b = false -> mk = true.
Proof.
  induction l as [|[c1 pc] l IH]; intros H E Hb; cbn [verdict_configs] in E; [congruence|]. apply bind_ok in E as [cc [_ E]]. pose proof (H c1 pc (or_introl eq_refl)) as F.
  destruct cc as [|c2 cc]; cbn [verdict_cims] in E.
  - apply IH; [intros c pc' Hin; apply (H c pc'); right; exact Hin|exact E|exact Hb].
  - rewrite F in E. congruence.
Qed.
Definition thumb (b : nat) : Qc := Qc_of_Z (Z.of_nat ((k - 1) * (k - 1) * k ^ (1 + b))).
Lemma thumb_is (ls : list label) : 2 < k -> Z.of_nat ((k - 1) * (k - 1) * k * nat_prod (map (fun _ => k) ls)) = Z.of_nat ((k - 1) * (k - 1) * k ^ (1 + length ls)).
Proof. intros Hk. f_equal. rewrite <- Nat.mul_assoc. f_equal. cbn [Nat.pow plus]. f_equal. induction ls as [|a l IH]; [reflexivity|]. cbn [map nat_prod fold_right length Nat.pow]. unfold nat_prod in IH. rewrite IH. reflexivity. Qed.
Lemma not_enough thr v ni (ls : list label) pis u : 2 < k -> nth_error vars ni = Some v -> (Qc_of_Z (observed_changes rs ni) < thr * thumb (length ls))%Qc ->
  ~ enough_data thr k k (map (fun _ => k) ls) (data_cim t (length vars) ni pis k u).
Proof.
  intros Hk Hn Hf He. specialize (He Hk). rewrite (thumb_is ls Hk) in He. fold (thumb (length ls)) in He. pose proof (diagonal_le v ni pis u Hn) as D.
  assert (P : (0 < thumb (length ls))%Qc). { apply Qc_of_Z_pos. assert (0 < k ^ (1 + length ls)) by (apply Nat.neq_0_lt_0, Nat.pow_nonzero; lia). assert (0 < k - 1) by lia. nia. }
  apply (Qcmult_le_compat_r _ _ (thumb (length ls))) in He; [|apply Qclt_le_weak, P]. rewrite Qcmult_comm in He.
  unfold Qcdiv in He. rewrite <- Qcmult_assoc, (Qcmult_comm (/ _)), Qcmult_inv_r, Qcmult_1_r in He by (apply Qc_pos_neq, P).
  apply (Qclt_not_le _ _ Hf). rewrite (Qcmult_comm thr). eapply Qcle_trans; [exact He|]. apply Qc_of_Z_le, D.
Qed.
End data.
