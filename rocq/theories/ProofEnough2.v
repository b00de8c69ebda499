(** C88: FamScore of a data set as a sum of cells, for the data and its copies. *)
From Coq Require Import Reals Lra.
From Verif Require Import Base Lib LibQc ModelStructure ModelGraph ModelCims ModelData ModelParams ModelCache ModelCtpc ModelSearch ModelFamScore
  SpecStructure SpecGraph SpecComb SpecParams SpecData SpecCtpc SpecSearch SpecFamScore SpecRedundant SpecCoding SpecInvariance SpecBias SpecEnough SpecFloating
  ProofStructure ProofGraph ProofComb ProofParams ProofParams2 ProofParams3 ProofConserve ProofCtpc ProofCtpc2 ProofCtpc4 ProofFamScore ProofFamScore2 ProofRedundant
  ProofSearch ProofSearch3 ProofCache ProofCoding ProofCoding2 ProofRedundant2 ProofFew ProofInvariance ProofUnit ProofUnit3 ProofIndep ProofBias ProofAsymp ProofEnough.
Close Scope R_scope. Open Scope nat_scope.

(** ** log-gamma at integer distances *)
Lemma lg_lsum lg a m : log_gamma_equation lg -> (0 < a)%R -> (lg (a + INR m) - lg a = lsum a m)%R.
Proof.
  intros HG Ha. induction m as [|m IH]; [cbn [INR]; rewrite Rplus_0_r; unfold lsum; cbn; lra|].
  rewrite lsum_S, <- IH, S_INR. replace (a + (INR m + 1))%R with (a + INR m + 1)%R by lra. rewrite HG by (pose proof (pos_INR m); lra). lra.
Qed.
Lemma IZR_nat z : (0 <= z)%Z -> IZR z = INR (Z.to_nat z).
Proof. intros H. rewrite INR_IZR_INZ, Z2Nat.id by exact H. reflexivity. Qed.

(** ** the statistics used by a cell *)
Definition oth (k x : nat) : list nat := filter (fun j => negb (j =? x)) (seq 0 k).
Lemma oth_In k x j : In j (oth k x) <-> j < k /\ j <> x.
Proof. unfold oth. rewrite filter_In, in_seq, negb_true_iff, Nat.eqb_neq. lia. Qed.
Lemma oth_length k x : x < k -> S (length (oth k x)) = k.
Proof.
  unfold oth. assert (G : forall n a, (x < a -> length (filter (fun j => negb (j =? x)) (seq a n)) = n) /\ (a <= x < a + n -> S (length (filter (fun j => negb (j =? x)) (seq a n))) = n)).
  { induction n as [|n IH]; intros a; split; intros H; try lia; [reflexivity| |]; cbn [seq filter]; destruct (Nat.eqb_spec a x); cbn [negb length]; try lia.
    - rewrite (proj1 (IH (S a))) by lia. reflexivity.
    - rewrite (proj1 (IH (S a))) by lia. reflexivity.
    - rewrite (proj2 (IH (S a))) by lia. reflexivity. }
  intros H. apply (G k 0). lia.
Qed.
Definition Tm (ds : list raw) (ni : nat) (cols u : list nat) (x : nat) : R := Qc2R (raw_dwell ds (ni :: cols) (x :: u)).
Definition Mm (ds : list raw) (ni : nat) (cols u : list nat) (x j : nat) : nat := Z.to_nat (raw_jumps ds ni j (ni :: cols) (x :: u)).
Lemma Zsum_oth (f : nat -> Z) k x : Zsum (map (fun y => if y =? x then 0%Z else f y) (seq 0 k)) = Zsum (map f (oth k x)).
Proof.
  unfold oth. induction (seq 0 k) as [|y l IH]; [reflexivity|]. cbn [map filter]. rewrite Zsum_cons, IH. destruct (y =? x); cbn [negb map]; rewrite ?Zsum_cons; reflexivity.
Qed.
Lemma Zsum_nat {A} (f : A -> Z) l : (forall a, In a l -> (0 <= f a)%Z) -> (0 <= Zsum (map f l))%Z /\ Z.to_nat (Zsum (map f l)) = nat_sum (map (fun a => Z.to_nat (f a)) l).
Proof.
  induction l as [|a l IH]; intros H; [split; [cbn; lia|reflexivity]|]. destruct (IH (fun b Hb => H b (or_intror Hb))) as [I1 I2]. pose proof (H a (or_introl eq_refl)).
  cbn [map]. rewrite Zsum_cons. split; [lia|]. rewrite Z2Nat.inj_add, I2 by lia. reflexivity.
Qed.

Lemma res_map_comp {A B C} (f : B -> result C) (g : A -> B) l : res_map f (map g l) = res_map (fun x => f (g x)) l.
Proof. induction l as [|a l IH]; [reflexivity|]. cbn [map res_map]. rewrite IH. reflexivity. Qed.
Section cellscore.
Variables (lg : R -> R) (k : nat) (tau alpha : R).
Hypothesis Hlg : log_gamma_equation lg.
Hypothesis Hk : 2 <= k.
Hypothesis Ht : (0 < tau)%R.
Hypothesis Ha : (0 < alpha)%R.
Let axx := (alpha / (INR k - 1))%R.
Lemma k_pos : (0 < INR k - 1)%R.
Proof. apply le_INR in Hk. cbn in Hk. lra. Qed.
Lemma axx_pos : (0 < axx)%R.
Proof. unfold axx. apply Rdiv_lt_0_compat; [exact Ha|exact k_pos]. Qed.
Lemma axx_total x : x < k -> (axx * INR (length (oth k x)) = alpha)%R.
Proof.
  intros Hx. apply oth_length in Hx. assert (E : INR (length (oth k x)) = (INR k - 1)%R) by (rewrite <- Hx at 2; rewrite S_INR; lra). rewrite E. unfold axx. pose proof k_pos. field. lra.
Qed.
Definition cellsum (ds : list raw) (ni : nat) (cols u : list nat) : R :=
  Rsum (map (fun x => cellv tau alpha axx (Tm ds ni cols u x) (map (Mm ds ni cols u x) (oth k x))) (seq 0 k)).
Lemma raw_diag ds ni cols u x : x < k -> m_at (raw_cim ds ni cols k u) x x = Z.of_nat (nat_sum (map (Mm ds ni cols u x) (oth k x))).
Proof.
  intros Hx. unfold m_at. rewrite raw_trans_at by exact Hx. unfold count_of. rewrite Nat.eqb_refl, Zsum_oth.
  destruct (Zsum_nat (fun y => raw_jumps ds ni y (ni :: cols) (x :: u)) (oth k x)) as [A B]; [intros; apply raw_jumps_nonneg|]. rewrite <- (Z2Nat.id _ A), B. reflexivity.
Qed.
Lemma raw_off ds ni cols u x j : x < k -> j < k -> j <> x -> m_at (raw_cim ds ni cols k u) x j = Z.of_nat (Mm ds ni cols u x j).
Proof.
  intros Hx Hj N. unfold m_at. rewrite raw_trans_at by assumption. unfold count_of. apply Nat.eqb_neq in N. rewrite N. unfold Mm. rewrite Z2Nat.id by apply raw_jumps_nonneg. reflexivity.
Qed.
Definition q_val (ds : list raw) (ni : nat) (cols u : list nat) (x : nat) : R :=
  let M := nat_sum (map (Mm ds ni cols u x) (oth k x)) in
  (lsum (alpha + 1) M + (alpha + 1) * ln tau - (alpha + 1 + INR M) * ln (tau + Tm ds ni cols u x))%R.
Definition th_val (ds : list raw) (ni : nat) (cols u : list nat) (x : nat) : R :=
  let M := nat_sum (map (Mm ds ni cols u x) (oth k x)) in (Rsum (map (lsum axx) (map (Mm ds ni cols u x) (oth k x))) - lsum alpha M)%R.
Lemma raw_q ds ni cols u : Forall clock_ok ds -> variable_cim_xu_marginal_likelihood_q lg (raw_cim ds ni cols k u) tau alpha = Ok (Rsum (map (q_val ds ni cols u) (seq 0 k))).
Proof.
  intros HC. pose proof (raw_full ds ni cols k u) as HF. rewrite variable_q_alt, (proj1 HF). apply res_map_sum. intros x Hx. apply in_seq in Hx. unfold one_q.
  destruct (proj2 HF x x ltac:(lia) ltac:(lia)) as [z Ez]. pose proof (entry_rows _ _ _ _ Ez) as E. pose proof (raw_diag ds ni cols u x ltac:(lia)) as D. unfold m_at in D. rewrite Ez in D.
  destruct (nth_res (c_trans (raw_cim ds ni cols k u)) x) as [row|]; cbn [bind] in E |- *; [|discriminate]. rewrite E. cbn [bind].
  assert (ET : nth_error (c_times (raw_cim ds ni cols k u)) x = Some (raw_dwell ds (ni :: cols) (x :: u))).
  { unfold raw_cim. cbn [compute_cim_coefficients new_cim c_times]. rewrite map_nth_error_iff, nth_seq_lt by lia. reflexivity. }
  unfold nth_res. rewrite ET. cbn [bind]. unfold single_cim_xu_marginal_likelihood_q, py_log. destruct (Rlt_dec 0 tau); [|contradiction]. cbn [bind].
  pose proof (Qc2R_nonneg _ (raw_dwell_nonneg ds (ni :: cols) (x :: u) HC)) as HT. destruct (Rlt_dec 0 (tau + Qc2R (raw_dwell ds (ni :: cols) (x :: u)))) as [L|L]; [|exfalso; lra]. cbn [bind]. f_equal.
  unfold q_val. set (M := nat_sum (map (Mm ds ni cols u x) (oth k x))) in *. rewrite D, <- INR_IZR_INZ. fold (Tm ds ni cols u x).
  rewrite <- (lg_lsum lg (alpha + 1) M Hlg) by lra. replace (alpha + INR M + 1)%R with (alpha + 1 + INR M)%R by lra. lra.
Qed.
Lemma raw_theta ds ni cols u : variable_cim_xu_marginal_likelihood_theta lg (raw_cim ds ni cols k u) alpha axx = Ok (Rsum (map (th_val ds ni cols u) (seq 0 k))).
Proof.
  rewrite (variable_theta_closed lg k) by apply raw_full. f_equal. apply Rsum_ext. intros x Hx. apply in_seq in Hx. unfold one_theta, th_val. rewrite raw_diag by lia. rewrite <- INR_IZR_INZ.
  set (M := nat_sum (map (Mm ds ni cols u x) (oth k x))). rewrite <- (lg_lsum lg alpha M Hlg Ha). fold (oth k x).
  rewrite (Rsum_ext (fun j => lg (axx + IZR (m_at (raw_cim ds ni cols k u) x j)) - lg axx)%R (fun j => lsum axx (Mm ds ni cols u x j))).
  - rewrite map_map. lra.
  - intros j Hj. apply oth_In in Hj as [Hj N]. rewrite raw_off by (lia || exact N). rewrite <- INR_IZR_INZ. apply lg_lsum; [exact Hlg|exact axx_pos].
Qed.
Lemma raw_score ds ni cols us : Forall clock_ok ds -> us <> [] -> get_fam_score lg (map (raw_cim ds ni cols k) us) tau alpha = Ok (Rsum (map (cellsum ds ni cols) us)).
Proof.
  intros HC Hne. unfold get_fam_score. destruct us as [|u0 us0] eqn:EU; [contradiction|]. cbn [map nth_res nth_error bind]. rewrite (proj1 (raw_full ds ni cols k u0)).
  replace (k =? 1) with false by (symmetry; apply Nat.eqb_neq; lia). change (raw_cim ds ni cols k u0 :: map (raw_cim ds ni cols k) us0) with (map (raw_cim ds ni cols k) (u0 :: us0)). change (cellsum ds ni cols u0 :: map (cellsum ds ni cols) us0) with (map (cellsum ds ni cols) (u0 :: us0)). rewrite <- EU. clear EU Hne u0 us0. fold axx.
  assert (Q : marginal_likelihood_q lg (map (raw_cim ds ni cols k) us) tau alpha = Ok (Rsum (map (fun u => Rsum (map (q_val ds ni cols u) (seq 0 k))) us))).
  { unfold marginal_likelihood_q. rewrite res_map_comp. apply res_map_sum. intros u _. apply raw_q, HC. }
  assert (T : marginal_likelihood_theta lg (map (raw_cim ds ni cols k) us) alpha axx = Ok (Rsum (map (fun u => Rsum (map (th_val ds ni cols u) (seq 0 k))) us))).
  { unfold marginal_likelihood_theta. rewrite res_map_comp. apply res_map_sum. intros u _. apply raw_theta. }
  rewrite Q. cbn [bind]. rewrite T. cbn [bind]. f_equal. rewrite <- Rsum_plus. apply Rsum_ext. intros u _. unfold cellsum. rewrite <- Rsum_plus. apply Rsum_ext. intros x _.
  unfold q_val, th_val, cellv. lra.
Qed.
End cellscore.

(** ** copies of the data *)
Lemma Tm_copies n rs ni cols u x : Tm (copies n rs) ni cols u x = (INR n * Tm rs ni cols u x)%R.
Proof. unfold Tm. pose proof (spent_copies ni cols u rs n x) as E. unfold time_spent in E. rewrite E, Qc2R_mult, Qc2R_Z, <- INR_IZR_INZ. reflexivity. Qed.
Lemma jumps_copies n rs ni y cols vals : raw_jumps (copies n rs) ni y cols vals = (Z.of_nat n * raw_jumps rs ni y cols vals)%Z.
Proof.
  induction n as [|n IH]; [reflexivity|]. unfold copies in *. cbn [repeat concat]. rewrite jumps_app, IH. lia.
Qed.
Lemma Mm_copies n rs ni cols u x j : Mm (copies n rs) ni cols u x j = n * Mm rs ni cols u x j.
Proof. unfold Mm. rewrite jumps_copies, Z2Nat.inj_mul, Nat2Z.id by (try lia; apply raw_jumps_nonneg). reflexivity. Qed.
Lemma copies_clock n rs : Forall clock_ok rs -> Forall clock_ok (copies n rs).
Proof. intros H. unfold copies. induction n as [|n IH]; [constructor|]. cbn [repeat concat]. apply Forall_app. split; assumption. Qed.
Lemma strict_ok rs : Forall clock_strict rs -> Forall clock_ok rs.
Proof. intros H. eapply Forall_impl; [|exact H]. intros r Hr ab Hab. apply Qclt_le_weak, Hr, Hab. Qed.
