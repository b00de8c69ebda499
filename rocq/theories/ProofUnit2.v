(** The unit of time: a data set on which the constraint-based estimator's answer depends on it. *)
From Coq Require Import Reals Lra.
From Verif Require Import Base Lib ModelStructure ModelGraph ModelCims ModelData ModelParams ModelCache ModelCtpc ModelFamScore ModelIndep
  SpecStructure SpecGraph SpecComb SpecParams SpecData SpecCtpc SpecInvariance SpecRecover SpecFamScore SpecIndep SpecRecover2 SpecUnit
  ProofParams ProofParams2 ProofCtpc6 ProofFamScore2 ProofIndep ProofInvariance ProofRecover2 ProofUnit.
Open Scope nat_scope.

(** X is observed to go from 0 to 1, twice after time [a] while Y is 0, twice after time [b] while Y is 1 *)
Definition unit_data (a b : Qc) : list raw :=
  [ [(0%Qc, [0;0]%Z); (a, [1;0]%Z)]; [(0%Qc, [0;0]%Z); (a, [1;0]%Z)]; [(0%Qc, [0;1]%Z); (b, [1;1]%Z)]; [(0%Qc, [0;1]%Z); (b, [1;1]%Z)] ].
Notation uvars := ["X"; "Y"] (only parsing).
Lemma unit_legal a b : legal_input uvars [2;2] (unit_data a b).
Proof.
  split; [repeat constructor; cbn; intuition discriminate|]. split; [discriminate|]. split; [reflexivity|]. split.
  - repeat constructor; try (intros o Ho; cbn in Ho; intuition (subst; reflexivity)); cbn in H; destruct H as [<-|[]]; cbn; repeat constructor; lia.
  - eexists. split; [left; reflexivity|cbn; lia].
Qed.
Lemma unit_rescaled q a b : rescaled q (unit_data a b) = unit_data (q * a)%Qc (q * b)%Qc.
Proof. unfold rescaled, unit_data. cbn [map fst snd]. rewrite !Qcmult_0_r. reflexivity. Qed.

Section ab.
Variables (a b : Qc).
Hypothesis (Ha : (0 <= a)%Qc) (Hb : (0 <= b)%Qc).
Notation us := (struct_of uvars [2;2] None).
Notation ut := (traj_of uvars (unit_data a b)).

Lemma unit_times : t_times ut = [a; a; b; b].
Proof. cbn. repeat f_equal; unfold Qcminus; ring. Qed.
Lemma unit_nonneg : Forall (fun q => 0 <= q)%Qc (t_times ut).
Proof. rewrite unit_times. repeat constructor; assumption. Qed.
(** what the tables of X hold *)
Lemma x_all : exits (data_cim ut 2 0 [] 2 []) 0 = 4%Z /\ exits (data_cim ut 2 0 [] 2 []) 1 = 0%Z
  /\ nth 0 (c_times (data_cim ut 2 0 [] 2 [])) 0%Qc = (a + (a + (b + (b + 0))))%Qc.
Proof.
  split; [reflexivity|]. split; [reflexivity|]. unfold data_cim. cbn [compute_cim_coefficients new_cim c_times]. unfold exact_times. rewrite unit_times.
  cbn [seq map nth]. reflexivity.
Qed.
Lemma x_given_y y : y < 2 -> exits (data_cim ut 2 0 [1] 2 [y]) 0 = 2%Z /\ exits (data_cim ut 2 0 [1] 2 [y]) 1 = 0%Z
  /\ nth 0 (c_times (data_cim ut 2 0 [1] 2 [y])) 0%Qc = (if y =? 0 then a + (a + 0) else b + (b + 0))%Qc.
Proof.
  intros H. destruct y as [|[|y]]; [| |lia]; (split; [reflexivity|]; split; [reflexivity|]; unfold data_cim; cbn [compute_cim_coefficients new_cim c_times]; unfold exact_times; rewrite unit_times; cbn [seq map nth]; reflexivity).
Qed.
Lemma y_never pis u x : In pis [[]; [0]] -> length u = length pis -> x < 2 -> exits (data_cim ut 2 1 pis 2 u) x = 0%Z.
Proof.
  intros Hp Hu Hx. assert (G : forall rows, Forall (fun r => nth_error r 3 = nth_error r 1) rows -> forall x y, x <> y -> forall pis u, row_count rows (1 + 2 :: 1 :: pis) (y :: x :: u) = 0%Z).
  { intros rows F x0 y0 N pis0 u0. unfold row_count. assert (E : filter (fun r => row_shows r (1 + 2 :: 1 :: pis0) (y0 :: x0 :: u0)) rows = []); [|rewrite E; reflexivity].
    induction F as [|r rows E F IH]; [reflexivity|]. cbn [filter]. unfold row_shows at 1. cbn [combine forallb fst snd]. change (1 + 2) with 3. rewrite E.
    destruct (nth_error r 1) as [z|]; [|exact IH]. destruct (Z.eqb_spec z (Z.of_nat y0)), (Z.eqb_spec z (Z.of_nat x0)); try (cbn [andb]; exact IH). lia. }
  unfold exits, jumps_of, data_cim. cbn [compute_cim_coefficients new_cim c_trans]. unfold exact_counts.
  assert (F : Forall (fun r => nth_error r 3 = nth_error r 1) (t_rows ut)) by (repeat constructor).
  destruct x as [|[|x]]; [| |lia]; cbn [seq map nth Nat.eqb]; unfold jumps; rewrite (G _ F) by lia; reflexivity.
Qed.

(** the ratio compared with the quantiles *)
Definition unit_ratio (y : nat) : R := ((2 * Qc2R a + 2 * Qc2R b + 1) / (3 * (2 * Qc2R (if y =? 0 then a else b) + 1)))%R.
Lemma unit_smoothed y : y < 2 -> smoothed_ratio (data_cim ut 2 0 [] 2 []) (data_cim ut 2 0 [1] 2 [y]) 0 = unit_ratio y.
Proof.
  intros Hy. unfold smoothed_ratio, time_in. destruct x_all as [E1 [_ E2]]. destruct (x_given_y y Hy) as [E3 [_ E4]]. rewrite E1, E2, E3, E4.
  pose proof (Qc2R_nonneg a Ha). pose proof (Qc2R_nonneg b Hb). unfold unit_ratio.
  destruct (y =? 0); rewrite !Qc2R_plus, Qc2R_0; field; lra.
Qed.

Variable P : test_params.
Hypothesis HQ : quantiles_ok P.
Variables (lo hi : R).
Hypothesis Hlo : f_ppf P (exp_alpha P / 2)%R 4 2 = Fin lo.
Hypothesis Hhi : f_ppf P (1 - exp_alpha P / 2)%R 4 2 = Fin hi.

Lemma unit_y q sep : In q uvars -> q <> "Y" -> sep = [] -> separated P us ut "Y" q sep.
Proof.
  intros Hq Hn ->. destruct Hq as [<-|[<-|[]]]; [|congruence]. intros ni spc lpc f A1 A2 A3 A4 x Hx. injection A1 as <-.
  assert (Hwf : wf_structure us) by exact (legal_wf uvars [2;2] None _ (unit_legal a b)).
  apply (columns_idx us _ _ Hwf) in A2. apply (columns_idx us _ _ Hwf) in A3.
  cbn in A2, A3. subst spc lpc. left. apply y_never; [left; reflexivity|reflexivity|exact Hx].
Qed.
Lemma unit_x : separated P us ut "X" "Y" [] <-> forall y, y < 2 -> (lo <= unit_ratio y <= hi)%R.
Proof.
  assert (Hwf : wf_structure us) by exact (legal_wf uvars [2;2] None _ (unit_legal a b)).
  destruct x_all as [E1 [E2 _]]. split.
  - intros H y Hy. specialize (H 0 [] [1] (fun _ => y) eq_refl). cbn zeta in H.
    assert (C1 : columns_of us (filter (fun l => lmem l []) (nodes_labels us)) []) by (cbn; constructor).
    assert (C2 : columns_of us (filter (fun l => lmem l ["Y"]) (nodes_labels us)) [1]) by (cbn; repeat constructor).
    specialize (H C1 C2 (fun _ => Hy) 0 Nat.lt_0_2). change (total_variables_number us) with 2 in H. cbn [nodes_labels filter lmem existsb map String.eqb Ascii.eqb Bool.eqb orb struct_of] in H.
    destruct (x_given_y y Hy) as [E3 _]. unfold rates_agree in H. rewrite E1, E3 in H. destruct H as [H|[H|[[H _]|[_ [_ [B1 B2]]]]]]; try lia.
    rewrite unit_smoothed in B1, B2 by exact Hy. split; [exact (B1 lo Hlo)|exact (B2 hi Hhi)].
  - intros H ni spc lpc f A1 A2 A3 A4 x Hx. injection A1 as <-.
    apply (columns_idx us _ _ Hwf) in A2. apply (columns_idx us _ _ Hwf) in A3. cbn in A2, A3. subst spc lpc.
    change (total_variables_number us) with 2. cbn [nodes_labels filter lmem existsb map String.eqb Ascii.eqb Bool.eqb orb struct_of].
    specialize (A4 "Y"). set (y := f "Y") in *. destruct (x_given_y y A4) as [E3 [E4 _]]. destruct x as [|[|x]]; [| |lia].
    + right. right. right. rewrite E1, E3, unit_smoothed by exact A4. split; [lia|]. split; [lia|]. rewrite Hlo, Hhi.
      split; intros z Hz; injection Hz as <-; apply (H y A4).
    + left. exact E2.
Qed.

Lemma sub_one (A : Type) (x : A) l : sublist l [x] -> l = [] \/ l = [x].
Proof. intros H. inversion H as [|z l1 l2 H1|z l1 l2 H1]; subst; inversion H1; subst; auto. Qed.
Lemma unit_estimate thr est mp (rejects : bool) : new_cb_estimator us ut 2 [] thr (the_tests P) = Ok est ->
  (if rejects then ~ separated P us ut "X" "Y" [] else separated P us ut "X" "Y" []) ->
  exists es est', cb_estimate_structure est mp = Ok (es, est') /\ forall e, In e es <-> rejects = true /\ e = ("Y", "X").
Proof.
  intros EN H. pose (pa := fun v : label => if rejects && String.eqb v "X" then ["Y"] else @nil label).
  assert (OX : others us "X" = ["Y"]) by reflexivity. assert (OY : others us "Y" = ["X"]) by reflexivity.
  assert (R : exists es est', cb_estimate_structure est mp = Ok (es, est') /\ forall x y, In (x, y) es <-> In y (nodes_labels us) /\ In x (pa y)).
  { eapply recovery_on_data with (P := P) (t := ut) (known := []) (thr := thr); [exact HQ|..].
  - exact (legal_wf uvars [2;2] None _ (unit_legal a b)).
  - cbn. repeat constructor; cbn; intuition discriminate.
  - cbn. intuition lia.
  - cbn. intuition lia.
  - exact (legal_data uvars [2;2] None _ (unit_legal a b)).
  - exact unit_nonneg.
  - exact EN.
  - intros v [<-|[<-|[]]]; unfold pa; destruct rejects; cbn; repeat (apply sub_keep || apply sub_skip || apply sub_nil).
  - intros v p sep [<-|[<-|[]]] Hp Hs Hn; unfold pa in Hp; destruct rejects; cbn in Hp; try contradiction.
    destruct Hp as [<-|[]]. rewrite OX in Hs. apply sub_one in Hs as [->| ->]; [exact H|exfalso; apply Hn; left; reflexivity].
  - intros v q [<-|[<-|[]]] Hq Hn; [rewrite OX in Hq|rewrite OY in Hq]; destruct Hq as [<-|[]]; unfold pa in *.
    + destruct rejects; cbn in *; [exfalso; apply Hn; left; reflexivity|exact H].
    + rewrite andb_false_r. apply unit_y; [left; reflexivity|discriminate|reflexivity].
  - intros x y []. }
  destruct R as [es [est' [E K]]]. exists es, est'. split; [exact E|]. intros [x y]. rewrite K. unfold pa. split.
  - intros [[<-|[<-|[]]] I]; destruct rejects; cbn in I; try contradiction. destruct I as [<-|[]]. auto.
  - intros [-> I]. injection I as -> ->. split; left; reflexivity.
Qed.
End ab.

Lemma unit_new a b thr tests : exists est, new_cb_estimator (struct_of uvars [2;2] None) (traj_of uvars (unit_data a b)) 2 [] thr tests = Ok est.
Proof. eexists. reflexivity. Qed.

Lemma Qc2R_frac n d : 0 < d -> Qc2R (Qc_of_Z (Z.of_nat n) / Qc_of_Z (Z.of_nat d))%Qc = (INR n / INR d)%R.
Proof.
  intros H. rewrite Qc2R_div.
  - rewrite !Qc2R_Z, <- !INR_IZR_INZ. reflexivity.
  - intros E. apply (f_equal Qc2R) in E. rewrite Qc2R_Z, Qc2R_0, <- INR_IZR_INZ in E. apply (not_0_INR d); [lia|exact E].
Qed.
Lemma frac_nonneg n d : (0 <= Qc_of_Z (Z.of_nat n) / Qc_of_Z (Z.of_nat (S d)))%Qc.
Proof.
  destruct n as [|n].
  - change (Qc_of_Z (Z.of_nat 0)) with 0%Qc. unfold Qcdiv. rewrite Qcmult_0_l. apply Qcle_refl.
  - apply Qclt_le_weak, Qcdiv_pos; apply Qc_of_Z_pos; lia.
Qed.

Lemma INR_above r : exists n, (r < INR n)%R.
Proof.
  exists (Z.to_nat (up r)). destruct (archimed r) as [H _]. rewrite INR_IZR_INZ. eapply Rlt_le_trans; [exact H|]. apply IZR_le. lia.
Qed.

(** the answers before and after a change of unit *)
Lemma unit_matters P lo hi : quantiles_ok P -> f_ppf P (exp_alpha P / 2)%R 4 2 = Fin lo -> f_ppf P (1 - exp_alpha P / 2)%R 4 2 = Fin hi ->
  (lo <= 1 / 3 < hi)%R ->
  exists a b q : Qc, (0 < a)%Qc /\ (0 < b)%Qc /\ (0 < q)%Qc
   /\ (forall y, (y < 2)%nat -> lo <= unit_ratio a b y <= hi)%R
   /\ ~ (forall y, (y < 2)%nat -> lo <= unit_ratio (q * a)%Qc (q * b)%Qc y <= hi)%R.
Proof.
  intros HQ Hlo Hhi [H1 H2].
  destruct (INR_above (6 * hi)) as [N HN]. destruct (INR_above ((1 + INR N) / (3 * hi - 1))) as [D HD].
  assert (N0 : (1 < INR N)%R) by lra. assert (0 < N) by (apply INR_lt; cbn; lra).
  assert (D0 : (0 < INR D)%R). { eapply Rlt_trans; [|exact HD]. apply Rdiv_lt_0_compat; lra. }
  assert (0 < D) by (apply INR_lt; cbn; lra).
  assert (HD' : (1 + INR N <= INR D * (3 * hi - 1))%R).
  { apply Rlt_le. apply (Rmult_lt_compat_r (3 * hi - 1)) in HD; [|lra]. unfold Rdiv in HD. rewrite Rmult_assoc, Rinv_l, Rmult_1_r in HD by lra. exact HD. }
  set (fr := fun n d => (Qc_of_Z (Z.of_nat n) / Qc_of_Z (Z.of_nat d))%Qc).
  assert (FR : forall n d, 0 < d -> Qc2R (fr n d) = (INR n / INR d)%R) by (intros; apply Qc2R_frac; assumption).
  assert (FP : forall n d, 0 < n -> 0 < d -> (0 < fr n d)%Qc) by (intros; apply Qcdiv_pos; apply Qc_of_Z_pos; lia).
  exists (fr 1 (2 * D)), (fr N (2 * D)), (Qc_of_Z (Z.of_nat D)).
  split; [apply FP; lia|]. split; [apply FP; lia|]. split; [apply Qc_of_Z_pos; lia|].
  assert (A : Qc2R (fr 1 (2 * D)) = (/ (2 * INR D))%R) by (rewrite FR by lia; rewrite mult_INR; cbn [INR]; field; lra).
  assert (B : Qc2R (fr N (2 * D)) = (INR N / (2 * INR D))%R) by (rewrite FR by lia; rewrite mult_INR; cbn [INR]; field; lra).
  assert (ED : Qc2R (Qc_of_Z (Z.of_nat D)) = INR D) by (rewrite Qc2R_Z, <- INR_IZR_INZ; reflexivity).
  set (e := (/ INR D)%R). assert (e0 : (0 < e)%R) by (apply Rinv_0_lt_compat; exact D0).
  assert (eN : (e * (1 + INR N) + 1 <= 3 * hi)%R).
  { apply (Rmult_le_compat_l e) in HD'; [|lra]. rewrite <- Rmult_assoc in HD'. unfold e in *. rewrite Rinv_l in HD' by lra. lra. }
  split.
  - assert (X : forall w, (1 <= w <= INR N)%R -> (lo <= (e * (1 + INR N) + 1) / (3 * (e * w + 1)) <= hi)%R).
    { intros w [W1 W2]. assert (0 < e * w)%R by (apply Rmult_lt_0_compat; lra). assert (e * w <= e * INR N)%R by (apply Rmult_le_compat_l; lra).
      split.
      - apply Rle_trans with (1 / 3)%R; [exact H1|]. apply (Rmult_le_reg_r (3 * (e * w + 1))); [lra|]. unfold Rdiv at 2. rewrite Rmult_assoc, Rinv_l by lra. lra.
      - apply (Rmult_le_reg_r (3 * (e * w + 1))); [lra|]. unfold Rdiv at 1. rewrite Rmult_assoc, Rinv_l by lra.
        assert (0 <= hi * (e * w))%R by (apply Rmult_le_pos; lra). lra. }
    intros y Hy. unfold unit_ratio. destruct y as [|[|y]]; [| |lia]; cbn [Nat.eqb]; rewrite A, B.
    + replace (_ / _)%R with ((e * (1 + INR N) + 1) / (3 * (e * 1 + 1)))%R; [apply X; lra|]. unfold e. field. repeat split; try lra; nra.
    + replace (_ / _)%R with ((e * (1 + INR N) + 1) / (3 * (e * INR N + 1)))%R; [apply X; lra|]. unfold e. field. repeat split; try lra; nra.
  - intros K. specialize (K 0 Nat.lt_0_2). unfold unit_ratio in K. cbn [Nat.eqb] in K. rewrite !Qc2R_mult, A, B, ED in K. destruct K as [_ K].
    replace (_ / _)%R with ((2 + INR N) / 6)%R in K; [lra|]. field. repeat split; try lra; nra.
Qed.
