(** Redundant variables and the score-based search: two concrete data sets. *)
From Coq Require Import Reals Lra Qreals.
From Verif Require Import Base Lib ModelStructure ModelGraph ModelCims ModelData ModelParams ModelCtpc ModelSearch ModelFamScore ModelEstimators
  SpecStructure SpecGraph SpecComb SpecParams SpecCtpc SpecSearch SpecEstimators SpecRedundant SpecUnit
  ProofStructure ProofGraph ProofComb ProofParams ProofCtpc ProofCtpc4 ProofFamScore2 ProofSearch ProofSearch3 ProofEstimators2 ProofSim ProofRedundant2.
Open Scope nat_scope.

(** a three-state CIM in which only the first state was visited, for time [T], and left [M] times for the second state *)
Definition row0 (c : cim) (T : Qc) (M : Z) : Prop := c_times c = [T;0;0]%Qc /\ c_trans c = [[M;M;0];[0;0;0];[0;0;0]]%Z.
Definition row0b (c : cim) (TM : Qc * Z) : bool :=
  match c_times c, c_trans c with
  | [a;b;d], [[m1;m2;m3];[m4;m5;m6];[m7;m8;m9]] =>
      Qc_eq_bool a (fst TM) && Qc_eq_bool b 0%Qc && Qc_eq_bool d 0%Qc && (m1 =? snd TM)%Z && (m2 =? snd TM)%Z && forallb (fun m => (m =? 0)%Z) [m3;m4;m5;m6;m7;m8;m9]
  | _, _ => false end.
Lemma row0b_ok c TM : row0b c TM = true -> row0 c (fst TM) (snd TM).
Proof.
  unfold row0b, row0. destruct (c_times c) as [|a [|b [|d [|? ?]]]]; try discriminate.
  destruct (c_trans c) as [|[|m1 [|m2 [|m3 [|? ?]]]] [|[|m4 [|m5 [|m6 [|? ?]]]] [|[|m7 [|m8 [|m9 [|? ?]]]] [|? ?]]]]; try discriminate.
  intros H. repeat (apply andb_true_iff in H as [H ?]). cbn [forallb] in *.
  repeat match goal with K : _ && _ = true |- _ => apply andb_true_iff in K as [? ?] end.
  repeat match goal with K : (_ =? _)%Z = true |- _ => apply Z.eqb_eq in K end.
  repeat match goal with K : Qc_eq_bool _ _ = true |- _ => apply Qc_eq_bool_correct in K end. subst. split; reflexivity.
Qed.
Fixpoint all_row0 (cs : list cim) (l : list (Qc * Z)) : bool :=
  match cs, l with [], [] => true | c :: cs, x :: l => row0b c x && all_row0 cs l | _, _ => false end.

Section cells.
Variables (lg : R -> R) (tau alpha : R).
Definition cell (TM : Qc * Z) : R :=
  (lg (alpha + IZR (snd TM) + 1) + ln tau * (alpha + 1) - (lg (alpha + 1) + ln (tau + Qc2R (fst TM)) * (alpha + IZR (snd TM) + 1))
   + (lg alpha - lg (alpha + IZR (snd TM)) + (lg (alpha / 2 + IZR (snd TM)) - lg (alpha / 2))))%R.
Lemma cell0 : cell (0%Qc, 0%Z) = 0%R.
Proof. unfold cell. cbn [fst snd]. rewrite Qc2R_0, !Rplus_0_r. lra. Qed.
Lemma row0_score cs l : (0 < tau)%R -> Forall (fun x => 0 <= Qc2R (fst x))%R l -> l <> [] -> all_row0 cs l = true -> get_fam_score lg cs tau alpha = Ok (Rsum (map cell l)).
Proof.
  intros Ht Hpos Hne H. assert (F : Forall2 (fun c x => row0 c (fst x) (snd x)) cs l).
  { clear -H. revert l H. induction cs as [|c cs IH]; intros [|x l] H; try discriminate; constructor; cbn [all_row0] in H; apply andb_true_iff in H as [H1 H2]; [apply row0b_ok, H1|apply IH, H2]. }
  clear H. unfold get_fam_score. inversion F as [|c x cs' l' H1 H2]; subst; [contradiction|]. cbn [nth_res nth_error bind].
  rewrite (proj1 H1). cbn [length Nat.eqb]. replace (alpha / (INR 3 - 1))%R with (alpha / 2)%R by (cbn; f_equal; lra).
  assert (E : forall cs l, Forall (fun x => 0 <= Qc2R (fst x))%R l -> Forall2 (fun c x => row0 c (fst x) (snd x)) cs l ->
     exists q th, marginal_likelihood_q lg cs tau alpha = Ok q /\ marginal_likelihood_theta lg cs alpha (alpha / 2) = Ok th /\ (q + th)%R = Rsum (map cell l)).
  { clear -Ht. intros cs l Hp. revert cs. induction Hp as [|x l Hx Hp IH]; intros cs F; inversion F as [|c x' cs' l' [H1 H2] H3]; subst.
    - eexists _, _. split; [reflexivity|]. split; [reflexivity|]. cbn. lra.
    - destruct (IH cs' H3) as [q [th [E1 [E2 E3]]]]. unfold marginal_likelihood_q, marginal_likelihood_theta in *. cbn [res_map].
      assert (A : exists qx, variable_cim_xu_marginal_likelihood_q lg c tau alpha = Ok qx /\
        qx = (lg (alpha + IZR (snd x) + 1) + ln tau * (alpha + 1) - (lg (alpha + 1) + ln (tau + Qc2R (fst x)) * (alpha + IZR (snd x) + 1)))%R).
      { unfold variable_cim_xu_marginal_likelihood_q. rewrite H1, H2. cbn [length seq res_map nth_res nth_error bind].
        unfold single_cim_xu_marginal_likelihood_q, py_log. destruct (Rlt_dec 0 tau); [|contradiction]. cbn [bind].
        rewrite Qc2R_0, !Rplus_0_r. destruct (Rlt_dec 0 (tau + Qc2R (fst x))) as [|N]; [|exfalso; apply N; lra]. cbn [bind].
        destruct (Rlt_dec 0 tau); [|contradiction]. cbn [bind]. eexists. split; [reflexivity|]. unfold Rsum. cbn [fold_right]. lra. }
      destruct A as [qx [A1 A2]].
      assert (B : exists tx, variable_cim_xu_marginal_likelihood_theta lg c alpha (alpha / 2) = Ok tx /\
        tx = (lg alpha - lg (alpha + IZR (snd x)) + (lg (alpha / 2 + IZR (snd x)) - lg (alpha / 2)))%R).
      { unfold variable_cim_xu_marginal_likelihood_theta, single_cim_xu_marginal_likelihood_theta. rewrite H1, H2. cbn -[Rplus Rminus Rdiv Rmult Rsum].
        eexists. split; [reflexivity|]. unfold Rsum, single_internal_cim_xxu_marginal_likelihood_theta. cbn [fold_right]. rewrite !Rplus_0_r. lra. }
      destruct B as [tx [B1 B2]]. rewrite A1, B1. cbn [bind].
      destruct (res_map (fun c => variable_cim_xu_marginal_likelihood_q lg c tau alpha) cs') as [lq|]; [|discriminate]. cbn [bind] in *. injection E1 as <-.
      destruct (res_map (fun c => variable_cim_xu_marginal_likelihood_theta lg c alpha (alpha / 2)) cs') as [lt|]; [|discriminate]. cbn [bind] in *. injection E2 as <-.
      eexists _, _. split; [reflexivity|]. split; [reflexivity|]. unfold Rsum in *. cbn [map fold_right]. rewrite <- E3, A2, B2. unfold cell. lra. }
  destruct (E _ _ Hpos F) as [q [th [E1 [E2 E3]]]]. rewrite E1. cbn [bind]. rewrite E2. cbn [bind]. rewrite E3. reflexivity.
Qed.
End cells.

(** the number of parent configurations with data, as an integer score *)
Definition visited (cims : list cim) : result Z := Ok (Z.of_nat (length (filter (fun c => negb (Qc_eq_bool (nth 0 (c_times c) 0%Qc) 0%Qc)) cims))).

(** ** U is a function of W *)
Definition us := MkStructure ["X";"U";"W"] [0;1;2] [3;3;3] [] 3.
Definition ut := MkTrajectory [1;1;1;1;1;1;Q2Qc 20;Q2Qc 200]%Qc
  [[0;1;2;1;-1;-1]; [0;1;2;1;-1;-1]; [0;1;2;1;-1;-1]; [0;1;2;1;-1;-1]; [0;1;2;1;-1;-1]; [0;1;2;1;-1;-1]; [0;1;1;-1;-1;-1]; [0;0;0;-1;-1;-1]]%Z 6 4.
(** ** Z takes two states, C one, X never changes *)
Definition zs := MkStructure ["X";"Z";"C"] [0;1;2] [3;3;3] [] 3.
Definition zt := MkTrajectory [1;1]%Qc [[0;0;0;-1;-1;-1]; [0;1;0;-1;-1;-1]]%Z 6 4.

Lemma us_wf : wf_structure us. Proof. split; [|split; reflexivity]. cbn. repeat constructor; cbn; intuition congruence. Qed.
Lemma zs_wf : wf_structure zs. Proof. split; [|split; reflexivity]. cbn. repeat constructor; cbn; intuition congruence. Qed.
Ltac data_tac := split; [reflexivity|]; split; [reflexivity|]; split; [reflexivity|]; intros row Hrow l i c Hi Hc;
  unfold structure_get_node_indx in Hi; unfold structure_get_states_number in Hc; cbn in Hi, Hc;
  repeat match type of Hi with context [String.eqb l ?x] => destruct (String.eqb l x) end; try discriminate;
  cbn in Hi, Hc; injection Hi as <-; injection Hc as <-;
  repeat destruct Hrow as [<-|Hrow]; try contradiction;
  (split; [cbn; lia|]; split; [first [exists 0; split; [reflexivity|lia]|exists 1; split; [reflexivity|lia]|exists 2; split; [reflexivity|lia]]|eexists; split; [reflexivity|lia]]).
Lemma us_data : data_ok us ut. Proof. data_tac. Qed.
Lemma zs_data : data_ok zs zt. Proof. data_tac. Qed.
Lemma us_vals x : In x (nodes_values us) -> x = 3. Proof. cbn; intuition. Qed.
Lemma zs_vals x : In x (nodes_values zs) -> x = 3. Proof. cbn; intuition. Qed.

Section which.
Variables (lg : R -> R).
Section gen.
Variables (s : structure) (t : trajectory) (v : label).
Hypothesis Hwf : wf_structure s.
Hypothesis Hd : data_ok s t.
Hypothesis HV : forall x, In x (nodes_values s) -> x = 3.
Hypothesis Hv : In v (nodes_labels s).
Lemma cims_of Sc (score : list cim -> result Sc) K : (forall l, In l K -> In l (nodes_labels s)) ->
  pscore Sc score t s v K = score (map (data_cim t (total_variables_number s) (idx_of s v) (map (idx_of s) (parents_in s K)) 3) (le_enum (map (fun _ => 3) (parents_in s K)))).
Proof.
  intros HK. assert (HVv : forall l, In l (nodes_labels s) -> val_of s l = 3).
  { intros l Hl. destruct (wf_lookup s l Hwf Hl) as [i [_ [_ [E3 _]]]]. apply HV. eapply nth_error_In, E3. }
  assert (EV : map (val_of s) (parents_in s K) = map (fun _ => 3) (parents_in s K)).
  { apply map_ext_in. intros l Hl. apply HVv. unfold parents_in in Hl. apply filter_In in Hl. tauto. }
  unfold pscore. rewrite (set_params_exact s t (total_variables_number s) v K Hwf Hd eq_refl Hv).
  - cbn [bind so_actual_cims]. rewrite EV, (HVv v Hv). reflexivity.
  - rewrite (HVv v Hv). lia.
  - rewrite EV, (HVv v Hv). intros q Hq _. apply in_map_iff in Hq as [_ [<- _]]. reflexivity.
  - exact HK.
Qed.
End gen.

Variables (tau alpha : R).
Hypothesis Ht : (0 < tau)%R.
Notation score := (fun cims => get_fam_score lg cims tau alpha).
Definition u1 := cell lg tau alpha (Q2Qc 226, 6%Z).
Definition u2 := (cell lg tau alpha (Q2Qc 26, 6%Z) + cell lg tau alpha (Q2Qc 200, 0%Z))%R.
Definition u3 := (cell lg tau alpha (Q2Qc 6, 6%Z) + cell lg tau alpha (Q2Qc 20, 0%Z) + cell lg tau alpha (Q2Qc 200, 0%Z))%R.
Definition pairs (cims : list cim) : list (Qc * Z) := map (fun c => (nth 0 (c_times c) 0%Qc, nth 0 (nth 0 (c_trans c) []) 0%Z)) cims.

Definition urel (r : R) (z : Z) : Prop := (z = 1%Z /\ r = u1) \/ (z = 2%Z /\ r = u2) \/ (z = 3%Z /\ r = u3).
Definition z1 := cell lg tau alpha (Q2Qc 2, 0%Z).
Definition z2 := (cell lg tau alpha (Q2Qc 1, 0%Z) + cell lg tau alpha (Q2Qc 1, 0%Z))%R.
Definition zrel (r : R) (z : Z) : Prop := (z = 1%Z /\ r = z1) \/ (z = 2%Z /\ r = z2).

(** drop the empty pairs *)
Definition is0 (x : Qc * Z) : bool := Qc_eq_bool (fst x) 0%Qc && (snd x =? 0)%Z.
Lemma sum_drop l : Rsum (map (cell lg tau alpha) l) = Rsum (map (cell lg tau alpha) (filter (fun x => negb (is0 x)) l)).
Proof.
  unfold Rsum. induction l as [|[T M] l IH]; [reflexivity|]. cbn [map fold_right filter]. destruct (is0 (T, M)) eqn:E; cbn [negb]; [|cbn [map fold_right]; rewrite IH; reflexivity].
  unfold is0 in E. cbn [fst snd] in E. apply andb_true_iff in E as [E1 E2]. apply Qc_eq_bool_correct in E1. apply Z.eqb_eq in E2. subst. rewrite cell0, IH. lra.
Qed.
Definition same_pairs (l m : list (Qc * Z)) : bool := (length l =? length m) && forallb (fun xy => Qc_eq_bool (fst (fst xy)) (fst (snd xy)) && (snd (fst xy) =? snd (snd xy))%Z) (combine l m).
Lemma same_pairs_ok l : forall m, same_pairs l m = true -> l = m.
Proof.
  unfold same_pairs. induction l as [|[a b] l IH]; intros [|[c d] m] H; try discriminate; [reflexivity|]. apply andb_true_iff in H as [H1 H2].
  cbn [combine forallb fst snd] in H2. apply andb_true_iff in H2 as [H2 H3]. apply andb_true_iff in H2 as [H2 H4]. apply Qc_eq_bool_correct in H2. apply Z.eqb_eq in H4. subst.
  f_equal. apply IH. apply andb_true_iff. split; [exact H1|exact H3].
Qed.
Definition good (cs : list cim) (m : list (Qc * Z)) : bool :=
  all_row0 cs (pairs cs) && forallb (fun x => Qle_bool 0 (this (fst x))) (pairs cs) && (0 <? length cs) && same_pairs (filter (fun x => negb (is0 x)) (pairs cs)) m.
Lemma good_score cs m : good cs m = true -> score cs = Ok (Rsum (map (cell lg tau alpha) m)).
Proof.
  unfold good. intros H. apply andb_true_iff in H as [H H4]. apply andb_true_iff in H as [H H3]. apply andb_true_iff in H as [H1 H2].
  rewrite (row0_score lg tau alpha cs (pairs cs) Ht); [rewrite sum_drop; apply same_pairs_ok in H4; rewrite H4; reflexivity| | |exact H1].
  - apply Forall_forall. intros x Hx. rewrite forallb_forall in H2. specialize (H2 x Hx). apply Qle_bool_imp_le in H2. unfold Qc2R.
    replace 0%R with (Q2R 0) by (unfold Q2R; cbn; lra). apply Qle_Rle, H2.
  - apply Nat.ltb_lt in H3. destruct cs; [cbn in H3; lia|discriminate].
Qed.

Lemma u_related K : (forall l, In l K -> In l (nodes_labels us)) -> related urel (pscore R score ut us "X" K) (pscore Z visited ut us "X" K).
Proof.
  intros HK. rewrite !(cims_of us ut "X" us_wf us_data us_vals (or_introl eq_refl)) by exact HK. unfold parents_in. cbn [us nodes_labels filter].
  assert (E : forall b1 b2 b3 : bool, let P := (if b1 then ["X"] else []) ++ (if b2 then ["U"] else []) ++ (if b3 then ["W"] else []) in
    let cs := map (data_cim ut 3 0 (map (idx_of us) P) 3) (le_enum (map (fun _ => 3) P)) in related urel (score cs) (visited cs)).
  { intros b1 b2 b3 P cs. destruct b3.
    - rewrite (good_score cs (if b2 then [(Q2Qc 200,0%Z);(Q2Qc 20,0%Z);(Q2Qc 6,6%Z)] else [(Q2Qc 200,0%Z);(Q2Qc 20,0%Z);(Q2Qc 6,6%Z)])) by (destruct b1, b2; vm_compute; reflexivity).
      replace (visited cs) with (Ok 3%Z) by (destruct b1, b2; vm_compute; reflexivity). right. right. split; [reflexivity|]. destruct b2; cbn; unfold u3; lra.
    - destruct b2.
      + rewrite (good_score cs [(Q2Qc 200,0%Z);(Q2Qc 26,6%Z)]) by (destruct b1; vm_compute; reflexivity).
        replace (visited cs) with (Ok 2%Z) by (destruct b1; vm_compute; reflexivity). right. left. split; [reflexivity|]. cbn; unfold u2; lra.
      + rewrite (good_score cs [(Q2Qc 226,6%Z)]) by (destruct b1; vm_compute; reflexivity).
        replace (visited cs) with (Ok 1%Z) by (destruct b1; vm_compute; reflexivity). left. split; [reflexivity|]. cbn; unfold u1; lra. }
  specialize (E (lmem "X" K) (lmem "U" K) (lmem "W" K)). cbn zeta in E. destruct (lmem "X" K), (lmem "U" K), (lmem "W" K); exact E.
Qed.
Lemma z_related K : (forall l, In l K -> In l (nodes_labels zs)) -> related zrel (pscore R score zt zs "X" K) (pscore Z visited zt zs "X" K).
Proof.
  intros HK. rewrite !(cims_of zs zt "X" zs_wf zs_data zs_vals (or_introl eq_refl)) by exact HK. unfold parents_in. cbn [zs nodes_labels filter].
  assert (E : forall b1 b2 b3 : bool, let P := (if b1 then ["X"] else []) ++ (if b2 then ["Z"] else []) ++ (if b3 then ["C"] else []) in
    let cs := map (data_cim zt 3 0 (map (idx_of zs) P) 3) (le_enum (map (fun _ => 3) P)) in related zrel (score cs) (visited cs)).
  { intros b1 b2 b3 P cs. destruct b2.
    - rewrite (good_score cs [(Q2Qc 1,0%Z);(Q2Qc 1,0%Z)]) by (destruct b1, b3; vm_compute; reflexivity).
      replace (visited cs) with (Ok 2%Z) by (destruct b1, b3; vm_compute; reflexivity). right. split; [reflexivity|]. cbn; unfold z2; lra.
    - rewrite (good_score cs [(Q2Qc 2,0%Z)]) by (destruct b1, b3; vm_compute; reflexivity).
      replace (visited cs) with (Ok 1%Z) by (destruct b1, b3; vm_compute; reflexivity). left. split; [reflexivity|]. cbn; unfold z1; lra. }
  specialize (E (lmem "X" K) (lmem "Z" K) (lmem "C" K)). cbn zeta in E. destruct (lmem "X" K), (lmem "Z" K), (lmem "C" K); exact E.
Qed.
End which.

Lemma Qc2R_Z z : Qc2R (Q2Qc (inject_Z z)) = IZR z.
Proof. unfold Qc2R, Q2Qc. cbn [this]. rewrite (Qeq_eqR _ _ (Qred_correct _)). unfold Q2R. cbn. lra. Qed.
Lemma ln4 a b c d : (0 < a)%R -> (0 < b)%R -> (0 < c)%R -> (0 < d)%R -> (c * (b*b*b*b) < d * (a*a*a*a))%R -> (ln c + 4 * ln b < ln d + 4 * ln a)%R.
Proof.
  intros Ha Hb Hc Hd H. assert (P : forall x, (0 < x)%R -> (ln (x*x*x*x) = 4 * ln x)%R).
  { intros x Hx. rewrite !ln_mult by (repeat apply Rmult_lt_0_compat; assumption). lra. }
  rewrite <- (P a Ha), <- (P b Hb), <- !ln_mult; try (repeat apply Rmult_lt_0_compat; assumption). apply ln_increasing; [repeat apply Rmult_lt_0_compat; assumption|exact H].
Qed.
Lemma u_order lg : (u1 lg (1/10) 1 < u2 lg (1/10) 1 < u3 lg (1/10) 1)%R.
Proof.
  unfold u1, u2, u3, cell. cbn [fst snd]. change 226%Q with (inject_Z 226). change 26%Q with (inject_Z 26). change 200%Q with (inject_Z 200). change 6%Q with (inject_Z 6). change 20%Q with (inject_Z 20).
  rewrite !Qc2R_Z, !Rplus_0_r.
  pose proof (ln4 (1/10 + 226) (1/10 + 26) (1/10 + 200) (1/10) ltac:(lra) ltac:(lra) ltac:(lra) ltac:(lra) ltac:(lra)) as A.
  pose proof (ln4 (1/10 + 26) (1/10 + 6) (1/10 + 20) (1/10) ltac:(lra) ltac:(lra) ltac:(lra) ltac:(lra) ltac:(lra)) as B.
  split; lra.
Qed.
Lemma z_order lg tau alpha : (0 < tau)%R -> (0 < alpha)%R -> (z2 lg tau alpha < z1 lg tau alpha)%R.
Proof.
  intros Ht Ha. unfold z1, z2, cell. cbn [fst snd]. change 2%Q with (inject_Z 2). change 1%Q with (inject_Z 1). rewrite !Qc2R_Z, !Rplus_0_r.
  assert (L : (ln tau + ln (tau + 2) < ln (tau + 1) + ln (tau + 1))%R).
  { rewrite <- !ln_mult by lra. apply ln_increasing; [apply Rmult_lt_0_compat; lra|]. nra. }
  assert (M : (0 < (alpha + 1) * (ln (tau + 1) + ln (tau + 1) - ln tau - ln (tau + 2)))%R) by (apply Rmult_lt_0_compat; lra). lra.
Qed.

Definition uparams := MkSbParams None 40 (Some 2) None None "tabu".
Definition zparams := MkSbParams (Some 1) 40 (Some 2) None None "tabu".
Definition umat := repeat (repeat true 3) 3.
Definition zmat := [[true;true;true];[false;true;true];[true;true;true]].
Lemma us_ready : search_ready us [] umat "X".
Proof. split; [exact us_wf|]. split; [reflexivity|]. split; [reflexivity|]. split; [intros e []|]. split; [reflexivity|left; reflexivity]. Qed.
Lemma zs_ready : search_ready zs [("Z","X")] zmat "X".
Proof. split; [exact zs_wf|]. split; [reflexivity|]. split; [reflexivity|]. split; [intros e [<-|[]]; cbn; auto|]. split; [reflexivity|left; reflexivity]. Qed.
Lemma u_run lg g draws r : estimate_parents Z visited Z.gtb (MkSbEst us ut umat g) draws "X" uparams = Ok r ->
  estimate_parents R (fun cims => get_fam_score lg cims (1/10) 1) score_gt (MkSbEst us ut umat g) draws "X" uparams = Ok r.
Proof.
  intros E. rewrite <- E. apply (sb_sim_search R Z _ _ _ _ us ut ut (urel lg (1/10) 1) [] umat "X" draws uparams us_ready).
  - destruct (u_order lg) as [A B]. intros a b a' b' [[-> ->]|[[-> ->]|[-> ->]]] [[-> ->]|[[-> ->]|[-> ->]]]; unfold score_gt; destruct (Rgt_dec _ _); try reflexivity; exfalso; lra.
  - intros K HK. apply u_related; [lra|exact HK].
Qed.
Lemma z_run lg tau alpha g draws p r : (0 < tau)%R -> (0 < alpha)%R -> estimate_parents Z visited Z.ltb (MkSbEst zs zt zmat g) draws "X" p = Ok r ->
  estimate_parents R (fun cims => get_fam_score lg cims tau alpha) score_gt (MkSbEst zs zt zmat g) draws "X" p = Ok r.
Proof.
  intros Ht Ha E. rewrite <- E. apply (sb_sim_search R Z _ _ _ _ zs zt zt (zrel lg tau alpha) [("Z","X")] zmat "X" draws p zs_ready).
  - pose proof (z_order lg tau alpha Ht Ha) as A. intros a b a' b' [[-> ->]|[-> ->]] [[-> ->]|[-> ->]]; unfold score_gt; destruct (Rgt_dec _ _); try reflexivity; exfalso; lra.
  - intros K HK. apply z_related; [exact Ht|exact HK].
Qed.
