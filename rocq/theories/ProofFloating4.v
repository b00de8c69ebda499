(** The float64 parameter estimation of a node (C69). *)
From Flocq Require Import Core BinarySingleNaN.
From Coq Require Import Reals Lra Psatz.
From Verif Require Import Base Lib ModelStructure ModelGraph ModelCims ModelData ModelParams ModelFamScore ModelFloating
  SpecStructure SpecGraph SpecComb SpecParams ProofStructure ProofGraph ProofComb ProofIndex ProofParams ProofParams2 ProofParams3 ProofFamScore2 ProofIndep ProofFloating ProofFloating2 ProofFloating3.
Open Scope nat_scope.

Lemma disjoint_counts {A} (p : nat -> A -> bool) l ys : NoDup ys -> (forall y y' a, p y a = true -> p y' a = true -> y = y') ->
  (Zsum (map (fun y => Z.of_nat (length (filter (p y) l))) ys) <= Z.of_nat (length l))%Z.
Proof.
  intros Hn Hd. induction l as [|a l IH].
  - change ((Zsum (map (fun _ : nat => 0%Z) ys) <= 0)%Z). assert (E : Zsum (map (fun _ : nat => 0%Z) ys) = 0%Z) by (clear; induction ys as [|y ys IH]; [reflexivity|exact IH]). rewrite E. lia.
  - assert (H1 : (Zsum (map (fun y => if p y a then 1%Z else 0%Z) ys) <= 1)%Z).
    { clear IH. induction Hn as [|y ys Hy Hn IH]; [cbn; lia|]. cbn [map]. change (Zsum (?b :: ?r)) with (b + Zsum r)%Z. destruct (p y a) eqn:Ey; [|lia].
      assert (E : Zsum (map (fun y => if p y a then 1%Z else 0%Z) ys) = 0%Z).
      { clear IH Hn. induction ys as [|y' ys IH]; [reflexivity|]. cbn [map]. change (Zsum (?b :: ?r)) with (b + Zsum r)%Z. destruct (p y' a) eqn:E'; [exfalso; apply Hy; left; symmetry; apply (Hd y y' a); assumption|].
        rewrite IH; [reflexivity|]. intros K; apply Hy; right; exact K. }
      rewrite E. lia. }
    assert (H2 : Zsum (map (fun y => Z.of_nat (length (filter (p y) (a :: l)))) ys)
               = (Zsum (map (fun y => if p y a then 1%Z else 0%Z) ys) + Zsum (map (fun y => Z.of_nat (length (filter (p y) l))) ys))%Z).
    { clear. induction ys as [|y ys IH]; [reflexivity|]. cbn [map]. change (Zsum (?b :: ?r)) with (b + Zsum r)%Z. rewrite IH. cbn [filter]. destruct (p y a); cbn [length]; lia. }
    rewrite H2. cbn [length]. lia.
Qed.
Lemma row_count_le rows cols vals : (0 <= row_count rows cols vals <= Z.of_nat (length rows))%Z.
Proof. unfold row_count. split; [lia|]. apply inj_le. clear. induction rows as [|r rows IH]; [reflexivity|]. cbn [filter length]. destruct (row_shows r cols vals); cbn [length]; lia. Qed.
Lemma exact_counts_le t tot ni pis c u row z : In row (exact_counts t tot ni pis c u) -> In z row -> (0 <= z <= Z.of_nat (length (t_rows t)))%Z.
Proof.
  unfold exact_counts. intros Hr Hz. apply in_map_iff in Hr as [x [<- _]]. apply in_map_iff in Hz as [x' [<- _]]. destruct (x' =? x); [|apply row_count_le].
  split.
  - apply Zsum_pos. intros w Hw. apply in_map_iff in Hw as [y [<- _]]. destruct (y =? x); [lia|apply row_count_le].
  - apply Z.le_trans with (Zsum (map (fun y => jumps t tot ni pis u x y) (seq 0 c))).
    + clear. induction (seq 0 c) as [|y l IH]; [cbn; lia|]. cbn [map]. change (Zsum (?b :: ?r)) with (b + Zsum r)%Z. pose proof (proj1 (row_count_le (t_rows t) ((ni + tot) :: ni :: pis) (y :: x :: u))). unfold jumps in *. destruct (y =? x); lia.
    + unfold jumps, row_count. apply (disjoint_counts (fun y r => row_shows r ((ni + tot) :: ni :: pis) (y :: x :: u))); [apply seq_NoDup|].
      intros y y' a. unfold row_shows. cbn [combine forallb fst snd]. destruct (nth_error a (ni + tot)) as [w|]; [|discriminate]. rewrite !andb_true_iff, !Z.eqb_eq. intros [-> _] [E _]. lia.
Qed.

Section node.
Variables (s : structure) (t : trajectory) (g : netgraph) (v : string) (f : string -> bool) (w : list f64).
Let tot := total_variables_number s.
Let pars := filter f (nodes_labels s).
Let pis := map (idx_of s) pars.
Let ps := map (val_of s) pars.
Let c := val_of s v.
Let ni := idx_of s v.

Lemma f_params_rel : wf_structure s -> data_ok s t -> ginv g -> ng_struct g = s ->
  init_fields g = canonical_fields s v f -> In v (nodes_labels s) -> 0 < c -> compat c ps ->
  Forall2 (fclose 1) w (map Qc2R (t_times t)) -> Forall (fun q => (0 <= Qc2R q)%R) (t_times t) -> (Qc2R (Qcsum (t_times t)) <= B 1000)%R ->
  (Z.of_nat (length (t_rows t)) <= 2 ^ 51)%Z -> (Z.of_nat (nat_prod (c :: c :: c :: ps)) <= 2 ^ 53)%Z ->
  exists fcs, f_compute_parameters_for_node w t g v = Ok (MkSetOfCims (build_p_comb_structure_for_a_node ps) fcs)
    /\ Forall2 (accurate (length (t_rows t))) fcs (map (exact_cim t tot ni pis c) (le_enum ps)).
Proof.
  intros Hwf Hdo Hg Hs Hi Hv Hc Hp W1 W2 W3 Hn Hsz. pose proof (params_exact s t g v f Hwf Hdo Hg Hs Hi Hv Hc Hp) as PE. destruct Hdo as [Hl [Hw [Ho Hd]]].
  cbv zeta in PE. fold pars in PE. fold pis ps c ni tot in PE.
  unfold compute_parameters_for_node in PE. unfold f_compute_parameters_for_node. unfold init_fields, canonical_fields in Hi.
  injection Hi as I1 I2 I3 I4 I5 I6. rewrite I1, I2, I3, I4, I5, I6 in *. cbn [opt_get bind snd] in *.
  destruct (ginv_lookup g v Hg) as [E1 E2]; [rewrite Hs; exact Hv|]. rewrite E1, E2, Hs in *. cbn [bind] in *.
  fold pars in PE |- *; fold pis ps c ni tot in PE |- *.
  assert (Hlen : length pis = length ps) by (subst pis ps; rewrite !map_length; reflexivity).
  assert (Hrow : forall row, In row (t_rows t) -> forall l, In l (nodes_labels s) -> idx_of s l < tot
      /\ (exists d, nth_error row (idx_of s l) = Some (Z.of_nat d) /\ d < val_of s l)
      /\ (exists z, nth_error row (idx_of s l + tot) = Some z /\ (z < Z.of_nat (val_of s l))%Z)).
  { intros row Hr l Hin. destruct (wf_lookup s l Hwf Hin) as [i [_ [_ [_ [K1 K2]]]]]. apply (Hd row Hr l _ _ K1 K2). }
  assert (Hpars : forall l, In l pars -> In l (nodes_labels s)) by (intros l K; apply filter_In in K; tauto).
  assert (Hcols : t_rows t <> [] -> Forall (fun i => i < tot) (ni :: pis)).
  { intros Hne. destruct (t_rows t) as [|row rr] eqn:ER; [contradiction|]. constructor; [apply (Hrow row (or_introl eq_refl) v Hv)|].
    apply Forall_forall. intros i Ki. apply in_map_iff in Ki as [l [<- Kl]]. apply (Hrow row (or_introl eq_refl) l (Hpars l Kl)). }
  assert (Hpr : forall row, In row (t_rows t) -> row_in_range row pis ps).
  { intros row Hr. unfold row_in_range. subst pis ps. clear Hlen Hp I1 I2 I3 I4 I5 I6 Hcols PE Hsz.
    induction pars as [|l r IH]; [constructor|].
    constructor; [apply (Hrow row Hr l), Hpars; left; reflexivity|]. apply IH. intros l' K; apply Hpars; right; exact K. }
  assert (Hnr : forall row, In row (t_rows t) -> row_in_range row (ni :: pis) (c :: ps)).
  { intros row Hr. constructor; [apply (Hrow row Hr v Hv)|apply Hpr, Hr]. }
  assert (Hpp : 0 < nat_prod ps \/ t_rows t = []).
  { destruct (t_rows t) as [|row rr]; [right; reflexivity|left]. destruct (in_range_digits _ _ _ (Hpr row (or_introl eq_refl))) as [ds [D _]]. apply config_rank_lt in D. lia. }
  assert (Hc53 : t_rows t <> [] -> (Z.of_nat c <= 2 ^ 53)%Z).
  { intros Hne. destruct Hpp as [Hpp|Hpp]; [|contradiction]. unfold nat_prod in *. cbn [fold_right] in Hsz. nia. }
  apply bind_ok in PE as [T [T1 PE]]. apply bind_ok in PE as [M [M1 PE]]. injection PE as PE.
  assert (Hwn : length w = length (t_rows t)) by (rewrite (Forall2_length _ _ _ W1), map_length; exact Hl).
  assert (Hu : forall m, m <= length (t_rows t) + 3 -> (2 * INR m * u <= 1)%R).
  { intros m Hm. assert (Hm' : (Z.of_nat m <= 2 ^ 52)%Z) by lia. rewrite INR_IZR_INZ. unfold u. replace 1%R with (2 * B 52 * B (-53))%R.
    - apply Rmult_le_compat_r; [apply bpow_ge_0|]. apply Rmult_le_compat_l; [lra|]. change (B 52) with (IZR (2 ^ 52)). apply IZR_le, Hm'.
    - rewrite Rmult_assoc, <- bpow_plus. change (52 + -53)%Z with (-1)%Z. change (B (-1)) with (/ 2)%R. lra. }
  destruct (f_res_time_rel w (t_times t) (traj_trajectory t) (build_time_columns_filtering_for_a_node ni pis) (build_time_scalar_indexing_structure_for_a_node c ps) (nat_prod ps) c T W1 W2 W3) as [Tf [F1 F2]].
  - rewrite Hwn. apply Hu. lia.
  - intros row sel Hr Hsel. unfold traj_trajectory in Hr. apply in_map_iff in Hr as [r [<- K]]. specialize (Hnr r K).
    assert (Hne : t_rows t <> []) by (intros Q; rewrite Q in K; destruct K). specialize (Hcols Hne). specialize (Hc53 Hne). rewrite Ho, Nat.add_sub in Hsel. fold tot in Hsel.
    assert (HR : row_in_range (firstn tot r) (ni :: pis) (c :: ps)).
    { clear - Hnr Hcols. unfold row_in_range in *. revert Hcols. induction Hnr as [|i k cols cards [d [D1 D2]] H IH]; intros F; constructor.
      - inversion F; subst. exists d. rewrite nth_error_firstn' by assumption. split; assumption.
      - apply IH. inversion F; assumption. }
    destruct (in_range_digits _ _ _ HR) as [ds [D1 [D2 _]]]. unfold build_time_columns_filtering_for_a_node in Hsel. rewrite D2 in Hsel. injection Hsel as <-.
    pose proof D1 as D1'. inversion D1 as [|x cc us cs Dx Du]; subst ds. subst. pose proof (required_index c ps x us Hc Hp Dx Du) as RI. rewrite RI. unfold build_time_scalar_indexing_structure_for_a_node in *.
    apply f_index_eq; [exact Hc|exact RI| |exact Hc53]. pose proof (config_rank_lt _ _ D1'). apply Z.le_trans with (Z.of_nat (nat_prod (c :: c :: c :: ps))); [|exact Hsz]. apply inj_le. unfold nat_prod in *. cbn [fold_right] in *. nia.
  - exact T1.
  - rewrite F1. cbn [bind]. rewrite f_trans_eq.
    + rewrite M1. cbn [bind]. eexists. split; [reflexivity|]. rewrite <- PE. rewrite Hwn in F2.
      assert (EL : length M = length T).
      { assert (BL : forall A k (rows out : list A), broadcast_rows k rows = Ok out -> length out = k).
        { clear. intros A k rows out. unfold broadcast_rows. destruct (Nat.eqb_spec (length rows) k); [intros E; injection E as <-; assumption|]. destruct rows as [|r [|]]; try discriminate. intros E; injection E as <-. apply repeat_length. }
        destruct (transitions_spec (t_rows t) ni tot pis c ps Hc Hp Hlen) as [M' [M1' [M2' _]]].
        { apply Forall_forall. intros row Hr. destruct (Hrow row Hr v Hv) as [_ [_ [z [Z1 Z2]]]]. exists z. split; [exact Z1|].
          intros Hz. constructor; [|apply Hnr, Hr]. exists (Z.to_nat z). fold c in Z2. rewrite Z2Nat.id by exact Hz. split; [exact Z1|lia]. }
        unfold traj_complete in M1. rewrite Hw in M1. fold tot in M1. rewrite M1' in M1. injection M1 as <-. rewrite M2'. symmetry.
        unfold compute_state_res_time_for_node in T1. destruct (_ =? 0)%Z; [discriminate|]. apply bind_ok in T1 as [a [_ T1]]. apply bind_ok in T1 as [b [_ T1]]. apply bind_ok in T1 as [d [_ T1]]. apply (BL _ _ _ _ T1). }
      assert (HM : forall m, In m M -> forall row z, In row m -> In z row -> (0 <= z <= Z.of_nat (length (t_rows t)))%Z).
      { intros m Hm. apply In_nth_error in Hm as [i Hm]. destruct (nth_error T i) as [ti|] eqn:Ei; [|apply nth_error_None in Ei; assert (nth_error M i <> None) by congruence; apply nth_error_Some in H; lia].
        assert (HC : nth_error (build_cims T M) i = Some (compute_cim_coefficients (new_cim ti m))).
        { unfold build_cims. rewrite map_nth_error_iff. assert (HC : nth_error (combine T M) i = Some (ti, m)); [|rewrite HC; reflexivity].
          clear - Ei Hm. revert M i Ei Hm. induction T as [|a T IH]; intros [|b M] [|i]; cbn [nth_error combine]; try discriminate; [congruence|apply IH]. }
        rewrite PE, map_nth_error_iff in HC. destruct (nth_error (le_enum ps) i) as [us|]; [|discriminate]. apply (f_equal (option_map c_trans)) in HC. cbn [option_map] in HC. unfold exact_cim in HC. cbn [compute_cim_coefficients new_cim c_trans] in HC.
        assert (HC' : exact_counts t tot ni pis c us = m) by (injection HC; auto). rewrite <- HC'. intros row z. apply exact_counts_le. }
      clear - F2 EL HM Hu Hn. unfold f_build_cims, build_cims. revert M EL HM. induction F2 as [|a b Tf T H1 H2 IH]; intros M EL HM; destruct M as [|m M]; try discriminate; cbn [combine map]; constructor.
      * cbn [fst snd]. apply f_coef_rel; [apply Hu; lia| |exact H1]. intros row z Hr Hz. pose proof (HM m (or_introl eq_refl) row z Hr Hz). lia.
      * apply IH; [cbn [length] in EL; lia|]. intros m' Hm'. apply HM. right. exact Hm'.
    + intros row z sel Hr Hz Hz0 Hsel. unfold traj_complete in Hr. specialize (Hnr row Hr). rewrite Hw in Hz. fold tot in Hz. replace ((tot + tot) / 2) with tot in Hz by (replace (tot + tot) with (tot * 2) by lia; rewrite Nat.div_mul; lia).
      destruct (Hrow row Hr v Hv) as [_ [_ [z' [Z1 Z2]]]]. fold ni tot c in Z1, Z2. apply nth_res_ok in Hz. rewrite Nat.add_comm in Hz. rewrite Z1 in Hz. injection Hz as ->.
      assert (HR : row_in_range row ((ni + tot) :: ni :: pis) (c :: c :: ps)).
      { constructor; [|exact Hnr]. exists (Z.to_nat z). rewrite Z2Nat.id by exact Hz0. split; [exact Z1|lia]. }
      assert (Hne : t_rows t <> []) by (intros Q; rewrite Q in Hr; destruct Hr). specialize (Hc53 Hne).
      destruct (in_range_digits _ _ _ HR) as [ds [D1 [D2 _]]]. unfold build_transition_filtering_for_a_node in Hsel. rewrite D2 in Hsel. injection Hsel as <-.
      pose proof D1 as D1'. inversion D1 as [|x' cc us1 cs Dx' D1'']; subst ds. subst. inversion D1'' as [|x cc us cs Dx Du]; subst us1. subst.
      pose proof (trans_required_index c ps x' x us Hc Hp Dx Du) as RI. rewrite RI. unfold build_transition_scalar_indexing_structure_for_a_node in *.
      apply f_index_eq; [exact Hc|exact RI| |exact Hc53]. pose proof (config_rank_lt _ _ D1'). apply Z.le_trans with (Z.of_nat (nat_prod (c :: c :: c :: ps))); [|exact Hsz]. apply inj_le. unfold nat_prod in *. cbn [fold_right] in *. nia.
Qed.
End node.
