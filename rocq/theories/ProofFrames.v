(** C97: frames with other column orders, further columns and fractional states. *)
From Verif Require Import Base Lib LibQc ModelStructure ModelGraph ModelCims ModelData ModelParams SpecStructure SpecGraph SpecComb SpecParams SpecData
  SpecInvariance SpecLabels SpecFrames
  ProofStructure ProofGraph ProofComb ProofCache ProofParams ProofParams2 ProofParams3 ProofIndex ProofData ProofData2 ProofData3 ProofInvariance ProofLabels2 ProofNames ProofNames2.

Lemma good_parts vars : good_header vars -> NoDup ("Time" :: vars) /\ (forall v w, In v vars -> In w vars -> String.append v "S" <> w) /\ (forall v, String.append v "S" <> "Time").
Proof.
  intros H. apply good_header_iff in H as [N C]. split; [exact N|]. split.
  - intros v w Hv Hw E. apply C. exists v. rewrite E. auto.
  - intros v E. destruct v as [|a [|b [|c [|d v]]]]; cbn in E; try discriminate. injection E as _ _ _ _ E. destruct v; discriminate.
Qed.

Lemma Qc_of_Z_le_iff z q : (Qc_of_Z z <= q)%Qc <-> (z * Zpos (Qden q) <= Qnum q)%Z.
Proof. unfold Qcle, Qc_of_Z. cbn [this Q2Qc]. rewrite Qred_correct. unfold Qle, inject_Z. cbn [Qnum Qden]. rewrite Z.mul_1_r. reflexivity. Qed.
Lemma Qc_of_Z_ge_iff z q : (q <= Qc_of_Z z)%Qc <-> (Qnum q <= z * Zpos (Qden q))%Z.
Proof. unfold Qcle, Qc_of_Z. cbn [this Q2Qc]. rewrite Qred_correct. unfold Qle, inject_Z. cbn [Qnum Qden]. rewrite Z.mul_1_r. reflexivity. Qed.
Lemma Qc_of_Z_lt_iff z q : (Qc_of_Z z < q)%Qc <-> (z * Zpos (Qden q) < Qnum q)%Z.
Proof. unfold Qclt, Qc_of_Z. cbn [this Q2Qc]. rewrite Qred_correct. unfold Qlt, inject_Z. cbn [Qnum Qden]. rewrite Z.mul_1_r. reflexivity. Qed.
Lemma Qc_of_Z_gt_iff z q : (q < Qc_of_Z z)%Qc <-> (Qnum q < z * Zpos (Qden q))%Z.
Proof. unfold Qclt, Qc_of_Z. cbn [this Q2Qc]. rewrite Qred_correct. unfold Qlt, inject_Z. cbn [Qnum Qden]. rewrite Z.mul_1_r. reflexivity. Qed.
Lemma trunc_spec q z : towards_zero q z -> Qc_trunc q = z.
Proof.
  intros [P N]. unfold Qc_trunc. rewrite Qc_of_Z_le_iff, Qc_of_Z_gt_iff in P. rewrite Qc_of_Z_lt_iff, Qc_of_Z_ge_iff in N.
  change 0%Qc with (Qc_of_Z 0) in P, N. rewrite Qc_of_Z_le_iff in P. rewrite Qc_of_Z_ge_iff in N. rewrite Z.mul_0_l in P, N.
  generalize dependent (Qnum q). intros n P N. generalize dependent (Qden q). intros d P N.
  destruct (Z.le_ge_cases 0 n) as [H|H].
  - specialize (P H). rewrite Z.quot_div_nonneg by lia. symmetry. apply (Z.div_unique n (Zpos d) z (n - Zpos d * z)); lia.
  - specialize (N H). replace n with (- (- n))%Z by lia. rewrite Z.quot_opp_l by lia. rewrite Z.quot_div_nonneg by lia.
    assert (X : (- n / Zpos d = - z)%Z) by (symmetry; apply (Z.div_unique (- n) (Zpos d) (- z) (- n - Zpos d * - z)); lia). lia.
Qed.
Lemma trunc_all j qs (r : list (Qc * list Z)) : Forall2 (fun q o => towards_zero q (nth j (snd o) 0%Z)) qs r -> map Qc_trunc qs = map (fun o => nth j (snd o) 0%Z) r.
Proof. induction 1 as [|q o qs r H1 H2 IH]; [reflexivity|]. cbn [map]. rewrite (trunc_spec _ _ H1), IH. reflexivity. Qed.
Lemma towards_int z : towards_zero (Qc_of_Z z) z.
Proof. split; intros _; (split; [first [apply Qcle_refl|apply Qc_of_Z_lt; lia]|first [apply Qcle_refl|apply Qc_of_Z_lt; lia]]). Qed.

Lemma firstn_hd_tl {A} (l : list A) : firstn (length l - 1) l = removelast l.
Proof. induction l as [|a [|b l] IH]; [reflexivity..|]. change (removelast (a :: b :: l)) with (a :: removelast (b :: l)). rewrite <- IH. replace (length (a :: b :: l) - 1) with (S (length (b :: l) - 1)) by (cbn [length]; lia). reflexivity. Qed.
Lemma select_ok cs vars (C : label -> list (option Qc)) : (forall w, In w vars -> assoc_col cs w = Some (C w)) -> select_cols cs vars = Ok (map C vars).
Proof. intros H. unfold select_cols. apply res_map_pure. intros w Hw. rewrite (H w Hw). reflexivity. Qed.

(** the columns of a processed frame *)
Lemma process_holds vars f r : good_header vars -> holds vars f r ->
  exists p, compute_row_delta_single_samples_frame f vars (shifted_names vars) = Ok p
  /\ length (fr_index p) = length r - 1
  /\ col_of "Time" p = map (fun ab => Some (fst (snd ab) - fst (fst ab))%Qc) (steps r)
  /\ (forall j w, nth_error vars j = Some w -> exists qs, length qs = length r /\ map Qc_trunc qs = map (fun o => nth j (snd o) 0%Z) r
        /\ col_of w p = firstn (length r - 1) (map (fun q => Some q) qs)
        /\ col_of (String.append w "S") p = firstn (length r - 1) (map fillna0_int (shift_up (map (fun q => Some q) qs))))
  /\ (forall h, In h ("Time" :: vars ++ shifted_names vars) -> In h (col_names p)).
Proof.
  intros Hh [H1 [H2 [H3 [[rest H4] [_ H5]]]]]. destruct (good_parts vars Hh) as [N [G1 G2]].
  destruct f as [ix cs]. cbn [fr_index fr_cols] in *. subst ix. unfold col_names in H3. cbn [fr_cols] in H3.
  set (n := length r) in *. set (t0 := map (fun o => Some (fst o)) r) in *.
  set (C := fun w => match assoc_col cs w with Some c => c | None => [] end).
  set (cs1 := ("Time", diff_shift t0) :: rest).
  assert (A1 : forall w, w <> "Time" -> assoc_col cs1 w = assoc_col cs w).
  { intros w Hw. rewrite H4. unfold cs1. cbn [assoc_col]. destruct (String.eqb_spec "Time" w) as [<-|_]; [contradiction|reflexivity]. }
  assert (NT : forall w, In w vars -> w <> "Time") by (intros w Hw ->; inversion N; contradiction).
  assert (A2 : forall w, In w vars -> assoc_col cs1 w = Some (C w)).
  { intros w Hw. rewrite (A1 w (NT w Hw)). apply In_nth_error in Hw as [j Hj]. destruct (H5 j w Hj) as [qs [Q _]]. unfold C. rewrite Q. reflexivity. }
  set (nvs := combine (shifted_names vars) (map (fun c => map fillna0_int (shift_up c)) (map C vars))).
  assert (NVE : nvs = map (fun w => (String.append w "S", map fillna0_int (shift_up (C w)))) vars).
  { unfold nvs, shifted_names. rewrite map_map. apply combine_maps. }
  assert (NV : NoDup (map fst nvs)).
  { rewrite NVE, map_map. cbn [fst]. apply FinFun.Injective_map_NoDup; [|inversion N; assumption]. intros a b. apply append_S_inj. }
  assert (LC : forall w, In w vars -> length (C w) = n).
  { intros w Hw. pose proof Hw as Hw'. apply In_nth_error in Hw as [j Hj]. destruct (H5 j w Hj) as [qs [Q _]]. unfold C. rewrite Q.
    rewrite Forall_forall in H2. 
    assert (X : exists c, assoc_col cs w = Some c /\ In (w, c) cs) by (apply assoc_col_some; apply (assoc_In cs w _ Q)).
    destruct X as [c [X1 X2]]. rewrite Q in X1. injection X1 as <-. apply (H2 _ X2). }
  set (cs2 := fold_left (fun cs nv => assign_col cs (fst nv) (snd nv)) nvs cs1).
  assert (L2 : Forall (fun nc => length (snd nc) = n) cs2).
  { unfold cs2. apply fold_lens.
    - rewrite NVE. apply Forall_forall. intros nc H. apply in_map_iff in H as [w [<- H]]. cbn [snd]. rewrite map_length, shift_up_length. apply LC, H.
    - rewrite H4 in H2. inversion H2; subst. constructor; [cbn [snd]; rewrite diff_shift_length; unfold t0; apply map_length|assumption]. }
  assert (E : compute_row_delta_single_samples_frame (MkFrame (map Z.of_nat (seq 0 n)) cs) vars (shifted_names vars)
     = Ok (MkFrame (map Z.of_nat (seq 0 (n - 1))) (map (fun nc => (fst nc, firstn (n - 1) (snd nc))) cs2))).
  { unfold compute_row_delta_single_samples_frame. cbn [fr_cols fr_index]. rewrite H4. fold cs1. rewrite (select_ok cs1 vars C A2). cbn [bind].
    fold nvs. fold cs2. rewrite drop_tail_range by exact L2. reflexivity. }
  eexists. split; [exact E|]. cbn [fr_index]. split; [rewrite map_length, seq_length; reflexivity|].
  assert (AC : forall h, assoc_col cs2 h = match assoc_col nvs h with Some c => Some c | None => assoc_col cs1 h end) by (intros h; unfold cs2; apply fold_assoc, NV).
  assert (NN : forall h, (forall v, In v vars -> String.append v "S" <> h) -> assoc_col nvs h = None).
  { intros h Hd. apply assoc_col_none. rewrite NVE, map_map. cbn [fst]. intros K. apply in_map_iff in K as [v [E1 E2]]. exact (Hd v E2 E1). }
  assert (CW : forall h c, assoc_col cs2 h = Some c -> col_of h (MkFrame (map Z.of_nat (seq 0 (n - 1))) (map (fun nc => (fst nc, firstn (n - 1) (snd nc))) cs2)) = firstn (n - 1) c).
  { intros h c Hc. unfold col_of. cbn [fr_cols]. rewrite assoc_col_map, Hc. reflexivity. }
  assert (CT : assoc_col cs2 "Time" = Some (diff_shift t0)) by (rewrite AC, NN by (intros v _; apply G2); reflexivity).
  assert (CV : forall w, In w vars -> assoc_col cs2 w = Some (C w)) by (intros w Hw; rewrite AC, NN by (intros v Hv; apply G1; assumption); apply A2, Hw).
  assert (CS : forall w, In w vars -> assoc_col cs2 (String.append w "S") = Some (map fillna0_int (shift_up (C w)))).
  { intros w Hw. rewrite AC. rewrite (assoc_col_In nvs (String.append w "S") (map fillna0_int (shift_up (C w))) NV); [reflexivity|].
    rewrite NVE. apply (in_map (fun w => (String.append w "S", map fillna0_int (shift_up (C w))))), Hw. }
  split; [rewrite (CW _ _ CT); apply time_cells|]. split.
  - intros j w Hj. destruct (H5 j w Hj) as [qs [Q1 Q2]]. apply trunc_all in Q2. pose proof (nth_error_In _ _ Hj) as Hw. exists qs.
    assert (CQ : C w = map (fun q => Some q) qs) by (unfold C; rewrite Q1; reflexivity).
    split; [pose proof (LC w Hw) as X; rewrite CQ, map_length in X; exact X|]. split; [exact Q2|].
    rewrite (CW _ _ (CV w Hw)), (CW _ _ (CS w Hw)), CQ. split; reflexivity.
  - intros h Hin. unfold col_names. cbn [fr_cols]. rewrite map_map. cbn [fst].
    assert (X : exists c, assoc_col cs2 h = Some c).
    { destruct Hin as [<-|Hin]; [eauto|]. apply in_app_or in Hin as [Hin|Hin]; [eauto|]. unfold shifted_names in Hin. apply in_map_iff in Hin as [v [<- Hv]]. eauto. }
    destruct X as [c X]. exact (assoc_In cs2 h c X).
Qed.

(** cells by position *)
Lemma cur_at r (qs : list Qc) j i ab : length qs = length r -> map Qc_trunc qs = map (fun o : Qc * list Z => nth j (snd o) 0%Z) r -> nth_error (steps r) i = Some ab ->
  exists q, nth_error (firstn (length r - 1) (map (fun q => Some q) qs)) i = Some (Some q) /\ Qc_trunc q = nth j (snd (fst ab)) 0%Z.
Proof.
  intros Hl Hq Hi. assert (Hlt : i < length r - 1) by (rewrite <- steps_length; apply nth_error_Some; congruence).
  destruct (steps_nth r i ab Hi) as [A _]. rewrite nth_error_firstn' by exact Hlt. rewrite map_nth_error_iff.
  destruct (nth_error qs i) as [q|] eqn:E; [|apply nth_error_None in E; lia]. exists q. split; [reflexivity|].
  apply (f_equal (fun l => nth_error l i)) in Hq. rewrite !map_nth_error_iff, E, A in Hq. cbn [option_map] in Hq. congruence.
Qed.
Lemma next_at r (qs : list Qc) j i ab : length qs = length r -> map Qc_trunc qs = map (fun o : Qc * list Z => nth j (snd o) 0%Z) r -> nth_error (steps r) i = Some ab ->
  nth_error (firstn (length r - 1) (map fillna0_int (shift_up (map (fun q => Some q) qs)))) i = Some (Some (Qc_of_Z (nth j (snd (snd ab)) 0%Z))).
Proof.
  intros Hl Hq Hi. assert (Hlt : i < length r - 1) by (rewrite <- steps_length; apply nth_error_Some; congruence).
  destruct (steps_nth r i ab Hi) as [_ B]. rewrite nth_error_firstn' by exact Hlt. rewrite map_nth_error_iff, shift_up_nth by (rewrite map_length; lia). rewrite map_nth_error_iff.
  destruct (nth_error qs (S i)) as [q|] eqn:E; [|apply nth_error_None in E; lia]. cbn [option_map fillna0_int]. do 3 f_equal.
  apply (f_equal (fun l => nth_error l (S i))) in Hq. rewrite !map_nth_error_iff, E, B in Hq. cbn [option_map] in Hq. congruence.
Qed.

Definition row_of (ab : (Qc * list Z) * (Qc * list Z)) (row : list Qc) : Prop :=
  hd_error row = Some (fst (snd ab) - fst (fst ab))%Qc /\ map Qc_trunc (tl row) = snd (fst ab) ++ snd (snd ab).

Lemma res_map_rows {A B} (f : A -> result B) (P : A -> B -> Prop) l : (forall a, In a l -> exists b, f a = Ok b /\ P a b) -> exists bs, res_map f l = Ok bs /\ Forall2 P l bs.
Proof.
  induction l as [|a l IH]; intros H; [exists []; split; [reflexivity|constructor]|]. destruct (H a (or_introl eq_refl)) as [b [B1 B2]].
  destruct IH as [bs [C1 C2]]; [intros; apply H; right; assumption|]. exists (b :: bs). cbn [res_map]. rewrite B1. cbn [bind]. rewrite C1. split; [reflexivity|constructor; assumption].
Qed.
Lemma rows_array cf l rows : to_numpy cf = Ok rows -> Forall2 row_of l rows ->
  build_list_of_samples_array cf = Ok (map (fun ab => (fst (snd ab) - fst (fst ab))%Qc) l, map (fun ab => snd (fst ab) ++ snd (snd ab)) l).
Proof.
  intros H HF. unfold build_list_of_samples_array. rewrite H. cbn [bind].
  assert (X : res_map (fun r => nth_res r 0) rows = Ok (map (fun ab => (fst (snd ab) - fst (fst ab))%Qc) l)
     /\ map (fun r => map Qc_trunc (tl r)) rows = map (fun ab => snd (fst ab) ++ snd (snd ab)) l).
  { clear H. induction HF as [|ab row l rows [R1 R2] HF [I1 I2]]; [split; reflexivity|]. cbn [res_map map]. rewrite R2, I2. split; [|reflexivity].
    destruct row as [|q row]; [discriminate|]. cbn [hd_error] in R1. injection R1 as ->. unfold nth_res at 1. cbn [nth_error bind]. rewrite I1. reflexivity. }
  destruct X as [-> ->]. reflexivity.
Qed.
