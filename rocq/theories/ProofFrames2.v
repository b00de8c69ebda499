(** C97: importing such frames. *)
From Verif Require Import Base Lib LibQc ModelStructure ModelGraph ModelCims ModelData ModelParams SpecStructure SpecGraph SpecComb SpecParams SpecData
  SpecInvariance SpecLabels SpecFrames
  ProofStructure ProofGraph ProofComb ProofCache ProofParams ProofParams2 ProofParams3 ProofIndex ProofData ProofData2 ProofData3 ProofInvariance ProofLabels2 ProofNames ProofNames2 ProofFrames.

Lemma import_holds vars fs rs im : good_header vars -> vars <> [] -> fs <> [] -> Forall2 (holds vars) fs rs ->
  (exists f0, nth_error fs 0 = Some f0 /\ col_names f0 = "Time" :: vars) -> im_samples im = fs ->
  exists cf im' rows, sample_import_data im None = Ok im' /\ im_concat im' = CFrame cf
   /\ im_variables im' = im_variables im /\ im_structure im' = im_structure im /\ im_sorter im' = Some vars
   /\ length (fr_cols cf) = 1 + length vars + length vars
   /\ nrows cf = length (flat_map steps rs)
   /\ to_numpy cf = Ok rows /\ Forall2 row_of (flat_map steps rs) rows.
Proof.
  intros Hh Hv Hne HF [f0 [F0 F0c]] Him. set (header := "Time" :: vars ++ shifted_names vars).
  set (P := fun f => match compute_row_delta_single_samples_frame f vars (shifted_names vars) with Ok p => p | Err _ => MkFrame [] [] end).
  assert (PP : forall f r, holds vars f r -> compute_row_delta_single_samples_frame f vars (shifted_names vars) = Ok (P f)
    /\ length (fr_index (P f)) = length r - 1
    /\ col_of "Time" (P f) = map (fun ab => Some (fst (snd ab) - fst (fst ab))%Qc) (steps r)
    /\ (forall j w, nth_error vars j = Some w -> exists qs, length qs = length r /\ map Qc_trunc qs = map (fun o => nth j (snd o) 0%Z) r
          /\ col_of w (P f) = firstn (length r - 1) (map (fun q => Some q) qs)
          /\ col_of (String.append w "S") (P f) = firstn (length r - 1) (map fillna0_int (shift_up (map (fun q => Some q) qs))))
    /\ (forall h, In h header -> In h (col_names (P f)))).
  { intros f r H. destruct (process_holds vars f r Hh H) as [p [E K]]. unfold P. rewrite E. split; [reflexivity|exact K]. }
  assert (RP : res_map (fun f => compute_row_delta_single_samples_frame f vars (shifted_names vars)) fs = Ok (map P fs)).
  { clear - HF PP. induction HF as [|f r fs rs H1 H2 IH]; [reflexivity|]. cbn [map res_map]. destruct (PP f r H1) as [-> _]. cbn [bind]. rewrite IH. reflexivity. }
  assert (NP : map P fs <> []) by (destruct fs; [contradiction|discriminate]).
  assert (HP : forall p, In p (map P fs) -> forall h, In h header -> In h (col_names p)).
  { intros p Hp. apply in_map_iff in Hp as [f [<- Hf]]. apply In_nth_error in Hf as [k Hk]. destruct (Forall2_nth_error _ _ _ HF k f Hk) as [r [_ K]]. apply (PP f r K). }
  set (cp := MkFrame (flat_map fr_index (map P fs)) (map (fun h => (h, flat_map (col_of h) (map P fs))) header)).
  set (ns := map (fun r : list (Qc * list Z) => length r - 1) rs).
  assert (HM : Forall2 (fun r n => length (steps r) = n) rs ns).
  { unfold ns. clear. induction rs; cbn [map]; constructor; [apply steps_length|assumption]. }
  assert (LH : forall h, In h header -> Forall2 (fun p n => length (col_of h p) = n) (map P fs) ns).
  { intros h Hin. unfold ns. clear - HF PP Hin. induction HF as [|f r fs rs H1 H2 IH]; cbn [map]; constructor; [|exact IH].
    destruct (PP f r H1) as [_ [_ [T [K _]]]]. destruct Hin as [<-|Hin]; [rewrite T, map_length; apply steps_length|]. apply in_app_or in Hin as [Hin|Hin].
    - apply In_nth_error in Hin as [j Hj]. destruct (K j h Hj) as [qs [Q1 [_ [-> _]]]]. rewrite firstn_length, map_length. lia.
    - unfold shifted_names in Hin. apply in_map_iff in Hin as [w [<- Hin]]. apply In_nth_error in Hin as [j Hj]. destruct (K j w Hj) as [qs [Q1 [_ [_ ->]]]].
      rewrite firstn_length, map_length, shift_up_length, map_length. lia. }
  assert (NR : nrows cp = length (flat_map steps rs)).
  { rewrite (flat_map_len steps rs ns HM). unfold nrows, cp, ns. cbn [fr_index]. apply flat_map_len. clear - HF PP. induction HF as [|f r fs rs H1 H2 IH]; cbn [map]; constructor; [apply (PP f r H1)|exact IH]. }
  assert (LEN : forall ab, In ab (flat_map steps rs) -> length (snd (fst ab)) = length vars /\ length (snd (snd ab)) = length vars).
  { intros ab Hab. apply in_flat_map in Hab as [r [Hr Hab]]. apply In_nth_error in Hab as [i Hi]. apply steps_nth in Hi as [A B].
    apply In_nth_error in Hr as [k Hk]. destruct (Forall2_nth_error_r _ _ _ HF k r Hk) as [f [_ [_ [_ [_ [_ [Hl _]]]]]]].
    split; apply Hl; [exact (nth_error_In _ _ A)|exact (nth_error_In _ _ B)]. }
  assert (NUM : exists rows, to_numpy cp = Ok rows /\ Forall2 row_of (flat_map steps rs) rows).
  { assert (ROW : forall i, In i (seq 0 (length (flat_map steps rs))) -> exists b, frame_row cp i = Ok b /\ forall ab, nth_error (flat_map steps rs) i = Some ab -> row_of ab b).
    { intros i Hi. apply in_seq in Hi as [_ Hi]. cbn [Nat.add] in Hi. pose proof Hi as Hi'. rewrite (flat_map_len steps rs _ HM) in Hi'.
      destruct (sum_decompose _ i Hi') as [k [m [j [K1 [K2 K3]]]]]. destruct (Forall2_nth_error_r _ _ _ HM k m K1) as [r [R1 R2]].
      destruct (nth_error (flat_map steps rs) i) as [ab|] eqn:Eab; [|apply nth_error_None in Eab; lia].
      assert (Es : nth_error (steps r) j = Some ab) by (rewrite <- Eab, K3; symmetry; apply (nth_flat_map_off steps rs _ HM k r m j R1 K1 K2)).
      destruct (LEN ab (nth_error_In _ _ Eab)) as [L1 L2].
      destruct (Forall2_nth_error_r _ _ _ HF k r R1) as [f [Ff Hf]]. destruct (PP f r Hf) as [_ [_ [T [K _]]]].
      assert (Pk : nth_error (map P fs) k = Some (P f)) by (rewrite map_nth_error_iff, Ff; reflexivity).
      assert (CELL : forall h, In h header -> nth_error (flat_map (col_of h) (map P fs)) i = nth_error (col_of h (P f)) j).
      { intros h Hin. rewrite K3. apply (nth_flat_map_off (col_of h) (map P fs) ns (LH h Hin) k (P f) m j Pk K1 K2). }
      assert (CUR : exists b1, res_map (fun nc : string * list (option Qc) => match nth_error (snd nc) i with Some (Some q) => Ok q | _ => Err ValueError end)
                 (map (fun h => (h, flat_map (col_of h) (map P fs))) vars) = Ok b1 /\ map Qc_trunc b1 = snd (fst ab)).
      { destruct (res_map_rows (fun nc : string * list (option Qc) => match nth_error (snd nc) i with Some (Some q) => Ok q | _ => Err ValueError end)
           (fun nc q => exists w, fst nc = w /\ forall jj, nth_error vars jj = Some w -> Qc_trunc q = nth jj (snd (fst ab)) 0%Z)
           (map (fun h => (h, flat_map (col_of h) (map P fs))) vars)) as [b1 [B1 B2]].
        - intros nc Hnc. apply in_map_iff in Hnc as [w [<- Hw]]. cbn [snd fst]. pose proof Hw as Hw'. apply In_nth_error in Hw' as [jj Hj].
          rewrite CELL by (right; apply in_or_app; left; exact Hw). destruct (K jj w Hj) as [qs [Q1 [Q2 [Q3 _]]]].
          destruct (cur_at r qs jj j ab Q1 Q2 Es) as [q [C1 C2]]. rewrite Q3, C1. exists q. split; [reflexivity|]. exists w. split; [reflexivity|].
          intros j2 Hj2. assert (NV : NoDup vars) by (destruct (good_parts vars Hh) as [N _]; inversion N; assumption).
          assert (jj = j2) by (apply (proj1 (NoDup_nth_error vars) NV); [apply nth_error_Some; congruence|congruence]). subst j2. exact C2.
        - exists b1. split; [exact B1|]. apply list_ext. intros j2. rewrite map_nth_error_iff.
          destruct (nth_error vars j2) as [w|] eqn:Ew.
          + assert (X : nth_error (map (fun h => (h, flat_map (col_of h) (map P fs))) vars) j2 = Some (w, flat_map (col_of w) (map P fs))) by (rewrite map_nth_error_iff, Ew; reflexivity).
            destruct (Forall2_nth_error _ _ _ B2 j2 _ X) as [q [Q1 [w' [Q2 Q3]]]]. cbn [fst] in Q2. subst w'. rewrite Q1. cbn [option_map]. rewrite (Q3 j2 Ew). symmetry. apply nth_error_nth'.
            rewrite L1. apply nth_error_Some. congruence.
          + apply nth_error_None in Ew. apply Forall2_length in B2. rewrite map_length in B2. rewrite (proj2 (nth_error_None b1 j2)) by lia. symmetry. apply nth_error_None. lia. }
      assert (NXT : res_map (fun nc : string * list (option Qc) => match nth_error (snd nc) i with Some (Some q) => Ok q | _ => Err ValueError end)
                 (map (fun h => (h, flat_map (col_of h) (map P fs))) (shifted_names vars)) = Ok (map Qc_of_Z (snd (snd ab)))).
      { apply res_map_ok. unfold shifted_names. rewrite map_map. apply Forall2_by_nth; [rewrite !map_length; auto|].
        intros jj nc q Hnc Hq. rewrite map_nth_error_iff in Hnc. destruct (nth_error vars jj) as [w|] eqn:Ew; [|discriminate]. injection Hnc as <-. cbn [snd].
        rewrite CELL by (right; apply in_or_app; right; unfold shifted_names; exact (in_map (fun s => String.append s "S") _ _ (nth_error_In _ _ Ew))).
        destruct (K jj w Ew) as [qs [Q1 [Q2 [_ Q4]]]]. rewrite Q4, (next_at r qs jj j ab Q1 Q2 Es). rewrite map_nth_error_iff in Hq.
        assert (Hj : jj < length (snd (snd ab))) by (rewrite L2; apply nth_error_Some; congruence).
        rewrite (nth_error_nth' _ 0%Z Hj) in Hq. cbn [option_map] in Hq. congruence. }
      destruct CUR as [b1 [B1 B2]].
      exists ((fst (snd ab) - fst (fst ab))%Qc :: b1 ++ map Qc_of_Z (snd (snd ab))). split.
      - unfold frame_row. apply res_map_ok. unfold cp, header. cbn [fr_cols map]. constructor.
        + cbn [snd]. rewrite CELL by (left; reflexivity). rewrite T, map_nth_error_iff, Es. reflexivity.
        + rewrite map_app. apply Forall2_app; apply res_map_ok; assumption.
      - intros ab' E. injection E as <-. split; [reflexivity|]. cbn [tl]. rewrite map_app, B2, map_map. f_equal. rewrite <- (map_id (snd (snd ab))) at 2. apply map_ext. intros z. apply Qc_trunc_Z. }
    unfold to_numpy. unfold nrows in NR. rewrite NR. destruct (res_map_rows _ _ _ ROW) as [rows [R1 R2]]. exists rows. split; [exact R1|].
    pose proof R2 as LR; apply Forall2_length in LR. rewrite seq_length in LR. apply Forall2_by_nth; [exact LR|]. intros i ab b Hab Hb.
    assert (Hi : i < length (flat_map steps rs)) by (apply nth_error_Some; congruence).
    assert (Hs : nth_error (seq 0 (length (flat_map steps rs))) i = Some i) by (rewrite nth_error_seq'; destruct (Nat.ltb_spec i (length (flat_map steps rs))); [reflexivity|lia]).
    destruct (Forall2_nth_error _ _ _ R2 i i Hs) as [b' [B1 B2]]. rewrite Hb in B1. injection B1 as <-. apply B2, Hab. }
  destruct NUM as [rows [NUM1 NUM2]].
  exists cp, (MkImporter (im_samples im) (CFrame cp) (im_variables im) (im_structure im) (Some vars)), rows. split.
  { unfold sample_import_data. rewrite Him.
    assert (E0 : nth_res fs 0 = Ok f0) by (unfold nth_res; rewrite F0; reflexivity).
    rewrite E0. cbn [bind]. assert (Es : sample_build_sorter f0 = Ok vars) by (unfold sample_build_sorter; rewrite F0c; reflexivity). rewrite Es.
    cbn [bind]. rewrite (delta_all _ vars) by (try reflexivity; exact Hv). cbn [with_sorter im_samples]. rewrite Him, RP. cbn [bind]. fold header.
    rewrite (concat_select_sub _ _ NP HP). cbn [bind]. fold cp. cbn [im_samples im_concat im_variables im_structure im_sorter]. rewrite ?Him. reflexivity. }
  cbn [im_concat im_variables im_structure im_sorter]. do 4 (split; [reflexivity|]).
  split; [|split; [exact NR|split; [exact NUM1|exact NUM2]]].
  unfold cp, header. cbn [fr_cols]. rewrite map_length. cbn [length]. unfold shifted_names. rewrite app_length, map_length. lia.
Qed.

Lemma holds_exact vars cards prior fs rs : good_header vars -> vars <> [] -> length cards = length vars ->
  Forall2 (holds vars) fs rs -> (exists f0, nth_error fs 0 = Some f0 /\ col_names f0 = "Time" :: vars) -> (exists r, In r rs /\ 2 <= length r) ->
  forall s t, imports_frames fs vars cards prior s t <-> s = struct_of vars cards prior /\ t = from_steps vars (flat_map steps rs).
Proof.
  intros Hh Hv Hc HF H0 [r1 [Hr1 Hlen1]].
  assert (Hne : fs <> []) by (destruct H0 as [f0 [H0 _]]; intros ->; discriminate).
  destruct (import_holds vars fs rs (new_sample_importer fs (Some (variables_frame vars cards)) prior) Hh Hv Hne HF H0 eq_refl)
    as [cf [im [rows [I1 [I2 [I3 [I4 [I5 [I6 [I7 [I8 I9]]]]]]]]]]].
  cbn [new_sample_importer im_variables im_structure] in I3, I4.
  destruct (vframe_cols vars 0 cards Hc) as [V1 [V2 V3]].
  assert (Hvne : vframe_empty (variables_frame vars cards) = false).
  { unfold vframe_empty, variables_frame; cbn [v_rows]. destruct vars as [|v vr]; [contradiction|]. destruct cards as [|c cr]; [discriminate|]. reflexivity. }
  assert (Hfne : frame_empty cf = false).
  { unfold frame_empty. destruct (fr_index cf) as [|z zs] eqn:Ei.
    - exfalso. unfold nrows in I7. rewrite Ei in I7. cbn [length] in I7.
      assert (X : length (steps r1) <= length (flat_map steps rs)).
      { clear - Hr1. induction rs as [|r rs IH]; [destruct Hr1|]. cbn [flat_map]. rewrite app_length. destruct Hr1 as [-> |H]; [lia|]. specialize (IH H). lia. }
      rewrite steps_length in X. lia.
    - destruct (fr_cols cf) eqn:Ec; [discriminate|reflexivity]. }
  assert (EX : exists sp sp1 sp2, new_sample_path im = Ok sp /\ sp_build_trajectories sp = Ok sp1 /\ sp_build_structure sp1 = Ok sp2
        /\ sp_structure sp2 = Some (struct_of vars cards prior) /\ sp_trajectories sp2 = Some (from_steps vars (flat_map steps rs))).
  { eexists (MkSamplePath im None None None), _, _. split.
    { unfold new_sample_path. rewrite I3, I2, Hvne, Hfne. reflexivity. }
    split.
    { unfold sp_build_trajectories. cbn [sp_importer]. rewrite I2, (rows_array cf _ rows I8 I9). cbn [bind]. rewrite I5. cbn [fst snd sp_structure sp_total].
      rewrite I6. reflexivity. }
    split.
    { unfold sp_build_structure. cbn [sp_importer]. unfold clear_concatenated_frame. rewrite I2. cbn [im_variables im_sorter im_structure]. rewrite I3, I5.
      assert (X : list_eqb String.eqb vars (v_names (variables_frame vars cards)) = true).
      { apply list_eqb_label. symmetry. exact V2. }
      rewrite X. cbn [negb]. reflexivity. }
    cbn [sp_structure sp_trajectories]. split.
    - unfold struct_of, v_index, v_names, v_values, variables_frame; cbn [v_rows]. rewrite V1, V2, V3, I4. reflexivity.
    - unfold from_steps. do 2 f_equal; lia. }
  destruct EX as [sp [sp1 [sp2 [Q2 [Q3 [Q4 [Q5 Q6]]]]]]]. intros s t. split.
  - intros [jm [tp [tp1 [tp2 [P1 [P2 [P3 [P4 [P5 P6]]]]]]]]]. rewrite I1 in P1. injection P1 as <-. rewrite Q2 in P2. injection P2 as <-.
    rewrite Q3 in P3. injection P3 as <-. rewrite Q4 in P4. injection P4 as <-. rewrite Q5 in P5. rewrite Q6 in P6. injection P5 as <-. injection P6 as <-. auto.
  - intros [-> ->]. exists im, sp, sp1, sp2. auto 10.
Qed.

(** ** refusals *)
Lemma missing_column vars fs f : (forall f, In f fs -> fr_cols f <> []) -> In f fs -> (exists v, In v vars /\ ~ In v (col_names f)) ->
  res_map (fun f => compute_row_delta_single_samples_frame f vars (shifted_names vars)) fs = Err KeyError.
Proof.
  intros Hne Hf [v [Hv Hm]].
  assert (SEL : forall cs, (exists c, select_cols cs vars = Ok c) \/ select_cols cs vars = Err KeyError).
  { intros cs. unfold select_cols. clear. induction vars as [|w ws IH]; [left; eexists; reflexivity|]. cbn [res_map]. destruct (assoc_col cs w); cbn [bind]; [|right; reflexivity].
    destruct IH as [[c ->]| ->]; [left; eexists; reflexivity|right; reflexivity]. }
  assert (ONE : forall g, In g fs -> (exists p, compute_row_delta_single_samples_frame g vars (shifted_names vars) = Ok p) \/ compute_row_delta_single_samples_frame g vars (shifted_names vars) = Err KeyError).
  { intros g Hg. specialize (Hne g Hg). unfold compute_row_delta_single_samples_frame. destruct (fr_cols g) as [|[t0 c0] rest]; [contradiction|].
    destruct (SEL ((t0, diff_shift c0) :: rest)) as [[c ->]| ->]; [left; eexists; reflexivity|right; reflexivity]. }
  assert (BAD : compute_row_delta_single_samples_frame f vars (shifted_names vars) = Err KeyError).
  { destruct (ONE f Hf) as [[p E]|E]; [|exact E]. exfalso. unfold compute_row_delta_single_samples_frame in E. unfold col_names in Hm. destruct (fr_cols f) as [|[t0 c0] rest]; [discriminate|].
    apply bind_ok in E as [sel [E _]]. unfold select_cols in E. apply res_map_ok in E. apply In_nth_error in Hv as [j Hj].
    destruct (Forall2_nth_error _ _ _ E j v Hj) as [c [_ C]]. destruct (assoc_col ((t0, diff_shift c0) :: rest) v) eqn:A; [|discriminate].
    apply assoc_In in A. cbn [map fst] in *. contradiction. }
  clear SEL Hne. induction fs as [|g fs IH]; [destruct Hf|]. cbn [res_map]. destruct (ONE g (or_introl eq_refl)) as [[p E]| ->]; [|reflexivity]. rewrite E. cbn [bind].
  destruct Hf as [-> |Hf]; [congruence|]. rewrite IH; [reflexivity|exact Hf|intros; apply ONE; right; assumption].
Qed.
Lemma assign_names cs n v h : In h (map fst (assign_col cs n v)) -> h = n \/ In h (map fst cs).
Proof.
  induction cs as [|[x c] cs IH]; cbn [assign_col map fst In]; [intros [H|[]]; auto|]. destruct (String.eqb x n) eqn:E; cbn [map fst In].
  - tauto.
  - intros [H|H]; [tauto|]. specialize (IH H). tauto.
Qed.
Lemma fold_names nvs : forall (cs : list (string * list (option Qc))) h, In h (map fst (fold_left (fun cs nv => assign_col cs (fst nv) (snd nv)) nvs cs)) -> In h (map fst nvs) \/ In h (map fst cs).
Proof.
  induction nvs as [|[n v] nvs IH]; intros cs h H; [right; exact H|]. cbn [fold_left fst snd] in H. apply IH in H as [H|H]; [left; right; exact H|].
  apply assign_names in H as [-> |H]; [left; left; reflexivity|right; exact H].
Qed.
Lemma no_time_column vars fs : (forall f, In f fs -> fr_cols f <> [] /\ ~ In "Time"%string (col_names f)) -> fs <> [] ->
  (let* procs := res_map (fun f => compute_row_delta_single_samples_frame f vars (shifted_names vars)) fs in
   concat_select procs ("Time" :: vars ++ shifted_names vars)) = Err KeyError.
Proof.
  intros H Hne.
  assert (SEL : forall cs, (exists c, select_cols cs vars = Ok c) \/ select_cols cs vars = Err KeyError).
  { intros cs. unfold select_cols. clear. induction vars as [|w ws IH]; [left; eexists; reflexivity|]. cbn [res_map]. destruct (assoc_col cs w); cbn [bind]; [|right; reflexivity].
    destruct IH as [[c ->]| ->]; [left; eexists; reflexivity|right; reflexivity]. }
  assert (ALL : res_map (fun f => compute_row_delta_single_samples_frame f vars (shifted_names vars)) fs = Err KeyError
     \/ exists ps, res_map (fun f => compute_row_delta_single_samples_frame f vars (shifted_names vars)) fs = Ok ps /\ length ps = length fs /\ forall p, In p ps -> ~ In "Time"%string (col_names p)).
  { clear Hne. induction fs as [|g fs IH]; [right; exists []; repeat split; intros p []|]. cbn [res_map].
    destruct (H g (or_introl eq_refl)) as [Hg1 Hg2].
    assert (ONE : (exists p, compute_row_delta_single_samples_frame g vars (shifted_names vars) = Ok p /\ ~ In "Time"%string (col_names p)) \/ compute_row_delta_single_samples_frame g vars (shifted_names vars) = Err KeyError).
    { unfold compute_row_delta_single_samples_frame. unfold col_names in Hg2. destruct (fr_cols g) as [|[t0 c0] rest]; [contradiction|].
      destruct (SEL ((t0, diff_shift c0) :: rest)) as [[c ->]| ->]; [left|right; reflexivity]. cbn [bind]. eexists. split; [reflexivity|].
      assert (DT : forall f, col_names (drop_tail f) = col_names f).
      { clear. intros f. unfold drop_tail. destruct (rev (fr_index f)); [reflexivity|]. unfold col_names. cbn [fr_cols]. rewrite map_map. reflexivity. }
      rewrite DT. unfold col_names. cbn [fr_cols]. intros K. apply fold_names in K as [K|K].
      - assert (X : In "Time"%string (shifted_names vars)).
        { clear - K. revert K. generalize (map (fun c => map fillna0_int (shift_up c)) c). generalize (shifted_names vars). clear. induction l as [|x l IH]; intros [|y m] K; cbn in *; try contradiction. destruct K as [K|K]; [left; exact K|right; exact (IH m K)]. }
        unfold shifted_names in X. apply in_map_iff in X as [v [E _]]. destruct v as [|a [|b [|d [|e v]]]]; cbn in E; try discriminate. injection E as _ _ _ _ E. destruct v; discriminate.
      - cbn [map fst] in *. contradiction. }
    destruct ONE as [[p [-> P1]]| ->]; [|left; reflexivity]. cbn [bind]. destruct IH as [-> |[ps [-> [P2 P3]]]]; [intros f Hf; apply H; right; exact Hf|left; reflexivity|].
    right. exists (p :: ps). split; [reflexivity|]. split; [cbn [length]; lia|]. intros q [<-|Hq]; auto. }
  destruct ALL as [-> |[ps [-> [L K]]]]; [reflexivity|]. cbn [bind]. unfold concat_select. destruct ps as [|p ps]; [destruct fs; [contradiction|discriminate]|].
  cbn [res_map]. assert (X : existsb (fun f => lmem "Time" (col_names f)) (p :: ps) = false).
  { apply Bool.not_true_is_false. intros X. apply existsb_exists in X as [q [Q1 Q2]]. apply lmem_In in Q2. exact (K q Q1 Q2). }
  rewrite X. reflexivity.
Qed.
