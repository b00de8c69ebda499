(** C96: the import chain with colliding names. *)
From Verif Require Import Base Lib LibQc ModelStructure ModelGraph ModelCims ModelData ModelParams SpecStructure SpecGraph SpecComb SpecParams SpecData
  SpecInvariance SpecNames
  ProofStructure ProofGraph ProofComb ProofCache ProofParams ProofParams2 ProofParams3 ProofIndex ProofData ProofData2 ProofData3 ProofInvariance ProofLabels2 ProofNames.

Lemma concat_select_sub fs header : fs <> [] -> (forall f, In f fs -> forall h, In h header -> In h (col_names f)) ->
  concat_select fs header = Ok (MkFrame (flat_map fr_index fs) (map (fun h => (h, flat_map (col_of h) fs)) header)).
Proof.
  intros Hne Hf. unfold concat_select. destruct fs as [|f0 fs0] eqn:E; [contradiction|]. rewrite <- E in *.
  rewrite (res_map_pure _ (fun h => (h, flat_map (col_of h) fs))); [reflexivity|].
  intros h Hh. assert (X : existsb (fun f => lmem h (col_names f)) fs = true).
  { apply existsb_exists. exists f0. split; [rewrite E; left; reflexivity|]. apply lmem_In. apply Hf; [rewrite E; left; reflexivity|exact Hh]. }
  rewrite X. reflexivity.
Qed.

Definition shown_row (vars : list label) (ab : (Qc * list Z) * (Qc * list Z)) : list Qc :=
  (fst (snd ab) - fst (fst ab))%Qc :: map Qc_of_Z (shown_states vars ab) ++ map Qc_of_Z (snd (snd ab)).

Lemma next_cell_ok (vars : list label) i v (ab : (Qc * list Z) * (Qc * list Z)) : nth_error vars i = Some v -> length (snd (snd ab)) = length vars ->
  next_cell i ab = Some (Qc_of_Z (nth i (snd (snd ab)) 0%Z)).
Proof.
  intros H Hl. unfold next_cell, var_cell. assert (Hi : i < length (snd (snd ab))) by (rewrite Hl; apply nth_error_Some; congruence).
  rewrite (nth_error_nth' _ 0%Z Hi). cbn [option_map fillna0_int]. rewrite Qc_trunc_Z. reflexivity.
Qed.
Lemma cur_cell_ok (vars : list label) j w (ab : (Qc * list Z) * (Qc * list Z)) : nth_error vars j = Some w -> length (snd (fst ab)) = length vars -> length (snd (snd ab)) = length vars ->
  cur_cell vars j w ab = Some (Qc_of_Z (shown_state vars ab j w)).
Proof.
  intros H H1 H2. unfold cur_cell, shown_state, source. destruct (position _ vars) as [i|] eqn:E.
  - destruct (position_some _ _ _ E) as [v [V1 _]]. apply (next_cell_ok vars i v); assumption.
  - unfold var_cell. assert (Hj : j < length (snd (fst ab))) by (rewrite H1; apply nth_error_Some; congruence).
    rewrite (nth_error_nth' _ 0%Z Hj). reflexivity.
Qed.

Lemma import_clash (vars : list label) (rs : list raw) im : NoDup ("Time" :: vars) -> vars <> [] -> rs <> [] ->
  (forall r o, In r rs -> In o r -> length (snd o) = length vars) -> im_samples im = map (frame_of vars) rs ->
  exists cf im', sample_import_data im None = Ok im' /\ im_concat im' = CFrame cf
   /\ im_variables im' = im_variables im /\ im_structure im' = im_structure im /\ im_sorter im' = Some vars
   /\ length (fr_cols cf) = 1 + length vars + length vars
   /\ nrows cf = length (flat_map steps rs)
   /\ to_numpy cf = Ok (map (shown_row vars) (flat_map steps rs)).
Proof.
  intros Hn Hv Hne Hl Him. set (header := "Time" :: vars ++ shifted_names vars).
  set (P := fun r => match compute_row_delta_single_samples_frame (frame_of vars r) vars (shifted_names vars) with Ok p => p | Err _ => MkFrame [] [] end).
  assert (PP : forall r, compute_row_delta_single_samples_frame (frame_of vars r) vars (shifted_names vars) = Ok (P r)
    /\ length (fr_index (P r)) = length r - 1
    /\ col_of "Time" (P r) = map (fun ab => Some (fst (snd ab) - fst (fst ab))%Qc) (steps r)
    /\ (forall j w, nth_error vars j = Some w -> col_of w (P r) = map (cur_cell vars j w) (steps r))
    /\ (forall j w, nth_error vars j = Some w -> col_of (String.append w "S") (P r) = map (next_cell j) (steps r))
    /\ (forall h, In h header -> In h (col_names (P r)))).
  { intros r. destruct (process_clash vars Hn r) as [p [E K]]. unfold P. rewrite E. split; [reflexivity|exact K]. }
  assert (RP : res_map (fun f => compute_row_delta_single_samples_frame f vars (shifted_names vars)) (map (frame_of vars) rs) = Ok (map P rs)).
  { clear - PP. induction rs as [|r rs IH]; [reflexivity|]. cbn [map res_map]. destruct (PP r) as [-> _]. cbn [bind]. rewrite IH. reflexivity. }
  assert (NP : map P rs <> []) by (destruct rs; [contradiction|discriminate]).
  assert (HP : forall f, In f (map P rs) -> forall h, In h header -> In h (col_names f)) by (intros f Hf; apply in_map_iff in Hf as [r [<- _]]; apply PP).
  set (cp := MkFrame (flat_map fr_index (map P rs)) (map (fun h => (h, flat_map (col_of h) (map P rs))) header)).
  assert (NR : nrows cp = length (flat_map steps rs)).
  { unfold nrows, cp. cbn [fr_index]. clear - PP. induction rs as [|r rs IH]; [reflexivity|]. cbn [map flat_map]. rewrite !app_length, IH.
    destruct (PP r) as [_ [-> _]]. rewrite steps_length. reflexivity. }
  assert (CF : forall h (F : (Qc * list Z) * (Qc * list Z) -> option Qc), (forall r, col_of h (P r) = map F (steps r)) -> flat_map (col_of h) (map P rs) = map F (flat_map steps rs)).
  { intros h F HF. clear - HF. induction rs as [|r rs IH]; [reflexivity|]. cbn [map flat_map]. rewrite map_app, IH, HF. reflexivity. }
  assert (LEN : forall ab, In ab (flat_map steps rs) -> length (snd (fst ab)) = length vars /\ length (snd (snd ab)) = length vars).
  { intros ab Hab. apply in_flat_map in Hab as [r [Hr Hab]]. apply In_nth_error in Hab as [i Hi]. apply steps_nth in Hi as [A B].
    split; eapply Hl; try exact Hr; [exact (nth_error_In _ _ A)|exact (nth_error_In _ _ B)]. }
  assert (NUM : to_numpy cp = Ok (map (shown_row vars) (flat_map steps rs))).
  { unfold to_numpy. unfold nrows in NR. rewrite NR. apply res_map_ok. apply Forall2_by_nth; [rewrite seq_length, map_length; reflexivity|].
    intros i x row Hx Hrow. rewrite nth_error_seq' in Hx. destruct (Nat.ltb_spec i (length (flat_map steps rs))) as [Hi|]; [|discriminate].
    injection Hx as <-. cbn [Nat.add]. rewrite map_nth_error_iff in Hrow. destruct (nth_error (flat_map steps rs) i) as [ab|] eqn:Eab; [|discriminate].
    cbn [option_map] in Hrow. injection Hrow as <-. destruct (LEN ab (nth_error_In _ _ Eab)) as [L1 L2].
    unfold frame_row. apply res_map_ok. unfold cp. cbn [fr_cols]. unfold header. cbn [map]. unfold shown_row. constructor.
    { cbn [snd]. rewrite (CF "Time" (fun ab => Some (fst (snd ab) - fst (fst ab))%Qc)) by (intros r; apply PP). rewrite map_nth_error_iff, Eab. reflexivity. }
    rewrite map_app. apply Forall2_app.
    - apply Forall2_by_nth; [rewrite !map_length; unfold shown_states; rewrite mapi_length; reflexivity|].
      intros j nc q Hnc Hq. rewrite map_nth_error_iff in Hnc. destruct (nth_error vars j) as [w|] eqn:Ew; [|discriminate]. injection Hnc as <-. cbn [snd].
      rewrite (CF w (cur_cell vars j w)) by (intros r; apply PP, Ew). rewrite map_nth_error_iff, Eab. cbn [option_map].
      rewrite (cur_cell_ok vars j w ab Ew L1 L2). unfold shown_states in Hq. rewrite map_nth_error_iff, nth_error_mapi, Ew in Hq. cbn [option_map] in Hq. congruence.
    - unfold shifted_names. rewrite map_map. apply Forall2_by_nth; [rewrite !map_length; auto|].
      intros j nc q Hnc Hq. rewrite map_nth_error_iff in Hnc. destruct (nth_error vars j) as [w|] eqn:Ew; [|discriminate]. injection Hnc as <-. cbn [snd].
      rewrite (CF (String.append w "S") (next_cell j)) by (intros r; apply PP, Ew). rewrite map_nth_error_iff, Eab. cbn [option_map].
      rewrite (next_cell_ok vars j w ab Ew L2). rewrite map_nth_error_iff in Hq.
      assert (Hj : j < length (snd (snd ab))) by (rewrite L2; apply nth_error_Some; congruence).
      rewrite (nth_error_nth' _ 0%Z Hj) in Hq. cbn [option_map] in Hq. congruence. }
  exists cp, (MkImporter (im_samples im) (CFrame cp) (im_variables im) (im_structure im) (Some vars)). split.
  { unfold sample_import_data. rewrite Him. assert (Ed : exists d0 ds0, rs = d0 :: ds0) by (clear - Hne; destruct rs; [contradiction|eauto]). destruct Ed as [d0 [ds0 Ed]].
    assert (E0 : nth_res (map (frame_of vars) rs) 0 = Ok (frame_of vars d0)) by (rewrite Ed; reflexivity).
    rewrite E0. cbn [bind]. assert (Es : sample_build_sorter (frame_of vars d0) = Ok vars) by exact (sorter_of vars ([], d0)). rewrite Es.
    cbn [bind]. rewrite (delta_all _ vars) by (try reflexivity; exact Hv). cbn [with_sorter im_samples]. rewrite Him, RP. cbn [bind]. fold header.
    rewrite (concat_select_sub _ _ NP HP). cbn [bind]. fold cp. cbn [im_samples im_concat im_variables im_structure im_sorter]. rewrite ?Him. reflexivity. }
  cbn [im_concat im_variables im_structure im_sorter]. do 4 (split; [reflexivity|]).
  split; [|split; [exact NR|exact NUM]].
  unfold cp, header. cbn [fr_cols]. rewrite map_length. cbn [length]. unfold shifted_names. rewrite app_length, map_length. lia.
Qed.

Lemma shown_array vars cf l : to_numpy cf = Ok (map (shown_row vars) l) ->
  build_list_of_samples_array cf = Ok (map (fun ab => (fst (snd ab) - fst (fst ab))%Qc) l, map (fun ab => shown_states vars ab ++ snd (snd ab)) l).
Proof.
  intros H. unfold build_list_of_samples_array. rewrite H. cbn [bind].
  rewrite (res_map_pure _ (fun r => hd 0%Qc r)).
  - cbn [bind]. rewrite !map_map. f_equal. f_equal. apply map_ext. intros ab. unfold shown_row; cbn [tl].
    rewrite <- map_app, map_map. rewrite <- (map_id (shown_states vars ab ++ snd (snd ab))) at 2. apply map_ext. intros z. apply Qc_trunc_Z.
  - intros r Hr. apply in_map_iff in Hr as [ab [<- _]]. reflexivity.
Qed.

Lemma clash_exact (vars : list label) cards prior (rs : list raw) : NoDup ("Time" :: vars) -> vars <> [] -> length cards = length vars ->
  (forall r o, In r rs -> In o r -> length (snd o) = length vars) -> (exists r, In r rs /\ 2 <= length r) ->
  forall s t, imports_to vars cards prior rs s t <-> s = struct_of vars cards prior /\ t = shown_data vars rs.
Proof.
  intros Hn Hv Hc Hl [r1 [Hr1 Hlen1]].
  assert (Hne : rs <> []) by (intros ->; destruct Hr1).
  destruct (import_clash vars rs (new_sample_importer (map (frame_of vars) rs) (Some (variables_frame vars cards)) prior) Hn Hv Hne Hl eq_refl)
    as [cf [im [I1 [I2 [I3 [I4 [I5 [I6 [I7 I8]]]]]]]]].
  cbn [new_sample_importer im_variables im_structure] in I3, I4.
  destruct (vframe_cols vars 0 cards Hc) as [V1 [V2 V3]].
  assert (Hvne : vframe_empty (variables_frame vars cards) = false).
  { unfold vframe_empty, variables_frame; cbn [v_rows]. destruct vars as [|v vr]; [contradiction|]. destruct cards as [|c cr]; [discriminate|]. reflexivity. }
  assert (Hfne : frame_empty cf = false).
  { unfold frame_empty. destruct (fr_index cf) as [|z zs] eqn:Ei.
    - exfalso. unfold nrows in I7. rewrite Ei in I7. cbn [length] in I7.
      assert (X : length (steps r1) <= length (flat_map steps rs)).
      { clear - Hr1. induction rs as [|r rs IH]; [destruct Hr1|]. cbn [flat_map]. rewrite app_length. destruct Hr1 as [->|H]; [lia|]. specialize (IH H). lia. }
      rewrite steps_length in X. lia.
    - destruct (fr_cols cf) eqn:Ec; [discriminate|reflexivity]. }
  assert (EX : exists sp sp1 sp2, new_sample_path im = Ok sp /\ sp_build_trajectories sp = Ok sp1 /\ sp_build_structure sp1 = Ok sp2
        /\ sp_structure sp2 = Some (struct_of vars cards prior) /\ sp_trajectories sp2 = Some (shown_data vars rs)).
  { eexists (MkSamplePath im None None None), _, _. split.
    { unfold new_sample_path. rewrite I3, I2, Hvne, Hfne. reflexivity. }
    split.
    { unfold sp_build_trajectories. cbn [sp_importer]. rewrite I2, (shown_array vars cf _ I8). cbn [bind]. rewrite I5. cbn [fst snd sp_structure sp_total].
      rewrite I6. reflexivity. }
    split.
    { unfold sp_build_structure. cbn [sp_importer]. unfold clear_concatenated_frame. rewrite I2. cbn [im_variables im_sorter im_structure]. rewrite I3, I5.
      assert (X : list_eqb String.eqb vars (v_names (variables_frame vars cards)) = true).
      { apply list_eqb_label. symmetry. exact V2. }
      rewrite X. cbn [negb]. reflexivity. }
    cbn [sp_structure sp_trajectories]. split.
    - unfold struct_of, v_index, v_names, v_values, variables_frame; cbn [v_rows]. rewrite V1, V2, V3, I4. reflexivity.
    - unfold shown_data. do 2 f_equal; lia. }
  destruct EX as [sp [sp1 [sp2 [Q2 [Q3 [Q4 [Q5 Q6]]]]]]]. intros s t. split.
  - intros [jm [tp [tp1 [tp2 [P1 [P2 [P3 [P4 [P5 P6]]]]]]]]]. rewrite I1 in P1. injection P1 as <-. rewrite Q2 in P2. injection P2 as <-.
    rewrite Q3 in P3. injection P3 as <-. rewrite Q4 in P4. injection P4 as <-. rewrite Q5 in P5. rewrite Q6 in P6. injection P5 as <-. injection P6 as <-. auto.
  - intros [-> ->]. exists im, sp, sp1, sp2. auto 10.
Qed.

(** ** without a clash the data set is the user's *)
Lemma no_clash_source (vars : list label) : ~ name_clash vars <-> forall w, In w vars -> source vars w = None.
Proof.
  split.
  - intros H w Hw. unfold source. apply position_none. intros v Hv. apply String.eqb_neq. intros E. apply H. exists v. rewrite E. auto.
  - intros H [v [H1 H2]]. specialize (H _ H2). unfold source in H. rewrite position_none in H. specialize (H v H1). rewrite String.eqb_refl in H. discriminate.
Qed.
Lemma shown_true (vars : list label) (ab : (Qc * list Z) * (Qc * list Z)) : ~ name_clash vars -> length (snd (fst ab)) = length vars -> shown_states vars ab = snd (fst ab).
Proof.
  intros H Hl. rewrite no_clash_source in H. unfold shown_states. apply list_ext. intros j. rewrite nth_error_mapi.
  destruct (nth_error vars j) as [w|] eqn:E; cbn [option_map].
  - unfold shown_state. pose proof (H w (nth_error_In _ _ E)) as K. unfold source in K. rewrite K.
    symmetry. apply nth_error_nth'. rewrite Hl. apply nth_error_Some. congruence.
  - symmetry. apply nth_error_None. rewrite Hl. apply nth_error_None. exact E.
Qed.
Lemma shown_true_data (vars : list label) (rs : list raw) : ~ name_clash vars -> (forall r o, In r rs -> In o r -> length (snd o) = length vars) -> shown_data vars rs = true_data vars rs.
Proof.
  intros H Hl. unfold shown_data, true_data. f_equal. apply map_ext_in. intros ab Hab. rewrite shown_true; [reflexivity|exact H|].
  apply in_flat_map in Hab as [r [Hr Hab]]. apply In_nth_error in Hab as [i Hi]. apply steps_nth in Hi as [A _]. exact (Hl r _ Hr (nth_error_In _ _ A)).
Qed.

(** one step from all zeros to all ones *)
Definition probe (vars : list label) : list (Qc * list Z) := [(0%Qc, map (fun _ => 0%Z) vars); (1%Qc, map (fun _ => 1%Z) vars)].
Lemma clash_wrong vars : name_clash vars -> shown_data vars [probe vars] <> true_data vars [probe vars].
Proof.
  intros [v [H1 H2]] E. apply (f_equal t_rows) in E. unfold shown_data, true_data in E. cbn [t_rows flat_map probe steps tl combine app map fst snd] in E.
  injection E as E. apply app_inv_tail in E. apply In_nth_error in H2 as [j Hj]. apply (f_equal (fun l => nth_error l j)) in E.
  unfold shown_states in E. rewrite nth_error_mapi, Hj, map_nth_error_iff, Hj in E. cbn [option_map] in E. injection E as E.
  unfold shown_state in E. cbn [fst snd] in E. destruct (position _ vars) as [i|] eqn:EP.
  - destruct (position_some _ _ _ EP) as [v' [V1 _]].
    assert (K : nth_error (map (fun _ : label => 1%Z) vars) i = Some 1%Z) by (rewrite map_nth_error_iff, V1; reflexivity).
    rewrite (nth_error_nth _ _ 0%Z K) in E. discriminate.
  - rewrite position_none in EP. specialize (EP v H1). rewrite String.eqb_refl in EP. discriminate.
Qed.
Lemma probe_ok vars : raw_ok (map (fun _ => 2) vars) (probe vars).
Proof.
  split.
  - intros ab Hab. cbn in Hab. destruct Hab as [<-|[]]. cbn [fst snd]. split; clear; (induction vars; cbn [map]; constructor; [lia|assumption]).
  - intros o [<-|[<-|[]]]; cbn [snd]; rewrite !map_length; reflexivity.
Qed.
Lemma good_header_iff vars : good_header vars <-> NoDup ("Time" :: vars) /\ ~ name_clash vars.
Proof.
  unfold good_header. split.
  - intros H. assert (N : NoDup ("Time" :: vars)) by (apply (NoDup_app_l ("Time" :: vars) (shifted_names vars)), H). split; [exact N|].
    intros [v [H1 H2]]. inversion H as [|? ? A B]; subst.
    assert (Q : forall l l' (x : string), NoDup (l ++ l') -> In x l -> In x l' -> False).
    { clear. induction l as [|y l IH]; intros l' x H H1 H2; [destruct H1|]. cbn [app] in H. inversion H; subst. destruct H1 as [->|H1].
      - apply H4, in_or_app; right; exact H2.
      - eapply IH; eassumption. }
    apply (Q vars (shifted_names vars) _ B H2). unfold shifted_names. exact (in_map (fun s => String.append s "S") _ _ H1).
  - intros [N C]. inversion N as [|? ? A B]; subst. constructor.
    + intros K. apply in_app_or in K as [K|K]; [exact (A K)|]. unfold shifted_names in K. apply in_map_iff in K as [v [E _]].
      destruct v as [|a [|b [|c [|d v]]]]; cbn in E; try discriminate. injection E as _ _ _ _ E. destruct v; discriminate.
    + apply NoDup_app_intro; [exact B| |].
      * unfold shifted_names. apply FinFun.Injective_map_NoDup; [|exact B]. intros a b. apply append_S_inj.
      * intros x Hx K. unfold shifted_names in K. apply in_map_iff in K as [v [<- Hv]]. apply C. exists v. auto.
Qed.
