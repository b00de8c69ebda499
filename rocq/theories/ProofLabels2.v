(** C95: importing labelled frames. *)
From Verif Require Import Base Lib LibQc ModelStructure ModelGraph ModelCims ModelData ModelParams SpecStructure SpecGraph SpecComb SpecParams SpecData
  SpecInvariance SpecLabels
  ProofStructure ProofGraph ProofComb ProofParams ProofParams2 ProofParams3 ProofIndex ProofData ProofData2 ProofData3 ProofInvariance ProofLabels.

Lemma numpy_cols f f' : fr_cols f = fr_cols f' -> length (fr_index f) = length (fr_index f') -> to_numpy f = to_numpy f'.
Proof. intros H1 H2. unfold to_numpy. rewrite H2. apply res_map_ext. intros i _. unfold frame_row. rewrite H1. reflexivity. Qed.

Lemma steps_array cf l : to_numpy cf = Ok (map step_row l) ->
  build_list_of_samples_array cf = Ok (map (fun ab => (fst (snd ab) - fst (fst ab))%Qc) l, map (fun ab => snd (fst ab) ++ snd (snd ab)) l).
Proof.
  intros H. unfold build_list_of_samples_array. rewrite H. cbn [bind].
  rewrite (res_map_pure _ (fun r => hd 0%Qc r)).
  - cbn [bind]. rewrite !map_map. f_equal. f_equal. apply map_ext. intros ab. unfold step_row; cbn [tl].
    rewrite <- map_app, map_map. rewrite <- (map_id (snd (fst ab) ++ snd (snd ab))) at 2. apply map_ext. intros z. apply Qc_trunc_Z.
  - intros r Hr. apply in_map_iff in Hr as [ab [<- _]]. reflexivity.
Qed.

Lemma sorter_of vars d : sample_build_sorter (labelled vars d) = Ok vars.
Proof.
  unfold sample_build_sorter, col_names, labelled, frame_of; cbn [fr_cols map fst].
  rewrite (map_fst_mapi (fun j v => map (fun o => option_map Qc_of_Z (nth_error (snd o) j)) (snd d))). reflexivity.
Qed.
Lemma flat_index_length {A} (g h : A -> list Z) l : (forall a, In a l -> length (g a) = length (h a)) -> length (flat_map g l) = length (flat_map h l).
Proof. induction l as [|a l IH]; intros H; [reflexivity|]. cbn [flat_map]. rewrite !app_length, IH, (H a); auto; [left; reflexivity|intros; apply H; right; assumption]. Qed.

Lemma delta_all im vars fs : im_sorter im = Some vars -> vars <> [] ->
  compute_row_delta_in_all_samples_frames im fs =
  (let* procs := res_map (fun f => compute_row_delta_single_samples_frame f vars (shifted_names vars)) fs in
   let* c := concat_select procs ("Time" :: vars ++ shifted_names vars) in
   Ok (MkImporter (im_samples im) (CFrame c) (im_variables im) (im_structure im) (im_sorter im))).
Proof. intros H1 H2. unfold compute_row_delta_in_all_samples_frames. rewrite H1. destruct vars; [contradiction|reflexivity]. Qed.

Lemma import_labelled vars ds im : good_header vars -> vars <> [] -> ds <> [] -> Forall one_label_per_row ds ->
  (forall d o, In d ds -> In o (snd d) -> length (snd o) = length vars) -> im_samples im = map (labelled vars) ds ->
  exists cf im', sample_import_data im None = Ok im' /\ im_concat im' = CFrame cf
   /\ im_variables im' = im_variables im /\ im_structure im' = im_structure im /\ im_sorter im' = Some vars
   /\ col_names cf = "Time" :: vars ++ shifted_names vars
   /\ nrows cf = length (flat_map kept_steps ds)
   /\ to_numpy cf = Ok (map step_row (flat_map kept_steps ds)).
Proof.
  intros Hh Hv Hne Hd Hl Him. rewrite Forall_forall in Hd.
  set (header := "Time" :: vars ++ shifted_names vars).
  (* the processed frames, with the given labels and with the default ones *)
  set (P := fun d => match compute_row_delta_single_samples_frame (labelled vars d) vars (shifted_names vars) with Ok p => p | Err _ => MkFrame [] [] end).
  set (Q := fun d : list Z * list (Qc * list Z) => match compute_row_delta_single_samples_frame (frame_of vars (snd d)) vars (shifted_names vars) with Ok p => p | Err _ => MkFrame [] [] end).
  assert (PQ : forall d, In d ds -> compute_row_delta_single_samples_frame (labelled vars d) vars (shifted_names vars) = Ok (P d)
      /\ compute_row_delta_single_samples_frame (frame_of vars (snd d)) vars (shifted_names vars) = Ok (Q d)
      /\ fr_cols (P d) = map (fun nc => (fst nc, keep_rows (mask d) (snd nc))) (fr_cols (Q d))
      /\ length (fr_index (P d)) = length (keep_rows (mask d) (mask d)) /\ col_names (Q d) = header
      /\ length (fr_index (Q d)) = length (snd d) - 1
      /\ Forall (fun nc => length (snd nc) = length (snd d) - 1) (fr_cols (Q d))).
  { intros d Hin. destruct (process_labelled vars d Hh (Hd d Hin)) as [p [q [E1 [E2 [E3 [E4 [E5 [E6 E7]]]]]]]].
    unfold P, Q. rewrite E1, E2. auto 10. }
  assert (CP : forall d, In d ds -> col_names (P d) = header).
  { intros d Hin. destruct (PQ d Hin) as [_ [_ [E3 [_ [E5 _]]]]]. rewrite <- E5. unfold col_names. rewrite E3, map_map. reflexivity. }
  assert (RP : res_map (fun f => compute_row_delta_single_samples_frame f vars (shifted_names vars)) (map (labelled vars) ds) = Ok (map P ds)).
  { apply res_map_ok. apply Forall2_by_nth; [rewrite !map_length; reflexivity|]. intros i x y Hx Hy. rewrite map_nth_error_iff in Hx, Hy.
    destruct (nth_error ds i) as [d|] eqn:E; [|discriminate]. injection Hx as <-. injection Hy as <-. apply PQ, (nth_error_In _ _ E). }
  assert (RQ : res_map (fun f => compute_row_delta_single_samples_frame f vars (shifted_names vars)) (map (frame_of vars) (map snd ds)) = Ok (map Q ds)).
  { apply res_map_ok. apply Forall2_by_nth; [rewrite !map_length; reflexivity|]. intros i x y Hx Hy. rewrite map_map, map_nth_error_iff in Hx. rewrite map_nth_error_iff in Hy.
    destruct (nth_error ds i) as [d|] eqn:E; [|discriminate]. injection Hx as <-. injection Hy as <-. apply PQ, (nth_error_In _ _ E). }
  assert (NP : map P ds <> []) by (destruct ds; [contradiction|discriminate]).
  assert (NQ : map Q ds <> []) by (destruct ds; [contradiction|discriminate]).
  assert (HP : forall f, In f (map P ds) -> col_names f = header) by (intros f Hf; apply in_map_iff in Hf as [d [<- Hin]]; auto).
  assert (HQ : forall f, In f (map Q ds) -> col_names f = header) by (intros f Hf; apply in_map_iff in Hf as [d [<- Hin]]; apply PQ, Hin).
  set (cp := MkFrame (flat_map fr_index (map P ds)) (map (fun h => (h, flat_map (col_of h) (map P ds))) header)).
  set (cq := MkFrame (flat_map fr_index (map Q ds)) (map (fun h => (h, flat_map (col_of h) (map Q ds))) header)).
  (* the import with the default labels *)
  assert (NUM : to_numpy cq = Ok (map step_row (flat_map steps (map snd ds)))).
  { set (im0 := MkImporter (map (frame_of vars) (map snd ds)) (im_concat im) (im_variables im) (im_structure im) (im_sorter im)).
    destruct (import_frames vars (map snd ds) im0 Hh Hv) as [cf [im' [I1 [I2 [_ [_ [_ [_ [_ I8]]]]]]]]].
    - destruct ds; [contradiction|discriminate].
    - intros r o Hr Ho. apply in_map_iff in Hr as [d [<- Hin]]. apply (Hl d o Hin Ho).
    - reflexivity.
    - unfold sample_import_data in I1. cbn [im0 im_samples] in I1. assert (Ed : exists d0 ds0, ds = d0 :: ds0) by (clear - Hne; destruct ds; [contradiction|eauto]). destruct Ed as [d0 [ds0 Ed]].
      assert (E0 : nth_res (map (frame_of vars) (map snd ds)) 0 = Ok (frame_of vars (snd d0))) by (rewrite Ed; reflexivity).
      rewrite E0 in I1. cbn [bind] in I1.
      assert (Es : sample_build_sorter (frame_of vars (snd d0)) = Ok vars) by exact (sorter_of vars d0).
      rewrite Es in I1. cbn [bind] in I1. rewrite (delta_all _ vars) in I1 by (try reflexivity; exact Hv). cbn [with_sorter im_samples im0] in I1. rewrite RQ in I1. cbn [bind] in I1. fold header in I1.
      rewrite (concat_select_ok _ _ NQ HQ) in I1. cbn [bind] in I1. fold cq in I1. injection I1 as I1. subst im'. cbn [im_concat] in I2. injection I2 as <-. exact I8. }
  set (M := flat_map mask ds).
  assert (COL : forall h, In h header -> flat_map (col_of h) (map P ds) = keep_rows M (flat_map (col_of h) (map Q ds))).
  { intros h Hin. unfold M. rewrite !flat_map_concat_map, !map_map, <- !flat_map_concat_map.
    rewrite <- (keep_flat mask (fun d => col_of h (Q d))).
    - rewrite !flat_map_concat_map. f_equal. apply map_ext_in. intros d Hd'. destruct (PQ d Hd') as [_ [_ [E3 [_ [E5 _]]]]]. unfold col_of. rewrite E3, assoc_col_map.
      rewrite <- E5 in Hin. unfold col_names in Hin. destruct (assoc_col_some _ _ Hin) as [c [-> _]]. reflexivity.
    - intros d Hd'. destruct (PQ d Hd') as [_ [_ [_ [_ [E5 [_ E7]]]]]]. rewrite <- E5 in Hin. unfold col_names in Hin. unfold col_of.
      destruct (assoc_col_some _ _ Hin) as [c [-> C]]. rewrite (mask_length d (Hd d Hd')). rewrite Forall_forall in E7. symmetry. apply (E7 _ C). }
  assert (LM : forall d, In d ds -> length (mask d) = length (snd d) - 1) by (intros d Hin; apply mask_length, Hd, Hin).
  assert (IX : length (fr_index cp) = length (fr_index (keep_frame M cq))).
  { cbn [cp cq keep_frame fr_index]. unfold M. rewrite !flat_map_concat_map, !map_map, <- !flat_map_concat_map.
    rewrite <- (keep_flat mask (fun d => fr_index (Q d))).
    - apply flat_index_length. intros d Hin. destruct (PQ d Hin) as [_ [_ [_ [E4 [_ [E6 _]]]]]]. rewrite E4. apply keep_same_length. rewrite E6. apply LM, Hin.
    - intros d Hin. destruct (PQ d Hin) as [_ [_ [_ [_ [_ [E6 _]]]]]]. rewrite E6. apply LM, Hin. }
  assert (FC : fr_cols cp = fr_cols (keep_frame M cq)).
  { cbn [cp cq keep_frame fr_cols]. rewrite map_map. apply map_ext_in. intros h Hin. cbn [fst snd]. rewrite (COL h Hin). reflexivity. }
  assert (LQ : Forall (fun nc => length (snd nc) = length (fr_index cq)) (fr_cols cq)).
  { apply Forall_forall. intros nc Hnc. cbn [cq fr_cols] in Hnc. apply in_map_iff in Hnc as [h [<- Hin]]. cbn [snd cq fr_index].
    rewrite !flat_map_concat_map, !map_map, <- !flat_map_concat_map.
    assert (X : forall l, incl l ds -> length (flat_map (fun x => col_of h (Q x)) l) = length (flat_map (fun x => fr_index (Q x)) l)).
    { clear - PQ Hin. induction l as [|d l IH]; intros Hl; [reflexivity|]. cbn [flat_map]. rewrite !app_length, IH by (intros y Hy; apply Hl; right; exact Hy). f_equal.
      destruct (PQ d (Hl d (or_introl eq_refl))) as [_ [_ [_ [_ [E5 [E6 E7]]]]]]. rewrite <- E5 in Hin. unfold col_names in Hin. unfold col_of.
      destruct (assoc_col_some _ _ Hin) as [c [-> C]]. rewrite Forall_forall in E7. rewrite E6. apply (E7 _ C). }
    apply X. intros y Hy; exact Hy. }
  assert (KS : flat_map kept_steps ds = keep_rows M (flat_map steps (map snd ds))).
  { unfold M. rewrite !flat_map_concat_map, !map_map, <- !flat_map_concat_map. rewrite <- (keep_flat mask (fun d => steps (snd d))).
    - rewrite !flat_map_concat_map. f_equal. apply map_ext_in. intros d Hin. apply kept_steps_mask, Hd, Hin.
    - intros d Hin. rewrite steps_length. apply LM, Hin. }
  assert (NUMP : to_numpy cp = Ok (map step_row (flat_map kept_steps ds))).
  { rewrite (numpy_cols cp (keep_frame M cq) FC IX), (keep_numpy M cq _ LQ NUM), KS, keep_map. reflexivity. }
  exists cp, (MkImporter (im_samples im) (CFrame cp) (im_variables im) (im_structure im) (Some vars)).
  split.
  { unfold sample_import_data. rewrite Him. assert (Ed : exists d0 ds0, ds = d0 :: ds0) by (clear - Hne; destruct ds; [contradiction|eauto]). destruct Ed as [d0 [ds0 Ed]].
    assert (E0 : nth_res (map (labelled vars) ds) 0 = Ok (labelled vars d0)) by (rewrite Ed; reflexivity).
    rewrite E0. cbn [bind]. rewrite (sorter_of vars d0). cbn [bind]. rewrite (delta_all _ vars) by (try reflexivity; exact Hv). cbn [with_sorter im_samples]. rewrite Him. rewrite RP. cbn [bind]. fold header.
    rewrite (concat_select_ok _ _ NP HP). cbn [bind]. fold cp. cbn [im_samples im_concat im_variables im_structure im_sorter]. rewrite ?Him. reflexivity. }
  cbn [im_concat im_variables im_structure im_sorter]. do 4 (split; [reflexivity|]).
  split; [unfold col_names, cp; cbn [fr_cols]; rewrite map_map; apply map_id|].
  split; [|exact NUMP].
  unfold to_numpy in NUMP. apply res_map_length in NUMP. rewrite seq_length, map_length in NUMP. unfold nrows. symmetry; exact NUMP.
Qed.
