(** C44-C46: column naming, SamplePath life cycle, build_structure. *)
From Verif Require Import Base Lib ModelStructure ModelCims ModelData SpecParams SpecData ProofParams ProofIndex ProofData.

Lemma assoc_assign (cs : list (string * list (option Qc))) n v m :
  assoc_col (assign_col cs n v) m = if String.eqb n m then Some v else assoc_col cs m.
Proof.
  induction cs as [|[x d] r IH]; cbn [assign_col assoc_col]; [reflexivity|].
  destruct (String.eqb_spec x n) as [->|Hx]; cbn [assoc_col].
  - destruct (String.eqb_spec n m); reflexivity.
  - rewrite IH. destruct (String.eqb_spec x m) as [->|]; [|reflexivity]. destruct (String.eqb_spec n m); congruence.
Qed.
Lemma assoc_fold_assign nvs : forall (cs : list (string * list (option Qc))) m, NoDup (map fst nvs) ->
  assoc_col (fold_left (fun cs nv => assign_col cs (fst nv) (snd nv)) nvs cs) m
  = match assoc_col nvs m with Some v => Some v | None => assoc_col cs m end.
Proof.
  induction nvs as [|[n v] r IH]; intros cs m H; cbn [fold_left map fst snd] in *; [reflexivity|].
  inversion H as [|? ? N1 N2]; subst. rewrite IH by exact N2. cbn [assoc_col].
  destruct (String.eqb_spec n m) as [->|Hn].
  - rewrite (assoc_col_none r m N1), assoc_assign, String.eqb_refl. reflexivity.
  - destruct (assoc_col r m); [reflexivity|]. rewrite assoc_assign. destruct (String.eqb_spec n m); [contradiction|reflexivity].
Qed.
Lemma assign_lengths n cs x v : Forall (fun nc : string * list (option Qc) => length (snd nc) = n) cs -> length v = n ->
  Forall (fun nc => length (snd nc) = n) (assign_col cs x v).
Proof.
  intros H Hv. induction H as [|[y c] cs H1 H2 IH]; cbn [assign_col]; [repeat constructor; exact Hv|].
  destruct (String.eqb y x); constructor; try assumption. 
Qed.
Lemma fold_assign_lengths n nvs : forall cs, Forall (fun nc : string * list (option Qc) => length (snd nc) = n) cs ->
  Forall (fun nc => length (snd nc) = n) nvs ->
  Forall (fun nc => length (snd nc) = n) (fold_left (fun cs nv => assign_col cs (fst nv) (snd nv)) nvs cs).
Proof.
  induction nvs as [|[x v] r IH]; intros cs H H2; cbn [fold_left]; [exact H|]. pose proof (Forall_inv H2) as A1. apply Forall_inv_tail in H2. apply IH; [|exact H2].
  cbn [fst snd] in *. apply assign_lengths; [exact H|exact A1].
Qed.
Lemma select_cols_In cs header sel : select_cols cs header = Ok sel ->
  Forall2 (fun h c => assoc_col cs h = Some c) header sel.
Proof.
  unfold select_cols. intros H. apply res_map_ok in H. induction H as [|h c hs cs' H1 H2 IH]; constructor; [|exact IH].
  destruct (assoc_col cs h); congruence.
Qed.
Lemma assoc_combine_Forall2 {A B} (P : string -> A -> Prop) (g : A -> B) (sh : string -> string) header sel : Forall2 P header sel ->
  (forall a b, sh a = sh b -> a = b) -> forall h, In h header ->
  exists c, P h c /\ assoc_col (combine (map sh header) (map g sel)) (sh h) = Some (g c).
Proof.
  intros HF Hinj. induction HF as [|k c hs cs H1 H2 IH]; intros h Hin; [destruct Hin|]. cbn [map combine assoc_col].
  destruct (String.eqb_spec (sh k) (sh h)) as [E|E].
  - apply Hinj in E. subst k. eauto.
  - destruct Hin as [->|Hin]; [contradiction|]. apply IH, Hin.
Qed.

(** What the row-delta step does to an arbitrary rectangular frame *)
Lemma row_delta_any n x c0 rest header f' :
  length c0 = n -> Forall (fun nc => length (snd nc) = n) rest -> NoDup header ->
  compute_row_delta_single_samples_frame (MkFrame (map Z.of_nat (seq 0 n)) ((x, c0) :: rest)) header (shifted_names header) = Ok f' ->
  (forall m, ~ In m (shifted_names header) ->
     assoc_col (fr_cols f') m = option_map (firstn (n - 1)) (assoc_col ((x, diff_shift c0) :: rest) m))
  /\ (forall v, In v header -> exists c, assoc_col ((x, diff_shift c0) :: rest) v = Some c
       /\ assoc_col (fr_cols f') (String.append v "S") = Some (firstn (n - 1) (map fillna0_int (shift_up c)))).
Proof.
  intros H0 Hr Hn H. unfold compute_row_delta_single_samples_frame in H. cbn [fr_cols fr_index] in H.
  apply bind_ok in H as [sel [Hs H]]. injection H as <-.
  pose proof (select_cols_In _ _ _ Hs) as HF.
  assert (Hd : NoDup (map fst (combine (shifted_names header) (map (fun c => map fillna0_int (shift_up c)) sel)))).
  { rewrite map_fst_combine.
    - unfold shifted_names. apply FinFun.Injective_map_NoDup; [intros a b; apply append_S_inj|exact Hn].
    - unfold shifted_names. rewrite !map_length. apply Forall2_length in HF. exact HF. }
  rewrite drop_tail_range.
  - cbn [fr_cols]. split.
    + intros m Hm. rewrite assoc_col_map, assoc_fold_assign by exact Hd.
      rewrite (assoc_col_none (combine _ _) m); [reflexivity|]. rewrite map_fst_combine; [exact Hm|].
      unfold shifted_names. rewrite !map_length. apply Forall2_length in HF. exact HF.
    + intros v Hv. rewrite assoc_col_map, assoc_fold_assign by exact Hd.
      destruct (assoc_combine_Forall2 _ (fun c => map fillna0_int (shift_up c)) (fun s => String.append s "S") header sel HF append_S_inj v Hv) as [c [C1 C2]].
      exists c. split; [exact C1|]. unfold shifted_names. rewrite C2. reflexivity.
  - apply fold_assign_lengths; [constructor; [cbn [snd]; rewrite diff_shift_length; exact H0|exact Hr]|].
    assert (HL : Forall (fun c => length c = n) sel).
    { clear - HF Hr H0. induction HF as [|h c hs cs H1 H2 IH]; constructor; [|exact IH]. cbn [assoc_col] in H1.
      destruct (String.eqb x h); [injection H1 as <-; rewrite diff_shift_length; exact H0|].
      clear - H1 Hr. induction Hr as [|[y d] r A B IH]; [discriminate|]. cbn [assoc_col] in H1. destruct (String.eqb y h); [injection H1 as <-; exact A|apply IH, H1]. }
    clear - HL. revert HL. generalize (shifted_names header) as sh. intros sh HL. revert sh. induction HL as [|c cs H1 H2 IH]; intros [|s sh]; cbn [map combine]; constructor; [|apply IH].
    cbn [snd]. rewrite map_length, shift_up_length. exact H1.
Qed.

(** C44 *)
Lemma first_column_differenced n x c0 rest header f' :
  length c0 = n -> Forall (fun nc => length (snd nc) = n) rest -> NoDup header -> x <> "Time" ->
  ~ In x (shifted_names header) -> ~ In "Time" (shifted_names header) ->
  compute_row_delta_single_samples_frame (MkFrame (map Z.of_nat (seq 0 n)) ((x, c0) :: rest)) header (shifted_names header) = Ok f' ->
  assoc_col (fr_cols f') x = Some (firstn (n - 1) (diff_shift c0))
  /\ assoc_col (fr_cols f') "Time" = option_map (firstn (n - 1)) (assoc_col rest "Time").
Proof.
  intros H0 Hr Hn Hx H1 H2 H. destruct (row_delta_any n x c0 rest header f' H0 Hr Hn H) as [A _]. split.
  - rewrite A by exact H1. cbn [assoc_col]. rewrite String.eqb_refl. reflexivity.
  - rewrite A by exact H2. cbn [assoc_col]. destruct (String.eqb_spec x "Time"); [contradiction|reflexivity].
Qed.

Lemma shifted_overwrites vars n f f' v w : raw_frame vars n f -> NoDup ("Time" :: vars) -> In v vars -> In w vars -> w = String.append v "S" ->
  compute_row_delta_single_samples_frame f vars (shifted_names vars) = Ok f' ->
  forall i, S i < n -> cell_at f' w i = cell_at f v (S i).
Proof.
  intros Hf Hn Hv Hw Ew H i Hi. pose proof Hf as [_ [_ [_ [_ Hint]]]].
  destruct (raw_frame_shape vars n f Hf) as [t0 [rest [-> [Ev [Ht Hr]]]]].
  subst vars w. apply NoDup_cons_iff in Hn as [N1 N2].
  destruct (row_delta_any n "Time" t0 rest (map fst rest) f' Ht Hr N2 H) as [_ B]. 
  destruct (B v Hv) as [c [C1 C2]]. unfold cell_at. rewrite C2. cbn [fr_cols].
  destruct (Hint v (S i) Hv Hi) as [z Hz]. unfold cell_at in Hz. cbn [fr_cols] in Hz.
  assert (T : String.eqb "Time" v = false) by (apply String.eqb_neq; intros <-; contradiction).
  cbn [assoc_col] in *. rewrite T in *. rewrite C1 in *. rewrite nth_error_firstn' by lia.
  assert (Hc : S i < length c) by (apply nth_error_Some; congruence).
  rewrite map_nth_error_iff, shift_up_nth by exact Hc. rewrite Hz. cbn [option_map fillna0_int]. rewrite Qc_trunc_Z. reflexivity.
Qed.

Lemma no_time_column im header fs im' : im_sorter im = Some header -> NoDup header -> ~ In "Time" (shifted_names header) ->
  (forall f, In f fs -> exists n x c0 rest, f = MkFrame (map Z.of_nat (seq 0 n)) ((x, c0) :: rest)
      /\ length c0 = n /\ Forall (fun nc => length (snd nc) = n) rest /\ ~ In "Time" (col_names f)) ->
  compute_row_delta_in_all_samples_frames im fs <> Ok im'.
Proof.
  intros Hs Hn Hsh Hf H. unfold compute_row_delta_in_all_samples_frames in H. rewrite Hs in H.
  destruct header as [|h hs] eqn:Eh; [discriminate|]. rewrite <- Eh in *.
  apply bind_ok in H as [ps [P1 H]]. apply bind_ok in H as [c [C1 _]].
  apply res_map_ok in P1. unfold concat_select in C1. destruct ps as [|p0 ps0] eqn:Ep; [discriminate|]. rewrite <- Ep in *.
  apply bind_ok in C1 as [cols [C1 _]]. cbn [res_map] in C1.
  destruct (existsb (fun f => lmem "Time" (col_names f)) ps) eqn:Ex; [|discriminate].
  apply existsb_exists in Ex as [p [Hp Hp2]]. apply lmem_In in Hp2.
  apply In_nth_error in Hp as [k Hk]. destruct (Forall2_nth_error_r _ _ _ P1 k p Hk) as [f [F1 F2]].
  destruct (Hf f (nth_error_In _ _ F1)) as [n [x [c0 [rest [-> [L1 [L2 L3]]]]]]].
  destruct (row_delta_any n x c0 rest header p L1 L2 Hn F2) as [A _]. specialize (A "Time" Hsh).
  unfold col_names in L3. cbn [fr_cols map fst] in L3.
  rewrite (assoc_col_none ((x, diff_shift c0) :: rest) "Time") in A by exact L3. cbn [option_map] in A.
  destruct (assoc_col_some (fr_cols p) "Time" Hp2) as [d [D1 _]]. congruence.
Qed.

Lemma py_remove_hd (x : string) l : py_remove String.eqb x (x :: l) = Ok l.
Proof. cbn [py_remove]. rewrite String.eqb_refl. reflexivity. Qed.

(** JSON import with another name for the time column always raises KeyError *)
Lemma json_time_key tk fs vars : fs <> [] ->
  tk <> "Time" -> vars <> [] -> NoDup (tk :: vars ++ shifted_names vars) -> ~ In "Time" vars -> ~ In "Time" (shifted_names vars) ->
  (forall f, In f fs -> exists n c0 rest, f = MkFrame (map Z.of_nat (seq 0 n)) ((tk, c0) :: rest)
      /\ length c0 = n /\ Forall (fun nc => length (snd nc) = n) rest /\ map fst rest = vars) ->
  exists f0 sorter, nth_res fs 0 = Ok f0 /\ json_build_sorter tk f0 = Ok sorter
    /\ compute_row_delta_in_all_samples_frames (MkImporter fs CEmptyList None None (Some sorter)) fs = Err KeyError.
Proof.
  intros Hne Htk Hvne Hnd Ht1 Ht2 Hf.
  destruct fs as [|f0 fs0] eqn:Ef; [contradiction|]. rewrite <- Ef in *.
  assert (E0 : nth_res fs 0 = Ok f0) by (rewrite Ef; reflexivity). exists f0, vars. split; [exact E0|].
  assert (Hin0 : In f0 fs) by (rewrite Ef; left; reflexivity).
  destruct (Hf f0 Hin0) as [n [c0 [rest [E1 [L1 [L2 L3]]]]]].
  split; [unfold json_build_sorter, col_names; rewrite E1; cbn [fr_cols map fst]; rewrite L3, py_remove_hd; reflexivity|].
  unfold compute_row_delta_in_all_samples_frames. cbn [im_sorter]. destruct vars as [|v0 vr] eqn:Ev; [contradiction|]. rewrite <- Ev in *.
  assert (N1 : NoDup (tk :: vars)) by (apply (NoDup_app_l (tk :: vars) (shifted_names vars)), Hnd).
  assert (HP : exists ps, res_map (fun f => compute_row_delta_single_samples_frame f vars (shifted_names vars)) fs = Ok ps
     /\ length ps = length fs /\ forall p, In p ps -> assoc_col (fr_cols p) "Time" = None).
  { clear - Hf N1 Htk Ht1 Ht2. induction fs as [|f fs IH]; [exists []; repeat split; intros p []|].
    destruct IH as [ps [P1 [P2 P3]]]; [intros g Hg; apply Hf; right; exact Hg|].
    destruct (Hf f (or_introl eq_refl)) as [n [c0 [rest [-> [L1 [L2 L3]]]]]].
    assert (X : exists p, compute_row_delta_single_samples_frame (MkFrame (map Z.of_nat (seq 0 n)) ((tk, c0) :: rest)) vars (shifted_names vars) = Ok p).
    { unfold compute_row_delta_single_samples_frame. cbn [fr_cols]. rewrite <- L3 in *. rewrite (select_cols_exact tk _ rest N1). cbn [bind]. eauto. }
    destruct X as [p X]. exists (p :: ps). split; [cbn [res_map]; rewrite X; cbn [bind]; rewrite P1; reflexivity|].
    split; [cbn [length]; congruence|]. intros q [<-|Hq]; [|apply P3, Hq].
    inversion N1 as [|? ? A1 A2]; subst.
    destruct (row_delta_any (length c0) tk c0 rest (map fst rest) p eq_refl L2 A2 X) as [A _]. rewrite A by exact Ht2.
    cbn [assoc_col]. destruct (String.eqb_spec tk "Time"); [contradiction|]. rewrite (assoc_col_none rest "Time" Ht1). reflexivity. }
  destruct HP as [ps [P1 [P2 P3]]]. rewrite P1. cbn [bind]. unfold concat_select.
  destruct ps as [|p0 ps0] eqn:Ep; [rewrite Ef in P2; discriminate|]. rewrite <- Ep in *. cbn [res_map].
  assert (Ex : existsb (fun f => lmem "Time" (col_names f)) ps = false).
  { destruct (existsb _ ps) eqn:Ex; [|reflexivity]. apply existsb_exists in Ex as [p [Hp Hp2]]. apply lmem_In in Hp2.
    destruct (assoc_col_some (fr_cols p) "Time" Hp2) as [c [C1 _]]. rewrite (P3 p Hp) in C1. discriminate. }
  rewrite Ex. reflexivity.
Qed.

(** C45 *)
Lemma new_sample_path_iff im :
  (sample_path_accepts im /\ new_sample_path im = Ok (MkSamplePath im None None None))
  \/ (~ sample_path_accepts im /\ new_sample_path im = Err RuntimeError).
Proof.
  unfold sample_path_accepts, new_sample_path. destruct (im_variables im) as [v|] eqn:Ev.
  - destruct (im_concat im) as [| |f|n] eqn:Ec.
    + unfold vframe_empty. destruct (v_rows v) eqn:Er; [right|left].
      * split; [|reflexivity]. intros [[w [H1 H2]] _]. injection H1 as <-. congruence.
      * split; [|reflexivity]. split; [|exact I]. exists v. split; [reflexivity|congruence].
    + right. split; [tauto|reflexivity].
    + unfold vframe_empty. destruct (v_rows v) eqn:Er; [right|].
      * split; [|reflexivity]. intros [[w [H1 H2]] _]. injection H1 as <-. congruence.
      * unfold frame_empty. destruct (fr_index f) eqn:Ei; [right; split; [|reflexivity]; intros [_ [H _]]; congruence|].
        destruct (fr_cols f) eqn:Ecol; [right; split; [|reflexivity]; intros [_ [_ H]]; congruence|].
        left. split; [|reflexivity]. split; [exists v; split; [reflexivity|congruence]|]. split; congruence.
    + unfold vframe_empty. destruct (v_rows v) eqn:Er; [right|].
      * split; [|reflexivity]. intros [[w [H1 H2]] _]. injection H1 as <-. congruence.
      * destruct n; [right|left]; (split; [|reflexivity]).
        -- intros [_ H]. congruence.
        -- split; [exists v; split; [reflexivity|congruence]|]. congruence.
  - right. split; [|reflexivity]. intros [[v [H _]] _]. discriminate.
Qed.

Lemma build_trajectories_once sp sp1 : sp_build_trajectories sp = Ok sp1 ->
  new_sample_path (sp_importer sp1) = Err RuntimeError
  /\ exists f, im_concat (sp_importer sp1) = CFrame f /\ fr_index f = []
  /\ exists sp2 t, sp_build_trajectories sp1 = Ok sp2 /\ sp_trajectories sp2 = Some t /\ t_rows t = [] /\ t_times t = [].
Proof.
  unfold sp_build_trajectories. destruct (im_concat (sp_importer sp)) as [| |f|n] eqn:Ec; try discriminate.
  intros H. apply bind_ok in H as [[times rows] [B H]]. destruct (im_sorter (sp_importer sp)) as [s|] eqn:Es; [|discriminate].
  injection H as <-. cbn [sp_importer]. unfold clear_concatenated_frame. rewrite Ec. cbn [im_concat im_sorter].
  split.
  - unfold new_sample_path. cbn [im_variables im_concat]. destruct (im_variables (sp_importer sp)) as [v|]; [|reflexivity].
    destruct (vframe_empty v); reflexivity.
  - exists (empty_frame_like f). split; [reflexivity|]. split; [reflexivity|]. rewrite Es. eexists _, _.
    unfold build_list_of_samples_array, to_numpy, empty_frame_like; cbn [fr_index length seq res_map bind]. split; [reflexivity|].
    cbn [sp_trajectories]. split; [reflexivity|]. split; reflexivity.
Qed.

Lemma not_imported fs v s : vframe_empty v = false ->
  exists sp, new_sample_path (new_sample_importer fs (Some v) s) = Ok sp /\ sp_build_trajectories sp = Err AttributeError.
Proof.
  intros H. unfold new_sample_path, new_sample_importer; cbn [im_variables im_concat]. rewrite H. eexists. split; reflexivity.
Qed.

(** C46 *)
Lemma list_eqb_label a : forall b, list_eqb String.eqb a b = true <-> a = b.
Proof.
  induction a as [|x a IH]; intros [|y b]; cbn [list_eqb]; try (split; congruence).
  rewrite andb_true_iff, IH. destruct (String.eqb_spec x y); split; intros H; try (destruct H; congruence); injection H; auto.
Qed.
Lemma build_structure_spec sp v sorter : im_variables (sp_importer sp) = Some v -> im_sorter (sp_importer sp) = Some sorter ->
  (sorter <> v_names v /\ sp_build_structure sp = Err RuntimeError)
  \/ (sorter = v_names v /\ exists sp' s, sp_build_structure sp = Ok sp' /\ sp_structure sp' = Some s
      /\ sp_importer sp' = sp_importer sp /\ sp_trajectories sp' = sp_trajectories sp
      /\ combine (combine (nodes_indexes s) (nodes_labels s)) (nodes_values s) = v_rows v
      /\ nodes_labels s = sorter
      /\ edges_list s = match im_structure (sp_importer sp) with None => [] | Some es => es end
      /\ total_variables_number s = length sorter).
Proof.
  intros H1 H2. unfold sp_build_structure. rewrite H1, H2. destruct (list_eqb String.eqb sorter (v_names v)) eqn:E.
  - apply list_eqb_label in E. right. split; [exact E|]. eexists _, _. split; [reflexivity|]. cbn [sp_structure sp_importer sp_trajectories].
    repeat split; cbn [nodes_indexes nodes_labels nodes_values]; [|congruence].
    unfold v_index, v_names, v_values. clear. induction (v_rows v) as [|[[i l] k] r IH]; [reflexivity|]. cbn [map combine fst snd]. f_equal. exact IH.
  - left. split; [|reflexivity]. intros K. apply list_eqb_label in K. congruence.
Qed.
