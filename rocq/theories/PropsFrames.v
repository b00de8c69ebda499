(** Property theorems C97: which parts of the imported DataFrames matter. *)
From Verif Require Import Base Lib LibQc ModelStructure ModelGraph ModelCims ModelData ModelParams SpecStructure SpecGraph SpecComb SpecParams SpecData
  SpecInvariance SpecLabels SpecFrames ProofStructure ProofData ProofData3 ProofInvariance ProofLabels2 ProofNames2 ProofFrames ProofFrames2 PropsData PropsInvariance.

(** DataFrames that hold the same trajectories give the same structure and the same data set: the order of the columns
    after Time (from the second frame on), further columns, and the fractional parts of states make no difference. *)
Theorem C97_only_the_trajectories_matter vars cards prior fs rs : good_header vars -> vars <> [] -> length cards = length vars ->
  Forall2 (holds vars) fs rs -> (exists f0, nth_error fs 0 = Some f0 /\ col_names f0 = "Time" :: vars) -> (exists r, In r rs /\ 2 <= length r) ->
  forall s t, imports_frames fs vars cards prior s t
    <-> s = MkStructure vars (seq 0 (length vars)) cards (match prior with None => [] | Some es => es end) (length vars)
        /\ t = from_steps vars (flat_map steps rs).
Proof. exact (holds_exact vars cards prior fs rs). Qed.

(** in particular the same as when the trajectories are given in the plainest form *)
Theorem C97_same_as_plain vars cards prior fs rs : legal_input vars cards rs -> Forall2 (holds vars) fs rs ->
  (exists f0, nth_error fs 0 = Some f0 /\ col_names f0 = "Time" :: vars) ->
  forall s t, imports_frames fs vars cards prior s t <-> imports_to vars cards prior rs s t.
Proof.
  intros HL HF H0 s t. pose proof HL as [H1 [H2 [H3 [H4 H5]]]]. rewrite (holds_exact vars cards prior fs rs H1 H2 H3 HF H0 H5 s t). split.
  - intros [-> ->]. exact (imports_exists vars cards prior rs HL).
  - intros H. exact (imports_det vars cards prior rs s t HL H).
Qed.

(** a frame without one of the first frame's variables is refused *)
Theorem C97_missing_variable vars vf prior fs f : vars <> [] -> (exists t0 f0, nth_error fs 0 = Some f0 /\ col_names f0 = t0 :: vars) ->
  (forall f, In f fs -> fr_cols f <> []) -> In f fs -> (exists v, In v vars /\ ~ In v (col_names f)) ->
  sample_import_data (new_sample_importer fs vf prior) None = Err KeyError.
Proof.
  intros Hv [t0 [f0 [F0 F1]]] Hne Hf Hm. unfold sample_import_data, new_sample_importer. cbn [im_samples]. unfold nth_res. rewrite F0. cbn [bind].
  unfold sample_build_sorter. rewrite F1. cbn [bind]. rewrite (delta_all _ vars) by (try reflexivity; exact Hv). cbn [with_sorter im_samples].
  rewrite (missing_column vars fs f Hne Hf Hm). reflexivity.
Qed.

(** the first column's name matters: if no frame has a column called Time the data are refused *)
Theorem C97_time_name vars vf prior fs : vars <> [] -> (exists t0 f0, nth_error fs 0 = Some f0 /\ col_names f0 = t0 :: vars) ->
  (forall f, In f fs -> fr_cols f <> [] /\ ~ In "Time" (col_names f)) ->
  sample_import_data (new_sample_importer fs vf prior) None = Err KeyError.
Proof.
  intros Hv [t0 [f0 [F0 F1]]] H. unfold sample_import_data, new_sample_importer. cbn [im_samples]. unfold nth_res. rewrite F0. cbn [bind].
  unfold sample_build_sorter. rewrite F1. cbn [bind]. rewrite (delta_all _ vars) by (try reflexivity; exact Hv). cbn [with_sorter im_samples].
  assert (Hne : fs <> []) by (intros ->; discriminate). pose proof (no_time_column vars fs H Hne) as K.
  destruct (res_map (fun f => compute_row_delta_single_samples_frame f vars (shifted_names vars)) fs) as [ps|x]; cbn [bind] in *; [|congruence]. rewrite K. reflexivity.
Qed.

(** every plain frame holds its trajectory, so the vocabulary is not empty *)
Theorem C97_plain_holds vars r : NoDup ("Time" :: vars) -> (forall o, In o r -> length (snd o) = length vars) -> holds vars (frame_of vars r) r.
Proof.
  intros Hn Hl. pose proof (frame_of_raw vars r Hn Hl) as [A [B [C [D E]]]]. unfold holds. split; [exact A|]. split; [exact C|]. split; [rewrite B; exact Hn|].
  split; [eexists; reflexivity|]. split; [exact Hl|]. intros j w Hj.
  exists (map (fun o => Qc_of_Z (nth j (snd o) 0%Z)) r). split.
  - rewrite (assoc_col_nth (fr_cols (frame_of vars r)) w (map (fun o => option_map Qc_of_Z (nth_error (snd o) j)) r) (S j)).
    + f_equal. rewrite map_map. apply map_ext_in. intros o Ho. assert (Hj' : j < length (snd o)) by (rewrite (Hl o Ho); apply nth_error_Some; congruence).
      rewrite (nth_error_nth' _ 0%Z Hj'). reflexivity.
    + unfold col_names in B. rewrite B. exact Hn.
    + unfold frame_of. cbn [fr_cols nth_error]. rewrite nth_error_mapi, Hj. reflexivity.
  - clear. induction r as [|o r IH]; cbn [map]; constructor; [apply towards_int|exact IH].
Qed.

(** ** a concrete case: the second frame has its columns the other way round, a further column and fractional states *)
Definition odd_frame : frame := MkFrame [0;1]%Z
  [("Time", [Some 0%Qc; Some (Q2Qc (1#4))]); ("Y", [Some (Q2Qc (3#10)); Some (Q2Qc (-1#2))]); ("note", [None; Some (Q2Qc 7)]); ("X", [Some (Q2Qc (7#4)); Some (Q2Qc (1#2))])].
Example C97_case : legal_input dvars [2;2] [dr1; dr2] /\ Forall2 (holds dvars) [frame_of dvars dr1; odd_frame] [dr1; dr2]
  /\ (exists f0, nth_error [frame_of dvars dr1; odd_frame] 0 = Some f0 /\ col_names f0 = "Time" :: dvars).
Proof.
  split; [exact (proj1 legal_case)|]. split; [|eexists; split; reflexivity]. constructor; [|constructor; [|constructor]].
  - apply C97_plain_holds; [repeat constructor; cbn; intuition discriminate|]. intros o H; cbn in H; repeat (destruct H as [<-|H]; [reflexivity|]); contradiction.
  - split; [reflexivity|]. split; [repeat constructor|]. split; [cbn; repeat constructor; cbn; intuition discriminate|]. split; [eexists; reflexivity|].
    split; [intros o H; cbn in H; repeat (destruct H as [<-|H]; [reflexivity|]); contradiction|].
    intros [|[|j]] w Hw; [| |destruct j; discriminate]; injection Hw as <-.
    + exists [Q2Qc (7#4); Q2Qc (1#2)]. split; [reflexivity|]. repeat constructor; try (intros H; exfalso; revert H); try discriminate; vm_compute; auto.
    + exists [Q2Qc (3#10); Q2Qc (-1#2)]. split; [reflexivity|]. repeat constructor; try (intros H; exfalso; revert H); try discriminate; vm_compute; auto.
Qed.
Print Assumptions C97_only_the_trajectories_matter.
Print Assumptions C97_same_as_plain.
Print Assumptions C97_missing_variable.
Print Assumptions C97_time_name.
Print Assumptions C97_plain_holds.
