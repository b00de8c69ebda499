(** Property theorems C95: row labels (the pandas index) of the DataFrames handed to SampleImporter. *)
From Verif Require Import Base Lib LibQc ModelStructure ModelGraph ModelCims ModelData ModelParams SpecStructure SpecGraph SpecComb SpecParams SpecData
  SpecInvariance SpecLabels ProofInvariance ProofLabels ProofLabels2 ProofLabels3 PropsData PropsInvariance.

(** The data set holds exactly the steps that start at a row whose label differs from its frame's last label; if
    there is none SamplePath is refused with RuntimeError. *)
Theorem C95_exact_data vars cards prior ds : good_header vars -> vars <> [] -> length cards = length vars ->
  Forall (raw_ok cards) (map snd ds) -> Forall one_label_per_row ds -> ds <> [] ->
  (flat_map kept_steps ds <> [] ->
     forall s t, imports_frames (map (labelled vars) ds) vars cards prior s t
       <-> s = MkStructure vars (seq 0 (length vars)) cards (match prior with None => [] | Some es => es end) (length vars)
           /\ t = from_steps vars (flat_map kept_steps ds))
  /\ (flat_map kept_steps ds = [] ->
     exists im, sample_import_data (new_sample_importer (map (labelled vars) ds) (Some (variables_frame vars cards)) prior) None = Ok im
       /\ new_sample_path im = Err RuntimeError).
Proof.
  intros H1 H2 H3 H4 H5 H6. split; [intros HK; exact (labelled_exact vars cards prior ds H1 H2 H3 H4 H5 H6 HK)|].
  intros E. destruct (labelled_chain vars cards prior ds H1 H2 H3 H4 H5 H6) as [im [I1 [I2 _]]]. exists im. auto.
Qed.

(** The labels are irrelevant exactly when no frame's last label is used twice in that frame. *)
Theorem C95_labels_irrelevant_iff vars cards prior ds : legal_input vars cards (map snd ds) -> Forall one_label_per_row ds ->
  ((forall s t, imports_frames (map (labelled vars) ds) vars cards prior s t <-> imports_to vars cards prior (map snd ds) s t)
   <-> Forall last_label_unique ds).
Proof. apply labels_exactly. Qed.

(** in particular for distinct labels: default ones, slices of a larger frame, permuted ones, time stamps *)
Theorem C95_distinct_labels vars cards prior ds s t : legal_input vars cards (map snd ds) -> Forall one_label_per_row ds ->
  (forall d, In d ds -> NoDup (fst d)) ->
  imports_frames (map (labelled vars) ds) vars cards prior s t <-> imports_to vars cards prior (map snd ds) s t.
Proof.
  intros H1 H2 H3. apply (proj2 (labels_exactly vars cards prior ds H1 H2)). rewrite Forall_forall in *. intros d Hd. apply nodup_unique; auto.
Qed.

(** every earlier row that repeats its frame's last label costs one step of the data set *)
Theorem C95_lost_steps vars cards prior ds s t : good_header vars -> vars <> [] -> length cards = length vars ->
  Forall (raw_ok cards) (map snd ds) -> Forall one_label_per_row ds ->
  imports_frames (map (labelled vars) ds) vars cards prior s t ->
  length (t_times t) + length (flat_map (fun d => filter (fun z => Z.eqb z (last (fst d) 0%Z)) (removelast (fst d))) ds)
  = nat_sum (map (fun d => length (snd d) - 1) ds).
Proof.
  intros H1 H2 H3 H4 H5 HI.
  assert (H6 : ds <> []).
  { intros ->. destruct HI as [im [sp [sp1 [sp2 [P1 _]]]]]. discriminate. }
  assert (HK : flat_map kept_steps ds <> []).
  { intros E. destruct (labelled_chain vars cards prior ds H1 H2 H3 H4 H5 H6) as [im [I1 [I2 _]]]. specialize (I2 E).
    destruct HI as [jm [tp [tp1 [tp2 [P1 [P2 _]]]]]]. congruence. }
  apply (labelled_exact vars cards prior ds H1 H2 H3 H4 H5 H6 HK) in HI as [_ ->]. unfold from_steps. cbn [t_times]. rewrite map_length.
  rewrite (kept_total ds H5). clear. induction ds as [|d ds IH]; [reflexivity|]. cbn [map flat_map]. rewrite app_length, ProofData3.steps_length, IH. reflexivity.
Qed.

(** frames whose rows all carry one label (for example indexed by subject) are refused: nothing is left *)
Theorem C95_constant_label_refused vars cards prior ds : good_header vars -> vars <> [] -> length cards = length vars ->
  Forall (raw_ok cards) (map snd ds) -> Forall one_label_per_row ds -> ds <> [] ->
  (forall d, In d ds -> exists c, forall z, In z (fst d) -> z = c) ->
  exists im, sample_import_data (new_sample_importer (map (labelled vars) ds) (Some (variables_frame vars cards)) prior) None = Ok im
   /\ new_sample_path im = Err RuntimeError.
Proof. apply constant_refused. Qed.

(** ** concrete cases *)
(** slices 10..13 and 14..15 of one frame: nothing is lost *)
Example C95_slices_case : Forall one_label_per_row [([10;11;12;13]%Z, dr1); ([14;15]%Z, dr2)]
  /\ legal_input dvars [2;2] (map snd [([10;11;12;13]%Z, dr1); ([14;15]%Z, dr2)])
  /\ (forall d, In d [([10;11;12;13]%Z, dr1); ([14;15]%Z, dr2)] -> NoDup (fst d)).
Proof.
  split; [repeat constructor|]. split; [exact (proj1 legal_case)|]. intros d [<-|[<-|[]]]; cbn [fst]; repeat constructor; cbn; intuition discriminate.
Qed.
(** two pieces put together by pd.concat without ignore_index (labels 0,1,0,1): the 3/2 time units between the
    second and the third observation, and Y's only change, are silently lost *)
Definition glued : list Z * list (Qc * list Z) :=
  ([0;1;0;1]%Z, [(0%Qc, [0;0]%Z); (Q2Qc (1#2), [1;0]%Z); (Q2Qc 2, [1;1]%Z); (Q2Qc 3, [0;1]%Z)]).
Example C95_glued_legal : one_label_per_row glued /\ legal_input dvars [2;2] [snd glued] /\ ~ last_label_unique glued.
Proof.
  split; [reflexivity|]. split.
  - split; [exact d_header|]. split; [discriminate|]. split; [reflexivity|]. split.
    + apply Forall_cons; [split|apply Forall_nil].
      all: intros o H; cbn in H; repeat (destruct H as [<-|H]; [first [reflexivity|split; cbn; repeat constructor; lia]|]); contradiction.
    + exists (snd glued). split; [left; reflexivity|cbn; lia].
  - intros H. apply (H 1 1%Z); [cbn; lia|reflexivity|reflexivity].
Qed.
Example C95_glued_case : exists s t, imports_frames [labelled dvars glued] dvars [2;2] None s t
  /\ t_times t = [Q2Qc (1#2); 1%Qc] /\ t_rows t = [[0;0;1;0];[1;1;0;1]]%Z.
Proof.
  eexists _, _. split.
  - eexists _, _, _, _. split; [vm_compute; reflexivity|]. split; [vm_compute; reflexivity|]. split; [vm_compute; reflexivity|]. split; [vm_compute; reflexivity|].
    split; vm_compute; reflexivity.
  - split; vm_compute; reflexivity.
Qed.
(** all rows labelled 7 *)
Example C95_constant_case : one_label_per_row ([7;7;7;7]%Z, dr1)
  /\ (forall d, In d [([7;7;7;7]%Z, dr1)] -> exists c, forall z, In z (fst d) -> z = c).
Proof. split; [reflexivity|]. intros d [<-|[]]. exists 7%Z. cbn. intuition. Qed.

Print Assumptions C95_exact_data.
Print Assumptions C95_labels_irrelevant_iff.
Print Assumptions C95_distinct_labels.
Print Assumptions C95_lost_steps.
Print Assumptions C95_constant_label_refused.
