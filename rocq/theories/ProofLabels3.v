(** C95: the import chain on labelled frames. *)
From Verif Require Import Base Lib LibQc ModelStructure ModelGraph ModelCims ModelData ModelParams SpecStructure SpecGraph SpecComb SpecParams SpecData
  SpecInvariance SpecLabels
  ProofStructure ProofGraph ProofComb ProofParams ProofParams2 ProofParams3 ProofIndex ProofData ProofData2 ProofData3 ProofInvariance ProofLabels ProofLabels2.

Lemma labelled_chain vars cards prior ds : good_header vars -> vars <> [] -> length cards = length vars ->
  Forall (raw_ok cards) (map snd ds) -> Forall one_label_per_row ds -> ds <> [] ->
  exists im, sample_import_data (new_sample_importer (map (labelled vars) ds) (Some (variables_frame vars cards)) prior) None = Ok im
   /\ (flat_map kept_steps ds = [] -> new_sample_path im = Err RuntimeError)
   /\ (flat_map kept_steps ds <> [] -> exists sp sp1 sp2, new_sample_path im = Ok sp /\ sp_build_trajectories sp = Ok sp1 /\ sp_build_structure sp1 = Ok sp2
        /\ sp_structure sp2 = Some (struct_of vars cards prior) /\ sp_trajectories sp2 = Some (from_steps vars (flat_map kept_steps ds))).
Proof.
  intros Hh Hv Hc Hok Hd Hne.
  assert (Hl : forall d o, In d ds -> In o (snd d) -> length (snd o) = length vars).
  { intros d o H1 H2. rewrite Forall_forall in Hok. rewrite <- Hc. apply (Hok (snd d) (in_map snd _ _ H1)), H2. }
  destruct (import_labelled vars ds (new_sample_importer (map (labelled vars) ds) (Some (variables_frame vars cards)) prior) Hh Hv Hne Hd Hl eq_refl)
    as [cf [im [I1 [I2 [I3 [I4 [I5 [I6 [I7 I8]]]]]]]]].
  cbn [new_sample_importer im_variables im_structure] in I3, I4.
  destruct (vframe_cols vars 0 cards Hc) as [V1 [V2 V3]].
  assert (Hvne : vframe_empty (variables_frame vars cards) = false).
  { unfold vframe_empty, variables_frame; cbn [v_rows]. destruct vars as [|v vr]; [contradiction|]. destruct cards as [|c cr]; [discriminate|]. reflexivity. }
  exists im. split; [exact I1|]. split.
  - intros E. rewrite E in I7. cbn [length] in I7. unfold new_sample_path. rewrite I3, I2, Hvne. unfold frame_empty. unfold nrows in I7.
    destruct (fr_index cf); [reflexivity|discriminate].
  - intros E.
    assert (Hfne : frame_empty cf = false).
    { unfold frame_empty. destruct (fr_index cf) as [|z zs] eqn:Ei.
      - exfalso. unfold nrows in I7. rewrite Ei in I7. cbn [length] in I7. apply E. destruct (flat_map kept_steps ds); [reflexivity|discriminate].
      - destruct (fr_cols cf) eqn:Ec; [|reflexivity]. unfold col_names in I6. rewrite Ec in I6. discriminate. }
    assert (Hwidth : length (fr_cols cf) - 1 = length vars + length vars).
    { assert (X : length (fr_cols cf) = length (col_names cf)) by (unfold col_names; rewrite map_length; reflexivity).
      rewrite X, I6. cbn [length]. unfold shifted_names. rewrite app_length, map_length. lia. }
    eexists (MkSamplePath im None None None), _, _. split.
    { unfold new_sample_path. rewrite I3, I2, Hvne, Hfne. reflexivity. }
    split.
    { unfold sp_build_trajectories. cbn [sp_importer]. rewrite I2, (steps_array cf _ I8). cbn [bind]. rewrite I5. cbn [fst snd sp_structure sp_total].
      rewrite Hwidth. reflexivity. }
    split.
    { unfold sp_build_structure. cbn [sp_importer]. unfold clear_concatenated_frame. rewrite I2. cbn [im_variables im_sorter im_structure]. rewrite I3, I5.
      assert (X : list_eqb String.eqb vars (v_names (variables_frame vars cards)) = true).
      { apply list_eqb_label. symmetry. exact V2. }
      rewrite X. cbn [negb]. reflexivity. }
    cbn [sp_structure sp_trajectories]. split; [|reflexivity].
    unfold struct_of, v_index, v_names, v_values, variables_frame; cbn [v_rows]. rewrite V1, V2, V3, I4. reflexivity.
Qed.

Lemma labelled_exact vars cards prior ds : good_header vars -> vars <> [] -> length cards = length vars ->
  Forall (raw_ok cards) (map snd ds) -> Forall one_label_per_row ds -> ds <> [] -> flat_map kept_steps ds <> [] ->
  forall s t, imports_frames (map (labelled vars) ds) vars cards prior s t <-> s = struct_of vars cards prior /\ t = from_steps vars (flat_map kept_steps ds).
Proof.
  intros Hh Hv Hc Hok Hd Hne HK s t. destruct (labelled_chain vars cards prior ds Hh Hv Hc Hok Hd Hne) as [im [I1 [_ I2]]].
  destruct (I2 HK) as [sp [sp1 [sp2 [Q2 [Q3 [Q4 [Q5 Q6]]]]]]]. split.
  - intros [jm [tp [tp1 [tp2 [P1 [P2 [P3 [P4 [P5 P6]]]]]]]]]. rewrite I1 in P1. injection P1 as <-. rewrite Q2 in P2. injection P2 as <-.
    rewrite Q3 in P3. injection P3 as <-. rewrite Q4 in P4. injection P4 as <-. rewrite Q5 in P5. rewrite Q6 in P6. injection P5 as <-. injection P6 as <-. auto.
  - intros [-> ->]. exists im, sp, sp1, sp2. auto 10.
Qed.

(** ** how many steps are kept *)
Lemma kept_count d : one_label_per_row d ->
  length (kept_steps d) + length (filter (fun z => Z.eqb z (last (fst d) 0%Z)) (removelast (fst d))) = length (steps (snd d)).
Proof.
  destruct d as [ids r]. unfold one_label_per_row, kept_steps. cbn [fst snd]. intros H. rewrite map_length.
  pose proof (steps_length r) as L1. revert L1. generalize (steps r). intros l L1. rewrite <- H in L1. clear H r.
  generalize (last ids 0%Z). intros z. revert l L1. induction ids as [|i ids IH]; intros l L1.
  - destruct l; [reflexivity|discriminate].
  - destruct ids as [|j ids].
    + destruct l; [reflexivity|discriminate].
    + destruct l as [|x l]; [simpl in L1; lia|]. change (removelast (i :: j :: ids)) with (i :: removelast (j :: ids)).
      assert (L2 : length l = length (j :: ids) - 1) by (cbn [length] in *; lia). specialize (IH l L2).
      set (js := j :: ids) in *. change (combine (i :: js) (x :: l)) with ((i, x) :: combine js l). cbn [filter fst]. cbn [length].
      destruct (Z.eqb i z); cbn [negb]; cbn [length]; lia.
Qed.
Lemma unique_iff d : one_label_per_row d ->
  (last_label_unique d <-> filter (fun z => Z.eqb z (last (fst d) 0%Z)) (removelast (fst d)) = []).
Proof.
  intros _. unfold last_label_unique. generalize (last (fst d) 0%Z). intros z. generalize (fst d). clear d. intros ids.
  assert (Q : forall i y, S i < length ids /\ nth_error ids i = Some y <-> nth_error (removelast ids) i = Some y).
  { induction ids as [|a ids IH]; intros i y.
    - split; [intros [H _]; cbn in H; lia|destruct i; discriminate].
    - destruct ids as [|b ids]; [split; [intros [H _]; cbn in H; lia|destruct i; discriminate]|].
      change (removelast (a :: b :: ids)) with (a :: removelast (b :: ids)). destruct i as [|i].
      + cbn [nth_error length]. split; [intros [_ H]; exact H|intros H; split; [lia|exact H]].
      + cbn [nth_error]. rewrite <- IH. cbn [length]. split; intros [H1 H2]; (split; [lia|exact H2]). }
  split.
  - intros H. destruct (filter (fun y => Z.eqb y z) (removelast ids)) as [|y r] eqn:E; [reflexivity|]. exfalso.
    assert (Hy : In y (filter (fun y => Z.eqb y z) (removelast ids))) by (rewrite E; left; reflexivity).
    apply filter_In in Hy as [Hy Hz]. apply Z.eqb_eq in Hz. apply In_nth_error in Hy as [i Hi]. apply Q in Hi as [H1 H2]. exact (H i y H1 H2 Hz).
  - intros H i y H1 H2 E. assert (Hi : nth_error (removelast ids) i = Some y) by (apply Q; auto).
    assert (X : In y (filter (fun y => Z.eqb y z) (removelast ids))) by (apply filter_In; split; [apply (nth_error_In _ _ Hi)|apply Z.eqb_eq, E]).
    rewrite H in X. exact X.
Qed.
Lemma keep_all {A} (m : list bool) : forall (l : list A), length m = length l -> (forall b, In b m -> b = true) -> keep_rows m l = l.
Proof.
  unfold keep_rows. induction m as [|b m IH]; intros [|x l] H1 H2; try discriminate; [reflexivity|]. cbn [combine filter fst].
  rewrite (H2 b (or_introl eq_refl)). cbn [map snd]. rewrite IH; [reflexivity|simpl in H1; lia|intros; apply H2; right; assumption].
Qed.
Lemma unique_keeps d : one_label_per_row d -> last_label_unique d -> kept_steps d = steps (snd d).
Proof.
  intros H1 H2. rewrite (kept_steps_mask d H1). apply keep_all; [rewrite (mask_length d H1), steps_length; reflexivity|].
  intros b Hb. unfold mask in Hb. apply in_map_iff in Hb as [z [<- Hz]]. apply In_nth_error in Hz as [i Hi].
  assert (Hlt : i < length (snd d) - 1).
  { assert (X : i < length (firstn (length (snd d) - 1) (fst d))) by (apply nth_error_Some; congruence). rewrite firstn_length in X. lia. }
  rewrite nth_error_firstn' in Hi by exact Hlt. apply Bool.negb_true_iff, Z.eqb_neq. apply (H2 i z); [|exact Hi]. unfold one_label_per_row in H1. lia.
Qed.
Lemma flat_kept ds : Forall one_label_per_row ds -> Forall last_label_unique ds -> flat_map kept_steps ds = flat_map steps (map snd ds).
Proof.
  intros H1 H2. rewrite flat_map_concat_map, (flat_map_concat_map _ (map snd ds)), map_map. f_equal. apply map_ext_in. intros d Hd.
  rewrite Forall_forall in H1, H2. apply unique_keeps; auto.
Qed.
Lemma kept_total ds : Forall one_label_per_row ds ->
  length (flat_map kept_steps ds) + length (flat_map (fun d => filter (fun z => Z.eqb z (last (fst d) 0%Z)) (removelast (fst d))) ds)
  = length (flat_map steps (map snd ds)).
Proof.
  induction 1 as [|d ds H1 H2 IH]; [reflexivity|]. cbn [map flat_map]. rewrite !app_length, <- IH, <- (kept_count d H1). lia.
Qed.

Lemma labels_exactly vars cards prior ds : legal_input vars cards (map snd ds) -> Forall one_label_per_row ds ->
  ((forall s t, imports_frames (map (labelled vars) ds) vars cards prior s t <-> imports_to vars cards prior (map snd ds) s t)
   <-> Forall last_label_unique ds).
Proof.
  intros HL Hd. pose proof HL as [H1 [H2 [H3 [H4 [r1 [Hr1 Hlen1]]]]]].
  assert (Hne : ds <> []) by (intros ->; destruct Hr1).
  assert (Hst : flat_map steps (map snd ds) <> []).
  { intros E. assert (X : In r1 (map snd ds)) by exact Hr1. destruct r1 as [|a [|b r]]; cbn in Hlen1; try lia.
    assert (Y : In (a, b) (flat_map steps (map snd ds))) by (apply in_flat_map; exists (a :: b :: r); split; [exact X|left; reflexivity]).
    rewrite E in Y. exact Y. }
  assert (TO : forall s t, imports_to vars cards prior (map snd ds) s t <-> s = struct_of vars cards prior /\ t = from_steps vars (flat_map steps (map snd ds))).
  { intros s t. split; [intros H; apply (imports_det vars cards prior (map snd ds)); assumption|]. intros [-> ->]. exact (imports_exists vars cards prior (map snd ds) HL). }
  split.
  - intros H. destruct (flat_map kept_steps ds) as [|k ks] eqn:EK.
    + exfalso. destruct (labelled_chain vars cards prior ds H1 H2 H3 H4 Hd Hne) as [im [I1 [I2 _]]]. specialize (I2 EK).
      pose proof (proj2 (H _ _) (proj2 (TO _ _) (conj eq_refl eq_refl))) as [jm [tp [tp1 [tp2 [P1 [P2 _]]]]]]. congruence.
    + assert (HK : flat_map kept_steps ds <> []) by (rewrite EK; discriminate).
      pose proof (proj2 (H _ _) (proj2 (TO _ _) (conj eq_refl eq_refl))) as X.
      apply (labelled_exact vars cards prior ds H1 H2 H3 H4 Hd Hne HK) in X as [_ X].
      assert (LT : length (flat_map kept_steps ds) = length (flat_map steps (map snd ds))).
      { apply (f_equal (fun t => length (t_times t))) in X. unfold from_steps in X. cbn [t_times] in X. rewrite !map_length in X. auto. }
      pose proof (kept_total ds Hd) as KT. rewrite LT in KT.
      apply Forall_forall. intros d Hin. rewrite Forall_forall in Hd. apply (unique_iff d (Hd d Hin)).
      match type of KT with _ + length ?l = _ => assert (E0 : l = []) by (destruct l; [reflexivity|cbn [length] in KT; lia]) end.
      destruct (filter (fun z => Z.eqb z (last (fst d) 0%Z)) (removelast (fst d))) as [|z zs] eqn:EZ; [reflexivity|]. exfalso.
      assert (Y : In z (flat_map (fun d => filter (fun z => Z.eqb z (last (fst d) 0%Z)) (removelast (fst d))) ds)).
      { apply in_flat_map. exists d. split; [exact Hin|]. rewrite EZ. left; reflexivity. }
      rewrite E0 in Y. exact Y.
  - intros HU s t. rewrite TO, <- (flat_kept ds Hd HU). apply (labelled_exact vars cards prior ds H1 H2 H3 H4 Hd Hne). rewrite (flat_kept ds Hd HU). exact Hst.
Qed.

Lemma nodup_unique d : one_label_per_row d -> NoDup (fst d) -> last_label_unique d.
Proof.
  intros _ H i z Hi Hz E.
  assert (L : nth_error (fst d) (length (fst d) - 1) = Some (last (fst d) 0%Z)).
  { assert (X : fst d <> []) by (destruct (fst d); [cbn in Hi; lia|discriminate]). rewrite (app_removelast_last 0%Z X) at 1.
    assert (Y : length (fst d) - 1 = length (removelast (fst d))).
    { rewrite (app_removelast_last 0%Z X) at 1. rewrite app_length. cbn [length]. lia. }
    rewrite Y, nth_error_app2, Nat.sub_diag by lia. reflexivity. }
  rewrite <- E, <- Hz in L. apply (NoDup_nth_error _) in L; [lia|exact H|lia].
Qed.
Lemma last_In_const (l : list Z) c : (forall z, In z l -> z = c) -> l <> [] -> last l 0%Z = c.
Proof. intros H Hn. apply H. rewrite (app_removelast_last 0%Z Hn) at 2. apply in_or_app. right; left; reflexivity. Qed.
Lemma constant_none d c : one_label_per_row d -> (forall z, In z (fst d) -> z = c) -> kept_steps d = [].
Proof.
  intros _ H. unfold kept_steps. destruct (fst d) as [|a r] eqn:E; [reflexivity|]. rewrite (last_In_const (a :: r) c H) by discriminate.
  assert (X : filter (fun p => negb (Z.eqb (fst p) c)) (combine (a :: r) (steps (snd d))) = []).
  { assert (Y : forall p, In p (combine (a :: r) (steps (snd d))) -> fst p = c).
    { intros [z y] Hp. apply in_combine_l in Hp. exact (H z Hp). }
    generalize (combine (a :: r) (steps (snd d))) Y. clear. induction l as [|p l IH]; intros Y; [reflexivity|]. cbn [filter].
    rewrite (Y p (or_introl eq_refl)), Z.eqb_refl. cbn [negb]. apply IH. intros; apply Y; right; assumption. }
  rewrite X. reflexivity.
Qed.
Lemma constant_refused vars cards prior ds : good_header vars -> vars <> [] -> length cards = length vars ->
  Forall (raw_ok cards) (map snd ds) -> Forall one_label_per_row ds -> ds <> [] ->
  (forall d, In d ds -> exists c, forall z, In z (fst d) -> z = c) ->
  exists im, sample_import_data (new_sample_importer (map (labelled vars) ds) (Some (variables_frame vars cards)) prior) None = Ok im
   /\ new_sample_path im = Err RuntimeError.
Proof.
  intros H1 H2 H3 H4 H5 H6 H7. destruct (labelled_chain vars cards prior ds H1 H2 H3 H4 H5 H6) as [im [I1 [I2 _]]]. exists im. split; [exact I1|]. apply I2.
  rewrite Forall_forall in H5.
  assert (X : forall l, incl l ds -> flat_map kept_steps l = []).
  { induction l as [|d l IH]; intros Hl; [reflexivity|]. cbn [flat_map]. destruct (H7 d (Hl d (or_introl eq_refl))) as [c Hc].
    rewrite (constant_none d c (H5 d (Hl d (or_introl eq_refl))) Hc), IH by (intros y Hy; apply Hl; right; exact Hy). reflexivity. }
  apply X. intros y Hy; exact Hy.
Qed.
