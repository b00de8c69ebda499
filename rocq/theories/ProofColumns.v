(** The choice and the order of the columns (C80). *)
From Verif Require Import Base Lib LibQc ModelStructure ModelGraph ModelCims ModelData ModelParams
  SpecStructure SpecGraph SpecComb SpecParams SpecData SpecInvariance SpecColumns
  ProofStructure ProofGraph ProofComb ProofParams ProofParams2 ProofParams3 ProofData ProofData2 ProofData3 ProofInvariance ProofCache.

Lemma pick_cons {A} i sg (l : list A) a : nth_error l i = Some a -> pick (i :: sg) l = a :: pick sg l.
Proof. intros H. unfold pick. cbn [flat_map]. rewrite H. reflexivity. Qed.
Lemma pick_nth {A} sg : forall (l : list A) k, Forall (fun i => i < length l) sg ->
  nth_error (pick sg l) k = match nth_error sg k with Some i => nth_error l i | None => None end.
Proof.
  induction sg as [|i sg IH]; intros l k H; [destruct k; reflexivity|]. apply Forall_cons_iff in H as [Hi H].
  destruct (nth_error l i) as [a|] eqn:E; [|apply nth_error_None in E; lia]. rewrite (pick_cons i sg l a E).
  destruct k as [|k]; cbn [nth_error]; [symmetry; exact E|apply IH, H].
Qed.
Lemma pick_length {A} sg (l : list A) : Forall (fun i => i < length l) sg -> length (pick sg l) = length sg.
Proof.
  induction 1 as [|i sg Hi H IH]; [reflexivity|]. destruct (nth_error l i) as [a|] eqn:E; [|apply nth_error_None in E; lia].
  rewrite (pick_cons i sg l a E). cbn [length]. rewrite IH. reflexivity.
Qed.
Lemma pick_In {A} sg (l : list A) a : In a (pick sg l) -> In a l.
Proof.
  unfold pick. intros H. apply in_flat_map in H as [i [_ H]]. destruct (nth_error l i) as [b|] eqn:E; [|contradiction].
  destruct H as [<-|[]]. exact (nth_error_In _ _ E).
Qed.
Lemma pick_NoDup {A} sg (l : list A) : NoDup sg -> Forall (fun i => i < length l) sg -> NoDup l -> NoDup (pick sg l).
Proof.
  intros Hs Hf Hl. apply NoDup_nth_error. intros i j Hi E. rewrite (pick_length _ _ Hf) in Hi. rewrite !pick_nth in E by exact Hf.
  destruct (nth_error sg i) as [a|] eqn:Ea; [|apply nth_error_None in Ea; lia]. rewrite Forall_forall in Hf.
  assert (Ha : a < length l) by (apply Hf; exact (nth_error_In _ _ Ea)).
  destruct (nth_error sg j) as [b|] eqn:Eb; [|apply nth_error_None in E; lia].
  assert (a = b) by (apply (proj1 (NoDup_nth_error l) Hl a b Ha E)). subst b.
  apply (proj1 (NoDup_nth_error sg) Hs i j Hi). congruence.
Qed.
Lemma pick_Forall2 {A B} (P : A -> B -> Prop) sg (l : list A) (l' : list B) : Forall2 P l l' -> Forall (fun i => i < length l) sg -> Forall2 P (pick sg l) (pick sg l').
Proof.
  intros H. assert (HX : forall i a b, nth_error l i = Some a -> nth_error l' i = Some b -> P a b).
  { clear - H. induction H as [|a b l l' Hab H IH]; intros [|i] x y E1 E2; try discriminate; cbn in *; [congruence|eauto]. }
  apply Forall2_length in H. induction 1 as [|i sg Hi Hs IH]; [constructor|].
  destruct (nth_error l i) as [a|] eqn:E; [|apply nth_error_None in E; lia]. destruct (nth_error l' i) as [b|] eqn:E'; [|apply nth_error_None in E'; lia].
  rewrite (pick_cons _ _ _ _ E), (pick_cons _ _ _ _ E'). constructor; [exact (HX i a b E E')|exact IH].
Qed.
Lemma pick_all {A} (l : list A) : pick (seq 0 (length l)) l = l.
Proof.
  apply list_ext. intros k. rewrite pick_nth by (apply Forall_forall; intros i Hi; apply in_seq in Hi; lia). rewrite nth_error_seq'.
  destruct (Nat.ltb_spec k (length l)); [reflexivity|]. symmetry. apply nth_error_None. lia.
Qed.

Section sel.
Variables (sg : list nat) (vars : list label) (cards : list nat).
Hypothesis HS : selection sg (length vars).


Lemma shifted_pick : shifted_names (pick sg vars) = pick sg (shifted_names vars).
Proof.
  destruct HS as [_ [H1 H2]]. apply list_ext. intros k. unfold shifted_names. rewrite map_nth_error_iff, !pick_nth by (rewrite ?map_length; exact H2).
  destruct (nth_error sg k); [|reflexivity]. rewrite map_nth_error_iff. reflexivity.
Qed.
Lemma good_picked : good_header vars -> good_header (pick sg vars).
Proof.
  unfold good_header. rewrite shifted_pick. destruct HS as [_ [H1 H2]]. intros H. apply NoDup_cons_iff in H as [N1 N2].
  assert (L : length (shifted_names vars) = length vars) by apply map_length.
  set (w := shifted_names vars) in *. clearbody w. constructor.
  - rewrite in_app_iff in *. intros [K|K]; apply N1; [left|right]; exact (pick_In _ _ _ K).
  - apply NoDup_app_intro.
    + apply pick_NoDup; [exact H1|exact H2|exact (NoDup_app_l _ _ N2)].
    + apply pick_NoDup; [exact H1|rewrite L; exact H2|clear - N2; induction vars as [|v l IH]; [exact N2|]; apply IH; cbn [app] in N2; apply NoDup_cons_iff in N2; apply N2].
    + intros x Hx Hy. apply pick_In in Hx, Hy. clear - N2 Hx Hy. induction vars as [|v l IH]; [contradiction|].
      cbn [app] in N2. apply NoDup_cons_iff in N2 as [N N2]. destruct Hx as [->|Hx]; [apply N, in_app_iff; auto|auto].
Qed.
Lemma raw_ok_picked r : length cards = length vars -> raw_ok cards r -> raw_ok (pick sg cards) (map (fun o => (fst o, pick sg (snd o))) r).
Proof.
  intros HC [R1 R2]. destruct HS as [_ [H1 H2]]. unfold raw_ok. rewrite steps_map. split.
  - intros ab Hab. apply in_map_iff in Hab as [w [<- Hw]]. cbn [fst snd]. destruct (R1 w Hw) as [A B].
    split; apply pick_Forall2; try assumption; [apply Forall2_length in A; rewrite A|apply Forall2_length in B; rewrite B]; rewrite HC; exact H2.
  - intros o Ho. apply in_map_iff in Ho as [w [<- Hw]]. cbn [snd]. rewrite !pick_length; [reflexivity|rewrite HC; exact H2|rewrite (R2 w Hw), HC; exact H2].
Qed.
Lemma legal_picked rs : legal_input vars cards rs -> legal_input (pick sg vars) (pick sg cards) (picked sg rs).
Proof.
  intros [H1 [H2 [H3 [H4 [r [H5 H6]]]]]]. pose proof HS as [S0 [S1 S2]]. split; [apply good_picked, H1|].
  split. { intros E. apply S0. apply length_zero_iff_nil. rewrite <- (pick_length sg vars S2), E. reflexivity. }
  split; [rewrite !pick_length by (rewrite ?H3; exact S2); reflexivity|]. split.
  - unfold picked. apply Forall_map. eapply Forall_impl; [|exact H4]. intros q Hq. apply raw_ok_picked; assumption.
  - exists (map (fun o => (fst o, pick sg (snd o))) r). split; [unfold picked; apply in_map, H5|rewrite map_length; exact H6].
Qed.

(** ** importing with a header *)
Definition agree (N : list label) (cs cs' : list (label * list cell)) : Prop := forall n, In n N -> assoc_col cs n = assoc_col cs' n.
Lemma assoc_assign cs n v m : assoc_col (assign_col cs n v) m = if String.eqb n m then Some v else assoc_col cs m.
Proof.
  induction cs as [|[x c] r IH]; cbn [assign_col assoc_col].
  - reflexivity.
  - destruct (String.eqb_spec x n) as [->|H]; cbn [assoc_col]; [destruct (String.eqb n m); reflexivity|].
    destruct (String.eqb_spec x m) as [->|H']; [|exact IH]. destruct (String.eqb_spec n m) as [->|_]; [contradiction|reflexivity].
Qed.
Lemma agree_assign N l : forall cs cs', agree N cs cs' ->
  agree N (fold_left (fun cs nv => assign_col cs (fst nv) (snd nv)) l cs) (fold_left (fun cs nv => assign_col cs (fst nv) (snd nv)) l cs').
Proof.
  induction l as [|[n v] l IH]; intros cs cs' H; cbn [fold_left]; [exact H|]. apply IH. intros m Hm. cbn [fst snd]. rewrite !assoc_assign, (H m Hm). reflexivity.
Qed.
Definition similar (N : list label) (f f' : frame) : Prop := fr_index f = fr_index f' /\ agree N (fr_cols f) (fr_cols f').
Lemma similar_drop N f f' : similar N f f' -> similar N (drop_tail f) (drop_tail f').
Proof.
  intros [H1 H2]. unfold drop_tail. rewrite <- H1. destruct (rev (fr_index f)) as [|z l]; [split; assumption|]. split; [reflexivity|].
  intros n Hn. cbn [fr_cols]. rewrite !assoc_col_map, (H2 n Hn). reflexivity.
Qed.
Lemma col_names_assoc f h : lmem h (col_names f) = match assoc_col (fr_cols f) h with Some _ => true | None => false end.
Proof.
  unfold col_names. destruct (assoc_col (fr_cols f) h) as [c|] eqn:E.
  - apply lmem_In. destruct (in_dec string_dec h (map fst (fr_cols f))) as [K|K]; [exact K|]. rewrite (assoc_col_none _ _ K) in E. discriminate.
  - apply lmem_false. intros K. destruct (assoc_col_some _ _ K) as [c [E' _]]. congruence.
Qed.
Lemma concat_similar N fs fs' header : Forall2 (similar N) fs fs' -> (forall h, In h header -> In h N) -> concat_select fs header = concat_select fs' header.
Proof.
  intros HF HN. unfold concat_select.
  assert (EI : flat_map fr_index fs = flat_map fr_index fs').
  { clear HN. induction HF as [|f f' fs fs' [H _] HF IH]; [reflexivity|]. cbn [flat_map]. rewrite H, IH. reflexivity. }
  assert (EE : forall h, In h N -> existsb (fun f => lmem h (col_names f)) fs = existsb (fun f => lmem h (col_names f)) fs').
  { intros h Hh. clear EI HN. induction HF as [|f f' fs fs' [_ H] HF IH]; [reflexivity|]. cbn [existsb]. rewrite !col_names_assoc, (H h Hh), IH. reflexivity. }
  assert (EC : forall h, In h N -> flat_map (fun f => match assoc_col (fr_cols f) h with Some c => c | None => map (fun _ => None) (fr_index f) end) fs
                                 = flat_map (fun f => match assoc_col (fr_cols f) h with Some c => c | None => map (fun _ => None) (fr_index f) end) fs').
  { intros h Hh. clear EI EE HN. induction HF as [|f f' fs fs' [H0 H] HF IH]; [reflexivity|]. cbn [flat_map]. rewrite (H h Hh), H0, IH. reflexivity. }
  rewrite EI.
  assert (ER : forall (g g' : label -> result (label * list cell)) l, (forall h, In h l -> g h = g' h) -> res_map g l = res_map g' l).
  { clear. induction l as [|h l IH]; intros Hl; [reflexivity|]. cbn [res_map]. rewrite (Hl h) by (left; reflexivity). rewrite IH by (intros; apply Hl; right; assumption). reflexivity. }
  match goal with |- match fs with [] => _ | _ :: _ => bind (res_map ?g header) ?k end = match fs' with [] => _ | _ :: _ => bind (res_map ?g' header) ?k' end =>
    rewrite (ER g g' header) end.
  - destruct HF; reflexivity.
  - intros h Hh. rewrite (EE h (HN h Hh)), (EC h (HN h Hh)). reflexivity.
Qed.
Lemma select_agree N cs cs' h : agree N cs cs' -> (forall x, In x h -> In x N) -> select_cols cs h = select_cols cs' h.
Proof.
  intros HA HN. unfold select_cols. induction h as [|x h IH]; [reflexivity|]. cbn [res_map]. rewrite (HA x) by (apply HN; left; reflexivity).
  rewrite IH by (intros; apply HN; right; assumption). reflexivity.
Qed.

(** the column of a selected variable is the same in both frames *)
Lemma frame_cols r h : NoDup ("Time" :: vars) -> (forall o, In o r -> length (snd o) = length vars) -> In h (pick sg vars) ->
  assoc_col (fr_cols (frame_of vars r)) h = assoc_col (fr_cols (frame_of (pick sg vars) (map (fun o => (fst o, pick sg (snd o))) r))) h.
Proof.
  intros HN HL Hh. pose proof HS as [S0 [S1 S2]]. apply In_nth_error in Hh as [k Hk]. pose proof Hk as Hk'. rewrite pick_nth in Hk by exact S2.
  destruct (nth_error sg k) as [i|] eqn:Ei; [|discriminate].
  assert (HN' : NoDup ("Time" :: pick sg vars)).
  { apply NoDup_cons_iff in HN as [A B]. constructor; [intros K; apply A, (pick_In _ _ _ K)|apply pick_NoDup; assumption]. }
  rewrite (assoc_col_nth _ h (map (fun o => option_map Qc_of_Z (nth_error (snd o) i)) r) (S i)).
  2:{ unfold frame_of; cbn [fr_cols map fst]. rewrite (map_fst_mapi (fun j v => map (fun o => option_map Qc_of_Z (nth_error (snd o) j)) r)). exact HN. }
  2:{ unfold frame_of; cbn [fr_cols nth_error]. rewrite nth_error_mapi, Hk. reflexivity. }
  symmetry. rewrite (assoc_col_nth _ h (map (fun o => option_map Qc_of_Z (nth_error (pick sg (snd o)) k)) r) (S k)).
  - f_equal. apply map_ext_in. intros o Ho. rewrite pick_nth by (rewrite (HL o Ho); exact S2). rewrite Ei. reflexivity.
  - unfold frame_of; cbn [fr_cols map fst]. rewrite (map_fst_mapi (fun j v => map (fun o => option_map Qc_of_Z (nth_error (snd o) j)) (map (fun o => (fst o, pick sg (snd o))) r))). exact HN'.
  - unfold frame_of; cbn [fr_cols nth_error]. rewrite nth_error_mapi, Hk'. cbn [option_map]. rewrite map_map. reflexivity.
Qed.
Lemma frame_similar r : good_header vars -> (forall o, In o r -> length (snd o) = length vars) ->
  match compute_row_delta_single_samples_frame (frame_of vars r) (pick sg vars) (shifted_names (pick sg vars)),
        compute_row_delta_single_samples_frame (frame_of (pick sg vars) (map (fun o => (fst o, pick sg (snd o))) r)) (pick sg vars) (shifted_names (pick sg vars)) with
  | Ok f, Ok f' => similar ("Time" :: pick sg vars ++ shifted_names (pick sg vars)) f f'
  | Err x, Err y => x = y
  | _, _ => False
  end.
Proof.
  intros HG HL. assert (HN : NoDup ("Time" :: vars)) by (apply (NoDup_app_l ("Time" :: vars) (shifted_names vars)), HG).
  set (N := "Time" :: pick sg vars ++ shifted_names (pick sg vars)). set (r' := map (fun o => (fst o, pick sg (snd o))) r).
  unfold compute_row_delta_single_samples_frame, frame_of. cbn [fr_cols fr_index].
  assert (ET : map (fun o : Qc * list Z => Some (fst o)) r' = map (fun o => Some (fst o)) r) by (unfold r'; rewrite map_map; reflexivity).
  assert (EL : length r' = length r) by (unfold r'; apply map_length). rewrite ET, EL.
  set (c0 := diff_shift (map (fun o : Qc * list Z => Some (fst o)) r)).
  set (rest := mapi _ vars). set (rest' := mapi _ (pick sg vars)).
  assert (HA0 : agree (pick sg vars) (("Time", c0) :: rest) (("Time", c0) :: rest')).
  { intros n Hn. pose proof (frame_cols r n HN HL Hn) as E. unfold frame_of in E. cbn [fr_cols assoc_col] in E. cbn [assoc_col].
    destruct (String.eqb "Time" n); [reflexivity|exact E]. }
  rewrite (select_agree (pick sg vars) _ _ (pick sg vars) HA0 (fun x H => H)).
  destruct (select_cols (("Time", c0) :: rest') (pick sg vars)) as [sel|x] eqn:ES; cbn [bind]; [|reflexivity].
  apply similar_drop. split; [reflexivity|]. cbn [fr_cols]. set (sh := shifted_names (pick sg vars)) in *.
  assert (LS : length sel = length (pick sg vars)) by (unfold select_cols in ES; apply res_map_length in ES; exact ES).
  assert (AS : forall l cs cs' n, In n (map fst l) \/ assoc_col cs n = assoc_col cs' n ->
     assoc_col (fold_left (fun cs nv => assign_col cs (fst nv) (snd nv)) l cs) n = assoc_col (fold_left (fun cs (nv : label * list cell) => assign_col cs (fst nv) (snd nv)) l cs') n).
  { clear. induction l as [|[m v] l IH]; intros cs cs' n; cbn [fold_left map fst snd In]; [intros [[]|H]; exact H|].
    intros H. apply IH. rewrite !assoc_assign. destruct (String.eqb_spec m n) as [->|Hm]; [right; reflexivity|].
    destruct H as [[H|H]|H]; [contradiction|left; exact H|right; exact H]. }
  intros n Hn. apply AS. destruct Hn as [<-|Hn]; [right; reflexivity|]. apply in_app_iff in Hn as [Hn|Hn]; [right; apply HA0, Hn|left].
  assert (E : map fst (combine sh (map (fun c => map fillna0_int (shift_up c)) sel)) = sh).
  { assert (L : length (map (fun c => map fillna0_int (shift_up c)) sel) = length sh) by (rewrite map_length, LS; unfold sh, shifted_names; rewrite map_length; reflexivity).
    clear - L. revert L. generalize (map (fun c => map fillna0_int (shift_up c)) sel). induction sh as [|a l IH]; intros [|b w]; cbn; intros E; try discriminate; [reflexivity|]. f_equal. apply IH. lia. }
  rewrite E. exact Hn.
Qed.

Lemma header_same rs cards' prior : legal_input vars cards rs ->
  let h := pick sg vars in
  match sample_import_data (new_sample_importer (map (frame_of vars) rs) (Some (variables_frame h cards')) prior) (Some h),
        sample_import_data (new_sample_importer (map (frame_of h) (picked sg rs)) (Some (variables_frame h cards')) prior) None with
  | Ok a, Ok b => im_concat a = im_concat b /\ im_variables a = im_variables b /\ im_structure a = im_structure b /\ im_sorter a = im_sorter b
  | Err x, Err y => x = y
  | _, _ => False
  end.
Proof.
  intros HL h. destruct HL as [HG [HV [HC [HR [r0 [Hr0 _]]]]]]. pose proof HS as [S0 [S1 S2]].
  assert (HN : h <> []) by (intros E; apply S0; apply length_zero_iff_nil; rewrite <- (pick_length sg vars S2); fold h; rewrite E; reflexivity).
  unfold sample_import_data. cbn [bind new_sample_importer im_samples with_sorter].
  destruct rs as [|r1 rs1] eqn:Ers; [contradiction|]. rewrite <- Ers in *.
  assert (E0 : nth_res (map (frame_of h) (picked sg rs)) 0 = Ok (frame_of h (map (fun o => (fst o, pick sg (snd o))) r1))) by (rewrite Ers; reflexivity).
  rewrite E0. cbn [bind].
  assert (Es : forall r, sample_build_sorter (frame_of h r) = Ok h).
  { intros r. unfold sample_build_sorter, col_names, frame_of; cbn [fr_cols map fst].
    rewrite (map_fst_mapi (fun j v => map (fun o => option_map Qc_of_Z (nth_error (snd o) j)) r)). reflexivity. }
  rewrite Es. cbn [bind im_samples with_sorter new_sample_importer]. unfold compute_row_delta_in_all_samples_frames. cbn [im_sorter with_sorter].
  destruct h as [|h0 h1] eqn:Eh; [contradiction|]. rewrite <- Eh in *. clear h0 h1 Eh.
  assert (X : match res_map (fun f => compute_row_delta_single_samples_frame f h (shifted_names h)) (map (frame_of vars) rs),
                    res_map (fun f => compute_row_delta_single_samples_frame f h (shifted_names h)) (map (frame_of h) (picked sg rs)) with
              | Ok l, Ok l' => Forall2 (similar ("Time" :: h ++ shifted_names h)) l l' | Err x, Err y => x = y | _, _ => False end).
  { assert (HR' : Forall (fun r => forall o, In o r -> length (snd o) = length vars) rs).
    { eapply Forall_impl; [|exact HR]. intros r [_ Hr] o Ho. rewrite (Hr o Ho). exact HC. }
    clear - HS HG HR' h. induction HR' as [|r rs Hr HR IH]; [constructor|]. cbn [map picked res_map].
    pose proof (frame_similar r HG Hr) as K. fold h in K. cbv zeta in K.
    destruct (compute_row_delta_single_samples_frame (frame_of vars r) h (shifted_names h)) as [f|x],
      (compute_row_delta_single_samples_frame (frame_of h (map (fun o => (fst o, pick sg (snd o))) r)) h (shifted_names h)) as [f'|y]; cbn [bind]; try contradiction; [|exact K].
    unfold picked in IH. destruct (res_map _ (map (frame_of vars) rs)) as [l|x], (res_map _ (map (frame_of h) (map _ rs))) as [l'|y]; cbn [bind]; try contradiction; [|exact IH].
    constructor; assumption. }
  destruct (res_map _ (map (frame_of vars) rs)) as [l|x], (res_map _ (map (frame_of h) (picked sg rs))) as [l'|y]; cbn [bind]; try contradiction; [|exact X].
  rewrite (concat_similar _ l l' ("Time" :: h ++ shifted_names h) X (fun x H => H)).
  destruct (concat_select l' _) as [c|x]; cbn [bind]; [|reflexivity]. cbn [im_concat im_variables im_structure im_sorter with_sorter]. auto.
Qed.
Lemma chain_same a b : im_concat a = im_concat b -> im_variables a = im_variables b -> im_structure a = im_structure b -> im_sorter a = im_sorter b ->
  forall s t, (exists sp sp1 sp2, new_sample_path a = Ok sp /\ sp_build_trajectories sp = Ok sp1 /\ sp_build_structure sp1 = Ok sp2 /\ sp_structure sp2 = Some s /\ sp_trajectories sp2 = Some t)
   -> (exists sp sp1 sp2, new_sample_path b = Ok sp /\ sp_build_trajectories sp = Ok sp1 /\ sp_build_structure sp1 = Ok sp2 /\ sp_structure sp2 = Some s /\ sp_trajectories sp2 = Some t).
Proof.
  destruct a as [x1 c v st so], b as [x2 c' v' st' so']. cbn [im_concat im_variables im_structure im_sorter]. intros <- <- <- <- s t.
  intros [sp [sp1 [sp2 [E1 [E2 [E3 [E4 E5]]]]]]].
  assert (Hsp : sp = MkSamplePath (MkImporter x1 c v st so) None None None).
  { unfold new_sample_path in E1. cbn [im_variables im_concat] in E1. destruct v as [v|]; [|discriminate]. destruct c as [| |f|[|n]]; try discriminate; destruct (vframe_empty v); try discriminate; try congruence.
    destruct (frame_empty f); [discriminate|congruence]. }
  subst sp. exists (MkSamplePath (MkImporter x2 c v st so) None None None).
  unfold sp_build_trajectories in *. cbn [sp_importer im_concat im_sorter sp_structure sp_total] in *. destruct c as [| |f|n]; try discriminate.
  apply bind_ok in E2 as [ta [Eta E2]]. destruct so as [so|]; [|discriminate].
  assert (H1 : sp1 = MkSamplePath (clear_concatenated_frame (MkImporter x1 (CFrame f) v st (Some so))) (Some (MkTrajectory (fst ta) (snd ta) (length (fr_cols f) - 1) (length so + 1))) None None) by congruence.
  subst sp1. clear E2. eexists. unfold sp_build_structure in E3. cbn [sp_importer clear_concatenated_frame im_concat im_variables im_sorter im_structure sp_trajectories] in E3.
  destruct v as [v|]; [|discriminate]. destruct (negb (list_eqb String.eqb so (v_names v))) eqn:EN; [discriminate|]. cbn zeta in E3.
  eexists. split. { unfold new_sample_path in *. cbn [im_variables im_concat] in *. destruct (vframe_empty v); [discriminate|]. destruct (frame_empty f); [discriminate|reflexivity]. } rewrite Eta. cbn [bind]. split; [reflexivity|]. unfold sp_build_structure. cbn [sp_importer clear_concatenated_frame im_concat im_variables im_sorter im_structure sp_trajectories].
  rewrite EN. split; [reflexivity|]. cbn zeta. assert (E6 : sp_structure sp2 = sp_structure (match Ok sp2 with Ok x => x | Err _ => sp2 end)) by reflexivity.
  rewrite <- E3 in E6. cbn [sp_structure] in E6. cbn [sp_structure sp_trajectories]. split; [congruence|].
  assert (E7 : sp_trajectories sp2 = sp_trajectories (match Ok sp2 with Ok x => x | Err _ => sp2 end)) by reflexivity. rewrite <- E3 in E7. cbn [sp_trajectories] in E7. congruence.
Qed.
Lemma header_chain rs cards' prior s t : legal_input vars cards rs ->
  imports_header (pick sg vars) vars cards' prior rs s t <-> imports_to (pick sg vars) cards' prior (picked sg rs) s t.
Proof.
  intros HL. pose proof (header_same rs cards' prior HL) as H. cbn zeta in H. unfold imports_header, imports_to.
  split; intros [im [sp [sp1 [sp2 [E0 E]]]]]; rewrite E0 in H.
  - destruct (sample_import_data _ None) as [b|y]; [|contradiction]. destruct H as [H1 [H2 [H3 H4]]]. exists b.
    destruct (chain_same im b H1 H2 H3 H4 s t) as [q [q1 [q2 Q]]]; [exists sp, sp1, sp2; exact E|]. exists q, q1, q2. split; [reflexivity|exact Q].
  - destruct (sample_import_data _ (Some _)) as [b|y]; [|contradiction]. destruct H as [H1 [H2 [H3 H4]]]. exists b.
    destruct (chain_same im b (eq_sym H1) (eq_sym H2) (eq_sym H3) (eq_sym H4) s t) as [q [q1 [q2 Q]]]; [exists sp, sp1, sp2; exact E|]. exists q, q1, q2. split; [reflexivity|exact Q].
Qed.
End sel.
