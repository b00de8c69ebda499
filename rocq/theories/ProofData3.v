(** C16: from raw trajectories to the parameters of a node. *)
From Verif Require Import Base Lib ModelStructure ModelGraph ModelCims ModelData ModelParams SpecStructure SpecGraph SpecComb SpecParams SpecData
  ProofStructure ProofGraph ProofComb ProofParams ProofParams2 ProofParams3 ProofIndex ProofData ProofData2.

Lemma cell_frame_of vars r v j i o : NoDup ("Time" :: vars) -> nth_error vars j = Some v -> nth_error r i = Some o ->
  cell_at (frame_of vars r) v i = Some (option_map Qc_of_Z (nth_error (snd o) j)).
Proof.
  intros Hn Hj Hi. unfold cell_at.
  rewrite (assoc_col_nth _ v (map (fun o => option_map Qc_of_Z (nth_error (snd o) j)) r) (S j)).
  - rewrite map_nth_error_iff, Hi. reflexivity.
  - unfold frame_of; cbn [fr_cols map fst]. replace (map fst (mapi _ vars)) with vars; [exact Hn|].
    apply list_ext; intros k. rewrite map_nth_error_iff, nth_error_mapi. destruct (nth_error vars k); reflexivity.
  - unfold frame_of; cbn [fr_cols nth_error]. rewrite nth_error_mapi, Hj. reflexivity.
Qed.
Lemma time_frame_of vars r i o : nth_error r i = Some o -> cell_at (frame_of vars r) "Time" i = Some (Some (fst o)).
Proof.
  intros H. unfold cell_at, frame_of. cbn [fr_cols assoc_col String.eqb Ascii.eqb Bool.eqb].
  rewrite map_nth_error_iff, H. reflexivity.
Qed.
Lemma map_fst_mapi {A B} (g : nat -> A -> B) (l : list A) : map fst (mapi (fun j v => (v, g j v)) l) = l.
Proof. apply list_ext; intros k. rewrite map_nth_error_iff, nth_error_mapi. destruct (nth_error l k); reflexivity. Qed.

Lemma frame_of_raw vars r : NoDup ("Time" :: vars) -> (forall o, In o r -> length (snd o) = length vars) ->
  raw_frame vars (length r) (frame_of vars r).
Proof.
  intros Hn Hl. split; [reflexivity|]. split.
  { unfold col_names, frame_of; cbn [fr_cols map fst]. f_equal. apply (map_fst_mapi (fun j v => map (fun o => option_map Qc_of_Z (nth_error (snd o) j)) r)). }
  split.
  { unfold frame_of; cbn [fr_cols]. constructor; [cbn [snd]; apply map_length|]. apply Forall_forall. intros nc H.
    apply In_nth_error in H as [k H]. rewrite nth_error_mapi in H. destruct (nth_error vars k); [|discriminate]. injection H as <-. cbn [snd]. apply map_length. }
  split.
  - intros i Hi. destruct (nth_error r i) as [o|] eqn:E; [|apply nth_error_None in E; lia]. exists (fst o). apply time_frame_of, E.
  - intros v i Hv Hi. destruct (nth_error r i) as [o|] eqn:E; [|apply nth_error_None in E; lia].
    apply In_nth_error in Hv as [j Hj]. rewrite (cell_frame_of vars r v j i o Hn Hj E).
    destruct (nth_error (snd o) j) as [z|] eqn:Ez; [exists z; reflexivity|].
    apply nth_error_None in Ez. rewrite (Hl o (nth_error_In _ _ E)) in Ez. assert (j < length vars) by (apply nth_error_Some; congruence). lia.
Qed.

Lemma frame_row_ok f i a : NoDup (col_names f) -> Forall2 (fun h q => cell_at f h i = Some (Some q)) (col_names f) a ->
  frame_row f i = Ok a.
Proof.
  intros Hn H. unfold frame_row. apply res_map_ok. unfold col_names in *.
  assert (Q : forall cs, (forall nc, In nc cs -> In nc (fr_cols f)) -> forall a, Forall2 (fun h q => cell_at f h i = Some (Some q)) (map fst cs) a ->
     Forall2 (fun (nc : string * list (option Qc)) b => match nth_error (snd nc) i with Some (Some q) => Ok q | _ => Err ValueError end = Ok b) cs a).
  { induction cs as [|[n c] cs IH]; intros Hc b Hb; cbn [map] in Hb; inversion Hb as [|? q ? b' H1 H2]; subst; constructor.
    - unfold cell_at in H1. rewrite (assoc_col_In (fr_cols f) n c Hn) in H1 by (apply Hc; left; reflexivity).
      cbn [snd]. rewrite H1. reflexivity.
    - apply IH; [|exact H2]. intros nc K. apply Hc. right; exact K. }
  apply Q; auto.
Qed.

Lemma sum_decompose ms : forall i, i < nat_sum ms -> exists k m j, nth_error ms k = Some m /\ j < m /\ i = nat_sum (firstn k ms) + j.
Proof.
  induction ms as [|m ms IH]; intros i Hi; [cbn in Hi; lia|]. unfold nat_sum in Hi; cbn [fold_right] in Hi.
  destruct (Nat.ltb_spec i m) as [K|K].
  - exists 0, m, i. repeat split; assumption.
  - destruct (IH (i - m)) as [k [m' [j [E1 [E2 E3]]]]]; [unfold nat_sum; lia|]. exists (S k), m', j. cbn [nth_error firstn]. split; [exact E1|]. split; [exact E2|].
    unfold nat_sum in *; cbn [fold_right]. lia.
Qed.

Lemma Forall2_by_nth {A B} (P : A -> B -> Prop) a : forall b, length a = length b ->
  (forall i x y, nth_error a i = Some x -> nth_error b i = Some y -> P x y) -> Forall2 P a b.
Proof.
  induction a as [|x a IH]; intros [|y b] Hl H; try discriminate; constructor.
  - apply (H 0); reflexivity.
  - apply IH; [simpl in Hl; lia|]. intros i u w H1 H2. apply (H (S i)); assumption.
Qed.

Definition step_row (ab : (Qc * list Z) * (Qc * list Z)) : list Qc :=
  (fst (snd ab) - fst (fst ab))%Qc :: map Qc_of_Z (snd (fst ab)) ++ map Qc_of_Z (snd (snd ab)).

Lemma steps_length r : length (steps r) = length r - 1.
Proof. unfold steps. rewrite combine_length. destruct r; cbn [tl length]; lia. Qed.
Lemma steps_nth (r : raw) i ab : nth_error (steps r) i = Some ab -> nth_error r i = Some (fst ab) /\ nth_error r (S i) = Some (snd ab).
Proof.
  unfold steps. intros H. assert (Q : forall (l l' : raw) i ab, nth_error (combine l l') i = Some ab -> nth_error l i = Some (fst ab) /\ nth_error l' i = Some (snd ab)).
  { clear. induction l as [|a l IH]; intros [|b l'] [|i] ab H; try discriminate; cbn in *; [injection H as <-; auto|]. apply IH, H. }
  apply Q in H as [H1 H2]. split; [exact H1|]. destruct r; [destruct i; discriminate|]. exact H2.
Qed.

Lemma import_frames vars rs im : good_header vars -> vars <> [] -> rs <> [] ->
  (forall r o, In r rs -> In o r -> length (snd o) = length vars) -> im_samples im = map (frame_of vars) rs ->
  exists cf im', sample_import_data im None = Ok im' /\ im_concat im' = CFrame cf
   /\ im_variables im' = im_variables im /\ im_structure im' = im_structure im /\ im_sorter im' = Some vars
   /\ col_names cf = "Time" :: vars ++ shifted_names vars
   /\ nrows cf = length (flat_map steps rs)
   /\ to_numpy cf = Ok (map step_row (flat_map steps rs)).
Proof.
  intros Hh Hv Hne Hl Him.
  assert (Hn : NoDup ("Time" :: vars)) by (apply (NoDup_app_l ("Time" :: vars) (shifted_names vars)), Hh).
  unfold sample_import_data. rewrite Him. destruct rs as [|r0 rs0] eqn:Ers; [contradiction|]. rewrite <- Ers in *.
  assert (E0 : nth_res (map (frame_of vars) rs) 0 = Ok (frame_of vars r0)) by (rewrite Ers; reflexivity).
  rewrite E0. cbn [bind].
  assert (Es : sample_build_sorter (frame_of vars r0) = Ok vars).
  { unfold sample_build_sorter, col_names, frame_of; cbn [fr_cols map fst].
    rewrite (map_fst_mapi (fun j v => map (fun o => option_map Qc_of_Z (nth_error (snd o) j)) r0)). reflexivity. }
  rewrite Es. cbn [bind]. cbn [with_sorter im_samples]. rewrite Him.
  destruct (all_frames (with_sorter im vars) vars (map (frame_of vars) rs) (map (@length _) rs)) as
    [im' [cf [A1 [A2 [A3 [A4 [A5 [A6 [A7 [A8 [A9 _]]]]]]]]]]]; try assumption; try reflexivity.
  { rewrite Ers; discriminate. }
  { clear - Hn Hl. induction rs as [|r rs IH]; cbn [map]; constructor.
    - apply frame_of_raw; [exact Hn|]. intros o Ho. apply (Hl r o); [left; reflexivity|exact Ho].
    - apply IH. intros r' o H1 H2. apply (Hl r' o); [right; exact H1|exact H2]. }
  exists cf, im'. split; [exact A1|]. split; [exact A2|]. split; [exact A4|]. split; [exact A5|]. split; [exact A6|]. split; [exact A7|].
  assert (HM : Forall2 (fun r n => length (steps r) = n) rs (map (fun n => n - 1) (map (@length _) rs))).
  { clear. induction rs; cbn [map]; constructor; [apply steps_length|assumption]. }
  assert (HN : nrows cf = length (flat_map steps rs)) by (rewrite A8; symmetry; apply flat_map_len, HM).
  split; [exact HN|]. unfold to_numpy. unfold nrows in HN. rewrite HN. apply res_map_ok.
  apply Forall2_by_nth; [rewrite seq_length, map_length; reflexivity|].
  intros i x row Hx Hrow. rewrite nth_error_seq' in Hx. destruct (Nat.ltb_spec i (length (flat_map steps rs))) as [Hi|]; [|discriminate].
  injection Hx as <-. cbn [Nat.add]. rewrite map_nth_error_iff in Hrow.
  rewrite (flat_map_len steps rs _ HM) in Hi. destruct (sum_decompose _ i Hi) as [k [m [j [K1 [K2 K3]]]]].
  destruct (Forall2_nth_error_r _ _ _ HM k m K1) as [r [R1 R2]].
  rewrite K3, (nth_flat_map_off steps rs _ HM k r m j R1 K1 K2) in Hrow.
  destruct (nth_error (steps r) j) as [ab|] eqn:Eab; [|discriminate]. cbn [option_map] in Hrow. injection Hrow as <-.
  destruct (steps_nth r j ab Eab) as [S1 S2].
  assert (Kn : nth_error (map (@length (Qc * list Z)) rs) k = Some (length r)) by (rewrite map_nth_error_iff, R1; reflexivity).
  assert (Kf : nth_error (map (frame_of vars) rs) k = Some (frame_of vars r)) by (rewrite map_nth_error_iff, R1; reflexivity).
  assert (Hj : S j < length r) by (apply nth_error_Some; congruence).
  destruct (A9 k _ _ j Kf Kn Hj) as [B1 B2]. cbn zeta in B1, B2. rewrite K3.
  apply frame_row_ok; [rewrite A7; exact Hh|]. rewrite A7. unfold step_row. constructor.
  { apply (B1 (fst (fst ab)) (fst (snd ab))); apply time_frame_of; assumption. }
  assert (Lr : forall o, In o r -> length (snd o) = length vars) by (intros o Ho; apply (Hl r o); [apply (nth_error_In _ _ R1)|exact Ho]).
  apply Forall2_app.
  - apply Forall2_by_nth; [rewrite map_length; symmetry; apply Lr, (nth_error_In _ _ S1)|].
    intros q v x Hq Hxx. destruct (B2 v (nth_error_In _ _ Hq)) as [-> _].
    rewrite (cell_frame_of vars r v q j _ Hn Hq S1). rewrite map_nth_error_iff in Hxx. f_equal. exact Hxx.
  - unfold shifted_names. apply Forall2_by_nth; [rewrite !map_length; symmetry; apply Lr, (nth_error_In _ _ S2)|].
    intros q v x Hq Hxx. rewrite map_nth_error_iff in Hq. destruct (nth_error vars q) as [w|] eqn:Ew; [|discriminate]. injection Hq as <-.
    destruct (B2 w (nth_error_In _ _ Ew)) as [_ ->]. rewrite (cell_frame_of vars r w q (S j) _ Hn Ew S2). rewrite map_nth_error_iff in Hxx. f_equal. exact Hxx.
Qed.

Definition raw_times (rs : list raw) : list Qc := map (fun ab => (fst (snd ab) - fst (fst ab))%Qc) (flat_map steps rs).
Definition raw_rows (rs : list raw) : list (list Z) := map (fun ab => snd (fst ab) ++ snd (snd ab)) (flat_map steps rs).

Lemma samples_array cf rs : to_numpy cf = Ok (map step_row (flat_map steps rs)) ->
  build_list_of_samples_array cf = Ok (raw_times rs, raw_rows rs).
Proof.
  intros H. unfold build_list_of_samples_array. rewrite H. cbn [bind].
  rewrite (res_map_pure _ (fun r => hd 0%Qc r)).
  - cbn [bind]. rewrite !map_map. f_equal. f_equal. unfold raw_rows. apply map_ext. intros ab. unfold step_row; cbn [tl].
    rewrite <- map_app, map_map. rewrite <- (map_id (snd (fst ab) ++ snd (snd ab))) at 2. apply map_ext. intros z. apply Qc_trunc_Z.
  - intros r Hr. apply in_map_iff in Hr as [ab [<- _]]. reflexivity.
Qed.

(** statistics of the concatenated data set in terms of the trajectories *)
Lemma row_shows_app_l a b cols vals : Forall (fun i => i < length a) cols -> row_shows (a ++ b) cols vals = row_shows a cols vals.
Proof.
  intros H. revert vals. induction H as [|i cols Hi Hc IH]; intros [|v vals]; try reflexivity.
  unfold row_shows in *. cbn [combine forallb fst snd]. rewrite nth_error_app1 by exact Hi. f_equal. apply IH.
Qed.
Lemma Qcsum_flat_map {A} (g : A -> list Qc) l : Qcsum (flat_map g l) = Qcsum (map (fun a => Qcsum (g a)) l).
Proof. induction l as [|a l IH]; [reflexivity|]. cbn [flat_map map]. rewrite Qcsum_app, Qcsum_cons, IH. reflexivity. Qed.
Lemma filter_flat_map {A B} (f : B -> bool) (g : A -> list B) l : filter f (flat_map g l) = flat_map (fun a => filter f (g a)) l.
Proof. induction l as [|a l IH]; [reflexivity|]. cbn [flat_map]. rewrite filter_app, IH. reflexivity. Qed.
Lemma filter_map' {A B} (f : B -> bool) (g : A -> B) l : filter f (map g l) = map g (filter (fun a => f (g a)) l).
Proof. induction l as [|a l IH]; [reflexivity|]. cbn [map filter]. destruct (f (g a)); cbn [map]; rewrite IH; reflexivity. Qed.
Lemma combine_maps {A B C} (f : A -> B) (g : A -> C) l : combine (map f l) (map g l) = map (fun a => (f a, g a)) l.
Proof. induction l as [|a l IH]; [reflexivity|]. cbn [map combine]. rewrite IH. reflexivity. Qed.
Lemma map_flat_map' {A B C} (f : A -> list B) (g : B -> C) l : map g (flat_map f l) = flat_map (fun a => map g (f a)) l.
Proof. induction l as [|a l IH]; [reflexivity|]. cbn [flat_map]. rewrite map_app, IH. reflexivity. Qed.

Lemma raw_dwell_eq rs cols vals n : (forall ab, In ab (flat_map steps rs) -> length (snd (fst ab)) = n) -> Forall (fun i => i < n) cols ->
  dwell_time (raw_times rs) (raw_rows rs) cols vals = raw_dwell rs cols vals.
Proof.
  intros Hl Hc. unfold dwell_time, raw_times, raw_rows, raw_dwell. rewrite combine_maps, filter_map', map_map. cbn [fst snd].
  rewrite (filter_ext_In _ (fun ab => row_shows (snd (fst ab)) cols vals)).
  - rewrite filter_flat_map, map_flat_map', Qcsum_flat_map. reflexivity.
  - intros ab Hab. apply row_shows_app_l. rewrite (Hl ab Hab). exact Hc.
Qed.
Lemma raw_jumps_eq rs ni x' cols vals n : (forall ab, In ab (flat_map steps rs) -> length (snd (fst ab)) = n) -> Forall (fun i => i < n) cols ->
  row_count (raw_rows rs) ((ni + n) :: cols) (x' :: vals) = raw_jumps rs ni x' cols vals.
Proof.
  intros Hl Hc. unfold row_count, raw_rows, raw_jumps. rewrite filter_map', map_length.
  rewrite (filter_ext_In _ (fun ab => row_shows (snd (fst ab)) cols vals && row_shows (snd (snd ab)) [ni] [x'])).
  - rewrite filter_flat_map. clear. induction rs as [|r rs IH]; [reflexivity|]. cbn [flat_map map]. rewrite app_length, Nat2Z.inj_add, IH. reflexivity.
  - intros ab Hab. unfold row_shows at 1. cbn [combine forallb fst snd]. rewrite nth_error_app2 by (rewrite (Hl ab Hab); lia).
    rewrite (Hl ab Hab). replace (ni + n - n) with ni by lia.
    change (forallb _ (combine cols vals)) with (row_shows (snd (fst ab) ++ snd (snd ab)) cols vals).
    rewrite row_shows_app_l by (rewrite (Hl ab Hab); exact Hc). unfold row_shows at 3. cbn [combine forallb fst snd].
    rewrite andb_true_r. apply andb_comm.
Qed.

Lemma vframe_cols vars : forall s cards, length cards = length vars ->
  map (fun r : nat * string * nat => fst (fst r)) (combine (combine (seq s (length vars)) vars) cards) = seq s (length vars)
  /\ map (fun r : nat * string * nat => snd (fst r)) (combine (combine (seq s (length vars)) vars) cards) = vars
  /\ map (fun r : nat * string * nat => snd r) (combine (combine (seq s (length vars)) vars) cards) = cards.
Proof.
  induction vars as [|v vars IH]; intros s [|c cards] H; try discriminate; [repeat split|].
  cbn [length seq combine map fst snd]. destruct (IH (S s) cards) as [A [B C]]; [simpl in H; lia|]. rewrite A, B, C. repeat split.
Qed.

Lemma seq_lookup vars cards es n l i c : length cards = length vars ->
  structure_get_node_indx (MkStructure vars (seq 0 (length vars)) cards es n) l = Ok i ->
  structure_get_states_number (MkStructure vars (seq 0 (length vars)) cards es n) l = Ok c ->
  i < length vars /\ nth_error cards i = Some c.
Proof.
  unfold structure_get_node_indx, structure_get_states_number; cbn [nodes_labels nodes_indexes nodes_values]. intros Hl H1 H2.
  apply bind_ok in H1 as [p [P1 P2]]. apply bind_ok in H2 as [p' [P1' P2']]. rewrite P1 in P1'; injection P1' as <-.
  apply nth_res_ok in P2, P2'. rewrite nth_error_seq' in P2. destruct (Nat.ltb_spec p (length vars)) as [K|]; [|discriminate].
  injection P2 as <-. cbn [Nat.add]. auto.
Qed.

(** the trajectories and the structure built from the raw trajectories *)
Lemma pipeline vars cards prior rs : good_header vars -> vars <> [] -> length cards = length vars ->
  Forall (raw_ok cards) rs -> (exists r, In r rs /\ 2 <= length r) ->
  exists im sp sp1 sp2, 
    sample_import_data (new_sample_importer (map (frame_of vars) rs) (Some (variables_frame vars cards)) prior) None = Ok im
    /\ new_sample_path im = Ok sp /\ sp_build_trajectories sp = Ok sp1 /\ sp_build_structure sp1 = Ok sp2
    /\ sp_structure sp2 = Some (MkStructure vars (seq 0 (length vars)) cards (match prior with None => [] | Some es => es end) (length vars))
    /\ sp_trajectories sp2 = Some (MkTrajectory (raw_times rs) (raw_rows rs) (length vars + length vars) (length vars + 1))
    /\ (forall es, data_ok (MkStructure vars (seq 0 (length vars)) cards es (length vars))
               (MkTrajectory (raw_times rs) (raw_rows rs) (length vars + length vars) (length vars + 1))).
Proof.
  intros Hh Hv Hc Hok [r1 [Hr1 Hlen1]].
  assert (Hl : forall r o, In r rs -> In o r -> length (snd o) = length vars).
  { intros r o H1 H2. rewrite Forall_forall in Hok. rewrite <- Hc. apply (Hok r H1), H2. }
  assert (Hne : rs <> []) by (intros ->; destruct Hr1).
  destruct (import_frames vars rs (new_sample_importer (map (frame_of vars) rs) (Some (variables_frame vars cards)) prior) Hh Hv Hne Hl eq_refl)
    as [cf [im [I1 [I2 [I3 [I4 [I5 [I6 [I7 I8]]]]]]]]].
  cbn [new_sample_importer im_variables im_structure] in I3, I4.
  destruct (vframe_cols vars 0 cards Hc) as [V1 [V2 V3]].
  assert (Hvne : vframe_empty (variables_frame vars cards) = false).
  { unfold vframe_empty, variables_frame; cbn [v_rows]. destruct vars as [|v vr]; [contradiction|]. destruct cards as [|c cr]; [discriminate|]. reflexivity. }
  assert (Hfne : frame_empty cf = false).
  { unfold frame_empty. destruct (fr_index cf) as [|z zs] eqn:Ei.
    - exfalso. unfold nrows in I7. rewrite Ei in I7. cbn [length] in I7.
      assert (X : length (steps r1) <= length (flat_map steps rs)).
      { clear - Hr1. induction rs as [|r rs IH]; [destruct Hr1|]. cbn [flat_map]. rewrite app_length. destruct Hr1 as [->|H]; [lia|]. specialize (IH H). lia. }
      rewrite steps_length in X. lia.
    - destruct (fr_cols cf) eqn:Ec; [|reflexivity]. unfold col_names in I6. rewrite Ec in I6. discriminate. }
  assert (Hwidth : length (fr_cols cf) - 1 = length vars + length vars).
  { assert (X : length (fr_cols cf) = length (col_names cf)) by (unfold col_names; rewrite map_length; reflexivity).
    rewrite X, I6. cbn [length]. unfold shifted_names. rewrite app_length, map_length. lia. }
  eexists im, (MkSamplePath im None None None), _, _.
  split; [exact I1|]. split.
  { unfold new_sample_path. rewrite I3, I2, Hvne, Hfne. reflexivity. }
  split.
  { unfold sp_build_trajectories. cbn [sp_importer]. rewrite I2, (samples_array cf rs I8). cbn [bind]. rewrite I5. cbn [fst snd sp_structure sp_total].
    rewrite Hwidth. reflexivity. }
  split.
  { unfold sp_build_structure. cbn [sp_importer]. unfold clear_concatenated_frame. rewrite I2. cbn [im_variables im_sorter im_structure]. rewrite I3, I5.
    assert (X : list_eqb String.eqb vars (v_names (variables_frame vars cards)) = true).
    { apply list_eqb_label. symmetry. exact V2. }
    rewrite X. cbn [negb]. reflexivity. }
  cbn [sp_structure sp_trajectories]. split.
  { unfold v_index, v_names, v_values, variables_frame; cbn [v_rows]. rewrite V1, V2, V3, I4. reflexivity. }
  split; [reflexivity|].
  intros es. unfold data_ok; cbn [total_variables_number t_times t_rows t_width t_orig].
  split; [unfold raw_times, raw_rows; rewrite !map_length; reflexivity|]. split; [reflexivity|]. split; [reflexivity|].
  intros row Hrow l i c Li Lc. destruct (seq_lookup vars cards es (length vars) l i c Hc Li Lc) as [Hi Hci].
  split; [exact Hi|]. unfold raw_rows in Hrow. apply in_map_iff in Hrow as [ab [<- Hab]]. apply in_flat_map in Hab as [r [Hr Hab]].
  rewrite Forall_forall in Hok. destruct (Hok r Hr) as [Hst Hlo]. destruct (Hst ab Hab) as [F1 F2].
  assert (L1 : length (snd (fst ab)) = length vars) by (apply Forall2_length in F1; lia).
  destruct (Forall2_nth_error_r _ _ _ F1 i c Hci) as [z [Z1 Z2]]. destruct (Forall2_nth_error_r _ _ _ F2 i c Hci) as [z' [Z1' Z2']].
  split.
  - exists (Z.to_nat z). rewrite nth_error_app1 by lia. rewrite Z1. rewrite Z2Nat.id by lia. split; [reflexivity|lia].
  - exists z'. rewrite nth_error_app2 by lia. rewrite L1. replace (i + length vars - length vars) with i by lia. auto.
Qed.

Lemma end_to_end vars cards prior rs : good_header vars -> vars <> [] -> length cards = length vars ->
  Forall (raw_ok cards) rs -> (exists r, In r rs /\ 2 <= length r) ->
  edges_within vars (match prior with None => [] | Some es => es end) ->
  exists im sp sp1 sp2 s t,
    sample_import_data (new_sample_importer (map (frame_of vars) rs) (Some (variables_frame vars cards)) prior) None = Ok im
    /\ new_sample_path im = Ok sp /\ sp_build_trajectories sp = Ok sp1 /\ sp_build_structure sp1 = Ok sp2
    /\ sp_structure sp2 = Some s /\ sp_trajectories sp2 = Some t
    /\ nodes_labels s = vars /\ nodes_values s = cards /\ nodes_indexes s = seq 0 (length vars)
    /\ edges_list s = match prior with None => [] | Some es => es end
    /\ forall es v c ni pis ps, edges_within vars es -> node_view s (es ++ edges_list s) v c ni pis ps -> 0 < c -> compat c ps ->
       exists g soc, ng_fast_init (fresh_graph s es) v = Ok g /\ compute_parameters_for_node t g v = Ok soc
        /\ length (so_actual_cims soc) = nat_prod ps /\ length (so_p_combs soc) = nat_prod ps
        /\ ((forall p, In p ps -> p = c) -> forall u, config_ok ps u -> nth_error (so_p_combs soc) (config_rank ps u) = Some u)
        /\ forall u x, config_ok ps u -> x < c ->
            exists cm, nth_error (so_actual_cims soc) (config_rank ps u) = Some cm
              /\ nth_error (c_times cm) x = Some (raw_dwell rs (ni :: pis) (x :: u))
              /\ exists row, nth_error (c_trans cm) x = Some row /\ length row = c
                 /\ (forall x', x' < c -> x' <> x -> nth_error row x' = Some (raw_jumps rs ni x' (ni :: pis) (x :: u)))
                 /\ nth_error row x = Some (Zsum (map (fun x' => if x' =? x then 0%Z else raw_jumps rs ni x' (ni :: pis) (x :: u)) (seq 0 c)))
                 /\ exists qrow, nth_error (c_cim cm) x = Some qrow
                    /\ forall x' z, nth_error row x' = Some z -> nth_error qrow x' =
                         Some (if x =? x' then (1 - Qc_of_Z z) / (raw_dwell rs (ni :: pis) (x :: u) + 1)
                               else (Qc_of_Z z + 1) / (raw_dwell rs (ni :: pis) (x :: u) + 1))%Qc.
Proof.
  intros Hh Hv Hc Hok Hr1 Hp. destruct (pipeline vars cards prior rs Hh Hv Hc Hok Hr1) as [im [sp [sp1 [sp2 [P1 [P2 [P3 [P4 [P5 [P6 P7]]]]]]]]]].
  eexists im, sp, sp1, sp2, _, _. split; [exact P1|]. split; [exact P2|]. split; [exact P3|]. split; [exact P4|]. split; [exact P5|]. split; [exact P6|].
  cbn [nodes_labels nodes_values nodes_indexes edges_list]. do 4 (split; [reflexivity|]).
  intros es v c ni pis ps He V Hc0 Hcp.
  set (s := MkStructure vars (seq 0 (length vars)) cards (match prior with None => [] | Some es => es end) (length vars)) in *.
  set (t := MkTrajectory (raw_times rs) (raw_rows rs) (length vars + length vars) (length vars + 1)) in *.
  assert (Hwf : wf_structure s).
  { split; [|split; cbn [nodes_labels nodes_indexes nodes_values s]; [apply seq_length|exact Hc]].
    cbn [nodes_labels s]. apply (NoDup_app_l vars (shifted_names vars)). unfold good_header in Hh. inversion Hh; assumption. }
  assert (Hlen : forall ab, In ab (flat_map steps rs) -> length (snd (fst ab)) = length vars).
  { intros ab Hab. apply in_flat_map in Hab as [r [Hr Hab]]. rewrite Forall_forall in Hok. destruct (Hok r Hr) as [Hst _]. destruct (Hst ab Hab) as [F1 _].
    apply Forall2_length in F1. lia. }
  assert (Hcols : Forall (fun i => i < length vars) (ni :: pis)).
  { destruct V as [V1 [V2 [V3 V4]]]. 
    assert (X : forall l i, structure_get_node_indx s l = Ok i -> i < length vars).
    { intros l i Hl. unfold structure_get_node_indx in Hl; cbn [nodes_labels nodes_indexes s] in Hl. apply bind_ok in Hl as [p [A B]].
      apply nth_res_ok in B. rewrite nth_error_seq' in B. destruct (Nat.ltb_spec p (length vars)); [injection B as <-; assumption|discriminate]. }
    constructor; [eapply X, V2|]. clear - V3 X. induction V3; constructor; [eapply X; eassumption|assumption]. }
  destruct (fresh_params s t es v c ni pis ps Hwf (P7 _) He Hp V Hc0 Hcp) as [g [G1 G2]].
  eexists g, _. split; [exact G1|]. split; [exact G2|]. cbn [so_actual_cims so_p_combs]. split; [rewrite map_length; apply le_enum_length|].
  split; [apply p_comb_length|]. split.
  { intros Heq u Hu. rewrite p_comb_le, swap01_fix; [apply le_enum_rank, Hu|]. destruct ps as [|a [|b r]]; [left; cbn; lia|left; cbn; lia|right].
    exists c, r. rewrite (Heq a (or_introl eq_refl)), (Heq b (or_intror (or_introl eq_refl))). reflexivity. }
  intros u x Hu Hx.
  assert (G4 : exists cm, nth_error (map (exact_cim t (total_variables_number s) ni pis c) (le_enum ps)) (config_rank ps u) = Some cm
     /\ cm = compute_cim_coefficients (new_cim (exact_times t ni pis c u) (exact_counts t (total_variables_number s) ni pis c u))).
  { eexists. rewrite map_nth_error_iff, (le_enum_rank ps u Hu). split; reflexivity. }
  destruct G4 as [cm [C1 C2]].
  exists cm. split; [exact C1|]. rewrite C2. cbn [compute_cim_coefficients new_cim c_times c_trans]. split.
  - unfold exact_times. rewrite map_nth_error_iff, nth_seq_lt by exact Hx. cbn [option_map t t_times t_rows]. f_equal.
    apply (raw_dwell_eq rs _ _ (length vars)); assumption.
  - assert (J : forall y, jumps t (total_variables_number s) ni pis u x y = raw_jumps rs ni y (ni :: pis) (x :: u)).
    { intros y. unfold jumps. apply (raw_jumps_eq rs ni y (ni :: pis) (x :: u) (length vars)); assumption. }
    eexists. split; [unfold exact_counts; rewrite map_nth_error_iff, nth_seq_lt by exact Hx; reflexivity|].
    split; [rewrite map_length, seq_length; reflexivity|]. split.
    + intros x' Hx' Hn. rewrite map_nth_error_iff, nth_seq_lt by exact Hx'. cbn [option_map].
      destruct (Nat.eqb_spec x' x); [contradiction|]. rewrite J. reflexivity.
    + split.
      { rewrite map_nth_error_iff, nth_seq_lt by exact Hx. cbn [option_map]. rewrite Nat.eqb_refl. do 2 f_equal.
        apply map_ext. intros y. rewrite J. reflexivity. }
      destruct (smoothed_cims (exact_times t ni pis c u) (exact_counts t (total_variables_number s) ni pis c u) _ eq_refl) as [_ [_ SC]].
      assert (HT : nth_error (exact_times t ni pis c u) x = Some (raw_dwell rs (ni :: pis) (x :: u))).
      { unfold exact_times. rewrite map_nth_error_iff, nth_seq_lt by exact Hx. cbn [option_map t t_times t_rows]. f_equal.
        apply (raw_dwell_eq rs _ _ (length vars)); assumption. }
      eset (row := map _ (seq 0 c)).
      assert (HR : nth_error (exact_counts t (total_variables_number s) ni pis c u) x = Some row).
      { unfold exact_counts, row. rewrite map_nth_error_iff, nth_seq_lt by exact Hx. reflexivity. }
      assert (H0 : exists z0, nth_error row x = Some z0).
      { unfold row. rewrite map_nth_error_iff, nth_seq_lt by exact Hx. cbn [option_map]. eauto. }
      destruct H0 as [z0 H0]. destruct (SC x x _ z0 row HT HR H0) as [qrow [Q1 _]]. exists qrow. split; [exact Q1|].
      intros x' z Hz. destruct (SC x x' _ z row HT HR Hz) as [qrow' [Q1' Q2]]. rewrite Q1 in Q1'. injection Q1' as <-. exact Q2.
Qed.
