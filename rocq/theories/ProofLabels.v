(** C95: row labels of the imported DataFrames. *)
From Verif Require Import Base Lib LibQc ModelStructure ModelGraph ModelCims ModelData ModelParams SpecStructure SpecGraph SpecComb SpecParams SpecData
  SpecInvariance SpecLabels
  ProofStructure ProofGraph ProofComb ProofParams ProofParams2 ProofParams3 ProofIndex ProofData ProofData2 ProofData3 ProofInvariance.

(** ** keeping rows *)
Lemma keep_map {A B} (f : A -> B) m : forall l, keep_rows m (map f l) = map f (keep_rows m l).
Proof.
  unfold keep_rows. induction m as [|b m IH]; intros [|x l]; try reflexivity. cbn [map combine filter fst].
  destruct b; cbn [map snd]; rewrite IH; reflexivity.
Qed.
Lemma keep_app {A} m1 : forall m2 (l1 l2 : list A), length m1 = length l1 -> keep_rows (m1 ++ m2) (l1 ++ l2) = keep_rows m1 l1 ++ keep_rows m2 l2.
Proof.
  unfold keep_rows. induction m1 as [|b m IH]; intros m2 [|x l] l2 H; try discriminate; [reflexivity|]. cbn [app combine filter fst].
  destruct b; cbn [map snd app]; rewrite IH by (simpl in H; lia); reflexivity.
Qed.
Lemma keep_flat {A B} (M : A -> list bool) (g : A -> list B) l : (forall a, In a l -> length (M a) = length (g a)) ->
  flat_map (fun a => keep_rows (M a) (g a)) l = keep_rows (flat_map M l) (flat_map g l).
Proof.
  induction l as [|a l IH]; intros H; [reflexivity|]. cbn [flat_map]. rewrite keep_app by (apply H; left; reflexivity).
  rewrite IH by (intros; apply H; right; assumption). reflexivity.
Qed.
Lemma keep_same_length {A B} m : forall (l : list A) (l' : list B), length l = length l' -> length (keep_rows m l) = length (keep_rows m l').
Proof.
  unfold keep_rows. induction m as [|b m IH]; intros [|x l] [|y l'] H; try discriminate; try reflexivity. cbn [combine filter fst].
  destruct b; cbn [map snd length]; rewrite (IH l l') by (simpl in H; lia); reflexivity.
Qed.
Lemma keep_nth {A B} m : forall (l : list A) (l' : list B) j a, length l = length l' -> nth_error (keep_rows m l) j = Some a ->
  exists i, nth_error l i = Some a /\ nth_error (keep_rows m l') j = nth_error l' i.
Proof.
  unfold keep_rows. induction m as [|b m IH]; intros [|x l] [|y l'] j a H E; try discriminate; try (destruct j; discriminate).
  cbn [combine filter fst] in *. destruct b; cbn [map snd] in *.
  - destruct j as [|j]; [exists 0; cbn in *; auto|]. cbn [nth_error] in E. destruct (IH l l' j a) as [i [I1 I2]]; [simpl in H; lia|exact E|].
    exists (S i). cbn [nth_error]. auto.
  - destruct (IH l l' j a) as [i [I1 I2]]; [simpl in H; lia|exact E|]. exists (S i). cbn [nth_error]. auto.
Qed.
(** a mask whose last entry is false only looks at the others *)
Lemma keep_last m : forall b l, b = false -> length l <= S (length m) -> keep_rows (m ++ [b]) (l : list (option Qc)) = keep_rows m (firstn (length m) l).
Proof.
  unfold keep_rows. induction m as [|c m IH]; intros b [|x l] -> H; try reflexivity.
  cbn [app combine filter fst length firstn]. destruct c; cbn [map snd]; rewrite (IH false l eq_refl) by (simpl in H; lia); reflexivity.
Qed.

(** ** frames *)
Definition keep_frame (m : list bool) (f : frame) : frame :=
  MkFrame (keep_rows m (fr_index f)) (map (fun nc => (fst nc, keep_rows m (snd nc))) (fr_cols f)).

Lemma keep_numpy m f A : Forall (fun nc => length (snd nc) = length (fr_index f)) (fr_cols f) -> to_numpy f = Ok A ->
  to_numpy (keep_frame m f) = Ok (keep_rows m A).
Proof.
  intros HF H. unfold to_numpy in *. apply res_map_ok in H.
  assert (LA : length A = length (fr_index f)) by (apply Forall2_length in H; rewrite seq_length in H; auto).
  apply res_map_ok. apply Forall2_by_nth.
  { rewrite seq_length. cbn [keep_frame fr_index]. apply keep_same_length. auto. }
  intros j x row Hx Hrow. rewrite nth_error_seq' in Hx. destruct (Nat.ltb_spec j (length (fr_index (keep_frame m f)))) as [Hj|]; [|discriminate].
  injection Hx as <-. cbn [Nat.add].
  assert (K : exists i, nth_error A i = Some row /\ i < length (fr_index f) /\ forall nc, In nc (fr_cols f) -> nth_error (keep_rows m (snd nc)) j = nth_error (snd nc) i).
  { destruct (keep_nth m (combine A (seq 0 (length A))) A j) with (a := (row, match nth_error (keep_rows m (seq 0 (length A))) j with Some i => i | None => 0 end)) as [i [I1 I2]].
    - rewrite combine_length, seq_length. lia.
    - assert (Q : forall {X Y} m (a : list X) (b : list Y), length a = length b -> keep_rows m (combine a b) = combine (keep_rows m a) (keep_rows m b)).
      { clear. unfold keep_rows. induction m as [|c m IH]; intros [|x a] [|y b] H; try discriminate; try reflexivity. cbn [combine filter fst].
        destruct c; cbn [map snd combine]; rewrite (IH a b) by (simpl in H; lia); reflexivity. }
      rewrite Q by (rewrite seq_length; reflexivity).
      assert (LJ : j < length (keep_rows m (seq 0 (length A)))).
      { rewrite (keep_same_length m (seq 0 (length A)) A) by apply seq_length. apply nth_error_Some. congruence. }
      destruct (nth_error (keep_rows m (seq 0 (length A))) j) as [i|] eqn:Ei; [|apply nth_error_None in Ei; lia].
      clear - Hrow Ei. revert Hrow Ei. generalize (keep_rows m A) (keep_rows m (seq 0 (length A))). clear. intros a b. revert b j.
      induction a as [|x a IH]; intros [|y b] [|j] H1 H2; try discriminate; cbn in *; [congruence|apply IH; assumption].
    - assert (LJ : j < length (keep_rows m (seq 0 (length A)))).
      { rewrite (keep_same_length m (seq 0 (length A)) A) by apply seq_length. apply nth_error_Some. congruence. }
      destruct (nth_error (keep_rows m (seq 0 (length A))) j) as [p|] eqn:Ep; [|apply nth_error_None in Ep; lia].
      assert (Hp : forall {X} (c : list X), length c = length A -> nth_error (keep_rows m c) j = nth_error c p).
      { intros X c Hc. destruct (keep_nth m (seq 0 (length A)) c j p) as [q [Q1 Q2]]; [rewrite seq_length; auto|exact Ep|].
        rewrite nth_error_seq' in Q1. destruct (q <? length A); [|discriminate]. injection Q1 as Q1. cbn [Nat.add] in Q1. subst q. exact Q2. }
      exists p. split; [rewrite <- (Hp _ A eq_refl); exact Hrow|]. split.
      + rewrite <- LA. apply nth_error_Some. rewrite <- (Hp _ A eq_refl). congruence.
      + intros nc Hnc. apply Hp. rewrite Forall_forall in HF. rewrite (HF nc Hnc). auto. }
  destruct K as [i [K1 [K2 K3]]].
  assert (Hs : nth_error (seq 0 (length (fr_index f))) i = Some i) by (rewrite nth_error_seq'; destruct (Nat.ltb_spec i (length (fr_index f))); [reflexivity|lia]).
  destruct (Forall2_nth_error _ _ _ H i i Hs) as [row' [R1 R2]]. rewrite K1 in R1. injection R1 as <-.
  rewrite <- R2. unfold frame_row. cbn [keep_frame fr_cols].
  clear - K3. induction (fr_cols f) as [|nc cs IH]; [reflexivity|]. cbn [map res_map snd fst]. rewrite (K3 nc (or_introl eq_refl)).
  rewrite IH by (intros; apply K3; right; assumption). reflexivity.
Qed.

(** the mask of a labelled frame without its last row *)
Definition mask (d : list Z * list (Qc * list Z)) : list bool := map (fun i => negb (Z.eqb i (last (fst d) 0%Z))) (firstn (length (snd d) - 1) (fst d)).
Lemma mask_length d : one_label_per_row d -> length (mask d) = length (snd d) - 1.
Proof. unfold one_label_per_row, mask. intros H. rewrite map_length, firstn_length. lia. Qed.
Lemma last_rev {A} (l : list A) z r d : rev l = z :: r -> last l d = z /\ l = rev r ++ [z].
Proof. intros H. assert (E : l = rev r ++ [z]) by (rewrite <- (rev_involutive l), H; reflexivity). split; [|exact E]. rewrite E. apply last_last. Qed.

Lemma drop_tail_labelled d cs : one_label_per_row d -> Forall (fun nc => length (snd nc) = length (snd d)) cs ->
  fr_cols (drop_tail (MkFrame (fst d) cs)) = map (fun nc => (fst nc, keep_rows (mask d) (firstn (length (snd d) - 1) (snd nc)))) cs
  /\ length (fr_index (drop_tail (MkFrame (fst d) cs))) = length (keep_rows (mask d) (mask d)).
Proof.
  destruct d as [ids r]; unfold one_label_per_row, mask; cbn [fst snd]. intros H1 H2. unfold drop_tail. cbn [fr_index fr_cols].
  destruct (rev ids) as [|z rr] eqn:E.
  - assert (ids = []) by (rewrite <- (rev_involutive ids), E; reflexivity). subst ids. cbn [length] in H1. rewrite <- H1 in *. cbn [Nat.sub firstn map fr_cols fr_index].
    split; [|reflexivity]. rewrite Forall_forall in H2. induction cs as [|[n c] cs IH]; [reflexivity|]. cbn [map fst snd].
    rewrite <- IH by (intros nc H; apply H2; right; exact H). specialize (H2 (n, c) (or_introl eq_refl)). cbn [snd] in H2. destruct c; [reflexivity|discriminate].
  - destruct (last_rev ids z rr 0%Z E) as [E1 E2]. rewrite E1. cbn [fr_cols fr_index].
    assert (L0 : length r - 1 = length (rev rr)) by (rewrite <- H1, E2, app_length; simpl; lia).
    assert (F0 : firstn (length r - 1) ids = rev rr).
    { rewrite L0, E2. rewrite firstn_app, Nat.sub_diag, firstn_all. cbn [firstn]. apply app_nil_r. }
    assert (M0 : map (fun i => negb (Z.eqb i z)) ids = map (fun i => negb (Z.eqb i z)) (firstn (length r - 1) ids) ++ [false]).
    { rewrite F0. rewrite E2 at 1. rewrite map_app. cbn [map]. rewrite Z.eqb_refl. reflexivity. }
    split.
    + apply map_ext_in. intros nc Hnc. rewrite Forall_forall in H2. rewrite M0. f_equal.
      rewrite keep_last; [|reflexivity|rewrite map_length, firstn_length, (H2 nc Hnc); lia].
      rewrite map_length, firstn_length. replace (Nat.min (length r - 1) (length ids)) with (length r - 1) by lia. reflexivity.
    + rewrite M0. rewrite E2 at 2. rewrite keep_app by (rewrite map_length, F0; reflexivity). rewrite app_length. unfold keep_rows at 2. cbn [combine filter fst map length].
      rewrite Nat.add_0_r. apply keep_same_length. rewrite map_length, F0. reflexivity.
Qed.

(** a processed labelled frame: the rows of the processed range frame selected by the mask *)
Lemma process_labelled vars d : good_header vars -> one_label_per_row d -> 
  exists p q, compute_row_delta_single_samples_frame (labelled vars d) vars (shifted_names vars) = Ok p
    /\ compute_row_delta_single_samples_frame (frame_of vars (snd d)) vars (shifted_names vars) = Ok q
    /\ fr_cols p = map (fun nc => (fst nc, keep_rows (mask d) (snd nc))) (fr_cols q)
    /\ length (fr_index p) = length (keep_rows (mask d) (mask d))
    /\ col_names q = "Time" :: vars ++ shifted_names vars
    /\ length (fr_index q) = length (snd d) - 1
    /\ Forall (fun nc => length (snd nc) = length (snd d) - 1) (fr_cols q).
Proof.
  intros Hh Hd. set (n := length (snd d)). unfold frame_of.
  set (t0 := map (fun o => Some (fst o)) (snd d)).
  set (rest := mapi (fun j v => (v, map (fun o => option_map Qc_of_Z (nth_error (snd o) j)) (snd d))) vars).
  assert (Ev : map fst rest = vars) by (unfold rest; apply (map_fst_mapi (fun j v => map (fun o => option_map Qc_of_Z (nth_error (snd o) j)) (snd d)))).
  assert (Lt : length t0 = n) by apply map_length.
  assert (Lr : Forall (fun nc => length (snd nc) = n) rest).
  { apply Forall_forall. intros nc H. apply In_nth_error in H as [k H]. unfold rest in H. rewrite nth_error_mapi in H. destruct (nth_error vars k); [|discriminate]. injection H as <-. cbn [snd]. apply map_length. }
  assert (Hh' : good_header (map fst rest)) by (rewrite Ev; exact Hh).
  assert (N1 : NoDup ("Time" :: map fst rest)) by (apply (NoDup_app_l ("Time" :: map fst rest) (shifted_names (map fst rest))), Hh').
  pose proof (process_frame n t0 rest Hh' Lt Lr) as PF. rewrite Ev in PF.
  eexists _, _. split; [|split; [exact PF|]].
  - unfold labelled, frame_of. fold t0 rest. unfold compute_row_delta_single_samples_frame. cbn [fr_cols fr_index].
    rewrite <- Ev at 1. rewrite (select_cols_exact "Time" (diff_shift t0) rest N1). cbn [bind]. rewrite <- Ev, combine_shift, fold_assign; [reflexivity|].
    rewrite map_map. cbn [map fst app]. unfold good_header, shifted_names in Hh'. rewrite map_map in Hh'. exact Hh'.
  - destruct (processed_shape n t0 rest Lt Lr) as [S1 [S2 S3]].
    edestruct (drop_tail_labelled d) as [D1 D2]; [exact Hd| |split; [etransitivity; [apply D1|]|split; [apply D2|]]].
    + cbn [app]. constructor; [cbn [snd]; rewrite diff_shift_length; exact Lt|]. apply Forall_app. split; [exact Lr|].
      apply Forall_forall. intros nc H. apply in_map_iff in H as [mc [<- H]]. cbn [snd]. rewrite map_length, shift_up_length.
      rewrite Forall_forall in Lr. apply Lr, H.
    + unfold processed. cbn [app map fst snd fr_cols]. rewrite !map_app, !map_map. reflexivity.
    + rewrite S2, Ev. auto.
Qed.

Lemma kept_steps_mask d : one_label_per_row d -> kept_steps d = keep_rows (mask d) (steps (snd d)).
Proof.
  intros H. unfold kept_steps, keep_rows, mask.
  assert (L1 : length (steps (snd d)) = length (snd d) - 1) by apply steps_length.
  generalize (steps (snd d)) L1. unfold one_label_per_row in H. rewrite <- H. generalize (last (fst d) 0%Z). generalize (fst d). clear. intros ids z l.
  assert (Q : forall (ib : list Z) (l : list ((Qc * list Z) * (Qc * list Z))) k, length l = k -> combine ib l = combine (firstn k ib) l).
  { clear. induction ib as [|i ib IH]; intros l' [|k] Hk; destruct l' as [|x l']; try discriminate; try reflexivity.
    cbn [firstn combine]. f_equal. apply IH. simpl in Hk. lia. }
  intros Hl. rewrite (Q ids l _ Hl). generalize (firstn (length ids - 1) ids). clear.
  intros a. revert l. induction a as [|i a IH]; intros [|x l]; try reflexivity. cbn [map combine filter fst].
  destruct (Z.eqb i z); cbn [negb map snd]; rewrite IH; reflexivity.
Qed.
