(** C96: colliding names. *)
From Verif Require Import Base Lib LibQc ModelStructure ModelGraph ModelCims ModelData ModelParams SpecStructure SpecGraph SpecComb SpecParams SpecData
  SpecInvariance SpecNames
  ProofStructure ProofGraph ProofComb ProofParams ProofParams2 ProofParams3 ProofIndex ProofData ProofData2 ProofData3 ProofInvariance ProofLabels2.

(** ** columns as functions of the steps *)
Lemma first_cells {A} (f : Qc * list Z -> A) (r : raw) : firstn (length r - 1) (map f r) = map (fun ab => f (fst ab)) (steps r).
Proof.
  induction r as [|a r IH]; [reflexivity|]. destruct r as [|b r]; [reflexivity|]. change (steps (a :: b :: r)) with ((a, b) :: steps (b :: r)).
  replace (length (a :: b :: r) - 1) with (S (length (b :: r) - 1)) by (cbn [length]; lia).
  change (map f (a :: b :: r)) with (f a :: map f (b :: r)). rewrite firstn_cons, IH. reflexivity.
Qed.
Lemma next_cells (f : Qc * list Z -> option Qc) (r : raw) :
  firstn (length r - 1) (map fillna0_int (shift_up (map f r))) = map (fun ab => fillna0_int (f (snd ab))) (steps r).
Proof.
  destruct r as [|a r]; [reflexivity|]. cbn [map shift_up]. rewrite map_app, map_map. cbn [length]. rewrite Nat.sub_succ, Nat.sub_0_r.
  rewrite firstn_app, map_length, Nat.sub_diag. cbn [firstn]. rewrite app_nil_r. rewrite firstn_all2 by (rewrite map_length; lia).
  unfold steps. cbn [tl]. revert a. induction r as [|b r IH]; intros a; [reflexivity|]. cbn [combine map snd]. f_equal. apply IH.
Qed.
Lemma time_cells (r : raw) : firstn (length r - 1) (diff_shift (map (fun o => Some (fst o)) r)) = map (fun ab => Some (fst (snd ab) - fst (fst ab))%Qc) (steps r).
Proof.
  induction r as [|a r IH]; [reflexivity|]. destruct r as [|b r]; [reflexivity|]. change (steps (a :: b :: r)) with ((a, b) :: steps (b :: r)).
  replace (length (a :: b :: r) - 1) with (S (length (b :: r) - 1)) by (cbn [length]; lia).
  change (map (fun o => Some (fst o)) (a :: b :: r)) with (Some (fst a) :: map (fun o => Some (fst o)) (b :: r)).
  change (diff_shift (Some (fst a) :: map (fun o => Some (fst o)) (b :: r))) with (cell_sub (Some (fst b)) (Some (fst a)) :: diff_shift (map (fun o => Some (fst o)) (b :: r))).
  rewrite firstn_cons, IH. reflexivity.
Qed.

(** ** assign *)
Lemma assign_assoc cs n v h : assoc_col (assign_col cs n v) h = if String.eqb n h then Some v else assoc_col cs h.
Proof.
  induction cs as [|[x c] cs IH]; cbn [assign_col assoc_col].
  - destruct (String.eqb n h); reflexivity.
  - destruct (String.eqb_spec x n) as [->|Hn]; cbn [assoc_col].
    + destruct (String.eqb n h); reflexivity.
    + rewrite IH. destruct (String.eqb_spec x h) as [->|]; [|reflexivity]. destruct (String.eqb_spec n h) as [->|]; [contradiction|reflexivity].
Qed.
Lemma fold_assoc nvs : forall cs h, NoDup (map fst nvs) ->
  assoc_col (fold_left (fun cs nv => assign_col cs (fst nv) (snd nv)) nvs cs) h = match assoc_col nvs h with Some c => Some c | None => assoc_col cs h end.
Proof.
  induction nvs as [|[n v] nvs IH]; intros cs h H; [reflexivity|]. cbn [fold_left fst snd map] in *. inversion H as [|? ? N1 N2]; subst.
  rewrite IH by exact N2. cbn [assoc_col]. destruct (String.eqb_spec n h) as [->|Hn].
  - rewrite (assoc_col_none nvs h N1), assign_assoc, String.eqb_refl. reflexivity.
  - rewrite assign_assoc. destruct (String.eqb_spec n h); [contradiction|reflexivity].
Qed.
Lemma assign_lens k cs n v : length v = k -> Forall (fun nc : string * list (option Qc) => length (snd nc) = k) cs -> Forall (fun nc => length (snd nc) = k) (assign_col cs n v).
Proof.
  intros Hv. induction cs as [|[x c] cs IH]; intros H; cbn [assign_col]; [repeat constructor; exact Hv|]. inversion H; subst.
  destruct (String.eqb x n); constructor; auto.
Qed.
Lemma fold_lens k nvs : forall (cs : list (string * list (option Qc))), Forall (fun nc : string * list (option Qc) => length (snd nc) = k) nvs -> Forall (fun nc : string * list (option Qc) => length (snd nc) = k) cs ->
  Forall (fun nc : string * list (option Qc) => length (snd nc) = k) (fold_left (fun cs nv => assign_col cs (fst nv) (snd nv)) nvs cs).
Proof. induction nvs as [|[n v] nvs IH]; intros cs H1 H2; [exact H2|]. inversion H1 as [|? ? K1 K2]; subst. cbn [fold_left fst snd] in *. apply IH; [exact K2|]. apply assign_lens; [reflexivity|exact H2]. Qed.

Lemma assoc_none_iff {A} (cs : list (string * A)) h : assoc_col cs h = None -> ~ In h (map fst cs).
Proof.
  induction cs as [|[x c] cs IH]; cbn [assoc_col map fst In]; [tauto|]. destruct (String.eqb_spec x h) as [->|Hn]; [discriminate|]. intros H [E|K]; [contradiction|exact (IH H K)].
Qed.
Lemma assoc_In {A} (cs : list (string * A)) h c : assoc_col cs h = Some c -> In h (map fst cs).
Proof.
  induction cs as [|[x d] cs IH]; cbn [assoc_col map fst In]; [discriminate|]. destruct (String.eqb_spec x h) as [->|Hn]; [left; reflexivity|]. intros H; right; exact (IH H).
Qed.

(** ** one frame *)
Section frame.
Variables (vars : list label).
Hypothesis Hn : NoDup ("Time" :: vars).

Definition source (w : label) : option nat := position (fun v => String.eqb (String.append v "S") w) vars.
Definition var_cell (j : nat) (o : Qc * list Z) : option Qc := option_map Qc_of_Z (nth_error (snd o) j).
Definition next_cell (j : nat) (ab : (Qc * list Z) * (Qc * list Z)) : option Qc := fillna0_int (var_cell j (snd ab)).
(** cell of the processed frame's column [w], the variable number j *)
Definition cur_cell (j : nat) (w : label) (ab : (Qc * list Z) * (Qc * list Z)) : option Qc :=
  match source w with Some i => next_cell i ab | None => var_cell j (fst ab) end.

Lemma rest_assoc r j w : nth_error vars j = Some w ->
  assoc_col (mapi (fun j v => (v, map (fun o => option_map Qc_of_Z (nth_error (snd o) j)) r)) vars) w = Some (map (var_cell j) r).
Proof.
  intros H. apply (assoc_col_nth _ w _ j).
  - rewrite (map_fst_mapi (fun j v => map (fun o => option_map Qc_of_Z (nth_error (snd o) j)) r)). inversion Hn; assumption.
  - rewrite nth_error_mapi, H. reflexivity.
Qed.
Lemma shift_assoc_pos (r : raw) h : assoc_col (map (fun nc : string * list (option Qc) => (String.append (fst nc) "S", map fillna0_int (shift_up (snd nc))))
      (mapi (fun j v => (v, map (fun o => option_map Qc_of_Z (nth_error (snd o) j)) r)) vars)) h
  = match source h with Some i => Some (map fillna0_int (shift_up (map (var_cell i) r))) | None => None end.
Proof.
  unfold source. clear Hn.
  assert (Q : forall k vs, assoc_col (map (fun nc : string * list (option Qc) => (String.append (fst nc) "S", map fillna0_int (shift_up (snd nc))))
      (mapi_from k (fun j v => (v, map (fun o => option_map Qc_of_Z (nth_error (snd o) j)) r)) vs)) h
    = match position (fun v => String.eqb (String.append v "S") h) vs with Some i => Some (map fillna0_int (shift_up (map (var_cell (k + i)) r))) | None => None end).
  { intros k vs. revert k. induction vs as [|v vs IH]; intros k; [reflexivity|]. cbn [mapi_from map assoc_col fst snd position].
    destruct (String.eqb (String.append v "S") h); [rewrite Nat.add_0_r; reflexivity|]. rewrite IH.
    destruct (position (fun v => String.eqb (String.append v "S") h) vs) as [i|]; cbn [option_map]; [|reflexivity]. rewrite Nat.add_succ_r. reflexivity. }
  exact (Q 0 vars).
Qed.
Lemma position_some p (l : list label) i : position p l = Some i -> exists v, nth_error l i = Some v /\ p v = true.
Proof.
  revert i. induction l as [|a l IH]; intros i H; [discriminate|]. cbn [position] in H. destruct (p a) eqn:E; [injection H as <-; exists a; auto|].
  destruct (position p l) as [k|]; [|discriminate]. cbn [option_map] in H. injection H as <-. destruct (IH k eq_refl) as [v K]. exists v. exact K.
Qed.
Lemma position_none p (l : list label) : position p l = None <-> forall v, In v l -> p v = false.
Proof.
  induction l as [|a l IH]; cbn [position In]; [split; [intros _ v []|reflexivity]|]. destruct (p a) eqn:E.
  - split; [discriminate|]. intros H. rewrite (H a (or_introl eq_refl)) in E. discriminate.
  - split.
    + intros H. destruct (position p l); [discriminate|]. intros v [<-|Hv]; [exact E|]. apply (proj1 IH eq_refl v Hv).
    + intros H. rewrite (proj2 IH) by (intros v Hv; apply H; right; exact Hv). reflexivity.
Qed.
Lemma source_time : source "Time" = None.
Proof.
  unfold source. apply position_none. intros v _. apply String.eqb_neq. intros E.
  assert (Q : forall v, String.append v "S" <> "Time").
  { clear. intros v H. destruct v as [|a [|b [|c [|d v]]]]; cbn in H; try discriminate. injection H as _ _ _ _ H. destruct v; discriminate. }
  exact (Q v E).
Qed.
Lemma source_shifted i v : nth_error vars i = Some v -> source (String.append v "S") = Some i.
Proof.
  intros H. unfold source. assert (N : NoDup vars) by (inversion Hn; assumption). clear Hn. revert i H. induction vars as [|a l IH]; intros i H; [destruct i; discriminate|].
  inversion N as [|? ? N1 N2]; subst. cbn [position]. destruct i as [|i]; cbn [nth_error] in H.
  - injection H as <-. rewrite String.eqb_refl. reflexivity.
  - destruct (String.eqb_spec (String.append a "S") (String.append v "S")) as [E|_].
    + apply append_S_inj in E. subst a. exfalso. apply N1, (nth_error_In _ _ H).
    + rewrite (IH N2 i H). reflexivity.
Qed.

Lemma process_clash (r : raw) : exists p, compute_row_delta_single_samples_frame (frame_of vars r) vars (shifted_names vars) = Ok p
  /\ length (fr_index p) = length r - 1
  /\ col_of "Time" p = map (fun ab => Some (fst (snd ab) - fst (fst ab))%Qc) (steps r)
  /\ (forall j w, nth_error vars j = Some w -> col_of w p = map (cur_cell j w) (steps r))
  /\ (forall j w, nth_error vars j = Some w -> col_of (String.append w "S") p = map (next_cell j) (steps r))
  /\ (forall h, In h ("Time" :: vars ++ shifted_names vars) -> In h (col_names p)).
Proof.
  unfold frame_of. set (t0 := map (fun o => Some (fst o)) r). set (n := length r).
  set (rest := mapi (fun j v => (v, map (fun o => option_map Qc_of_Z (nth_error (snd o) j)) r)) vars).
  assert (Ev : map fst rest = vars) by (unfold rest; apply (map_fst_mapi (fun j v => map (fun o => option_map Qc_of_Z (nth_error (snd o) j)) r))).
  assert (Lt : length t0 = n) by apply map_length.
  assert (Lr : Forall (fun nc => length (snd nc) = n) rest).
  { apply Forall_forall. intros nc H. apply In_nth_error in H as [k H]. unfold rest in H. rewrite nth_error_mapi in H. destruct (nth_error vars k); [|discriminate]. injection H as <-. cbn [snd]. apply map_length. }
  assert (N1 : NoDup ("Time" :: map fst rest)) by (rewrite Ev; exact Hn).
  set (nvs := map (fun nc : string * list (option Qc) => (String.append (fst nc) "S", map fillna0_int (shift_up (snd nc)))) rest).
  assert (NV : NoDup (map fst nvs)).
  { unfold nvs. rewrite map_map. cbn [fst]. rewrite <- (map_map fst (fun s => String.append s "S")), Ev. apply FinFun.Injective_map_NoDup; [|inversion Hn; assumption].
    intros a b. apply append_S_inj. }
  set (cs2 := fold_left (fun cs nv => assign_col cs (fst nv) (snd nv)) nvs (("Time", diff_shift t0) :: rest)).
  assert (L2 : Forall (fun nc => length (snd nc) = n) cs2).
  { unfold cs2. apply fold_lens.
    - apply Forall_forall. intros nc H. apply in_map_iff in H as [mc [<- H]]. cbn [snd]. rewrite map_length, shift_up_length. rewrite Forall_forall in Lr. apply Lr, H.
    - constructor; [cbn [snd]; rewrite diff_shift_length; exact Lt|exact Lr]. }
  assert (E : compute_row_delta_single_samples_frame (MkFrame (map Z.of_nat (seq 0 n)) (("Time", t0) :: rest)) vars (shifted_names vars)
     = Ok (MkFrame (map Z.of_nat (seq 0 (n - 1))) (map (fun nc => (fst nc, firstn (n - 1) (snd nc))) cs2))).
  { unfold compute_row_delta_single_samples_frame. cbn [fr_cols fr_index]. rewrite <- Ev at 1. rewrite (select_cols_exact "Time" (diff_shift t0) rest N1). cbn [bind].
    rewrite <- Ev at 1. rewrite combine_shift. fold nvs. fold cs2. rewrite drop_tail_range by exact L2. reflexivity. }
  eexists. split; [exact E|]. cbn [fr_index]. split; [rewrite map_length, seq_length; reflexivity|].
  assert (AC : forall h, assoc_col cs2 h = match source h with Some i => Some (map fillna0_int (shift_up (map (var_cell i) r)))
                                            | None => assoc_col (("Time", diff_shift t0) :: rest) h end).
  { intros h. unfold cs2. rewrite fold_assoc by exact NV. unfold nvs, rest. rewrite shift_assoc_pos. destruct (source h); reflexivity. }
  assert (AW : forall j w, nth_error vars j = Some w -> assoc_col (("Time", diff_shift t0) :: rest) w = Some (map (var_cell j) r)).
  { intros j w Hw. cbn [assoc_col]. destruct (String.eqb_spec "Time" w) as [<-|_]; [|apply rest_assoc, Hw]. inversion Hn; subst. exfalso. apply H1, (nth_error_In _ _ Hw). }
  unfold col_of at 1. cbn [fr_cols]. rewrite assoc_col_map, AC, source_time. cbn [assoc_col String.eqb Ascii.eqb Bool.eqb option_map]. 
  split; [apply time_cells|].
  assert (CW : forall h c, assoc_col cs2 h = Some c -> col_of h (MkFrame (map Z.of_nat (seq 0 (n - 1))) (map (fun nc => (fst nc, firstn (n - 1) (snd nc))) cs2)) = firstn (n - 1) c).
  { intros h c Hc. unfold col_of. cbn [fr_cols]. rewrite assoc_col_map, Hc. reflexivity. }
  split; [|split].
  - intros j w Hw. unfold cur_cell. pose proof (AC w) as A. destruct (source w) as [i|].
    + rewrite (CW _ _ A). apply (next_cells (var_cell i)).
    + rewrite (AW j w Hw) in A. rewrite (CW _ _ A). apply (first_cells (var_cell j)).
  - intros j w Hw. pose proof (AC (String.append w "S")) as A. rewrite (source_shifted j w Hw) in A. rewrite (CW _ _ A). apply (next_cells (var_cell j)).
  - intros h Hh. unfold col_names. cbn [fr_cols]. rewrite map_map. cbn [fst].
    assert (X : exists c, assoc_col cs2 h = Some c).
    { destruct Hh as [<-|Hh]; [exists (diff_shift t0); rewrite AC, source_time; reflexivity|]. apply in_app_or in Hh as [Hh|Hh].
      - apply In_nth_error in Hh as [j Hj]. rewrite AC. destruct (source h); [eauto|]. rewrite (AW j h Hj). eauto.
      - unfold shifted_names in Hh. apply in_map_iff in Hh as [v [<- Hv]]. apply In_nth_error in Hv as [j Hj].
        rewrite AC, (source_shifted j v Hj). eauto. }
    destruct X as [c X]. exact (assoc_In cs2 h c X).
Qed.
End frame.
