(** CIM row sums (C15), permutation invariance (C14). *)
From Verif Require Import Base Lib ModelStructure ModelGraph ModelCims ModelData ModelParams
  SpecComb SpecParams ProofComb ProofIndex ProofParams.

Lemma Qcsum_mapi_from (s : nat) (i : nat) T row : forall z,
  s <= i -> nth_error row (i - s) = Some z ->
  Qcsum (map (fun v => ((v + 1) / (T + 1))%Qc) (mapi_from s (fun j v => if i =? j then (- v)%Qc else v) (map Qc_of_Z row)))
  = (((Qc_of_Z (Zsum (mapi_from s (fun j v => if i =? j then 0%Z else v) row)) - Qc_of_Z z + Qc_of_Z (Z.of_nat (length row))))  / (T + 1))%Qc.
Proof.
  assert (NoI : forall row s, i < s ->
     Qcsum (map (fun v => ((v + 1) / (T + 1))%Qc) (mapi_from s (fun j v => if i =? j then (- v)%Qc else v) (map Qc_of_Z row)))
     = ((Qc_of_Z (Zsum (mapi_from s (fun j v => if i =? j then 0%Z else v) row)) + Qc_of_Z (Z.of_nat (length row))) / (T + 1))%Qc).
  { clear. induction row as [|a row IH]; intros s Hs; cbn [map mapi_from length].
    - unfold Qcsum, Zsum; cbn [fold_right]. change (Qc_of_Z 0) with 0%Qc. change (Z.of_nat 0) with 0%Z.
      change (Qc_of_Z 0) with 0%Qc. unfold Qcdiv. ring.
    - rewrite Qcsum_cons, IH by lia. destruct (Nat.eqb_spec i s); [lia|].
      unfold Zsum; cbn [fold_right]. fold (Zsum (mapi_from (S s) (fun j v => if i =? j then 0%Z else v) row)).
      rewrite Qc_of_Z_add, Nat2Z.inj_succ. unfold Z.succ. rewrite (Qc_of_Z_add (Z.of_nat (length row)) 1).
      change (Qc_of_Z 1) with 1%Qc. unfold Qcdiv. ring. }
  revert s; induction row as [|a row IH]; intros s z Hs Hn; [destruct (i - s); discriminate|].
  cbn [map mapi_from length]. rewrite Qcsum_cons.
  unfold Zsum; cbn [fold_right]. fold (Zsum (mapi_from (S s) (fun j v => if i =? j then 0%Z else v) row)).
  rewrite Nat2Z.inj_succ. unfold Z.succ. rewrite Qc_of_Z_add, (Qc_of_Z_add (Z.of_nat (length row)) 1).
  change (Qc_of_Z 1) with 1%Qc.
  destruct (Nat.eqb_spec i s) as [->|Hne].
  - rewrite Nat.sub_diag in Hn. cbn in Hn. injection Hn as <-. rewrite NoI by lia.
    change (Qc_of_Z 0) with 0%Qc. unfold Qcdiv. ring.
  - replace (i - s) with (S (i - S s)) in Hn by lia. cbn in Hn. rewrite (IH (S s) z) by (lia || assumption).
    unfold Qcdiv. ring.
Qed.

Lemma cim_row t m i T row : nth_error t i = Some T -> nth_error m i = Some row ->
  nth_error (c_cim (compute_cim_coefficients (new_cim t m))) i
  = Some (map (fun v => ((v + 1) / (T + 1))%Qc) (mapi (fun j v => if i =? j then (- v)%Qc else v) (map Qc_of_Z row))).
Proof.
  intros Ht Hr. unfold compute_cim_coefficients, new_cim; cbn [c_cim c_times].
  assert (Qg : forall A B (a : list A) (b : list B) n x1 x2, nth_error a n = Some x1 -> nth_error b n = Some x2 ->
        nth_error (combine a b) n = Some (x1, x2)).
  { intros A B; induction a as [|p a IHa]; intros [|q b] [|n] x1 x2 A1 A2; simpl in *; try discriminate; [congruence|]. apply IHa; assumption. }
  rewrite map_nth_error_iff. erewrite Qg; [|unfold negate_diagonal; rewrite nth_error_mapi, map_nth_error_iff, Hr; reflexivity|exact Ht].
  reflexivity.
Qed.

Lemma cim_row_sum t m i T row z : nth_error t i = Some T -> nth_error m i = Some row -> nth_error row i = Some z ->
  z = Zsum (mapi (fun j v => if i =? j then 0%Z else v) row) ->
  exists qrow, nth_error (c_cim (compute_cim_coefficients (new_cim t m))) i = Some qrow
    /\ Qcsum qrow = (Qc_of_Z (Z.of_nat (length row)) / (T + 1))%Qc.
Proof.
  intros Ht Hr Hz Hd. eexists. split; [apply cim_row; eassumption|]. unfold mapi at 1.
  rewrite (Qcsum_mapi_from 0 i T row z) by (rewrite ?Nat.sub_0_r; lia || assumption).
  fold (mapi (fun j v => if i =? j then 0%Z else v) row). rewrite <- Hd. f_equal. ring.
Qed.

Lemma Qc_of_Z_pos z : (0 < z)%Z -> (0 < Qc_of_Z z)%Qc.
Proof.
  intros H. unfold Qclt, Qc_of_Z, Q2Qc; cbn [this]. rewrite !Qred_correct. unfold Qlt, inject_Z; simpl. lia.
Qed.
Lemma Qc_of_Z_nonneg z : (0 <= z)%Z -> (0 <= Qc_of_Z z)%Qc.
Proof.
  intros H. unfold Qcle, Qc_of_Z, Q2Qc; cbn [this]. rewrite !Qred_correct. unfold Qle, inject_Z; simpl. lia.
Qed.
Lemma Qc_plus1_pos T : (0 <= T)%Qc -> (0 < T + 1)%Qc.
Proof.
  intros H. apply Qclt_le_trans with (y := (0 + 1)%Qc).
  - reflexivity.
  - apply Qcplus_le_compat; [exact H|apply Qcle_refl].
Qed.
Lemma Qcdiv_pos a b : (0 < a)%Qc -> (0 < b)%Qc -> (0 < a / b)%Qc.
Proof.
  intros Ha Hb. assert (Hb' : b <> 0%Qc) by (intros ->; apply (Qclt_not_eq _ _ Hb); reflexivity).
  destruct (Qclt_le_dec 0 (a / b)) as [K|K]; [exact K|].
  exfalso. pose proof (Qcmult_le_compat_r _ _ b K (Qclt_le_weak _ _ Hb)) as Q.
  rewrite Qcmult_0_l in Q. unfold Qcdiv in Q. rewrite <- Qcmult_assoc, (Qcmult_comm (/ b)%Qc), Qcmult_inv_r, Qcmult_1_r in Q by exact Hb'.
  apply (Qcle_not_lt _ _ Q Ha).
Qed.
Lemma Qc_pos_neq a : (0 < a)%Qc -> a <> 0%Qc.
Proof. intros H ->. apply (Qclt_not_eq _ _ H). reflexivity. Qed.

Lemma cim_not_generator t m i T row z : nth_error t i = Some T -> (0 <= T)%Qc -> nth_error m i = Some row ->
  nth_error row i = Some z -> z = Zsum (mapi (fun j v => if i =? j then 0%Z else v) row) ->
  exists qrow, nth_error (c_cim (compute_cim_coefficients (new_cim t m))) i = Some qrow
    /\ Qcsum qrow <> 0%Qc
    /\ (z = 0%Z -> exists d, nth_error qrow i = Some d /\ (0 < d)%Qc).
Proof.
  intros Ht HT Hr Hz Hd. destruct (cim_row_sum t m i T row z Ht Hr Hz Hd) as [qrow [E1 E2]].
  exists qrow. split; [exact E1|]. split.
  - rewrite E2. apply Qc_pos_neq, Qcdiv_pos; [|apply Qc_plus1_pos, HT]. apply Qc_of_Z_pos.
    assert (i < length row) by (apply nth_error_Some; congruence). lia.
  - intros ->. destruct (cim_entry t m i i T 0%Z Ht) as [q [Q1 Q2]]; [eauto|]. rewrite E1 in Q1; injection Q1 as <-.
    rewrite Nat.eqb_refl in Q2. eexists; split; [exact Q2|]. apply Qcdiv_pos; [reflexivity|apply Qc_plus1_pos, HT].
Qed.

(** ** C14 *)
Lemma Qcsum_perm l l' : Permutation l l' -> Qcsum l = Qcsum l'.
Proof. induction 1; rewrite ?Qcsum_cons; try congruence. ring. Qed.
Lemma filter_perm {A} (f : A -> bool) l l' : Permutation l l' -> Permutation (filter f l) (filter f l').
Proof.
  induction 1; simpl; try (econstructor; eassumption).
  - destruct (f x); [constructor|]; assumption.
  - destruct (f x), (f y); try apply Permutation_refl. constructor.
Qed.
Lemma existsb_perm {A} (f : A -> bool) l l' : Permutation l l' -> existsb f l = existsb f l'.
Proof. induction 1; simpl; try congruence. rewrite !orb_assoc, (orb_comm (f y)). reflexivity. Qed.
Lemma bincount_length_perm idx idx' m : Permutation idx idx' -> bincount_length idx m = bincount_length idx' m.
Proof. induction 1; rewrite ?bincount_length_cons; try congruence. lia. Qed.

Lemma res_map_perm {A B} (f : A -> result B) e0 l l' : (forall a e, f a = Err e -> e = e0) -> Permutation l l' ->
  match res_map f l, res_map f l' with
  | Ok bs, Ok bs' => Permutation bs bs' | Err e, Err e' => e = e' | _, _ => False end.
Proof.
  intros He. induction 1 as [|x l l' H IH|x y l|l l1 l2 H1 IH1 H2 IH2]; cbn [res_map].
  - constructor.
  - destruct (f x); cbn [bind]; [|reflexivity]. destruct (res_map f l), (res_map f l'); cbn [bind]; try contradiction; [constructor; exact IH|exact IH].
  - destruct (f x) eqn:E1, (f y) eqn:E2; cbn [bind].
    + destruct (res_map f l); cbn [bind]; [constructor|reflexivity].
    + reflexivity.
    + reflexivity.
    + apply He in E1, E2. congruence.
  - destruct (res_map f l) eqn:E1, (res_map f l1) eqn:E2, (res_map f l2) eqn:E3; try contradiction; try congruence.
    eapply Permutation_trans; eassumption.
Qed.

Lemma bincount_weights_perm (P P' : list (Z * Qc)) m : Permutation P P' ->
  bincount_weights (map fst P) (map snd P) m = bincount_weights (map fst P') (map snd P') m.
Proof.
  intros H. unfold bincount_weights. rewrite !map_length, !Nat.eqb_refl. cbn [negb].
  rewrite (existsb_perm _ _ _ (Permutation_map fst H)), (bincount_length_perm _ _ m (Permutation_map fst H)).
  destruct (existsb _ _); [reflexivity|]. f_equal. apply map_ext. intros k. apply Qcsum_perm, Permutation_map.
  rewrite !combine_fst_snd. apply filter_perm, H.
Qed.
Lemma bincount_perm idx idx' m : Permutation idx idx' -> bincount idx m = bincount idx' m.
Proof.
  intros H. unfold bincount. rewrite (existsb_perm _ _ _ H), (bincount_length_perm _ _ m H).
  destruct (existsb _ _); [reflexivity|]. f_equal. apply map_ext. intros k. do 1 f_equal.
  apply Permutation_length, filter_perm, H.
Qed.

Lemma nth_res_err_only {A} (l : list A) i e : nth_res l i = Err e -> e = IndexError.
Proof. intros H. apply nth_res_err in H. tauto. Qed.
Lemma select_err row cols e : select_columns row cols = Err e -> e = IndexError.
Proof. intros H. apply res_map_err in H as [a [_ H]]. eapply nth_res_err_only; exact H. Qed.

Lemma res_map_snd {A B C} (f : B -> result C) (P : list (A * B)) :
  res_map (fun p => let* s := f (snd p) in Ok (fst p, s)) P
  = (let* ss := res_map f (map snd P) in Ok (combine (map fst P) ss)).
Proof.
  induction P as [|[a b] P IH]; [reflexivity|]. cbn [map res_map fst snd]. destruct (f b); cbn [bind]; [|reflexivity].
  rewrite IH. destruct (res_map f (map snd P)); reflexivity.
Qed.

Lemma res_time_perm times traj times' traj' cols scal k c :
  length times = length traj -> length times' = length traj' ->
  Permutation (combine times traj) (combine times' traj') ->
  compute_state_res_time_for_node times traj cols scal k c = compute_state_res_time_for_node times' traj' cols scal k c.
Proof.
  intros L L' H. unfold compute_state_res_time_for_node. destruct (Z.eqb _ 0); [reflexivity|].
  set (f := fun row => select_columns row cols).
  assert (He : forall (p : Qc * list Z) e, (let* s := f (snd p) in Ok (fst p, s)) = Err e -> e = IndexError).
  { intros p e E. destruct (f (snd p)) eqn:F; cbn [bind] in E; [discriminate|]. injection E as <-. eapply select_err; exact F. }
  pose proof (res_map_perm _ IndexError _ _ He H) as K. rewrite !res_map_snd in K.
  rewrite !map_snd_combine, !map_fst_combine in K by assumption.
  destruct (res_map f traj) as [ss|e] eqn:E1, (res_map f traj') as [ss'|e'] eqn:E2; cbn [bind] in *; try contradiction; [|congruence].
  assert (Ls : length times = length ss) by (apply res_map_length in E1; congruence).
  assert (Ls' : length times' = length ss') by (apply res_map_length in E2; congruence).
  assert (Q : forall (t : list Qc) s m, length t = length s -> bincount_weights (map (fun row => scalar_index row scal) s) t m
      = bincount_weights (map fst (map (fun p : Qc * list Z => (scalar_index (snd p) scal, fst p)) (combine t s)))
                         (map snd (map (fun p : Qc * list Z => (scalar_index (snd p) scal, fst p)) (combine t s))) m).
  { intros t s m Hl. rewrite !map_map. cbn [fst snd].
    rewrite <- (map_map snd (fun row => scalar_index row scal)), map_snd_combine by exact Hl.
    change (map (fun x : Qc * list Z => fst x) (combine t s)) with (map fst (combine t s)).
    rewrite map_fst_combine by exact Hl. reflexivity. }
  rewrite (Q times ss) by exact Ls. rewrite (Q times' ss') by exact Ls'.
  rewrite (bincount_weights_perm _ _ _ (Permutation_map _ K)). reflexivity.
Qed.

Lemma transitions_perm ni traj traj' width cols scal k c : Permutation traj traj' ->
  compute_state_transitions_for_a_node ni traj width cols scal k c
  = compute_state_transitions_for_a_node ni traj' width cols scal k c.
Proof.
  intros H. unfold compute_state_transitions_for_a_node. destruct (Z.eqb _ 0); [reflexivity|].
  set (g := fun row : list Z => nth_res row (width / 2 + ni)).
  set (pg := fun p : list Z * list Z => let* s := g (snd p) in Ok (fst p, s)).
  assert (He : forall p e, pg p = Err e -> e = IndexError).
  { intros p e E. unfold pg in E. destruct (g (snd p)) eqn:F; cbn [bind] in E; [discriminate|]. injection E as <-. eapply nth_res_err_only; exact F. }
  pose proof (res_map_perm pg IndexError _ _ He (Permutation_map (fun r => (r, r)) H)) as K.
  unfold pg in K. rewrite !res_map_snd, !map_map in K. cbn [fst snd] in K. rewrite !map_id in K.
  destruct (res_map g traj) as [ss|e] eqn:E1, (res_map g traj') as [ss'|e'] eqn:E2; cbn [bind] in *; try contradiction; [|congruence].
  apply (filter_perm (fun rn => (0 <=? snd rn)%Z)) in K. apply (Permutation_map fst) in K.
  set (t1 := map fst (filter (fun rn => (0 <=? snd rn)%Z) (combine traj ss))) in *.
  set (t2 := map fst (filter (fun rn => (0 <=? snd rn)%Z) (combine traj' ss'))) in *.
  assert (He2 : forall row e, (fun row => select_columns row cols) row = Err e -> e = IndexError) by (intros; eapply select_err; eassumption).
  pose proof (res_map_perm _ IndexError _ _ He2 K) as K2.
  destruct (res_map (fun row => select_columns row cols) t1) as [s1|e1], (res_map (fun row => select_columns row cols) t2) as [s2|e2];
    cbn [bind]; try contradiction; [|congruence].
  rewrite (bincount_perm _ _ _ (Permutation_map (fun row => scalar_index row scal) K2)). reflexivity.
Qed.

Lemma combine_map_r {A B C} (f : B -> C) (a : list A) : forall b, combine a (map f b) = map (fun p => (fst p, f (snd p))) (combine a b).
Proof. induction a as [|x a IH]; intros [|y b]; simpl; try reflexivity. f_equal. apply IH. Qed.

Lemma parameters_perm t t' g n : same_rows_up_to_order t t' ->
  compute_parameters_for_node t g n = compute_parameters_for_node t' g n.
Proof.
  intros [L [L' [W [O P]]]]. unfold compute_parameters_for_node.
  assert (PR : Permutation (t_rows t) (t_rows t')).
  { apply (Permutation_map snd) in P. rewrite !map_snd_combine in P by assumption. exact P. }
  assert (PT : Permutation (combine (t_times t) (traj_trajectory t)) (combine (t_times t') (traj_trajectory t'))).
  { unfold traj_trajectory. rewrite !combine_map_r, O. apply Permutation_map, P. }
  destruct (opt_get (ng_pinfo g)) as [pinfo|]; cbn [bind]; [|reflexivity].
  destruct (ng_get_states_number g n) as [c|]; cbn [bind]; [|reflexivity].
  destruct (opt_get (ng_p_combs g)) as [pc|]; cbn [bind]; [|reflexivity].
  destruct (ng_get_node_indx g n) as [ni|]; cbn [bind]; [|reflexivity].
  destruct (opt_get (ng_time_filtering g)) as [tf|]; cbn [bind]; [|reflexivity].
  destruct (opt_get (ng_time_indexing g)) as [ti|]; cbn [bind]; [|reflexivity].
  rewrite (res_time_perm (t_times t) (traj_trajectory t) (t_times t') (traj_trajectory t'));
    [|unfold traj_trajectory; rewrite map_length; assumption..|exact PT].
  unfold traj_complete. rewrite W.
  destruct (compute_state_res_time_for_node _ _ _ _ _ _) as [T|]; cbn [bind]; [|reflexivity].
  destruct (opt_get (ng_trans_filtering g)) as [mf|]; cbn [bind]; [|reflexivity].
  destruct (opt_get (ng_trans_indexing g)) as [mi|]; cbn [bind]; [|reflexivity].
  rewrite (transitions_perm ni (t_rows t) (t_rows t')) by exact PR. reflexivity.
Qed.
