(** The parameters computed for an initialised graph are the ones read directly off the rows. *)
From Verif Require Import Base Lib ModelStructure ModelGraph ModelCims ModelData ModelParams
  SpecStructure SpecGraph SpecComb SpecParams ProofStructure ProofGraph ProofComb ProofIndex ProofParams ProofParams2.

Definition exact_cim (t : trajectory) (tot ni : nat) (pis : list nat) (c : nat) (u : list nat) : cim :=
  compute_cim_coefficients (new_cim (exact_times t ni pis c u) (exact_counts t tot ni pis c u)).

Lemma row_shows_firstn n row cols : Forall (fun i => i < n) cols -> forall vals,
  row_shows (firstn n row) cols vals = row_shows row cols vals.
Proof.
  induction 1 as [|i cols Hi Hc IH]; intros [|v vals]; try reflexivity.
  unfold row_shows in *. cbn [combine forallb fst snd]. rewrite nth_error_firstn' by exact Hi. f_equal. apply IH.
Qed.
Lemma dwell_time_firstn times n traj cols vals : Forall (fun i => i < n) cols ->
  dwell_time times (map (firstn n) traj) cols vals = dwell_time times traj cols vals.
Proof.
  intros H. unfold dwell_time. f_equal. revert traj. induction times as [|a times IH]; intros [|r traj]; cbn [map combine filter]; try reflexivity.
  cbn [snd]. rewrite (row_shows_firstn n r cols H). destruct (row_shows r cols vals); cbn [map fst]; rewrite IH; reflexivity.
Qed.

Lemma nth_seq_lt n x : x < n -> nth_error (seq 0 n) x = Some x.
Proof. intros H. rewrite nth_error_seq'. destruct (Nat.ltb_spec x n); [reflexivity|lia]. Qed.

Section node.
Variables (s : structure) (t : trajectory) (g : netgraph) (v : string) (f : string -> bool).
Let tot := total_variables_number s.
Let pars := filter f (nodes_labels s).
Let pis := map (idx_of s) pars.
Let ps := map (val_of s) pars.
Let c := val_of s v.
Let ni := idx_of s v.

Lemma params_exact : wf_structure s -> data_ok s t -> ginv g -> ng_struct g = s ->
  init_fields g = canonical_fields s v f -> In v (nodes_labels s) -> 0 < c -> compat c ps ->
  compute_parameters_for_node t g v
  = Ok (MkSetOfCims (build_p_comb_structure_for_a_node ps) (map (exact_cim t tot ni pis c) (le_enum ps))).
Proof.
  intros Hwf [Hl [Hw [Ho Hd]]] Hg Hs Hi Hv Hc Hp.
  unfold compute_parameters_for_node. unfold init_fields, canonical_fields in Hi.
  injection Hi as I1 I2 I3 I4 I5 I6. rewrite I1, I2, I3, I4, I5, I6. cbn [opt_get bind snd].
  destruct (ginv_lookup g v Hg) as [E1 E2]; [rewrite Hs; exact Hv|]. rewrite E1, E2, Hs. cbn [bind].
  fold pars; fold pis ps c ni tot.
  assert (Hlen : length pis = length ps) by (subst pis ps; rewrite !map_length; reflexivity).
  assert (Hrow : forall row, In row (t_rows t) -> forall l, In l (nodes_labels s) -> idx_of s l < tot
      /\ (exists d, nth_error row (idx_of s l) = Some (Z.of_nat d) /\ d < val_of s l)
      /\ (exists z, nth_error row (idx_of s l + tot) = Some z /\ (z < Z.of_nat (val_of s l))%Z)).
  { intros row Hr l Hin. destruct (wf_lookup s l Hwf Hin) as [i [_ [_ [_ [K1 K2]]]]]. apply (Hd row Hr l _ _ K1 K2). }
  assert (Hpars : forall l, In l pars -> In l (nodes_labels s)) by (intros l K; apply filter_In in K; tauto).
  assert (Hcols : t_rows t <> [] -> Forall (fun i => i < tot) (ni :: pis)).
  { intros Hne. destruct (t_rows t) as [|row rr] eqn:ER; [contradiction|]. constructor; [apply (Hrow row (or_introl eq_refl) v Hv)|].
    apply Forall_forall. intros i Ki. apply in_map_iff in Ki as [l [<- Kl]]. apply (Hrow row (or_introl eq_refl) l (Hpars l Kl)). }
  assert (Hpr : forall row, In row (t_rows t) -> row_in_range row pis ps).
  { intros row Hr. unfold row_in_range. subst pis ps. clear Hlen Hp I1 I2 I3 I4 I5 I6 Hcols. 
    induction pars as [|l r IH]; [constructor|].
    constructor; [apply (Hrow row Hr l), Hpars; left; reflexivity|]. apply IH. intros l' K; apply Hpars; right; exact K. }
  assert (Hnr : forall row, In row (t_rows t) -> row_in_range row (ni :: pis) (c :: ps)).
  { intros row Hr. constructor; [apply (Hrow row Hr v Hv)|apply Hpr, Hr]. }
  destruct (res_time_spec (t_times t) (traj_trajectory t) ni pis c ps Hc Hp Hlen) as [T [T1 [T2 T3]]].
  { unfold traj_trajectory; rewrite map_length; exact Hl. }
  { unfold traj_trajectory. apply Forall_forall. intros row K. apply in_map_iff in K as [r [<- K]]. specialize (Hnr r K).
    assert (Hne : t_rows t <> []) by (intros Q; rewrite Q in K; destruct K). specialize (Hcols Hne). rewrite Ho, Nat.add_sub. fold tot. clear - Hnr Hcols. unfold row_in_range in *.
    revert Hcols. induction Hnr as [|i k cols cards [d [D1 D2]] H IH]; intros F; constructor.
    - inversion F; subst. exists d. rewrite nth_error_firstn' by assumption. split; assumption.
    - apply IH. inversion F; assumption. }
  rewrite T1. cbn [bind].
  destruct (transitions_spec (t_rows t) ni tot pis c ps Hc Hp Hlen) as [M [M1 [M2 M3]]].
  { apply Forall_forall. intros row Hr. destruct (Hrow row Hr v Hv) as [_ [_ [z [Z1 Z2]]]]. exists z. split; [exact Z1|].
    intros Hz. constructor; [|apply Hnr, Hr]. exists (Z.to_nat z). fold c in Z2. rewrite Z2Nat.id by exact Hz.
    split; [exact Z1|lia]. }
  unfold traj_complete. rewrite Hw. fold tot. rewrite M1. cbn [bind]. do 2 f_equal.
  assert (ET : T = map (exact_times t ni pis c) (le_enum ps)).
  { apply list_ext; intros k. rewrite map_nth_error_iff. destruct (nth_error (le_enum ps) k) as [u|] eqn:Eu; cbn [option_map].
    - apply le_enum_nth in Eu as [U1 U2]. destruct (T3 u 0 U1 Hc) as [row [R1 [R2 _]]]. rewrite <- U2, R1. f_equal.
      apply list_ext; intros x. unfold exact_times. rewrite map_nth_error_iff.
      destruct (Nat.ltb_spec x c) as [Kx|Kx].
      + rewrite nth_seq_lt by exact Kx. cbn [option_map]. destruct (T3 u x U1 Kx) as [row' [R1' [_ R3]]].
        rewrite R1 in R1'; injection R1' as <-. rewrite R3. f_equal. unfold traj_trajectory.
        rewrite Ho, Nat.add_sub. destruct (t_rows t) eqn:ER; [reflexivity|]. apply dwell_time_firstn, Hcols. discriminate.
      + replace (nth_error (seq 0 c) x) with (@None nat) by (symmetry; apply nth_error_None; rewrite seq_length; exact Kx).
        apply nth_error_None. lia.
    - apply nth_error_None in Eu. rewrite le_enum_length in Eu. apply nth_error_None. lia. }
  assert (EM : M = map (exact_counts t tot ni pis c) (le_enum ps)).
  { apply list_ext; intros k. rewrite map_nth_error_iff. destruct (nth_error (le_enum ps) k) as [u|] eqn:Eu; cbn [option_map].
    - apply le_enum_nth in Eu as [U1 U2]. destruct (M3 u 0 U1 Hc) as [mat [_ [R1 [R2 _]]]]. rewrite <- U2, R1. f_equal.
      apply list_ext; intros x. unfold exact_counts. rewrite map_nth_error_iff.
      destruct (Nat.ltb_spec x c) as [Kx|Kx].
      + rewrite nth_seq_lt by exact Kx. cbn [option_map]. destruct (M3 u x U1 Kx) as [mat' [row [R1' [_ [R3 [R4 [R5 R6]]]]]]].
        rewrite R1 in R1'; injection R1' as <-. rewrite R3. f_equal.
        apply list_ext; intros x'. rewrite map_nth_error_iff. destruct (Nat.ltb_spec x' c) as [Kx'|Kx'].
        * rewrite nth_seq_lt by exact Kx'. cbn [option_map]. destruct (Nat.eqb_spec x' x) as [->|Hn].
          -- rewrite R6. reflexivity.
          -- rewrite (R5 x' Kx' Hn). reflexivity.
        * replace (nth_error (seq 0 c) x') with (@None nat) by (symmetry; apply nth_error_None; rewrite seq_length; exact Kx').
          apply nth_error_None. lia.
      + replace (nth_error (seq 0 c) x) with (@None nat) by (symmetry; apply nth_error_None; rewrite seq_length; exact Kx).
        apply nth_error_None. lia.
    - apply nth_error_None in Eu. rewrite le_enum_length in Eu. apply nth_error_None. lia. }
  rewrite ET, EM. unfold build_cims. clear. induction (le_enum ps) as [|u r IH]; cbn [map combine]; [reflexivity|].
  rewrite IH. reflexivity.
Qed.
End node.

Lemma Forall2_lookup {A B} (look : A -> result B) (d : A -> B) l l' : (forall a b, look a = Ok b -> d a = b) ->
  Forall2 (fun a b => look a = Ok b) l l' -> l' = map d l.
Proof. intros H. induction 1 as [|a b l l' H1 H2 IH]; [reflexivity|]. simpl. rewrite IH, (H a b H1). reflexivity. Qed.

Lemma emem_app e a b : emem e (a ++ b) = emem e a || emem e b.
Proof. unfold emem. apply existsb_app. Qed.

Lemma states_number_In s l c : structure_get_states_number s l = Ok c -> In l (nodes_labels s).
Proof.
  unfold structure_get_states_number. intros H. apply bind_ok in H as [pos [H _]].
  apply py_index_ok in H. apply (nth_error_In _ pos), H.
Qed.

Lemma fresh_params s t es v c ni pis ps : wf_structure s -> data_ok s t ->
  edges_within (nodes_labels s) es -> edges_within (nodes_labels s) (edges_list s) ->
  node_view s (es ++ edges_list s) v c ni pis ps -> 0 < c -> compat c ps ->
  exists g, ng_fast_init (fresh_graph s es) v = Ok g
    /\ compute_parameters_for_node t g v
       = Ok (MkSetOfCims (build_p_comb_structure_for_a_node ps) (map (exact_cim t (total_variables_number s) ni pis c) (le_enum ps))).
Proof.
  intros Hwf Hd H1 H2 [V1 [V2 [V3 V4]]] Hc Hp.
  assert (Hv : In v (nodes_labels s)) by (eapply states_number_In, V1).
  destruct (fast_init_fresh s es v Hwf H1 H2 Hv) as [g [G1 [G2 [G3 [G4 G5]]]]].
  exists g. split; [exact G1|].
  assert (Ec : c = val_of s v) by (unfold val_of; rewrite V1; reflexivity).
  assert (Ei : ni = idx_of s v) by (unfold idx_of; rewrite V2; reflexivity).
  rewrite (filter_ext_In _ (fun l => emem (l, v) es || emem (l, v) (edges_list s))) in V3 by (intros; apply emem_app).
  rewrite (filter_ext_In _ (fun l => emem (l, v) es || emem (l, v) (edges_list s))) in V4 by (intros; apply emem_app).
  apply (Forall2_lookup _ (idx_of s)) in V3; [|intros a b K; unfold idx_of; rewrite K; reflexivity].
  apply (Forall2_lookup _ (val_of s)) in V4; [|intros a b K; unfold val_of; rewrite K; reflexivity].
  subst c ni pis ps. apply params_exact; assumption.
Qed.

Lemma fresh_params_entry s t es v c ni pis ps : wf_structure s -> data_ok s t ->
  edges_within (nodes_labels s) es -> edges_within (nodes_labels s) (edges_list s) ->
  node_view s (es ++ edges_list s) v c ni pis ps -> 0 < c -> compat c ps ->
  exists g soc, ng_fast_init (fresh_graph s es) v = Ok g
    /\ compute_parameters_for_node t g v = Ok soc
    /\ length (so_actual_cims soc) = nat_prod ps
    /\ forall u, config_ok ps u -> exists cm, nth_error (so_actual_cims soc) (config_rank ps u) = Some cm
        /\ cm = compute_cim_coefficients (new_cim (exact_times t ni pis c u) (exact_counts t (total_variables_number s) ni pis c u)).
Proof.
  intros Hwf Hd H1 H2 V Hc Hp. destruct (fresh_params s t es v c ni pis ps Hwf Hd H1 H2 V Hc Hp) as [g [G1 G2]].
  eexists g, _. split; [exact G1|]. split; [exact G2|]. cbn [so_actual_cims]. split; [rewrite map_length; apply le_enum_length|].
  intros u Hu. eexists. rewrite map_nth_error_iff, (le_enum_rank ps u Hu). split; reflexivity.
Qed.

Lemma residence_times s t es v c ni pis ps : wf_structure s -> data_ok s t ->
  edges_within (nodes_labels s) es -> edges_within (nodes_labels s) (edges_list s) ->
  node_view s (es ++ edges_list s) v c ni pis ps -> 0 < c -> compat c ps ->
  exists g soc, ng_fast_init (fresh_graph s es) v = Ok g
    /\ compute_parameters_for_node t g v = Ok soc
    /\ length (so_actual_cims soc) = nat_prod ps
    /\ forall u x, config_ok ps u -> x < c ->
        exists cm, nth_error (so_actual_cims soc) (config_rank ps u) = Some cm
          /\ nth_error (c_times cm) x = Some (dwell_time (t_times t) (t_rows t) (ni :: pis) (x :: u)).
Proof.
  intros Hwf Hd H1 H2 V Hc Hp. destruct (fresh_params_entry s t es v c ni pis ps Hwf Hd H1 H2 V Hc Hp) as [g [soc [G1 [G2 [G3 G4]]]]].
  exists g, soc. split; [exact G1|]. split; [exact G2|]. split; [exact G3|]. intros u x Hu Hx.
  destruct (G4 u Hu) as [cm [C1 ->]]. eexists; split; [exact C1|]. cbn [compute_cim_coefficients new_cim c_times].
  unfold exact_times. rewrite map_nth_error_iff, nth_seq_lt by exact Hx. reflexivity.
Qed.

Lemma transition_counts s t es v c ni pis ps : wf_structure s -> data_ok s t ->
  edges_within (nodes_labels s) es -> edges_within (nodes_labels s) (edges_list s) ->
  node_view s (es ++ edges_list s) v c ni pis ps -> 0 < c -> compat c ps ->
  exists g soc, ng_fast_init (fresh_graph s es) v = Ok g
    /\ compute_parameters_for_node t g v = Ok soc
    /\ length (so_actual_cims soc) = nat_prod ps
    /\ forall u x, config_ok ps u -> x < c ->
        exists cm row, nth_error (so_actual_cims soc) (config_rank ps u) = Some cm
          /\ nth_error (c_trans cm) x = Some row /\ length row = c
          /\ (forall x', x' < c -> x' <> x -> nth_error row x' =
               Some (row_count (t_rows t) ((ni + total_variables_number s) :: ni :: pis) (x' :: x :: u)))
          /\ nth_error row x = Some (Zsum (map (fun x' => if x' =? x then 0%Z else
               row_count (t_rows t) ((ni + total_variables_number s) :: ni :: pis) (x' :: x :: u)) (seq 0 c))).
Proof.
  intros Hwf Hd H1 H2 V Hc Hp. destruct (fresh_params_entry s t es v c ni pis ps Hwf Hd H1 H2 V Hc Hp) as [g [soc [G1 [G2 [G3 G4]]]]].
  exists g, soc. split; [exact G1|]. split; [exact G2|]. split; [exact G3|]. intros u x Hu Hx.
  destruct (G4 u Hu) as [cm [C1 ->]]. eexists _, _; split; [exact C1|]. cbn [compute_cim_coefficients new_cim c_trans].
  unfold exact_counts. rewrite map_nth_error_iff, nth_seq_lt by exact Hx. cbn [option_map]. split; [reflexivity|].
  split; [rewrite map_length, seq_length; reflexivity|]. split.
  - intros x' Hx' Hn. rewrite map_nth_error_iff, nth_seq_lt by exact Hx'. cbn [option_map].
    destruct (Nat.eqb_spec x' x); [contradiction|]. reflexivity.
  - rewrite map_nth_error_iff, nth_seq_lt by exact Hx. cbn [option_map]. rewrite Nat.eqb_refl. reflexivity.
Qed.

(** C15 for the parameters of a node *)
Lemma smoothed_cims times counts : forall cm, cm = compute_cim_coefficients (new_cim times counts) ->
  c_times cm = times /\ c_trans cm = counts
  /\ forall x x' T z row, nth_error times x = Some T -> nth_error counts x = Some row -> nth_error row x' = Some z ->
       exists qrow, nth_error (c_cim cm) x = Some qrow
        /\ nth_error qrow x' = Some (if x =? x' then (1 - Qc_of_Z z) / (T + 1) else (Qc_of_Z z + 1) / (T + 1))%Qc.
Proof.
  intros cm ->. split; [reflexivity|]. split; [reflexivity|]. intros x x' T z row H1 H2 H3.
  destruct (cim_entry times counts x x' T z H1) as [q [Q1 Q2]]; [eauto|]. exists q. split; [exact Q1|].
  rewrite Q2. destruct (x =? x'); reflexivity.
Qed.

(** C12: the residence times are right for every data set iff the cardinalities are compatible *)
Lemma seq_columns_range cards : forall pre ds, config_ok cards ds ->
  row_in_range (pre ++ map Z.of_nat ds) (seq (length pre) (length cards)) cards
  /\ select_columns (pre ++ map Z.of_nat ds) (seq (length pre) (length cards)) = Ok (map Z.of_nat ds)
  /\ row_shows (pre ++ map Z.of_nat ds) (seq (length pre) (length cards)) ds = true.
Proof.
  induction cards as [|c cards IH]; intros pre ds H; inversion H as [|d cc ds' cs' Hd Hr]; subst.
  - split; [constructor|]. split; reflexivity.
  - cbn [map length seq]. specialize (IH (pre ++ [Z.of_nat d]) ds' Hr). rewrite <- app_assoc in IH. cbn [app] in IH.
    rewrite app_length in IH. cbn [length] in IH. rewrite Nat.add_1_r in IH. destruct IH as [I1 [I2 I3]].
    assert (N : nth_error (pre ++ Z.of_nat d :: map Z.of_nat ds') (length pre) = Some (Z.of_nat d)).
    { rewrite nth_error_app2 by lia. rewrite Nat.sub_diag. reflexivity. }
    split; [constructor; [exists d; auto|exact I1]|]. split.
    + unfold select_columns in *. cbn [res_map]. unfold nth_res at 1. rewrite N. cbn [bind]. rewrite I2. reflexivity.
    + unfold row_shows in *. cbn [combine forallb fst snd]. rewrite N, Z.eqb_refl. exact I3.
Qed.

Lemma residence_correct_iff c ps : 0 < c -> Forall (fun p => 0 < p) ps ->
  (residence_correct c ps <-> compat c ps).
Proof.
  intros Hc Hp. split.
  - intros H. refine (proj1 (index_agree_iff c ps Hc Hp) _). intros x u Hx Hu.
    assert (Hxu : config_ok (c :: ps) (x :: u)) by (constructor; assumption).
    destruct (seq_columns_range (c :: ps) [] (x :: u) Hxu) as [S1 [S2 S3]].
    cbn [app] in *. set (row0 := map Z.of_nat (x :: u)) in *.
    change (seq (length (@nil Z)) (length (c :: ps))) with (0 :: seq 1 (length ps)) in *.
    destruct (H [1%Qc] [row0] eq_refl) as [T [T1 T2]]; [constructor; [exact S1|constructor]|].
    destruct (T2 u x Hu Hx) as [row [R1 R2]].
    unfold dwell_time in R2. cbn [combine filter snd] in R2. rewrite S3 in R2. cbn [map fst] in R2.
    unfold compute_state_res_time_for_node in T1. destruct (Z.eqb _ 0); [discriminate|].
    cbn [res_map] in T1. unfold build_time_columns_filtering_for_a_node in T1. rewrite S2 in T1. cbn [bind map] in T1.
    apply bind_ok in T1 as [b [B1 T1]]. apply bind_ok in T1 as [rows [B2 B3]].
    set (i := scalar_index row0 (build_time_scalar_indexing_structure_for_a_node c ps)) in *.
    change (i = Z.of_nat (config_rank (c :: ps) (x :: u))).
    destruct (reshape_rows_inv _ _ _ B2) as [_ [Hlb Er]].
    unfold bincount_weights in B1. destruct (existsb _ _) eqn:En in B1; [discriminate|].
    assert (Hpos := proj1 (existsb_neg_iff [i]) En i (or_introl eq_refl)).
    cbn [length Nat.eqb negb] in B1.
    assert (Hm : Z.to_nat (last (build_time_scalar_indexing_structure_for_a_node c ps) 0%Z) = nat_prod (c :: ps)) by apply last_scalar.
    rewrite Hm in B1. apply (f_equal (fun r => match r with Ok a => a | Err _ => [] end)) in B1. cbn beta iota in B1.
    assert (Hbl : nat_prod (c :: ps) <= length b).
    { subst b. rewrite map_length, seq_length. apply bincount_length_ge. }
    assert (HT : T = rows).
    { unfold broadcast_rows in B3. destruct (Nat.eqb_spec (length rows) (nat_prod ps)) as [E|E]; [injection B3 as <-; reflexivity|].
      destruct rows as [|r [|r2 rs]]; try discriminate. exfalso. simpl in E, Hlb.
      assert (0 < nat_prod ps) by (clear - Hp; induction Hp; unfold nat_prod in *; cbn [fold_right]; nia).
      unfold nat_prod in *; cbn [fold_right] in *. nia. }
    subst T.
    assert (Hk : config_rank ps u < length rows) by (apply nth_error_Some; congruence).
    destruct (reshape_nth c b (length rows) (config_rank ps u) x Hx Hk) as [row' [R1' R2']].
    rewrite <- Er in R1'. rewrite R1 in R1'; injection R1' as <-. rewrite R2 in R2'.
    symmetry in R2'. rewrite <- B1 in R2'. rewrite map_nth_error_iff, nth_error_seq' in R2'.
    destruct (_ <? _); [|discriminate]. cbn [option_map combine filter fst snd Nat.add] in R2'.
    destruct (Z.eqb_spec i (Z.of_nat (x + c * config_rank ps u))) as [E|E]; [cbn [config_rank]; exact E|].
    exfalso. clear - R2'. discriminate R2'.
  - intros H times traj Hl Hr. destruct (res_time_spec times traj 0 (seq 1 (length ps)) c ps Hc H) as [T [T1 [_ T3]]];
      [apply seq_length|exact Hl|exact Hr|].
    exists T. split; [exact T1|]. intros u x Hu Hx. destruct (T3 u x Hu Hx) as [row [R1 [_ R3]]]. eauto.
Qed.
