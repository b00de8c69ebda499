(** Consequences of the characterisation of the parameters of any data (C70). *)
From Verif Require Import Base Lib ModelStructure ModelGraph ModelCims ModelData ModelParams
  SpecStructure SpecGraph SpecComb SpecParams SpecAnyData ProofStructure ProofGraph ProofComb ProofIndex ProofParams ProofParams2 ProofParams3 ProofAnyData.

Lemma offset_mono ps : forall w us us', (0 <= w)%Z -> Forall2 Z.le us us' -> (offset w ps us <= offset w ps us')%Z.
Proof.
  induction ps as [|p ps IH]; intros w us us' Hw H; [cbn; lia|]. destruct H as [|a b us us' H1 H2]; [cbn; lia|].
  cbn [offset]. specialize (IH (w * Z.of_nat p)%Z us us' ltac:(nia) H2).
  assert (K : (a * (w * Z.of_nat p) <= b * (w * Z.of_nat p))%Z) by (apply Z.mul_le_mono_nonneg_r; [nia|exact H1]). lia.
Qed.
Lemma offset_nonneg ps : forall w us, (0 <= w)%Z -> Forall (fun u => 0 <= u)%Z us -> (0 <= offset w ps us)%Z.
Proof.
  induction ps as [|p ps IH]; intros w us Hw H; [cbn; lia|]. destruct H as [|a us H1 H2]; [cbn; lia|].
  cbn [offset]. specialize (IH (w * Z.of_nat p)%Z us ltac:(nia) H2).
  assert (K : (0 <= a * (w * Z.of_nat p))%Z) by (apply Z.mul_nonneg_nonneg; [exact H1|nia]). lia.
Qed.
Lemma range_entries row pis ps : row_in_range row pis ps ->
  Forall (fun u => 0 <= u)%Z (map (entry row) pis) /\ Forall2 Z.le (map (entry row) pis) (last_states ps).
Proof.
  unfold row_in_range, last_states. induction 1 as [|i p pis ps [d [H1 H2]] H [IH1 IH2]]; cbn [map]; [split; constructor|].
  unfold entry at 1 3. rewrite (nth_error_nth _ _ 0%Z H1). split; constructor; try assumption; lia.
Qed.
Lemma range_place row ni pis c ps : row_in_range row (ni :: pis) (c :: ps) -> (0 <= place ps ni pis row <= largest_place c ps)%Z.
Proof.
  intro H. apply range_entries in H as [H1 H2]. cbn [map last_states] in *. inversion H1 as [|? ? A1 A2]; subst. inversion H2 as [|? ? ? ? B1 B2]; subst.
  unfold place, largest_place. pose proof (offset_nonneg ps 1 _ ltac:(lia) A2). pose proof (offset_mono ps 1 _ _ ltac:(lia) B2). unfold last_states in *. lia.
Qed.
Lemma in_range_booked t tot ps ni pis c : 0 < c -> states_in_range t tot ps ni pis c ->
  (largest_place c ps < Z.of_nat (c * nat_prod ps))%Z -> all_booked t tot ps ni pis c.
Proof.
  intros Hc H HL row Hr. destruct (H row Hr) as [H1 H2]. apply range_place in H1. split; [lia|]. intros _.
  assert (E : Z.of_nat (c * c * nat_prod ps) = (Z.of_nat c * Z.of_nat (c * nat_prod ps))%Z) by (rewrite !Nat2Z.inj_mul; ring).
  rewrite E. nia.
Qed.

(** ** no parents *)
Lemma booked_alone t tot ni c : 0 < c ->
  (all_booked t tot [] ni [] c <-> forall row, In row (t_rows t) -> (0 <= entry row ni < Z.of_nat c)%Z
     /\ ((0 <= entry row (ni + tot))%Z -> (entry row (ni + tot) + Z.of_nat c * entry row ni < Z.of_nat (c * c))%Z)).
Proof.
  intro Hc. unfold all_booked, place, nat_prod. cbn [map offset fold_right]. rewrite !Nat.mul_1_r.
  split; intros H row Hr; specialize (H row Hr); rewrite Z.add_0_r in *; exact H.
Qed.

(** ** one parent: never raises on in-range data iff the parent has at most as many states as the node *)
Lemma one_parent_largest c p : 0 < c -> 0 < p -> ((largest_place c [p] < Z.of_nat (c * nat_prod [p]))%Z <-> p <= c).
Proof.
  intros Hc Hp. unfold largest_place, last_states, nat_prod. cbn [map offset fold_right]. rewrite Nat.mul_1_r, Nat2Z.inj_mul.
  split; intro H.
  - destruct (Nat.le_gt_cases p c) as [K|K]; [exact K|exfalso]. nia.
  - nia.
Qed.

(** ** the row in which every variable is in its last state *)
Definition last_row (s : structure) : list Z :=
  map (fun i => match find (fun l => idx_of s l =? i) (nodes_labels s) with
                | Some l => (Z.of_nat (val_of s l) - 1)%Z | None => 0%Z end) (seq 0 (total_variables_number s))
  ++ repeat (-1)%Z (total_variables_number s).
Definition last_data (s : structure) : trajectory :=
  MkTrajectory [1%Qc] [last_row s] (total_variables_number s + total_variables_number s) (total_variables_number s + 1).

Section last.
Variable s : structure.
Hypothesis Hwf : wf_structure s.
Hypothesis Hnd : NoDup (nodes_indexes s).
Hypothesis Hlt : Forall (fun i => i < total_variables_number s) (nodes_indexes s).
Hypothesis Hpos : Forall (fun k => 0 < k) (nodes_values s).

Lemma idx_inj a b : In a (nodes_labels s) -> In b (nodes_labels s) -> idx_of s a = idx_of s b -> a = b.
Proof.
  intros Ha Hb E. destruct (wf_lookup s a Hwf Ha) as [i [A1 [A2 _]]]. destruct (wf_lookup s b Hwf Hb) as [j [B1 [B2 _]]].
  assert (i = j). { apply (proj1 (NoDup_nth_error (nodes_indexes s)) Hnd); [apply nth_error_Some; congruence|congruence]. }
  subst j. congruence.
Qed.
Lemma idx_lt l : In l (nodes_labels s) -> idx_of s l < total_variables_number s.
Proof. intro Hl. destruct (wf_lookup s l Hwf Hl) as [i [_ [A _]]]. rewrite Forall_forall in Hlt. apply Hlt. eapply nth_error_In, A. Qed.
Lemma val_pos l : In l (nodes_labels s) -> 0 < val_of s l.
Proof. intro Hl. destruct (wf_lookup s l Hwf Hl) as [i [_ [_ [A _]]]]. rewrite Forall_forall in Hpos. apply Hpos. eapply nth_error_In, A. Qed.
Lemma last_row_state l : In l (nodes_labels s) -> nth_error (last_row s) (idx_of s l) = Some (Z.of_nat (val_of s l) - 1)%Z.
Proof.
  intro Hl. unfold last_row. pose proof (idx_lt l Hl) as K. rewrite nth_error_app1 by (rewrite map_length, seq_length; exact K).
  rewrite map_nth_error_iff, nth_seq_lt by exact K. cbn [option_map]. f_equal.
  destruct (find (fun l0 => idx_of s l0 =? idx_of s l) (nodes_labels s)) as [l'|] eqn:E.
  - apply find_some in E as [E1 E2]. apply Nat.eqb_eq in E2. rewrite (idx_inj l' l E1 Hl E2). reflexivity.
  - exfalso. pose proof (find_none _ _ E l Hl) as Q. cbn beta in Q. rewrite Nat.eqb_refl in Q. discriminate.
Qed.
Lemma last_row_next l : In l (nodes_labels s) -> nth_error (last_row s) (idx_of s l + total_variables_number s) = Some (-1)%Z.
Proof.
  intro Hl. unfold last_row. pose proof (idx_lt l Hl) as K. rewrite nth_error_app2 by (rewrite map_length, seq_length; lia).
  rewrite map_length, seq_length. apply nth_error_repeat. lia.
Qed.
Lemma last_data_ok : data_ok s (last_data s) /\ columns_exist s (last_data s).
Proof.
  assert (HL : forall l i, structure_get_node_indx s l = Ok i -> In l (nodes_labels s) /\ idx_of s l = i).
  { intros l i H. split; [|unfold idx_of; rewrite H; reflexivity]. unfold structure_get_node_indx in H. apply bind_ok in H as [pos [H _]].
    apply py_index_ok in H. eapply nth_error_In, H. }
  split.
  - split; [reflexivity|]. split; [reflexivity|]. split; [reflexivity|]. intros row [<-|[]] l i c Hi Hc.
    destruct (HL l i Hi) as [Hl <-]. assert (Ec : val_of s l = c) by (unfold val_of; rewrite Hc; reflexivity). subst c.
    pose proof (val_pos l Hl). split; [apply idx_lt, Hl|]. split.
    + exists (val_of s l - 1). rewrite last_row_state by exact Hl. split; [f_equal; lia|lia].
    + exists (-1)%Z. split; [apply last_row_next, Hl|lia].
  - split; [reflexivity|]. split; [reflexivity|]. split; [reflexivity|]. split.
    + intros l i Hi. destruct (HL l i Hi) as [Hl <-]. apply idx_lt, Hl.
    + intros row [<-|[]]. unfold last_row. rewrite app_length, map_length, seq_length, repeat_length. reflexivity.
Qed.
Lemma last_place v pars : In v (nodes_labels s) -> (forall l, In l pars -> In l (nodes_labels s)) ->
  place (map (val_of s) pars) (idx_of s v) (map (idx_of s) pars) (last_row s) = largest_place (val_of s v) (map (val_of s) pars).
Proof.
  intros Hv Hp. unfold place, largest_place. unfold entry at 1. rewrite (nth_error_nth _ _ 0%Z (last_row_state v Hv)). do 2 f_equal.
  unfold last_states. rewrite !map_map. apply map_ext_in. intros l Hl. unfold entry. apply nth_error_nth, last_row_state, Hp, Hl.
Qed.
End last.

Lemma never_raises s es v c ni pis ps : wf_structure s -> NoDup (nodes_indexes s) ->
  Forall (fun i => i < total_variables_number s) (nodes_indexes s) -> Forall (fun k => 0 < k) (nodes_values s) ->
  edges_within (nodes_labels s) es -> edges_within (nodes_labels s) (edges_list s) ->
  node_view s (es ++ edges_list s) v c ni pis ps ->
  exists g, ng_fast_init (fresh_graph s es) v = Ok g
  /\ ((forall t, data_ok s t -> columns_exist s t -> exists soc, compute_parameters_for_node t g v = Ok soc)
      <-> (largest_place c ps < Z.of_nat (c * nat_prod ps))%Z)
  /\ (forall t x, data_ok s t -> columns_exist s t -> compute_parameters_for_node t g v = Err x -> x = ValueError).
Proof.
  intros Hwf Hnd Hlt Hpos H1 H2 V.
  pose proof V as [V1 [V2 [V3 V4]]].
  assert (Hv : In v (nodes_labels s)) by (eapply states_number_In, V1).
  assert (Ec : c = val_of s v) by (unfold val_of; rewrite V1; reflexivity).
  assert (Ei : ni = idx_of s v) by (unfold idx_of; rewrite V2; reflexivity).
  set (pars := filter (fun l => emem (l, v) (es ++ edges_list s)) (nodes_labels s)) in *.
  apply (Forall2_lookup _ (idx_of s)) in V3; [|intros a b K; unfold idx_of; rewrite K; reflexivity].
  apply (Forall2_lookup _ (val_of s)) in V4; [|intros a b K; unfold val_of; rewrite K; reflexivity].
  assert (Hpars : forall l, In l pars -> In l (nodes_labels s)) by (intros l K; apply filter_In in K; tauto).
  assert (Hc : 0 < c) by (rewrite Ec; apply val_pos; assumption).
  assert (Hps : Forall (fun p => 0 < p) ps).
  { rewrite V4. apply Forall_forall. intros p Hp. apply in_map_iff in Hp as [l [<- Hl]]. apply val_pos; try assumption. apply Hpars, Hl. }
  destruct (fast_init_fresh s es v Hwf H1 H2 Hv) as [g [G1 _]]. exists g. split; [exact G1|].
  assert (HP : forall t, columns_exist s t ->
    (all_booked t (total_variables_number s) ps ni pis c -> exists soc, compute_parameters_for_node t g v = Ok soc)
    /\ (~ all_booked t (total_variables_number s) ps ni pis c -> compute_parameters_for_node t g v = Err ValueError)).
  { intros t Hd. destruct (any_fresh s t es v c ni pis ps Hwf Hd H1 H2 V Hc Hps) as [g' [G1' [P1 P2]]]. rewrite G1 in G1'. injection G1' as <-.
    split; [|exact P2]. intro K. eexists. apply P1, K. }
  assert (HR : forall t, data_ok s t -> states_in_range t (total_variables_number s) ps ni pis c).
  { intros t [_ [_ [_ Hd]]] row Hr. assert (Q : forall l, In l (nodes_labels s) ->
        (exists d, nth_error row (idx_of s l) = Some (Z.of_nat d) /\ d < val_of s l)
        /\ (exists z, nth_error row (idx_of s l + total_variables_number s) = Some z /\ (z < Z.of_nat (val_of s l))%Z)).
    { intros l Hl. destruct (wf_lookup s l Hwf Hl) as [i [_ [_ [_ [K1 K2]]]]]. apply (Hd row Hr l _ _ K1 K2). }
    split.
    - rewrite Ec, Ei, V3, V4. constructor; [apply Q, Hv|]. clear -Q Hpars. induction pars as [|l r IH]; [constructor|].
      constructor; [apply Q, Hpars; left; reflexivity|]. apply IH. intros l' K; apply Hpars; right; exact K.
    - destruct (Q v Hv) as [_ [z [Z1 Z2]]]. rewrite Ei, Ec. unfold entry. rewrite (nth_error_nth _ _ 0%Z Z1). exact Z2. }
  assert (BD : forall t, {all_booked t (total_variables_number s) ps ni pis c} + {~ all_booked t (total_variables_number s) ps ni pis c}).
  { intro t. destruct (Forall_dec (fun row => (0 <= place ps ni pis row < Z.of_nat (c * nat_prod ps))%Z
      /\ ((0 <= entry row (ni + total_variables_number s))%Z ->
        (entry row (ni + total_variables_number s) + Z.of_nat c * place ps ni pis row < Z.of_nat (c * c * nat_prod ps))%Z)) ) with (l := t_rows t) as [K|K].
    - intro row. destruct (Z_le_dec 0 (place ps ni pis row)); [|right; lia]. destruct (Z_lt_dec (place ps ni pis row) (Z.of_nat (c * nat_prod ps))); [|right; lia].
      destruct (Z_le_dec 0 (entry row (ni + total_variables_number s))); [|left; split; [lia|intro; lia]].
      destruct (Z_lt_dec (entry row (ni + total_variables_number s) + Z.of_nat c * place ps ni pis row) (Z.of_nat (c * c * nat_prod ps))); [left; split; [lia|intro; lia]|].
      right. intros [_ Q]. lia.
    - left. rewrite Forall_forall in K. exact K.
    - right. intro Q. apply K. rewrite Forall_forall. exact Q. }
  split; [split|].
  - intro H. destruct (last_data_ok s Hwf Hnd Hlt Hpos) as [D1 D2]. destruct (H _ D1 D2) as [soc E].
    destruct (BD (last_data s)) as [B|B]; [|rewrite (proj2 (HP _ D2) B) in E; discriminate].
    specialize (B (last_row s) (or_introl eq_refl)) as [B _]. rewrite Ei, V3, V4 in B. rewrite last_place in B by assumption.
    rewrite <- Ec, <- V4 in B. lia.
  - intros HL t D1 D2. apply (HP t D2). apply in_range_booked; [exact Hc|apply HR, D1|exact HL].
  - intros t x D1 D2 E. destruct (BD t) as [B|B].
    + destruct (proj1 (HP t D2) B) as [soc E']. congruence.
    + rewrite (proj2 (HP t D2) B) in E. congruence.
Qed.

(** ** conservation *)
Lemma cells_concat {A} (F : nat -> A) c K : concat (map (fun r => map (fun x => F (x + c * r)) (seq 0 c)) (seq 0 K)) = map F (seq 0 (c * K)).
Proof.
  induction K as [|K IH]; [rewrite Nat.mul_0_r; reflexivity|]. rewrite seq_S, map_app, concat_app, IH. cbn [map concat plus].
  replace (c * S K) with (c * K + c) by lia. rewrite seq_app, map_app, app_nil_r. f_equal. cbn [plus]. clear IH.
  generalize (c * K) as o. intro o. assert (G : forall n i, map (fun x => F (x + o)) (seq i n) = map F (seq (i + o) n)).
  { induction n as [|n IHn]; intro i; [reflexivity|]. cbn [seq map]. f_equal. apply (IHn (S i)). }
  apply (G c 0).
Qed.
Lemma booked_conserved t tot ps ni pis c : 0 < c -> length (t_times t) = length (t_rows t) -> all_booked t tot ps ni pis c ->
  Qcsum (concat (map (booked_times t ps ni pis c) (seq 0 (nat_prod ps)))) = Qcsum (t_times t).
Proof.
  intros Hc Hl B. unfold booked_times. rewrite (cells_concat (fun k => booked_time t ps ni pis (Z.of_nat k))).
  transitivity (Qcsum (map snd (combine (map (place ps ni pis) (t_rows t)) (t_times t)))).
  2:{ rewrite map_snd_combine by (rewrite map_length; lia). reflexivity. }
  rewrite <- (bincount_total _ (c * nat_prod ps)).
  - f_equal. apply map_ext. intro k. unfold booked_time. f_equal. symmetry. apply filter_combine_eq, Hl.
  - intros [i w] Hin. cbn [fst]. apply in_combine_l in Hin. apply in_map_iff in Hin as [row [<- Hr]]. destruct (B row Hr) as [Q _]. lia.
Qed.
