(** C70: the parameters computed from any table of integers. *)
From Verif Require Import Base Lib ModelStructure ModelGraph ModelCims ModelData ModelParams
  SpecStructure SpecGraph SpecComb SpecParams SpecAnyData ProofStructure ProofGraph ProofComb ProofIndex ProofParams ProofParams2 ProofParams3.

Lemma offset_wsum ps : forall w us, offset w ps us = wsum w ps us.
Proof. reflexivity. Qed.

Lemma select_entries row cols : Forall (fun i => i < length row) cols -> select_columns row cols = Ok (map (entry row) cols).
Proof.
  unfold select_columns. intro H. apply res_map_pure. intros i Hi. rewrite Forall_forall in H. specialize (H i Hi).
  unfold nth_res, entry. rewrite (nth_error_nth' row 0%Z H). reflexivity.
Qed.

(** ** residence times *)
Lemma broadcast_exact {A} k (rows : list A) : 0 < k -> k <= length rows ->
  broadcast_rows k rows = if length rows =? k then Ok rows else Err ValueError.
Proof.
  intros Hk H. unfold broadcast_rows. destruct (Nat.eqb_spec (length rows) k); [reflexivity|].
  destruct rows as [|r [|r2 rs]]; cbn in *; [lia|lia|reflexivity].
Qed.
Lemma prod_pos ps : Forall (fun p => 0 < p) ps -> 0 < nat_prod ps.
Proof. induction 1; unfold nat_prod in *; cbn [fold_right]; nia. Qed.

(** bincount, then reshape to rows of width w, then store in k rows *)
Lemma reshape_too_long {A B} (b : list A) w k (f : list (list A) -> result B) (e : forall rows, k < length rows -> f rows = Err ValueError) :
  0 < w -> k * w < length b -> (let* rows := reshape_rows w b in f rows) = Err ValueError.
Proof.
  intros Hw Hl. unfold reshape_rows. destruct (Nat.eqb_spec w 0); [lia|]. cbn [orb].
  destruct (Nat.eqb_spec (length b mod w) 0) as [E|E]; cbn [negb bind]; [|reflexivity].
  apply e. rewrite map_length, seq_length. pose proof (Nat.div_mod (length b) w ltac:(lia)). nia.
Qed.
Lemma some_outside (idx : list Z) (N : nat) : ~ (forall i, In i idx -> (0 <= i < Z.of_nat N)%Z) ->
  existsb (fun i => (i <? 0)%Z) idx = true \/ N < bincount_length idx N.
Proof.
  intro H. destruct (existsb (fun i => (i <? 0)%Z) idx) eqn:E; [left; reflexivity|right].
  destruct (Nat.ltb_spec N (bincount_length idx N)) as [K|K]; [exact K|]. exfalso. apply H. intros i Hi.
  split; [apply existsb_neg_iff with idx; assumption|]. pose proof (bincount_length_In idx N i Hi).
  pose proof (proj1 (existsb_neg_iff idx) E i Hi). lia.
Qed.

Lemma filter_combine_eq {A} (f : A -> Z) k (traj : list A) : forall (times : list Qc), length times = length traj ->
  map snd (filter (fun p => Z.eqb (fst p) k) (combine (map f traj) times))
  = map fst (filter (fun tr => Z.eqb (f (snd tr)) k) (combine times traj)).
Proof. intros times Hl. apply (filter_combine_map f (fun r => Z.eqb (f r) k)); [exact Hl|reflexivity]. Qed.

Section any.
Variables (times : list Qc) (traj : list (list Z)) (width tot ni : nat) (pis : list nat) (c : nat) (ps : list nat).
Hypothesis Hc : 0 < c.
Hypothesis Hps : Forall (fun p => 0 < p) ps.
Hypothesis Hlen : length times = length traj.
Let K := nat_prod ps.
Let HK : 0 < K := prod_pos ps Hps.

Lemma any_times : (forall row, In row traj -> Forall (fun i => i < length row) (ni :: pis)) ->
  ((forall row, In row traj -> (0 <= place ps ni pis row < Z.of_nat (c * K))%Z) ->
   compute_state_res_time_for_node times traj (build_time_columns_filtering_for_a_node ni pis)
      (build_time_scalar_indexing_structure_for_a_node c ps) K c
   = Ok (map (fun r => map (fun x => Qcsum (map fst (filter (fun tr => Z.eqb (place ps ni pis (snd tr)) (Z.of_nat (x + c * r))) (combine times traj))))
                 (seq 0 c)) (seq 0 K)))
  /\ (~ (forall row, In row traj -> (0 <= place ps ni pis row < Z.of_nat (c * K))%Z) ->
   compute_state_res_time_for_node times traj (build_time_columns_filtering_for_a_node ni pis)
      (build_time_scalar_indexing_structure_for_a_node c ps) K c = Err ValueError).
Proof.
  intros Hcols. unfold compute_state_res_time_for_node, build_time_columns_filtering_for_a_node.
  set (scal := build_time_scalar_indexing_structure_for_a_node c ps).
  assert (Hhd : hd 0%Z scal = Z.of_nat c) by (subst scal; unfold build_time_scalar_indexing_structure_for_a_node, cumprod; cbn [map cumprod_from hd]; lia).
  rewrite Hhd. destruct (Z.eqb_spec (Z.of_nat c) 0) as [Q|_]; [lia|].
  rewrite (res_map_pure _ (fun row => map (entry row) (ni :: pis))) by (intros row Hr; apply select_entries, Hcols, Hr).
  cbn [bind]. rewrite map_map.
  rewrite (map_ext_in _ (place ps ni pis)).
  2:{ intros row _. cbn [map]. unfold scal. rewrite time_index by exact Hc. unfold place. reflexivity. }
  assert (Hm : Z.to_nat (last scal 0%Z) = c * K) by (apply last_scalar). rewrite Hm.
  unfold bincount_weights. rewrite map_length, Hlen, Nat.eqb_refl. cbn [negb]. split; intro H.
  - rewrite existsb_neg_false by (intros i Hi; apply in_map_iff in Hi as [row [<- Hi]]; apply H, Hi). cbn [bind].
    rewrite bincount_length_exact by (intros i Hi; apply in_map_iff in Hi as [row [<- Hi]]; specialize (H row Hi); lia).
    set (b := map _ (seq 0 (c * K))).
    assert (Hb : length b = K * c) by (subst b; rewrite map_length, seq_length; lia).
    rewrite (reshape_rows_ok c b K Hc Hb). cbn [bind]. unfold broadcast_rows. rewrite map_length, seq_length, Nat.eqb_refl. f_equal.
    apply map_ext_in. intros r Hr. apply in_seq in Hr. apply list_ext. intro x. rewrite map_nth_error_iff.
    destruct (Nat.ltb_spec x c) as [Hx|Hx].
    + rewrite nth_error_firstn', nth_error_skipn', (nth_seq_lt c x) by exact Hx. subst b. rewrite map_nth_error_iff, (nth_seq_lt (c * K) (r * c + x)) by nia.
      cbn [option_map]. f_equal. rewrite filter_combine_eq by exact Hlen. replace (x + c * r) with (r * c + x) by lia. reflexivity.
    + transitivity (@None Qc); [apply nth_error_None; rewrite firstn_length; lia|].
      replace (nth_error (seq 0 c) x) with (@None nat) by (symmetry; apply nth_error_None; rewrite seq_length; exact Hx). reflexivity.
  - destruct (some_outside (map (place ps ni pis) traj) (c * K)) as [E|E].
    { intro Q. apply H. intros row Hr. apply Q, in_map, Hr. }
    + rewrite E. reflexivity.
    + destruct (existsb _ _); [reflexivity|]. cbn [bind]. apply (reshape_too_long _ c K); [|exact Hc|].
      * intros rows Hr. rewrite broadcast_exact by (exact HK || lia). destruct (Nat.eqb_spec (length rows) K); [lia|reflexivity].
      * rewrite map_length, seq_length. lia.
Qed.

(** ** transitions *)
Let jump (row : list Z) : Z := (entry row (ni + tot) + Z.of_nat c * place ps ni pis row)%Z.
Let off (r x x' : nat) : Z := Z.of_nat (length (filter (fun row => (0 <=? entry row (ni + tot))%Z && Z.eqb (jump row) (Z.of_nat (x' + c * (x + c * r)))) traj)).

Lemma any_transitions : (forall row, In row traj -> Forall (fun i => i < length row) ((ni + tot) :: ni :: pis)) ->
  ((forall row, In row traj -> (0 <= entry row (ni + tot))%Z -> (0 <= jump row < Z.of_nat (c * c * K))%Z) ->
   compute_state_transitions_for_a_node ni traj (tot + tot) (build_transition_filtering_for_a_node ni pis tot)
      (build_transition_scalar_indexing_structure_for_a_node c ps) K c
   = Ok (map (fun r => map (fun x => map (fun x' => if x' =? x then Zsum (map (fun y => if y =? x then 0%Z else off r x y) (seq 0 c)) else off r x x')
                 (seq 0 c)) (seq 0 c)) (seq 0 K)))
  /\ (~ (forall row, In row traj -> (0 <= entry row (ni + tot))%Z -> (0 <= jump row < Z.of_nat (c * c * K))%Z) ->
   compute_state_transitions_for_a_node ni traj (tot + tot) (build_transition_filtering_for_a_node ni pis tot)
      (build_transition_scalar_indexing_structure_for_a_node c ps) K c = Err ValueError).
Proof.
  intros Hcols. unfold compute_state_transitions_for_a_node, build_transition_filtering_for_a_node.
  set (scal := build_transition_scalar_indexing_structure_for_a_node c ps).
  set (cols := (ni + tot) :: ni :: pis) in *.
  assert (Hhd : hd 0%Z scal = Z.of_nat c) by (subst scal; unfold build_transition_scalar_indexing_structure_for_a_node, cumprod; cbn [map cumprod_from hd]; lia).
  rewrite Hhd. destruct (Z.eqb_spec (Z.of_nat c) 0) as [Q|_]; [lia|].
  set (h := fun row : list Z => entry row (ni + tot)).
  replace ((tot + tot) / 2 + ni) with (ni + tot).
  2:{ replace (tot + tot) with (tot * 2) by lia. rewrite Nat.div_mul by lia. lia. }
  rewrite (res_map_pure _ h).
  2:{ intros row Hin. pose proof (Forall_inv (Hcols row Hin)) as Q. unfold nth_res, h, entry. rewrite (nth_error_nth' row 0%Z Q). reflexivity. }
  cbn [bind]. rewrite (map_fst_filter_combine (fun z => (0 <=? z)%Z) h traj).
  set (trj := filter (fun r => (0 <=? h r)%Z) traj).
  assert (Htrj : forall row, In row trj <-> In row traj /\ (0 <= entry row (ni + tot))%Z).
  { intro row. unfold trj. rewrite filter_In, Z.leb_le. reflexivity. }
  rewrite (res_map_pure _ (fun row => map (entry row) cols)) by (intros row Hr; apply select_entries, Hcols, Htrj, Hr).
  cbn [bind]. rewrite map_map.
  rewrite (map_ext_in _ jump).
  2:{ intros row _. unfold cols, scal. cbn [map]. rewrite trans_index by exact Hc. unfold jump, place. reflexivity. }
  set (N := c * c * K).
  assert (Hm : Z.to_nat (last scal 0%Z) = N).
  { transitivity (nat_prod (c :: c :: ps)); [apply (last_scalar c (c :: ps))|]. unfold N, K, nat_prod. cbn [fold_right]. lia. }
  rewrite Hm. unfold bincount. split; intro H.
  - assert (Hr : forall i, In i (map jump trj) -> (0 <= i < Z.of_nat N)%Z).
    { intros i Hi. apply in_map_iff in Hi as [row [<- Hi]]. apply Htrj in Hi as [H1 H2]. apply H; assumption. }
    rewrite existsb_neg_false by (intros i Hi; apply Hr, Hi). cbn [bind].
    rewrite bincount_length_exact by (intros i Hi; specialize (Hr i Hi); lia).
    set (b := map _ (seq 0 N)).
    assert (Hb : length b = K * c * c) by (subst b; rewrite map_length, seq_length; unfold N; nia).
    destruct (reshape_mats_ok b K c Hc Hb) as [mats [-> [Lm [Cm _]]]]. cbn [bind].
    unfold broadcast_rows. rewrite Lm, Nat.eqb_refl. cbn [bind]. rewrite Cm.
    destruct (fix_diag_spec b K c Hc Hb) as [rows [-> [Lf Ff]]]. cbn [bind].
    set (final := assign_at _ (combine _ _)) in *.
    destruct (reshape_mats_ok final K c Hc Lf) as [M [-> [LM [_ FM]]]]. f_equal.
    apply list_ext. intro r. rewrite map_nth_error_iff. destruct (Nat.ltb_spec r K) as [Hrk|Hrk].
    2:{ transitivity (@None (list (list Z))); [apply nth_error_None; lia|]. replace (nth_error (seq 0 K) r) with (@None nat) by (symmetry; apply nth_error_None; rewrite seq_length; exact Hrk). reflexivity. }
    rewrite nth_seq_lt by exact Hrk. cbn [option_map]. destruct (FM r Hrk) as [mat [A1 [A2 A3]]]. rewrite A1. f_equal.
    apply list_ext. intro x. rewrite map_nth_error_iff. destruct (Nat.ltb_spec x c) as [Hx|Hx].
    2:{ transitivity (@None (list Z)); [apply nth_error_None; lia|]. replace (nth_error (seq 0 c) x) with (@None nat) by (symmetry; apply nth_error_None; rewrite seq_length; exact Hx). reflexivity. }
    rewrite nth_seq_lt by exact Hx. cbn [option_map]. destruct (A3 x Hx) as [row [B1 [B2 B3]]]. rewrite B1. f_equal.
    set (y := x + c * r).
    assert (Hy : y < K * c) by (subst y; nia).
    assert (Hmod : y mod c = x). { subst y. rewrite Nat.mul_comm, Nat.mod_add by lia. apply Nat.mod_small, Hx. }
    assert (Hbn : forall x', x' < c -> nth_error b (x' + c * y) = Some (off r x x')).
    { intros x' Hx'. subst b. rewrite map_nth_error_iff, nth_seq_lt by (unfold N; nia). cbn [option_map]. f_equal. unfold off. f_equal. fold y.
      unfold trj. clear. unfold h. induction traj as [|a l IH]; [reflexivity|]. cbn [filter]. destruct (0 <=? entry a (ni + tot))%Z; cbn [map filter andb]; [|exact IH].
      rewrite (Z.eqb_sym (Z.of_nat _)). destruct (Z.eqb _ _); cbn [length]; rewrite IH; reflexivity. }
    apply list_ext. intro x'. rewrite map_nth_error_iff. destruct (Nat.ltb_spec x' c) as [Hx'|Hx'].
    2:{ transitivity (@None Z); [apply nth_error_None; lia|]. replace (nth_error (seq 0 c) x') with (@None nat) by (symmetry; apply nth_error_None; rewrite seq_length; exact Hx'). reflexivity. }
    rewrite nth_seq_lt by exact Hx'. cbn [option_map]. rewrite B3 by exact Hx'. fold y. rewrite Ff by assumption. rewrite Hmod.
    destruct (Nat.eqb_spec x' x) as [->|Hne]; [|apply Hbn, Hx']. do 2 f_equal. apply map_ext_in. intros j Hj. apply in_seq in Hj.
    destruct (j =? x); [reflexivity|]. apply nth_error_nth, Hbn. lia.
  - destruct (some_outside (map jump trj) N) as [E|E].
    { intro Q. apply H. intros row H1 H2. apply Q, in_map, Htrj. auto. }
    + rewrite E. reflexivity.
    + destruct (existsb _ _); [reflexivity|]. cbn [bind]. unfold reshape_mats.
      set (b := map _ _).
      assert (Hb : K * (c * c) < length b) by (subst b; rewrite map_length, seq_length; unfold N in E |- *; nia).
      match goal with |- bind (bind (reshape_rows _ _) ?f) ?g = _ =>
        transitivity (let* mm := reshape_rows (c * c) b in (let* x := f mm in g x)) end.
      { destruct (reshape_rows (c * c) b); reflexivity. }
      apply (reshape_too_long b (c * c) K); [|nia|exact Hb].
      intros rows Hr. destruct (res_map (reshape_rows c) rows) as [mats|e] eqn:Em; cbn [bind].
      * rewrite broadcast_exact by (exact HK || (rewrite (res_map_length _ _ _ Em); lia)).
        rewrite (res_map_length _ _ _ Em). destruct (Nat.eqb_spec (length rows) K); [lia|reflexivity].
      * f_equal. clear -Em. revert e Em. induction rows as [|a l IH]; intros e Em; cbn in Em; [discriminate|].
        destruct (reshape_rows c a) as [x|e'] eqn:E1; cbn [bind] in Em.
        -- destruct (res_map (reshape_rows c) l); cbn [bind] in Em; [discriminate|]. apply IH. exact Em.
        -- injection Em as <-. unfold reshape_rows in E1. destruct (_ || _); congruence.
Qed.
End any.

(** ** the parameters of a node *)
Definition booked_cim (t : trajectory) (tot : nat) (ps : list nat) (ni : nat) (pis : list nat) (c r : nat) : cim :=
  compute_cim_coefficients (new_cim (booked_times t ps ni pis c r) (booked_counts t tot ps ni pis c r)).

Lemma entry_firstn n row i : i < n -> entry (firstn n row) i = entry row i.
Proof.
  intro H. unfold entry. destruct (Nat.ltb_spec i (length row)) as [K|K].
  - apply nth_error_nth. rewrite nth_error_firstn' by exact H. apply nth_error_nth', K.
  - rewrite !nth_overflow; [reflexivity|exact K|rewrite firstn_length; lia].
Qed.
Lemma place_firstn n ps ni pis row : Forall (fun i => i < n) (ni :: pis) -> place ps ni pis (firstn n row) = place ps ni pis row.
Proof.
  intro H. unfold place. inversion H as [|? ? H1 H2]; subst. rewrite entry_firstn by exact H1. do 2 f_equal. apply map_ext_in.
  intros i Hi. apply entry_firstn. rewrite Forall_forall in H2. apply H2, Hi.
Qed.

Lemma any_params s t g v f : wf_structure s -> columns_exist s t -> ginv g -> ng_struct g = s ->
  init_fields g = canonical_fields s v f -> In v (nodes_labels s) ->
  let pars := filter f (nodes_labels s) in
  let ps := map (val_of s) pars in let pis := map (idx_of s) pars in
  let c := val_of s v in let ni := idx_of s v in let tot := total_variables_number s in
  0 < c -> Forall (fun p => 0 < p) ps ->
  (all_booked t tot ps ni pis c -> compute_parameters_for_node t g v
     = Ok (MkSetOfCims (build_p_comb_structure_for_a_node ps) (map (booked_cim t tot ps ni pis c) (seq 0 (nat_prod ps)))))
  /\ (~ all_booked t tot ps ni pis c -> compute_parameters_for_node t g v = Err ValueError).
Proof.
  intros Hwf [Hl [Hw [Ho [Hi Hrow]]]] Hg Hs Hf Hv pars ps pis c ni tot Hc Hps.
  assert (HD : forall l, In l (nodes_labels s) -> idx_of s l < tot).
  { intros l Hin. destruct (wf_lookup s l Hwf Hin) as [i [_ [_ [_ [K1 K2]]]]]. apply (Hi l), K1. }
  assert (Hcols : Forall (fun i => i < tot) (ni :: pis)).
  { constructor; [apply HD, Hv|]. apply Forall_forall. intros i Ki. apply in_map_iff in Ki as [l [<- Kl]]. apply filter_In in Kl as [Kl _]. apply HD, Kl. }
  assert (Hlen : length (t_times t) = length (traj_trajectory t)) by (unfold traj_trajectory; rewrite map_length; exact Hl).
  assert (Eq1 : traj_trajectory t = map (firstn tot) (t_rows t)) by (unfold traj_trajectory; rewrite Ho, Nat.add_sub; reflexivity).
  destruct (any_times (t_times t) (traj_trajectory t) ni pis c ps Hc Hps Hlen) as [T1 T2].
  { intros row Hr. rewrite Eq1 in Hr. apply in_map_iff in Hr as [r [<- Hr]]. rewrite firstn_length, (Hrow r Hr). fold tot.
    rewrite Nat.min_l by lia. exact Hcols. }
  destruct (any_transitions (t_times t) (t_rows t) tot ni pis c ps Hc Hps Hl) as [M1 M2].
  { intros row Hr. rewrite (Hrow row Hr). fold tot. constructor; [inversion Hcols; subst; lia|]. eapply Forall_impl; [|exact Hcols]. cbn. intros; lia. }
  assert (EP : forall r, In r (t_rows t) -> place ps ni pis (firstn tot r) = place ps ni pis r) by (intros r _; apply place_firstn, Hcols).
  unfold compute_parameters_for_node. unfold init_fields, canonical_fields in Hf.
  injection Hf as I1 I2 I3 I4 I5 I6. rewrite I1, I2, I3, I4, I5, I6. cbn [opt_get bind snd].
  destruct (ginv_lookup g v Hg) as [E1 E2]; [rewrite Hs; exact Hv|]. rewrite E1, E2, Hs. cbn [bind].
  fold pars; fold pis ps c ni tot. unfold traj_complete. rewrite Hw. fold tot.
  assert (CT : (forall row, In row (traj_trajectory t) -> (0 <= place ps ni pis row < Z.of_nat (c * nat_prod ps))%Z)
     <-> (forall row, In row (t_rows t) -> (0 <= place ps ni pis row < Z.of_nat (c * nat_prod ps))%Z)).
  { rewrite Eq1. split; intros H row Hr.
    - rewrite <- EP by exact Hr. apply H, in_map, Hr.
    - apply in_map_iff in Hr as [r [<- Hr]]. rewrite EP by exact Hr. apply H, Hr. }
  split; intro H.
  - rewrite T1 by (apply CT; intros row Hr; apply H, Hr). cbn [bind].
    rewrite M1. 2:{ intros row Hr Hn. destruct (H row Hr) as [P1 P2]. specialize (P2 Hn). split; [lia|exact P2]. }
    cbn [bind]. do 2 f_equal. unfold build_cims. generalize (seq 0 (nat_prod ps)) as ks. induction ks as [|k ks IH]; [reflexivity|].
    cbn [map combine fst snd]. rewrite IH. f_equal. unfold booked_cim. apply (f_equal compute_cim_coefficients). apply (f_equal (fun q => new_cim q _)).
    unfold booked_times. apply map_ext. intro x. unfold booked_time. f_equal. rewrite Eq1. clear -EP. revert EP.
    generalize (t_rows t) as rows. induction (t_times t) as [|a ts IH]; intros [|r rows] EP; cbn [map combine filter]; try reflexivity.
    cbn [snd]. rewrite (EP r) by (left; reflexivity). destruct (Z.eqb _ _); cbn [map fst]; rewrite IH by (intros q Hq; apply EP; right; exact Hq); reflexivity.
  - destruct (forallb (fun row => (0 <=? place ps ni pis row)%Z && (place ps ni pis row <? Z.of_nat (c * nat_prod ps))%Z) (t_rows t)) eqn:EF.
    + assert (HT : forall row, In row (t_rows t) -> (0 <= place ps ni pis row < Z.of_nat (c * nat_prod ps))%Z).
      { intros row Hr. rewrite forallb_forall in EF. specialize (EF row Hr). apply andb_true_iff in EF as [A B]. apply Z.leb_le in A. apply Z.ltb_lt in B. lia. }
      rewrite T1 by (apply CT, HT). cbn [bind]. rewrite M2; [reflexivity|]. intro Q. apply H. intros row Hr. split; [apply HT, Hr|]. intro Hn. apply (Q row Hr Hn).
    + rewrite T2; [reflexivity|]. rewrite CT. intro Q. assert (C : true = false); [|discriminate]. rewrite <- EF. symmetry. apply forallb_forall. intros row Hr.
      specialize (Q row Hr). apply andb_true_iff. split; [apply Z.leb_le|apply Z.ltb_lt]; lia.
Qed.

Lemma any_fresh s t es v c ni pis ps : wf_structure s -> columns_exist s t ->
  edges_within (nodes_labels s) es -> edges_within (nodes_labels s) (edges_list s) ->
  node_view s (es ++ edges_list s) v c ni pis ps -> 0 < c -> Forall (fun p => 0 < p) ps ->
  exists g, ng_fast_init (fresh_graph s es) v = Ok g
  /\ (all_booked t (total_variables_number s) ps ni pis c -> compute_parameters_for_node t g v
     = Ok (MkSetOfCims (build_p_comb_structure_for_a_node ps) (map (booked_cim t (total_variables_number s) ps ni pis c) (seq 0 (nat_prod ps)))))
  /\ (~ all_booked t (total_variables_number s) ps ni pis c -> compute_parameters_for_node t g v = Err ValueError).
Proof.
  intros Hwf Hd H1 H2 [V1 [V2 [V3 V4]]] Hc Hp.
  assert (Hv : In v (nodes_labels s)) by (eapply states_number_In, V1).
  destruct (fast_init_fresh s es v Hwf H1 H2 Hv) as [g [G1 [G2 [G3 [G4 G5]]]]].
  exists g. split; [exact G1|].
  assert (Ec : c = val_of s v) by (unfold val_of; rewrite V1; reflexivity).
  assert (Ei : ni = idx_of s v) by (unfold idx_of; rewrite V2; reflexivity).
  rewrite (filter_ext_In _ (fun l => emem (l, v) es || emem (l, v) (edges_list s))) in V3 by (intros; apply emem_app).
  rewrite (filter_ext_In _ (fun l => emem (l, v) es || emem (l, v) (edges_list s))) in V4 by (intros; apply emem_app).
  apply (Forall2_lookup _ (idx_of s)) in V3; [|intros a b K; unfold idx_of; rewrite K; reflexivity].
  apply (Forall2_lookup _ (val_of s)) in V4; [|intros a b K; unfold val_of; rewrite K; reflexivity].
  subst c ni pis ps. apply any_params; assumption.
Qed.
