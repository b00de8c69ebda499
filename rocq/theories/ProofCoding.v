(** The coding of the states: the statistics. *)
From Verif Require Import Base Lib ModelStructure ModelGraph ModelCims ModelData ModelParams
  SpecStructure SpecGraph SpecComb SpecParams SpecData SpecInvariance SpecFloating SpecCoding
  ProofStructure ProofGraph ProofComb ProofIndex ProofParams ProofParams2 ProofParams3 ProofFamScore2 ProofInvariance ProofConserve ProofUnit3.
Open Scope nat_scope.

(** [vals] are states of the variables in columns [cols] *)
Definition in_cards (cards cols vals : list nat) : Prop := Forall2 (fun i x => exists c, nth_error cards i = Some c /\ x < c) cols vals.

Section code.
Variables (code : nat -> nat -> nat) (cards : list nat).
Hypothesis HC : coding code cards.

Lemma recode_eqb i c x z : nth_error cards i = Some c -> x < c -> (z < Z.of_nat c)%Z ->
  (recode (code i) z =? Z.of_nat (code i x))%Z = (z =? Z.of_nat x)%Z.
Proof.
  intros Hi Hx Hz. destruct (HC i c Hi) as [H1 H2]. unfold recode. destruct (Z.ltb_spec z 0) as [L|G].
  - rewrite !(proj2 (Z.eqb_neq _ _)); [reflexivity|lia|lia].
  - apply eq_true_iff_eq. rewrite !Z.eqb_eq. split; intros E.
    + apply Nat2Z.inj in E. apply H2 in E; lia.
    + subst z. rewrite Nat2Z.id. reflexivity.
Qed.
Lemma row_shows_recoded row cols vals : Forall2 (fun z c => (z < Z.of_nat c)%Z) row cards -> in_cards cards cols vals ->
  row_shows (mapi (fun i z => recode (code i) z) row) cols (recode_config code cols vals) = row_shows row cols vals.
Proof.
  intros HR HI. induction HI as [|i x cols vals [c [Hi Hx]] HI IH]; [reflexivity|]. unfold recode_config in *. cbn [combine map fst snd].
  rewrite !row_shows_cons, IH. f_equal. rewrite nth_error_mapi.
  destruct (nth_error row i) as [z|] eqn:E; cbn [option_map]; [|reflexivity].
  assert (Hz : (z < Z.of_nat c)%Z).
  { clear - HR Hi E. revert i Hi E. induction HR as [|z' c' row cs H HR IH]; intros [|i] Hi E; cbn in *; try discriminate; [injection Hi as ->; injection E as ->; exact H|eapply IH; eassumption]. }
  apply recode_eqb with (c := c); assumption.
Qed.

Lemma steps_recoded r : steps (map (fun o : Qc * list Z => (fst o, mapi (fun i z => recode (code i) z) (snd o))) r)
  = map (fun ab => ((fst (fst ab), mapi (fun i z => recode (code i) z) (snd (fst ab))), (fst (snd ab), mapi (fun i z => recode (code i) z) (snd (snd ab))))) (steps r).
Proof. apply steps_map. Qed.
Lemma filter_map_len {A B} (f : A -> B) (P : B -> bool) (Q : A -> bool) l : (forall a, In a l -> P (f a) = Q a) -> filter P (map f l) = map f (filter Q l).
Proof.
  induction l as [|a l IH]; intros H; [reflexivity|]. cbn [map filter]. rewrite (H a (or_introl eq_refl)), IH by (intros; apply H; right; assumption).
  destruct (Q a); reflexivity.
Qed.

Lemma raw_dwell_recoded rs cols vals : Forall (raw_ok cards) rs -> in_cards cards cols vals ->
  raw_dwell (recoded code rs) cols (recode_config code cols vals) = raw_dwell rs cols vals.
Proof.
  intros HR HI. unfold raw_dwell, recoded. rewrite map_map. f_equal. apply map_ext_in. intros r Hr. rewrite steps_recoded.
  rewrite (filter_map_len _ _ (fun ab => row_shows (snd (fst ab)) cols vals)).
  - rewrite map_map. reflexivity.
  - intros ab Hab. cbn [fst snd]. apply row_shows_recoded; [|exact HI]. rewrite Forall_forall in HR. apply range_weak. apply (HR r Hr), Hab.
Qed.
Lemma raw_jumps_recoded rs ni c y cols vals : Forall (raw_ok cards) rs -> in_cards cards cols vals -> nth_error cards ni = Some c -> y < c ->
  raw_jumps (recoded code rs) ni (code ni y) cols (recode_config code cols vals) = raw_jumps rs ni y cols vals.
Proof.
  intros HR HI Hc Hy. unfold raw_jumps, recoded. rewrite map_map. f_equal. apply map_ext_in. intros r Hr. rewrite steps_recoded.
  rewrite (filter_map_len _ _ (fun ab => row_shows (snd (fst ab)) cols vals && row_shows (snd (snd ab)) [ni] [y])).
  - rewrite map_length. reflexivity.
  - intros ab Hab. cbn [fst snd]. rewrite Forall_forall in HR. destruct (proj1 (HR r Hr) ab Hab) as [F1 F2]. f_equal.
    + apply row_shows_recoded; [apply range_weak, F1|exact HI].
    + change [code ni y] with (recode_config code [ni] [y]). apply row_shows_recoded; [exact F2|]. constructor; [exists c; auto|constructor].
Qed.

(** the states are permuted *)
Lemma seq_recoded i c : nth_error cards i = Some c -> Permutation (map (code i) (seq 0 c)) (seq 0 c).
Proof.
  intros Hi. destruct (HC i c Hi) as [H1 H2]. apply NoDup_Permutation_bis.
  - assert (X : forall l, (forall x, In x l -> x < c) -> NoDup l -> NoDup (map (code i) l)).
    { induction l as [|x l IH]; intros Hl Hn; [constructor|]. apply NoDup_cons_iff in Hn as [N1 N2]. cbn [map]. constructor; [|apply IH; [intros; apply Hl; right; assumption|exact N2]].
      intros K. apply in_map_iff in K as [y [E Hy]]. apply H2 in E; [subst; contradiction| |]; apply Hl; [right; exact Hy|left; reflexivity]. }
    apply X; [intros x Hx; apply in_seq in Hx; lia|apply seq_NoDup].
  - rewrite map_length. lia.
  - intros y Hy. apply in_map_iff in Hy as [x [<- Hx]]. apply in_seq in Hx. apply in_seq. pose proof (H1 x). lia.
Qed.
Lemma code_eqb i c x y : nth_error cards i = Some c -> x < c -> y < c -> (code i x =? code i y) = (x =? y).
Proof.
  intros Hi Hx Hy. destruct (HC i c Hi) as [_ H2]. apply eq_true_iff_eq. rewrite !Nat.eqb_eq. split; [apply H2; assumption|intros ->; reflexivity].
Qed.
Lemma in_cards_length cols vals : in_cards cards cols vals -> length vals = length cols.
Proof. intros H. apply Forall2_length in H. congruence. Qed.

(** the configurations are permuted *)
Definition cols_cards (cols ps : list nat) : Prop := Forall2 (fun i c => nth_error cards i = Some c) cols ps.
Lemma config_in cols ps u : cols_cards cols ps -> config_ok ps u -> in_cards cards cols u.
Proof.
  intros H. revert u. induction H as [|i c cols ps Hi H IH]; intros u Hu; inversion Hu; subst; [constructor|].
  constructor; [exists c; auto|]. apply IH. assumption.
Qed.
Lemma config_recoded cols ps u : cols_cards cols ps -> config_ok ps u -> config_ok ps (recode_config code cols u).
Proof.
  intros H. revert u. induction H as [|i c cols ps Hi H IH]; intros u Hu; inversion Hu; subst; [constructor|].
  unfold recode_config. cbn [combine map fst snd]. constructor; [apply (HC i c Hi); assumption|]. apply IH. assumption.
Qed.
Lemma config_recoded_inj cols ps u w : cols_cards cols ps -> config_ok ps u -> config_ok ps w -> recode_config code cols u = recode_config code cols w -> u = w.
Proof.
  intros H. revert u w. induction H as [|i c cols ps Hi H IH]; intros u w Hu Hw E; inversion Hu; inversion Hw; subst; [reflexivity|].
  unfold recode_config in E. cbn [combine map fst snd] in E. injection E as E1 E2. f_equal; [apply (HC i c Hi); assumption|]. apply IH; assumption.
Qed.
Lemma configs_recoded cols ps : cols_cards cols ps -> Permutation (map (recode_config code cols) (le_enum ps)) (le_enum ps).
Proof.
  intros H. apply NoDup_Permutation_bis.
  - assert (X : forall l, (forall u, In u l -> config_ok ps u) -> NoDup l -> NoDup (map (recode_config code cols) l)).
    { induction l as [|u l IH]; intros Hl Hn; [constructor|]. apply NoDup_cons_iff in Hn as [N1 N2]. cbn [map]. constructor; [|apply IH; [intros; apply Hl; right; assumption|exact N2]].
      intros K. apply in_map_iff in K as [w [E Hw]]. apply (config_recoded_inj cols ps) in E; [subst; contradiction|exact H| |]; apply Hl; [right; exact Hw|left; reflexivity]. }
    apply X; [intros u Hu; apply le_enum_ok, Hu|apply le_enum_NoDup].
  - rewrite map_length. lia.
  - intros y Hy. apply in_map_iff in Hy as [u [<- Hu]]. apply le_enum_ok. apply config_recoded; [exact H|]. apply le_enum_ok, Hu.
Qed.
(** one step of the CIM *)
Section cim.
Variables (rs : list raw) (ni c : nat) (pis ps u : list nat).
Hypothesis HR : Forall (raw_ok cards) rs.
Hypothesis Hni : nth_error cards ni = Some c.
Hypothesis Hps : cols_cards pis ps.
Hypothesis Hu : config_ok ps u.
Let cm := raw_cim rs ni pis c u.
Let cm' := raw_cim (recoded code rs) ni pis c (recode_config code pis u).

Lemma dwell_r x : x < c -> raw_dwell (recoded code rs) (ni :: pis) (code ni x :: recode_config code pis u) = raw_dwell rs (ni :: pis) (x :: u).
Proof.
  intros Hx. change (code ni x :: recode_config code pis u) with (recode_config code (ni :: pis) (x :: u)). apply raw_dwell_recoded; [exact HR|].
  constructor; [exists c; auto|]. eapply config_in; eassumption.
Qed.
Lemma jumps_r x y : x < c -> y < c -> raw_jumps (recoded code rs) ni (code ni y) (ni :: pis) (code ni x :: recode_config code pis u) = raw_jumps rs ni y (ni :: pis) (x :: u).
Proof.
  intros Hx Hy. change (code ni x :: recode_config code pis u) with (recode_config code (ni :: pis) (x :: u)). apply (raw_jumps_recoded rs ni c); auto.
  constructor; [exists c; auto|]. eapply config_in; eassumption.
Qed.
Definition count_of (data : list raw) (w : list nat) (x y : nat) : Z :=
  if y =? x then Zsum (map (fun y => if y =? x then 0%Z else raw_jumps data ni y (ni :: pis) (x :: w)) (seq 0 c)) else raw_jumps data ni y (ni :: pis) (x :: w).
Lemma Zsum_perm l l' : Permutation l l' -> Zsum l = Zsum l'.
Proof. induction 1; cbn in *; unfold Zsum in *; cbn [fold_right] in *; lia. Qed.
Lemma count_r x y : x < c -> y < c -> count_of (recoded code rs) (recode_config code pis u) (code ni x) (code ni y) = count_of rs u x y.
Proof.
  intros Hx Hy. unfold count_of. rewrite (code_eqb ni c y x Hni Hy Hx). destruct (y =? x); [|apply jumps_r; assumption].
  rewrite <- (Zsum_perm _ _ (Permutation_map _ (seq_recoded ni c Hni))). rewrite map_map. apply Zsum_ext. intros z Hz. apply in_seq in Hz.
  rewrite (code_eqb ni c z x Hni) by lia. destruct (z =? x); [reflexivity|]. apply jumps_r; lia.
Qed.
Lemma raw_times_at data w x : x < c -> nth_error (c_times (raw_cim data ni pis c w)) x = Some (raw_dwell data (ni :: pis) (x :: w)).
Proof. intros Hx. unfold raw_cim. cbn [compute_cim_coefficients new_cim c_times]. rewrite map_nth_error_iff, nth_seq_lt by exact Hx. reflexivity. Qed.
Lemma raw_trans_at data w x y : x < c -> y < c -> entry_at (c_trans (raw_cim data ni pis c w)) x y = Some (count_of data w x y).
Proof.
  intros Hx Hy. unfold raw_cim, entry_at. cbn [compute_cim_coefficients new_cim c_trans]. rewrite map_nth_error_iff, nth_seq_lt by exact Hx. cbn [option_map].
  rewrite map_nth_error_iff, nth_seq_lt by exact Hy. reflexivity.
Qed.
Lemma raw_rate_at data w x y : x < c -> y < c -> entry_at (c_cim (raw_cim data ni pis c w)) x y
  = Some (if x =? y then ((1 - Qc_of_Z (count_of data w x y)) / (raw_dwell data (ni :: pis) (x :: w) + 1))%Qc
          else ((Qc_of_Z (count_of data w x y) + 1) / (raw_dwell data (ni :: pis) (x :: w) + 1))%Qc).
Proof.
  intros Hx Hy. pose proof (raw_times_at data w x Hx) as E1. pose proof (raw_trans_at data w x y Hx Hy) as E2. unfold raw_cim in E1, E2 |- *.
  cbn [compute_cim_coefficients new_cim c_times c_trans] in E1, E2. unfold entry_at in E2. match type of E2 with match ?X with _ => _ end = _ => destruct X as [row|] eqn:ER; [|discriminate] end.
  edestruct cim_entry as [qr [Q1 Q2]]; [exact E1|exists row; split; [exact ER|exact E2]|]. unfold entry_at. rewrite Q1. exact Q2.
Qed.
Lemma raw_cim_recoded : same_recoded (code ni) c cm cm'.
Proof.
  destruct (HC ni c Hni) as [HB _]. unfold same_recoded, cm, cm'.
  split; [unfold raw_cim; cbn [compute_cim_coefficients new_cim c_times]; rewrite map_length; apply seq_length|].
  split; [unfold raw_cim; cbn [compute_cim_coefficients new_cim c_trans]; rewrite map_length; apply seq_length|].
  split. { unfold raw_cim; cbn [compute_cim_coefficients new_cim c_cim]. rewrite map_length, combine_length. unfold negate_diagonal. rewrite mapi_length. cbn [new_cim c_times]. rewrite !map_length, seq_length. apply Nat.min_id. }
  split; [|split].
  - intros x Hx. rewrite !raw_times_at by (auto). rewrite dwell_r by exact Hx. split; [reflexivity|discriminate].
  - intros x y Hx Hy. rewrite !raw_trans_at by auto. rewrite count_r by assumption. split; [reflexivity|discriminate].
  - intros x y Hx Hy. rewrite !raw_rate_at by auto. rewrite count_r, dwell_r by assumption. rewrite (code_eqb ni c x y Hni Hx Hy). split; [reflexivity|]. destruct (x =? y); discriminate.
Qed.
End cim.

Lemma recode_range z c i : nth_error cards i = Some c -> ((z < Z.of_nat c)%Z -> (recode (code i) z < Z.of_nat c)%Z)
  /\ ((0 <= z < Z.of_nat c)%Z -> (0 <= recode (code i) z < Z.of_nat c)%Z).
Proof.
  intros Hi. destruct (HC i c Hi) as [H1 _]. assert (X : (0 <= z < Z.of_nat c)%Z -> (0 <= recode (code i) z < Z.of_nat c)%Z).
  { intros Hz. unfold recode. destruct (Z.ltb_spec z 0); [lia|]. pose proof (H1 (Z.to_nat z)). lia. }
  split; [|exact X]. intros Hz. destruct (Z.ltb_spec z 0) as [L|G]; [|apply X; lia]. unfold recode. destruct (Z.ltb_spec z 0); lia.
Qed.
Lemma Forall2_mapi {A B} (Q Q' : A -> B -> Prop) (f : nat -> A -> A) l l' : Forall2 Q l l' ->
  (forall i a b, nth_error l' i = Some b -> Q a b -> Q' (f i a) b) -> Forall2 Q' (mapi f l) l'.
Proof.
  intros H. unfold mapi. assert (X : forall n, (forall i a b, nth_error l' i = Some b -> Q a b -> Q' (f (n + i) a) b) -> Forall2 Q' (mapi_from n f l) l').
  { induction H as [|a b l l' Hab H IH]; intros n HQ; cbn [mapi_from]; constructor.
    - specialize (HQ 0 a b eq_refl Hab). rewrite Nat.add_0_r in HQ. exact HQ.
    - apply IH. intros i a0 b0 Hi Hq. specialize (HQ (S i) a0 b0 Hi Hq). rewrite Nat.add_succ_r in HQ. exact HQ. }
  apply (X 0).
Qed.
Lemma raw_ok_recoded r : raw_ok cards r -> raw_ok cards (map (fun o : Qc * list Z => (fst o, mapi (fun i z => recode (code i) z) (snd o))) r).
Proof.
  intros [H1 H2]. split.
  - rewrite steps_recoded. intros ab Hab. apply in_map_iff in Hab as [w [<- Hw]]. cbn [fst snd]. destruct (H1 w Hw) as [F1 F2]. split.
    + eapply Forall2_mapi; [exact F1|]. cbn beta. intros i z c Hi Hz. exact (proj2 (recode_range z c i Hi) Hz).
    + eapply Forall2_mapi; [exact F2|]. cbn beta. intros i z c Hi Hz. exact (proj1 (recode_range z c i Hi) Hz).
  - intros o Ho. apply in_map_iff in Ho as [w [<- Hw]]. cbn [snd]. rewrite mapi_length. apply H2, Hw.
Qed.
Lemma legal_recoded vars rs : legal_input vars cards rs -> legal_input vars cards (recoded code rs).
Proof.
  intros [H1 [H2 [H3 [H4 [r [H5 H6]]]]]]. split; [exact H1|]. split; [exact H2|]. split; [exact H3|]. split.
  - apply Forall_forall. intros x Hx. apply in_map_iff in Hx as [r0 [<- Hr]]. rewrite Forall_forall in H4. apply raw_ok_recoded, H4, Hr.
  - eexists. split; [apply (in_map _ _ _ H5)|]. rewrite map_length. exact H6.
Qed.
Lemma clock_recoded rs : Forall clock_ok rs -> Forall clock_ok (recoded code rs).
Proof.
  intros H. apply Forall_forall. intros x Hx. apply in_map_iff in Hx as [r0 [<- Hr]]. rewrite Forall_forall in H. specialize (H r0 Hr).
  unfold clock_ok in *. rewrite steps_recoded. intros ab Hab. apply in_map_iff in Hab as [w [<- Hw]]. exact (H w Hw).
Qed.
End code.

(** the columns and cardinalities of a view *)
Lemma struct_of_card vars cards prior l i c : structure_get_node_indx (struct_of vars cards prior) l = Ok i ->
  structure_get_states_number (struct_of vars cards prior) l = Ok c -> nth_error cards i = Some c.
Proof.
  unfold structure_get_node_indx, structure_get_states_number. cbn [struct_of nodes_labels nodes_indexes nodes_values]. intros H1 H2.
  apply bind_ok in H1 as [p [A B]]. rewrite A in H2. cbn [bind] in H2. apply nth_res_ok in B. apply nth_res_ok in H2.
  rewrite nth_error_seq' in B. destruct (p <? length vars); [injection B as <-; exact H2|discriminate].
Qed.
