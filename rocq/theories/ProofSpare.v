(** C98: declared states that never occur. *)
From Coq Require Import Reals Lra.
From Verif Require Import Base Lib LibQc ModelStructure ModelGraph ModelCims ModelData ModelParams ModelCache ModelCtpc ModelFamScore ModelIndep
  SpecStructure SpecGraph SpecComb SpecParams SpecData SpecCtpc SpecFloating SpecInvariance SpecFamScore SpecIndep SpecCoding SpecSpare
  ProofStructure ProofGraph ProofComb ProofParams ProofParams2 ProofParams3 ProofCtpc ProofCtpc2 ProofCtpc4 ProofFamScore2 ProofIndep ProofIndep2
  ProofData ProofInvariance ProofFloating5 ProofCoding ProofCoding3 ProofCoding4 ProofCbSim.
Open Scope nat_scope.

(** ** entries of the matrices *)
Definition rj (rs : list raw) ni pis c u (x y : nat) : Z :=
  if y =? x then Zsum (map (fun z => if z =? x then 0%Z else raw_jumps rs ni z (ni :: pis) (x :: u)) (seq 0 c))
  else raw_jumps rs ni y (ni :: pis) (x :: u).
Lemma raw_cim_times rs ni pis c u x : x < c -> nth_error (c_times (raw_cim rs ni pis c u)) x = Some (raw_dwell rs (ni :: pis) (x :: u)).
Proof. intros H. unfold raw_cim. cbn [compute_cim_coefficients new_cim c_times]. rewrite map_nth_error_iff, nth_seq_lt by exact H. reflexivity. Qed.
Lemma raw_cim_row rs ni pis c u x : x < c -> nth_error (c_trans (raw_cim rs ni pis c u)) x = Some (map (rj rs ni pis c u x) (seq 0 c)).
Proof. intros H. unfold raw_cim. cbn [compute_cim_coefficients new_cim c_trans]. rewrite map_nth_error_iff, nth_seq_lt by exact H. reflexivity. Qed.
Lemma raw_cim_trans rs ni pis c u x y : x < c -> y < c -> entry (c_trans (raw_cim rs ni pis c u)) x y = Some (rj rs ni pis c u x y).
Proof. intros H K. unfold entry. rewrite raw_cim_row by exact H. rewrite map_nth_error_iff, nth_seq_lt by exact K. reflexivity. Qed.
Lemma raw_cim_rate rs ni pis c u x y : x < c -> y < c -> let T := raw_dwell rs (ni :: pis) (x :: u) in let z := rj rs ni pis c u x y in
  entry (c_cim (raw_cim rs ni pis c u)) x y = Some (if x =? y then (1 - Qc_of_Z z) / (T + 1) else (Qc_of_Z z + 1) / (T + 1))%Qc.
Proof.
  intros H K T z. destruct (smoothed_cims _ _ (raw_cim rs ni pis c u) eq_refl) as [E1 [E2 E3]].
  pose proof (raw_cim_times rs ni pis c u x H) as A. pose proof (raw_cim_row rs ni pis c u x H) as B. rewrite E1 in A. rewrite E2 in B.
  destruct (E3 x y _ (rj rs ni pis c u x y) _ A B) as [q [Q1 Q2]]; [rewrite map_nth_error_iff, nth_seq_lt by exact K; reflexivity|].
  unfold entry. rewrite Q1. exact Q2.
Qed.

(** ** situations that never occur *)
Lemma Zsum_zero {A} (f : A -> Z) l : (forall x, In x l -> f x = 0%Z) -> Zsum (map f l) = 0%Z.
Proof. induction l as [|x l IH]; intros H; [reflexivity|]. unfold Zsum in *. cbn [map fold_right]. rewrite (H x (or_introl eq_refl)), IH; [reflexivity|]. intros y Hy. apply H. right. exact Hy. Qed.
Lemma Qcsum_zero {A} (f : A -> Qc) l : (forall x, In x l -> f x = 0%Qc) -> Qcsum (map f l) = 0%Qc.
Proof. induction l as [|x l IH]; intros H; [reflexivity|]. cbn [map]. rewrite Qcsum_cons, (H x (or_introl eq_refl)), IH; [apply Qcplus_0_l|]. intros y Hy. apply H. right. exact Hy. Qed.
Lemma filter_none {A} (f : A -> bool) l : (forall x, In x l -> f x = false) -> filter f l = [].
Proof. induction l as [|x l IH]; intros H; [reflexivity|]. cbn [filter]. rewrite (H x (or_introl eq_refl)). apply IH. intros y Hy. apply H. right. exact Hy. Qed.
Lemma dwell_none rs cols vals : (forall r ab, In r rs -> In ab (steps r) -> row_shows (snd (fst ab)) cols vals = false) -> raw_dwell rs cols vals = 0%Qc.
Proof. intros H. unfold raw_dwell. apply Qcsum_zero. intros r Hr. rewrite filter_none; [reflexivity|]. intros ab Hab. exact (H r ab Hr Hab). Qed.
Lemma jumps_none rs ni y cols vals : (forall r ab, In r rs -> In ab (steps r) -> row_shows (snd (fst ab)) cols vals && row_shows (snd (snd ab)) [ni] [y] = false) ->
  raw_jumps rs ni y cols vals = 0%Z.
Proof. intros H. unfold raw_jumps. apply Zsum_zero. intros r Hr. rewrite filter_none; [reflexivity|]. intros ab Hab. exact (H r ab Hr Hab). Qed.
Lemma steps_in (r : raw) ab : In ab (steps r) -> In (fst ab) r /\ In (snd ab) r.
Proof.
  unfold steps. destruct ab as [a b]. intros H. cbn [fst snd]. split; [eapply in_combine_l, H|]. apply in_combine_r in H. destruct r; [contradiction|right; exact H].
Qed.
Lemma steps_two (r : raw) ab : In ab (steps r) -> 2 <= length r.
Proof. unfold steps. destruct r as [|a [|b l]]; cbn; [contradiction..|]. lia. Qed.
Lemma never_shown rs j d cols vals r o : never_observed rs j d -> In r rs -> 2 <= length r -> In o r -> row_shows (snd o) (j :: cols) (d :: vals) = false.
Proof.
  intros H Hr Hl Ho. unfold row_shows. cbn [combine forallb fst snd]. specialize (H r o Hr Hl Ho). destruct (nth_error (snd o) j) as [z|]; [|reflexivity].
  destruct (Z.eqb_spec z (Z.of_nat d)) as [E|E]; [|reflexivity]. exfalso. apply H. congruence.
Qed.
Lemma spare_to rs ni pis c u d x : never_observed rs ni d -> x <> d -> rj rs ni pis c u x d = 0%Z.
Proof.
  intros H N. unfold rj. destruct (Nat.eqb_spec d x) as [E|E]; [congruence|]. apply jumps_none. intros r ab Hr Hab.
  rewrite (never_shown rs ni d [] [] r (snd ab) H Hr (steps_two r ab Hab) (proj2 (steps_in r ab Hab))). apply andb_false_r.
Qed.
Lemma spare_from rs ni pis c u d y : never_observed rs ni d -> rj rs ni pis c u d y = 0%Z.
Proof.
  intros H. assert (J : forall z, raw_jumps rs ni z (ni :: pis) (d :: u) = 0%Z).
  { intros z. apply jumps_none. intros r ab Hr Hab. rewrite (never_shown rs ni d pis u r (fst ab) H Hr (steps_two r ab Hab) (proj1 (steps_in r ab Hab))). reflexivity. }
  unfold rj. destruct (y =? d); [|apply J]. apply Zsum_zero. intros z _. destruct (z =? d); [reflexivity|apply J].
Qed.

(** ** the chi-square test is switched off *)
Lemma jumps_of_raw rs ni pis c u x y : x < c -> y < c -> jumps_of (raw_cim rs ni pis c u) x y = rj rs ni pis c u x y.
Proof.
  intros H K. pose proof (raw_cim_trans rs ni pis c u x y H K) as E. unfold entry in E. unfold jumps_of.
  destruct (nth_error (c_trans (raw_cim rs ni pis c u)) x) as [row|] eqn:R; [|discriminate]. rewrite (nth_error_nth _ _ [] R). apply nth_error_nth. exact E.
Qed.
Lemma spare_tests P P' rs ni pis pis' k u u' d : quantiles_ok P -> quantiles_ok P' -> same_rate_test P P' ->
  computed_cim k (raw_cim rs ni pis k u) -> computed_cim k (raw_cim rs ni pis' k u') -> never_observed rs ni d -> d < k ->
  the_tests P k (raw_cim rs ni pis k u) (raw_cim rs ni pis' k u') = the_tests P' k (raw_cim rs ni pis k u) (raw_cim rs ni pis' k u').
Proof.
  intros HQ HQ' [EA EF] C1 C2 HN Hd. apply eq_true_iff_eq. rewrite !the_tests_iff by assumption.
  assert (U : forall x, x < k -> exits (raw_cim rs ni pis k u) x = 0%Z \/ unseen_cell k (raw_cim rs ni pis k u) (raw_cim rs ni pis' k u') x).
  { intros x Hx. destruct (Nat.eq_dec x d) as [->|N].
    - left. unfold exits. rewrite jumps_of_raw by assumption. apply spare_from, HN.
    - right. exists d. split; [exact Hd|]. split; [congruence|]. rewrite !jumps_of_raw by assumption. split; apply spare_to; assumption. }
  split; intros H x Hx; specialize (H x Hx); destruct (U x Hx) as [Z|Z]; try (left; exact Z); unfold state_accepts in *; rewrite ?EA in *.
  - destruct H as [H|[H|[[H|[H1 [H2 H3]]] _]]]; [left; exact H|right; left; exact H|..]; right; right; (split; [|left; exact Z]); [left; exact H|].
    right. split; [exact H1|]. split; [exact H2|]. rewrite !EF. exact H3.
  - destruct H as [H|[H|[[H|[H1 [H2 H3]]] _]]]; [left; exact H|right; left; exact H|..]; right; right; (split; [|left; exact Z]); [left; exact H|].
    right. split; [exact H1|]. split; [exact H2|]. rewrite !EF in H3. exact H3.
Qed.

Lemma spare_replace vars cards prior rs k P P' thr m g mode : legal_input vars cards rs -> Forall clock_ok rs -> equal_cards cards k ->
  quantiles_ok P -> quantiles_ok P' -> same_rate_test P P' -> (forall j, j < length vars -> exists d, d < k /\ never_observed rs j d) ->
  let s := struct_of vars cards prior in let t := traj_of vars rs in
  same_edges (cb_estimate_structure (MkCbEst (MkEnv s t thr (the_tests P)) (length vars) (MkState m empty_cache) g) mode)
             (cb_estimate_structure (MkCbEst (MkEnv s t thr (the_tests P')) (length vars) (MkState m empty_cache) g) mode).
Proof.
  intros HL HT HE HQ HQ' HS HN s t. apply cb_sim; [exact (legal_wf vars cards prior rs HL)|]. intros v p K Ht. apply verdict_tests_ext.
  intros so1 so2 c1 c2 E1 E2 I1 I2. pose proof Ht as [Hv [Hp [_ HK]]]. destruct HE as [Hk HU].
  assert (HKp : forall l, In l (p :: K) -> In l vars) by (intros l [<-|Hl]; [exact Hp|exact (HK l Hl)]).
  unfold s, t in E1, E2. rewrite (raw_set_params vars cards prior rs k v K HL Hk HU Hv HK) in E1.
  rewrite (raw_set_params vars cards prior rs k v (p :: K) HL Hk HU Hv HKp) in E2. injection E1 as <-. injection E2 as <-.
  cbn [so_actual_cims] in I1, I2. apply in_map_iff in I1 as [u1 [<- _]]. apply in_map_iff in I2 as [u2 [<- _]]. fold s.
  assert (HI : forall l, In l vars -> idx_of s l < length vars).
  { intros l Hl. destruct (wf_lookup s l (legal_wf vars cards prior rs HL) Hl) as [q [_ [_ [_ [W1 _]]]]]. eapply struct_of_indx. exact W1. }
  assert (HF : forall K', Forall (fun i => i < length vars) (idx_of s v :: map (idx_of s) (parents_in s K'))).
  { intros K'. constructor; [apply HI, Hv|]. apply Forall_forall. intros i Hi. apply in_map_iff in Hi as [l [<- Hl]]. apply HI. unfold parents_in in Hl. apply filter_In in Hl. apply Hl. }
  assert (EV : val_of s v = k).
  { destruct (wf_lookup s v (legal_wf vars cards prior rs HL) Hv) as [q [_ [_ [W2 _]]]]. apply HU. exact (nth_error_In _ _ W2). }
  rewrite !EV. destruct (HN (idx_of s v) (HI v Hv)) as [d [Hd HD]].
  apply (spare_tests P P' rs (idx_of s v) _ _ k u1 u2 d); try assumption; apply (raw_computed vars cards); auto.
Qed.

Lemma spare_estimate vars cards prior rs k P P' known thr s t est est' es es' r r' mode mode' : legal_input vars cards rs -> Forall clock_ok rs -> equal_cards cards k ->
  quantiles_ok P -> quantiles_ok P' -> same_rate_test P P' -> (forall j, j < length vars -> exists d, d < k /\ never_observed rs j d) ->
  imports_to vars cards prior rs s t ->
  new_cb_estimator s t (length vars) known thr (the_tests P) = Ok est -> new_cb_estimator s t (length vars) known thr (the_tests P') = Ok est' ->
  mode = mode' ->
  cb_estimate_structure est mode = Ok (es, r) -> cb_estimate_structure est' mode' = Ok (es', r') -> es = es'.
Proof.
  intros HL HT HE HQ HQ' HS HN HI H1 H2 <- R1 R2. destruct (imports_det vars cards prior rs s t HL HI) as [-> ->].
  unfold new_cb_estimator in H1, H2.
  destruct (build_removable_edges_matrix _ _ _) as [m|x]; cbn [bind] in H1, H2; [|discriminate]. injection H1 as <-. injection H2 as <-.
  pose proof (spare_replace vars cards prior rs k P P' thr m (build_complete_graph vars) mode HL HT HE HQ HQ' HS HN) as B. cbv zeta in B.
  change (nodes_labels (struct_of vars cards prior)) with vars in R1, R2. rewrite R1, R2 in B. exact B.
Qed.
