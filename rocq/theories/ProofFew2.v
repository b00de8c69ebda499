(** Variables that never change and the score-based search (C87). *)
From Coq Require Import Reals Lra.
From Verif Require Import Base Lib LibQc ModelStructure ModelGraph ModelCims ModelData ModelParams ModelCache ModelCtpc ModelSearch ModelFamScore ModelEstimators
  SpecStructure SpecGraph SpecComb SpecParams SpecData SpecCtpc SpecSearch SpecEstimators SpecRedundant SpecInvariance SpecConserve SpecFloating
  ProofStructure ProofGraph ProofComb ProofParams ProofCtpc ProofFamScore ProofSearch ProofSearch3 ProofEstimators2 ProofRedundant3 ProofConserve ProofInvariance ProofUnit3 ProofFew.
Close Scope R_scope. Open Scope nat_scope.

Section grow.
Variables (s : structure) (t : trajectory) (k : nat) (v : label).
Hypothesis Hwf : wf_structure s.
Hypothesis Hd : data_ok s t.
Hypothesis Hk : 0 < k.
Hypothesis Hk1 : k <> 1.
Hypothesis HV : forall x, In x (nodes_values s) -> x = k.
Hypothesis Hnn : Forall (fun q => 0 <= q)%Qc (t_times t).
Variables (tau alpha : R).
Hypothesis Ht : (0 < tau)%R.
Hypothesis Ha : (0 <= alpha + 1)%R.
Lemma total_ext P P' : (forall x, In x (nodes_labels s) -> In x P <-> In x P') -> still_total s t k v tau alpha P = still_total s t k v tau alpha P'.
Proof.
  intros H. unfold still_total. replace (parents_in s P) with (parents_in s P'); [reflexivity|]. unfold parents_in. apply filter_ext_In. intros x Hx.
  specialize (H x Hx). apply eq_true_iff_eq. rewrite !lmem_In. tauto.
Qed.
Lemma total_grow Q K : (forall l, In l Q -> In l (nodes_labels s)) -> (forall l, In l K -> In l (nodes_labels s)) -> incl K Q ->
  (still_total s t k v tau alpha Q <= still_total s t k v tau alpha K)%R.
Proof.
  intros HQ HK HI. rewrite (total_ext Q (Q ++ K)) by (intros x _; rewrite in_app_iff; intuition). clear HI.
  induction Q as [|p Q IH]; [cbn [app]; lra|]. assert (IH' := IH (fun l Hl => HQ l (or_intror Hl))). cbn [app].
  destruct (in_dec string_dec p (Q ++ K)) as [I|I].
  - rewrite (total_ext (p :: Q ++ K) (Q ++ K)); [exact IH'|]. intros x _. cbn [In]. split; [intros [<-|X]; auto|auto].
  - eapply Rle_trans; [|exact IH']. apply (still_more s t k p (Q ++ K)); auto. apply HQ. left. reflexivity.
Qed.
End grow.

Lemma gt_order : strict_order score_gt.
Proof.
  split; [intros a; unfold score_gt; destruct (Rgt_dec a a); [lra|reflexivity]|]. intros a b c. unfold score_gt. destruct (Rgt_dec a b), (Rgt_dec b c), (Rgt_dec a c); intros; try discriminate; try reflexivity; lra.
Qed.
Section est.
Variables (lg : R -> R) (tau alpha : R) (est : sb_estimator) (draws : label -> nat -> nat) (p : sb_params) (known : list edge) (k : nat) (v : label).
Notation score := (fun cims => get_fam_score lg cims tau alpha).
Hypothesis Hr : sb_ready est known.
Hypothesis Hd : data_ok (sb_struct est) (sb_traj est).
Hypothesis Hk : 2 <= k.
Hypothesis HV : forall x, In x (nodes_values (sb_struct est)) -> x = k.
Hypothesis Hv : In v (nodes_labels (sb_struct est)).
Hypothesis Hnn : Forall (fun q => 0 <= q)%Qc (t_times (sb_traj est)).
Hypothesis Hstill : forall pis u x y, x <> y -> jumps (sb_traj est) (total_variables_number (sb_struct est)) (idx_of (sb_struct est) v) pis u x y = 0%Z.
Hypothesis Ht : (0 < tau)%R.
Hypothesis Ha : (0 <= alpha + 1)%R.
Lemma still_estimate dm pn es pr est' : sp_max_parents p = None \/ (forall a, ~ In (a, v) known) ->
  sb_estimate_structure R score score_gt est draws p dm pn = Ok (es, pr, est') -> forall a, In (a, v) es <-> In (a, v) known.
Proof.
  intros HM H. destruct (sb_parents R score score_gt est draws p known Hr dm pn es pr est' v H Hv) as [esv [E1 [_ E3]]].
  pose proof (sb_search_ready est known v Hr Hv) as HR.
  assert (O : exists mp n pat tr, mp = sp_max_parents p /\ search_outcome R score score_gt (sb_traj est) (sb_struct (sb_cleaned est)) known v mp n pat esv tr).
  { destruct (f_outcome R score score_gt est draws p v esv E1) as [[tr E]|[tr E]].
    - eexists _, _, _, _. split; [reflexivity|]. exact (proj1 (tabu_outcome _ _ _ _ _ _ _ _ _ HR _ _ _ _ _ _ _ E)).
    - eexists _, _, _, _. split; [reflexivity|]. exact (hill_outcome _ _ _ _ _ _ _ _ _ HR _ _ _ _ _ E). }
  destruct O as [mp [n [pat [tr [Emp O]]]]].
  set (s := sb_struct (sb_cleaned est)) in *. set (kp := known_parents s known v). pose proof (known_parents_In s known (sb_matrix est) v HR) as KP. fold kp in KP.
  destruct (concl_improves R score score_gt (sb_traj est) s known v mp n pat esv tr O gt_order) as [sc0 [sc [S0 [S1 [S2 _]]]]]. fold kp in S0, S2.
  destruct (concl_path R score score_gt (sb_traj est) s known (sb_matrix est) v HR mp n pat esv tr O) as [Q [NQ [HP [_ HQ]]]].
  assert (KE : forall a, In (a, v) known -> In (a, v) esv).
  { intros a Ha'. destruct HM as [HM|HM]; [|exfalso; exact (HM a Ha')]. apply (concl_known R score score_gt (sb_traj est) s known (sb_matrix est) v HR mp n pat esv tr O); [congruence|exact Ha']. }
  assert (WK : forall l, In l kp -> In l (nodes_labels s)) by (intros l Hl; unfold kp, known_parents in Hl; apply filter_In in Hl; tauto).
  assert (WQ : forall l, In l Q -> In l (nodes_labels s)).
  { intros l Hl. apply (proj2 (concl_shape R score score_gt (sb_traj est) s known (sb_matrix est) v HR mp n pat esv tr O) l v). apply HQ, edges_into_In. auto. }
  assert (IKQ : incl kp Q) by (intros a Ha'; apply KP, KE, HQ, edges_into_In in Ha'; exact (proj1 Ha')).
  assert (PS : forall P, NoDup P -> (forall l, In l P -> In l (nodes_labels s)) -> forall X, (forall e, In e X <-> In e (edges_into v P)) -> score_of score (sb_traj est) s v X = Ok (still_total (sb_struct est) (sb_traj est) k v tau alpha P)).
  { intros P NP WP X EX. rewrite (score_of_pscore R score (sb_traj est) s known (sb_matrix est) v HR X P NP WP EX).
    apply (still_pscore (sb_struct est) (sb_traj est) k); auto; try lia; apply Hr. }
  assert (NK : NoDup kp) by (unfold kp, known_parents; apply NoDup_filter', HR).
  rewrite (PS kp NK WK) in S0 by tauto. rewrite (PS Q NQ WQ esv HQ) in S1. injection S0 as <-. injection S1 as <-.
  assert (LE : (still_total (sb_struct est) (sb_traj est) k v tau alpha Q <= still_total (sb_struct est) (sb_traj est) k v tau alpha kp)%R).
  { apply total_grow; auto; try lia. apply Hr. }
  intros a. rewrite E3. destruct S2 as [S2|[_ S2]].
  - unfold score_gt in S2. destruct (Rgt_dec _ _) as [G|]; [exfalso; lra|discriminate].
  - rewrite (S2 (a, v)), edges_into_In. cbn [fst snd]. rewrite <- (KP a). tauto.
Qed.
End est.
