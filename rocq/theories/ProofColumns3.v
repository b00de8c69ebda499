(** The choice and the order of the columns: the two readings of the same question (C80). *)
From Coq Require Import Reals.
From Verif Require Import Base Lib LibQc ModelStructure ModelGraph ModelCims ModelData ModelParams ModelCache ModelCtpc ModelFamScore ModelIndep
  SpecStructure SpecGraph SpecComb SpecParams SpecData SpecCtpc SpecInvariance SpecIndep SpecFloating SpecColumns
  ProofStructure ProofGraph ProofComb ProofParams ProofParams2 ProofParams3 ProofData ProofData2 ProofData3 ProofCtpc ProofCtpc2 ProofCtpc4 ProofInvariance ProofCoding2 ProofCoding3 ProofColumns ProofColumns2.
Open Scope nat_scope.

Section sel.
Variables (sg : list nat) (vars : list label) (cards : list nat) (prior : option (list edge)) (rs : list raw).
Hypothesis HS : selection sg (length vars).
Hypothesis HL : legal_input vars cards rs.
Let vars' := pick sg vars.
Let s := struct_of vars cards prior.
Let s' := struct_of (pick sg vars) (pick sg cards) prior.
Let rs' := picked sg rs.

Lemma view_exists E v : In v vars' -> exists ps, node_view s' E v (val_of s' v) (idx_of s' v) (map (idx_of s') (parents_of s' E v)) ps
   /\ ps = map (val_of s') (parents_of s' E v).
Proof.
  intros Hv. pose proof (wf_s' sg vars cards prior rs HS HL) as W. fold s' in W. destruct (wf_lookup s' v W Hv) as [_ [_ [_ [_ [A B]]]]].
  eexists. split; [|reflexivity]. split; [exact B|]. split; [exact A|].
  assert (HI : forall l, In l (parents_of s' E v) -> In l vars') by (intros l Hl; unfold parents_of in Hl; apply filter_In in Hl; apply Hl).
  change (filter _ _) with (parents_of s' E v). clear - W HI. induction (parents_of s' E v) as [|p l IH]; cbn [map]; [split; constructor|].
  destruct (wf_lookup s' p W (HI p (or_introl eq_refl))) as [_ [_ [_ [_ [A B]]]]]. destruct IH as [I1 I2]; [intros; apply HI; right; assumption|].
  split; constructor; assumption.
Qed.

Lemma columns_params es v c ni pis ps :
  edges_within vars' es -> edges_within vars' (edges_list s) -> In v vars' ->
  node_view s (es ++ edges_list s) v c ni pis ps -> 0 < c -> compat c ps ->
  exists g g' soc soc' ni' pis' ps', node_view s' (es ++ edges_list s') v c ni' pis' ps'
   /\ ng_fast_init (fresh_graph s es) v = Ok g /\ ng_fast_init (fresh_graph s' es) v = Ok g'
   /\ compute_parameters_for_node (traj_of vars rs) g v = Ok soc /\ compute_parameters_for_node (traj_of vars' rs') g' v = Ok soc'
   /\ Permutation (parents_of s' (es ++ edges_list s') v) (parents_of s (es ++ edges_list s) v)
   /\ length (so_actual_cims soc) = nat_prod ps /\ length (so_actual_cims soc') = nat_prod ps
   /\ (forall a : label -> nat, config_ok ps (map a (parents_of s (es ++ edges_list s) v)) ->
         exists cm, nth_error (so_actual_cims soc) (config_rank ps (map a (parents_of s (es ++ edges_list s) v))) = Some cm
                 /\ nth_error (so_actual_cims soc') (config_rank ps' (map a (parents_of s' (es ++ edges_list s') v))) = Some cm)
   /\ Permutation (so_actual_cims soc') (so_actual_cims soc)
   /\ Forall (full_cim c) (so_actual_cims soc).
Proof.
  intros He Hp Hv V Hc Hcp. set (E := es ++ edges_list s) in *. change (es ++ edges_list s') with E.
  destruct (view_exists E v Hv) as [ps0 [W _]].
  assert (HE : forall l, In l vars -> emem (l, v) E = true -> In l vars').
  { intros l _ K. apply emem_In in K. unfold E in K. apply in_app_iff in K as [K|K]; [exact (proj1 (He _ K))|exact (proj1 (Hp _ K))]. }
  destruct (view_pick sg vars cards prior rs HS HL E v _ _ _ _ _ _ _ _ V W Hv HE) as [Q1 [Q2 [Q3 [Q4 [Q5 [Q6 [Q7 [Q8 [Q9 Q10]]]]]]]]].
  fold s in Q1, Q4, Q5, Q7, Q9, Q10. fold s' in Q1, Q2, Q3, Q6, Q8, Q10. set (P := parents_of s E v) in *. set (P' := parents_of s' E v) in *.
  rewrite Q3 in W.
  assert (K1 : forall es0, edges_within vars' es0 -> edges_within vars es0).
  { intros es0 H x Hx. destruct (H x Hx) as [A B]. split; apply (pick_In sg); assumption. }
  assert (Hcp' : compat c ps0).
  { intros p Hpp. apply Hcp. rewrite Q9. rewrite Q10 in Hpp. apply (Permutation_in p (Permutation_map _ Q1)), Hpp. }
  destruct (raw_params vars cards prior rs es v c ni pis ps HL (K1 _ He) (K1 _ Hp) V Hc Hcp) as [g [G1 G2]].
  destruct (raw_params vars' (pick sg cards) prior rs' es v c _ _ _ (legal_picked sg vars cards HS rs HL) He Hp W Hc Hcp') as [g' [G1' G2']].
  exists g, g'. do 2 eexists. exists (idx_of s' v), (map (idx_of s') P'), ps0. split; [exact W|]. split; [exact G1|]. split; [exact G1'|]. split; [exact G2|]. split; [exact G2'|].
  cbn [so_actual_cims]. rewrite !map_length, !le_enum_length. split; [exact Q1|]. split; [reflexivity|].
  split; [rewrite Q9, Q10; apply nat_prod_perm, Permutation_map, Q1|].
  assert (CM : forall a : label -> nat, raw_cim rs' (idx_of s' v) (map (idx_of s') P') c (map a P') = raw_cim rs ni pis c (map a P)).
  { intros a. rewrite Q5, Q7. apply (cim_pick sg vars cards prior rs HS HL v P P' c a Hv Q1 Q2). }
  split; [|split].
  - intros a Ha. pose proof Ha as Ha0.
    assert (Ha' : config_ok ps0 (map a P')).
    { rewrite Q10. rewrite Q9 in Ha. apply config_map. intros l Hl. apply (Permutation_in l Q1) in Hl. clear - Ha Hl. induction P as [|x r IH]; [contradiction|].
      cbn [map] in Ha. inversion Ha; subst. destruct Hl as [<-|Hl]; [assumption|apply IH; assumption]. }
    exists (raw_cim rs ni pis c (map a P)). rewrite !map_nth_error_iff, (le_enum_rank ps _ Ha0), (le_enum_rank ps0 _ Ha'). cbn [option_map]. split; [reflexivity|].
    f_equal. apply CM.
  - rewrite Q9, Q10. apply enum_perm; [|exact Q1|].
    + unfold P, parents_of. apply NoDup_filter'. exact (proj1 (wf_s vars cards prior rs HL)).
    + intros a _. apply CM.
  - apply Forall_map, Forall_forall. intros u _. apply raw_full.
Qed.

(** the single test *)
Variables (Pt : test_params) (thr : Qc) (k : nat).
Hypothesis HE : equal_cards cards k.
Let e := MkEnv s (traj_of vars rs) thr (the_tests Pt).
Let e' := MkEnv s' (traj_of vars' rs') thr (the_tests Pt).
Lemma equal' : equal_cards (pick sg cards) k.
Proof. destruct HE as [A B]. split; [exact A|]. intros c Hc. apply B, (pick_In sg), Hc. Qed.
Lemma test_kept v p K : test_ok s' v p K -> test_ok s v p K.
Proof.
  intros [A [B [C D]]]. split; [exact (pick_In _ _ _ A)|]. split; [exact (pick_In _ _ _ B)|]. split; [exact C|]. intros q Hq. exact (pick_In _ _ _ (D q Hq)).
Qed.
Lemma verdict_columns v p K : test_ok s' v p K ->
  exists b mk mk', verdict e (length vars) v p K k = Ok (b, mk) /\ verdict e' (length vars') v p K k = Ok (b, mk').
Proof.
  intros Ht'. pose proof (test_kept v p K Ht') as Ht. destruct HE as [Hk HU].
  pose proof (legal_picked sg vars cards HS rs HL) as HL'. fold vars' rs' in HL'.
  destruct (verdict_meaning e (length vars) k v p K (legal_wf vars cards prior rs HL) (legal_data vars cards prior rs HL) eq_refl Hk HU Ht) as [b [mk [E1 B1]]].
  destruct (verdict_meaning e' (length vars') k v p K (legal_wf vars' (pick sg cards) prior rs' HL') (legal_data vars' (pick sg cards) prior rs' HL') eq_refl Hk (proj2 equal') Ht') as [b' [mk' [E2 B2]]].
  exists b, mk, mk'. split; [exact E1|]. rewrite E2. do 2 f_equal. symmetry. apply eq_true_iff_eq. rewrite B1, B2. clear E1 E2 B1 B2 mk mk' b b'.
  change (e_struct e) with s. change (e_struct e') with s'. destruct Ht' as [Hv [Hp [_ HK]]].
  assert (X : forall K', (forall l, In l K' -> In l vars') -> Permutation (parents_in s' K') (parents_in s K') /\ (forall l, In l (parents_in s' K') -> In l vars')).
  { intros K' HK'. split; [|intros l Hl; unfold parents_in in Hl; apply filter_In in Hl; apply Hl].
    apply (filter_pick sg vars cards prior rs HS HL). intros l _ Hl. apply lmem_In in Hl. apply HK', Hl. }
  assert (HPK : forall l, In l (p :: K) -> In l vars') by (intros l [<-|Hl]; [exact Hp|exact (HK l Hl)]).
  destruct (X K HK) as [X1 X2]. destruct (X (p :: K) HPK) as [X3 X4].
  assert (D : forall ls ls' a, Permutation ls' ls -> (forall l, In l ls' -> In l vars') ->
     data_cim (traj_of vars' rs') (length vars') (idx_of s' v) (map (idx_of s') ls') k (map a ls') = data_cim (traj_of vars rs) (length vars) (idx_of s v) (map (idx_of s) ls) k (map a ls)).
  { intros ls ls' a HP HI. unfold s, s'. rewrite (data_raw vars cards prior rs k HL HE rs v ls _ HL (pick_In _ _ _ Hv)) by (intros l Hl; apply (pick_In sg), HI, (Permutation_in l (Permutation_sym HP)), Hl).
    rewrite (data_raw vars' (pick sg cards) prior rs' k HL' equal' rs' v ls' _ HL' Hv HI). exact (cim_pick sg vars cards prior rs HS HL v ls ls' k a Hv HP HI). }
  assert (PA : forall a, pair_accepts e' (length vars') k (idx_of s' v) (parents_in s' K) (parents_in s' (p :: K)) (map (idx_of s') (parents_in s' K)) (map (idx_of s') (parents_in s' (p :: K))) a
      <-> pair_accepts e (length vars) k (idx_of s v) (parents_in s K) (parents_in s (p :: K)) (map (idx_of s) (parents_in s K)) (map (idx_of s) (parents_in s (p :: K))) a).
  { intros a. unfold pair_accepts. cbn [e e' e_traj e_threshold e_tests]. rewrite (D _ _ a X1 X2), (D _ _ a X3 X4). unfold enough_data.
    rewrite (nat_prod_perm _ _ (Permutation_map (fun _ => k) X1)). tauto. }
  clear D X1 X2 X3 X4 X. split; intros H a Ha; specialize (PA a); specialize (H a Ha); destruct PA as [PA1 PA2]; [exact (PA2 H)|exact (PA1 H)].
Qed.
End sel.
