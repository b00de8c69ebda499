(** Variables that play no part: dropping their columns (C82). *)
From Verif Require Import Base Lib LibQc ModelStructure ModelGraph ModelCims ModelData ModelParams ModelCache ModelCtpc
  SpecStructure SpecGraph SpecComb SpecParams SpecData SpecCtpc SpecInvariance SpecColumns SpecAlgorithm
  ProofStructure ProofGraph ProofComb ProofParams ProofParams2 ProofParams3 ProofData ProofInvariance ProofCache
  ProofCtpc ProofCtpc2 ProofCtpc3 ProofCtpc4 ProofCtpc5 ProofCtpc6 ProofCtpc7 ProofCtpc8 ProofColumns ProofColumns2 ProofColumns3 ProofAlgorithm ProofAlgorithm2 ProofAlgorithm3.

Lemma filter_sublist {A} (q : A -> bool) a b : sublist a b -> NoDup b -> (forall x, In x b -> q x = true -> In x a) -> filter q a = filter q b.
Proof.
  induction 1 as [|x a b H IH|x a b H IH]; intros HN HQ; [reflexivity| |]; apply NoDup_cons_iff in HN as [N1 N2]; cbn [filter].
  - destruct (q x) eqn:E.
    + exfalso. apply N1. eapply sublist_In; [exact H|]. apply HQ; [left; reflexivity|exact E].
    + apply IH; [exact N2|]. intros y Hy. apply HQ. right. exact Hy.
  - assert (E : filter q a = filter q b).
    { apply IH; [exact N2|]. intros y Hy Ey. destruct (HQ y (or_intror Hy) Ey) as [->|K]; [contradiction|exact K]. }
    destruct (q x); [f_equal|]; exact E.
Qed.
Lemma sublist_keep a b : sublist a b -> NoDup b -> a = filter (fun x => lmem x a) b.
Proof.
  intros H HN. assert (E : filter (fun x => lmem x a) a = a).
  { clear. assert (G : forall l, (forall x, In x l -> In x a) -> filter (fun x => lmem x a) l = l).
    { induction l as [|y l IH]; intros K; [reflexivity|]. cbn [filter]. replace (lmem y a) with true by (symmetry; apply lmem_In, K; left; reflexivity).
      rewrite IH by (intros; apply K; right; assumption). reflexivity. }
    apply G. auto. }
  rewrite <- E at 1. apply filter_sublist; [exact H|exact HN|]. intros x _ Hx. apply lmem_In in Hx. exact Hx.
Qed.
Lemma prior_free vs cs p1 p2 t tot thr tests v q K k :
  verdict (MkEnv (struct_of vs cs p1) t thr tests) tot v q K k = verdict (MkEnv (struct_of vs cs p2) t thr tests) tot v q K k.
Proof.
  unfold verdict. cbn [e_struct e_traj].
  assert (E : forall K', set_params (struct_of vs cs p1) t tot v K' = set_params (struct_of vs cs p2) t tot v K').
  { intros K'. rewrite <- !(set_params_clean (struct_of _ _ _)). reflexivity. }
  rewrite !E. reflexivity.
Qed.
Lemma filter_comm {A} (p q : A -> bool) l : filter p (filter q l) = filter q (filter p l).
Proof. induction l as [|x l IH]; [reflexivity|]. cbn [filter]. destruct (q x) eqn:Q, (p x) eqn:P; cbn [filter]; rewrite ?P, ?Q, IH; reflexivity. Qed.

Section sel.
Variables (sg : list nat) (vars : list label) (cards : list nat) (prior prior' : option (list edge)) (rs : list raw).
Hypothesis HS : selection sg (length vars).
Hypothesis HL : legal_input vars cards rs.
Hypothesis HO : sublist (pick sg vars) vars.
Variables (tests : nat -> cim -> cim -> bool) (thr : Qc) (k : nat).
Hypothesis HE : equal_cards cards k.
Let vars' := pick sg vars.
Let s := struct_of vars cards prior.
Let s' := struct_of (pick sg vars) (pick sg cards) prior.
Let s1' := struct_of (pick sg vars) (pick sg cards) prior'.
Let rs' := picked sg rs.
Let e := MkEnv s (traj_of vars rs) thr tests.
Let e' := MkEnv s' (traj_of vars' rs') thr tests.
Let e1' := MkEnv s1' (traj_of vars' rs') thr tests.

Lemma same_parents K : (forall l, In l K -> In l vars') -> parents_in s' K = parents_in s K.
Proof.
  intros HK. unfold parents_in. apply filter_sublist; [exact HO|exact (vars_NoDup vars cards prior rs HL)|]. intros x _ Hx. apply lmem_In in Hx. apply HK, Hx.
Qed.
Lemma same_set_params v K : In v vars' -> (forall l, In l K -> In l vars') ->
  set_params s' (traj_of vars' rs') (length vars') v K = set_params s (traj_of vars rs) (length vars) v K.
Proof.
  intros Hv HK. destruct HE as [Hk HU]. pose proof (legal_picked sg vars cards HS rs HL) as HL'. fold vars' rs' in HL'.
  pose proof (raw_set_params vars' (pick sg cards) prior rs' k v K HL' Hk (proj2 (equal' sg cards k HE)) Hv HK) as E'. cbn zeta in E'.
  change (struct_of vars' (pick sg cards) prior) with s' in E'. rewrite E'. clear E'.
  pose proof (raw_set_params vars cards prior rs k v K HL Hk HU (pick_In _ _ _ Hv) (fun l Hl => pick_In _ _ _ (HK l Hl))) as E. cbn zeta in E.
  change (struct_of vars cards prior) with s in E. rewrite E. clear E. rewrite (same_parents K HK).
  assert (Q2 : forall l, In l (parents_in s K) -> In l vars') by (intros l Hl; rewrite <- (same_parents K HK) in Hl; unfold parents_in in Hl; apply filter_In in Hl; apply Hl).
  assert (EC : val_of s' v = val_of s v) by (apply (idx_pick sg vars cards prior rs HS HL), Hv).
  assert (EV : map (val_of s') (parents_in s K) = map (val_of s) (parents_in s K)).
  { apply map_ext_in. intros l Hl. apply (idx_pick sg vars cards prior rs HS HL), Q2, Hl. }
  rewrite EC, EV. do 2 f_equal. apply map_ext_in. intros u Hu. apply le_enum_ok in Hu.
  destruct (config_lookup (val_of s) (parents_in s K)) with (u := u) as [Eu _]; [apply NoDup_filter'; exact (vars_NoDup vars cards prior rs HL)|exact Hu|].
  rewrite <- Eu at 1 2. exact (cim_pick sg vars cards prior rs HS HL v _ _ (val_of s v) _ Hv (Permutation_refl _) Q2).
Qed.
Lemma same_filter p K : In p vars' -> (forall l, In l K -> In l vars') -> filter_of s' p K = filter_of s p K.
Proof.
  intros Hp HK. unfold filter_of, isin_mask. rewrite !mask_filter. f_equal. apply (same_parents (K ++ [p])). intros l Hl. apply in_app_iff in Hl as [Hl|[<-|[]]]; auto.
Qed.
Lemma same_thumb p K : In p vars' -> (forall l, In l K -> In l vars') -> thumb_of s' k p K = thumb_of s k p K.
Proof.
  intros Hp HK. unfold thumb_of. destruct (2 <? k); [|reflexivity].
  pose proof (wf_s vars cards prior rs HL) as W. pose proof (wf_s' sg vars cards prior rs HS HL) as W'. fold s in W. fold s' in W'.
  destruct (wf_lookup s p W (pick_In _ _ _ Hp)) as [_ [_ [_ [_ [_ Ep]]]]]. destruct (wf_lookup s' p W' Hp) as [_ [_ [_ [_ [_ Ep']]]]].
  rewrite Ep, Ep'. cbn [bind]. pose proof (proj2 (idx_pick sg vars cards prior rs HS HL p Hp)) as EP. fold s s' in EP. rewrite EP. f_equal. f_equal.
  unfold isin_mask. rewrite (mask_filter_vals s (fun l => lmem l K) W), (mask_filter_vals s' (fun l => lmem l K) W').
  fold (parents_in s K) (parents_in s' K). rewrite (same_parents K HK). apply map_ext_in. intros l Hl.
  apply (idx_pick sg vars cards prior rs HS HL). rewrite <- (same_parents K HK) in Hl. unfold parents_in in Hl. apply filter_In in Hl; apply Hl.
Qed.
Lemma same_verdict v p K : In v vars' -> In p vars' -> (forall q, In q K -> In q vars') -> verdict e' (length vars') v p K k = verdict e (length vars) v p K k.
Proof.
  intros Hv Hp HK. unfold verdict. cbn [e e' e_struct e_traj].
  rewrite (same_set_params v (p :: K) Hv) by (intros l [<-|Hl]; [exact Hp|exact (HK l Hl)]).
  rewrite (same_set_params v K Hv HK), (same_thumb p K Hp HK), (same_filter p K Hp HK). reflexivity.
Qed.
Lemma same_others v : others s' v = filter (fun l => lmem l vars') (others s v).
Proof.
  unfold others. rewrite filter_comm. f_equal. cbn [s' s struct_of nodes_labels]. apply sublist_keep; [exact HO|exact (vars_NoDup vars cards prior rs HL)].
Qed.
Lemma same_parents_of known known' v : In v vars' ->
  (forall q, In q vars -> ~ In q vars' -> q <> v -> ~ In (q, v) known /\ fst (the_ask e (length vars) v k q []) = true) ->
  (forall q, In q vars' -> (In (q, v) known <-> In (q, v) known')) ->
  ctpc_parents (the_ask e (length vars) v k) (protected_of s known v) (others s v)
  = ctpc_parents (the_ask e1' (length vars') v k) (protected_of s1' known' v) (others s1' v).
Proof.
  intros Hv HD HK. change (others s1' v) with (others s' v). change (protected_of s1' known' v) with (protected_of s' known' v).
  rewrite same_others. apply ctpc_drop.
  - apply NoDup_filter'. exact (vars_NoDup vars cards prior rs HL).
  - intros p Hp Kp. apply others_In in Hp as [Hp Hn]. apply lmem_false in Kp. destruct (HD p Hp Kp Hn) as [A B]. split; [|exact B].
    apply lmem_false. unfold protected_of. rewrite filter_In. intros [_ K]. apply emem_In in K. contradiction.
  - rewrite <- same_others. intros q Hq. apply eq_true_iff_eq. rewrite !lmem_In. unfold protected_of. rewrite !filter_In.
    pose proof Hq as Hq0. apply others_In in Hq as [Hq Hn]. rewrite !emem_In. rewrite (HK q Hq).
    assert (In q (others s v)) by (apply others_In; split; [exact (pick_In _ _ _ Hq)|exact Hn]). tauto.
  - rewrite <- same_others. intros p S Hp HI. unfold the_ask.
    unfold e1', s1'. rewrite (prior_free _ _ prior' prior). fold s' e'. rewrite same_verdict; [reflexivity|exact Hv|apply others_In in Hp; apply Hp|]. intros q Hq. apply HI, others_In in Hq. apply Hq.
Qed.
End sel.
