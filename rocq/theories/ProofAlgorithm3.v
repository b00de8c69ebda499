(** The constraint-based estimator is the CTPC algorithm run on every node (C81). *)
From Verif Require Import Base Lib LibQc ModelStructure ModelGraph ModelCims ModelData ModelParams ModelCache ModelCtpc
  SpecStructure SpecGraph SpecComb SpecParams SpecData SpecCtpc SpecRecover SpecAlgorithm
  ProofStructure ProofGraph ProofComb ProofParams ProofParams2 ProofParams3 ProofCache
  ProofCtpc ProofCtpc2 ProofCtpc3 ProofCtpc4 ProofCtpc5 ProofCtpc6 ProofCtpc7 ProofAlgorithm ProofAlgorithm2.

Definition the_ask (e : cb_env) (tot : nat) (v : label) (k : nat) (p : label) (sep : list label) : bool * bool :=
  match verdict e tot v p sep k with Ok a => a | Err _ => (false, false) end.
Definition protected_of (s : structure) (known : list edge) (v : label) : list label := filter (fun q => emem (q, v) known) (others s v).

Section est.
Variables (s : structure) (t : trajectory) (tot k : nat) (known : list edge) (thr : Qc) (tests : nat -> cim -> cim -> bool) (est : cb_estimator).
Hypothesis Hwf : wf_structure s.
Hypothesis Hnd : NoDup (nodes_indexes s).
Hypothesis Hlt : forall i, In i (nodes_indexes s) -> i < tot.
Hypothesis Htot : total_variables_number s = tot.
Hypothesis Hd : data_ok s t.
Hypothesis Hk : 0 < k.
Hypothesis HU : forall x, In x (nodes_values s) -> x = k.
Hypothesis HN : new_cb_estimator s t tot known thr tests = Ok est.
Let e := MkEnv s t thr tests.

Lemma val_k' v : In v (nodes_labels s) -> val_of s v = k.
Proof. intros Hv. destruct (wf_lookup s v Hwf Hv) as [q [_ [_ [W _]]]]. apply HU. exact (nth_error_In _ _ W). Qed.
Lemma ask_verdict v p S : test_ok s v p S -> verdict e tot v p S k = Ok (the_ask e tot v k p S).
Proof.
  intros Ht. destruct (verdict_meaning e tot k v p S Hwf Hd Htot Hk HU Ht) as [b [mk [E _]]]. unfold the_ask. rewrite E. reflexivity.
Qed.
Lemma matrix_at v p : In v (nodes_labels s) -> In p (nodes_labels s) -> mat_get (st_matrix (cb_st est)) (idx_of s p) (idx_of s v) = Ok (negb (emem (p, v) known)).
Proof.
  intros Hv Hp. destruct (new_estimator_ok s t tot known thr tests est Hwf Hnd Hlt HN) as [_ [_ [_ [_ HM]]]].
  destruct (wf_lookup s v Hwf Hv) as [_ [_ [_ [_ [Ev _]]]]]. destruct (wf_lookup s p Hwf Hp) as [_ [_ [_ [_ [Ep _]]]]]. exact (HM p v _ _ Hp Hv Ep Ev).
Qed.
Lemma ask_faithful v p S : test_ok s v p S ->
  (forall b, test_answers e tot (st_matrix (cb_st est)) v p S b <-> b = fst (the_ask e tot v k p S))
  /\ (~ In (p, v) known -> (gives_up est v p S <-> snd (the_ask e tot v k p S) = true)).
Proof.
  intros Ht. pose proof (ask_verdict v p S Ht) as EV. pose proof Ht as [Hv [Hp _]]. pose proof (matrix_at v p Hv Hp) as EM.
  destruct (new_estimator_ok s t tot known thr tests est Hwf Hnd Hlt HN) as [_ [Ee [Et _]]]. fold e in Ee.
  destruct (the_ask e tot v k p S) as [b0 mk] eqn:EA. cbn [fst snd]. split.
  - assert (A : test_answers e tot (st_matrix (cb_st est)) v p S b0).
    { eapply (verdict_answers e tot Hwf v Hv); [exact Ht|eexists; exact EM|]. change (e_struct e) with s. rewrite (val_k' v Hv). exact EV. }
    intros b. split; [|intros ->; exact A].
    destruct A as [c1 [i1 [j1 [st1 [X1 [X2 [X3 X4]]]]]]]. intros [c2 [i2 [j2 [st2 [Y1 [Y2 [Y3 Y4]]]]]]]. congruence.
  - intros Hkn. apply emem_false in Hkn. rewrite Hkn in EM. cbn [negb] in EM.
    destruct (wf_lookup s v Hwf Hv) as [_ [_ [_ [_ [Ev Ec]]]]]. destruct (wf_lookup s p Hwf Hp) as [_ [_ [_ [_ [Ep _]]]]].
    assert (ET : complete_test e (MkState (st_matrix (cb_st est)) empty_cache) p v S k tot (idx_of s p) (idx_of s v)
       = with_cache (cache_after e tot v p S empty_cache) (if mk then let* m' := mat_set (st_matrix (cb_st est)) (idx_of s p) (idx_of s v) false in Ok (b0, m') else Ok (b0, st_matrix (cb_st est)))).
    { rewrite (complete_test_empty e tot Hwf v) by exact Ht. rewrite ideal_verdict, EV. reflexivity. }
    unfold gives_up. rewrite Ee, Et. change (e_struct e) with s. split.
    + intros [cs [i [j [st' [E1 [E2 [E3 [E4 E5]]]]]]]]. rewrite Ec in E1. injection E1 as <-. rewrite Ep in E2. injection E2 as <-. rewrite Ev in E3. injection E3 as <-.
      rewrite (val_k' v Hv) in E4. rewrite ET in E4. destruct mk; [reflexivity|]. cbn [with_cache] in E4. injection E4 as _ <-. cbn [st_matrix] in E5. congruence.
    + intros ->. destruct (mat_set_ok _ _ _ false _ EM) as [m' Em]. rewrite Em in ET. cbn [bind with_cache] in ET.
      exists k, (idx_of s p), (idx_of s v). eexists. rewrite Ec, (val_k' v Hv). split; [reflexivity|]. split; [exact Ep|]. split; [exact Ev|].
      destruct b0; [destruct (verdict_mark _ _ _ _ _ _ EV)|]. split; [exact ET|]. cbn [st_matrix]. apply mat_set_get in Em as [_ Em]. rewrite Em, !Nat.eqb_refl. reflexivity.
Qed.
Lemma estimate_alg mp es est' v : cb_estimate_structure est mp = Ok (es, est') -> In v (nodes_labels s) ->
  forall p, In (p, v) es <-> In p (ctpc_parents (the_ask e tot v k) (protected_of s known v) (others s v)).
Proof.
  intros H Hv p. destruct (new_estimator_ok s t tot known thr tests est Hwf Hnd Hlt HN) as [Hok [Ee [Et _]]]. fold e in Ee.
  pose proof (estimate_char est Hok mp es est' H) as [_ [A2 _]].
  rewrite Ee in A2. destruct (A2 v Hv) as [esv [stv [B1 [B2 _]]]]. rewrite B2. clear A2 B2. rewrite Et in B1.
  rewrite (est_state est Hok) in B1.
  pose proof (optimize_alg (cleaned est) tot v (the_ask e tot v k)) as OA. unfold cleaned in OA, B1. rewrite Ee in OA, B1.
  change (clean_structure_edges (e_struct e)) with (clean_structure_edges s) in *. cbn [e_struct] in OA.
  change (others (clean_structure_edges s) v) with (others s v) in OA.
  rewrite (OA Hwf Hnd Hv) with (m := st_matrix (cb_st est)) (pr := protected_of s known v) (st' := stv); [tauto| | |exact B1].
  - intros q S Ht. change (val_of (clean_structure_edges s) v) with (val_of s v). rewrite (val_k' v Hv). exact (ask_verdict v q S Ht).
  - intros q Hq. cbn [e_struct]. change (idx_of (clean_structure_edges s) q) with (idx_of s q). change (idx_of (clean_structure_edges s) v) with (idx_of s v).
    pose proof Hq as Hq'. apply others_In in Hq' as [Hq' _]. rewrite (matrix_at v q Hv Hq'). f_equal. f_equal.
    apply eq_true_iff_eq. rewrite lmem_In. unfold protected_of. rewrite filter_In. tauto.
Qed.
End est.
