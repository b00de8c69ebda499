(** Histories of an estimator object, from the estimator (C81, C83). *)
From Verif Require Import Base Lib LibQc ModelStructure ModelGraph ModelCims ModelData ModelParams ModelCache ModelCtpc
  SpecStructure SpecGraph SpecComb SpecParams SpecData SpecCtpc SpecRecover SpecAlgorithm SpecHistory
  ProofStructure ProofGraph ProofComb ProofParams ProofParams2 ProofParams3 ProofCache
  ProofCtpc ProofCtpc2 ProofCtpc3 ProofCtpc4 ProofCtpc5 ProofCtpc6 ProofCtpc7 ProofAlgorithm ProofAlgorithm2 ProofAlgorithm3 ProofHistory ProofHistory2.

Lemma ask_cleaned s t thr tests tot v k p S :
  the_ask (MkEnv (clean_structure_edges s) t thr tests) tot v k p S = the_ask (MkEnv s t thr tests) tot v k p S.
Proof. reflexivity. Qed.

Lemma env_eta (e : cb_env) : e = MkEnv (e_struct e) (e_traj e) (e_threshold e) (e_tests e).
Proof. destruct e. reflexivity. Qed.

Section any.
Variables (est : cb_estimator) (k : nat).
Hypothesis Hok : estimator_ok est.
Hypothesis Hu : uniform_data est k.
Let s := e_struct (cb_e est).
Let t := e_traj (cb_e est).
Let thr := e_threshold (cb_e est).
Let tests := e_tests (cb_e est).
Let tot := cb_tot est.
Let m := st_matrix (cb_st est).
Let Hwf : wf_structure s := proj1 Hok.
Let Hnd : NoDup (nodes_indexes s) := proj1 (proj2 Hok).
Let Hlt : forall i, In i (nodes_indexes s) -> i < tot := proj1 (proj2 (proj2 Hok)).
Let Hk : 0 < k := proj1 Hu.
Let HU : forall x, In x (nodes_values s) -> x = k := proj1 (proj2 Hu).
Let Htot : total_variables_number s = tot := proj1 (proj2 (proj2 Hu)).
Let Hd : data_ok s t := proj2 (proj2 (proj2 Hu)).

Lemma est_square : square tot m.
Proof. split; [exact (proj1 (proj2 (proj2 (proj2 Hok))))|exact (proj1 (proj2 (proj2 (proj2 (proj2 Hok)))))]. Qed.
Lemma est_is_at : is_at s t thr tests tot est m.
Proof. split; [reflexivity|]. split; [reflexivity|]. split; [exact (est_state est Hok)|exact est_square]. Qed.
Lemma calls_settle modes ess est' n n' a b : calls est modes = Ok (ess, est') ->
  length (nodes_labels s) * (length (nodes_labels s) - 1) <= length (filter (fun x => x) (firstn n modes)) -> n <= n' ->
  nth_error ess n = Some a -> nth_error ess n' = Some b -> a = b.
Proof.
  intros H Hn Hle Ha Hb. eapply (stable s t thr tests tot k Hwf Hnd Hlt Htot Hd Hk HU modes est m ess est' est_is_at H n n' a b); [|exact Hle|exact Ha|exact Hb].
  eapply Nat.le_trans; [apply n_open_le|exact Hn].
Qed.
Lemma calls_few modes ess est' : calls est modes = Ok (ess, est') -> changes ess <= length (nodes_labels s) * (length (nodes_labels s) - 1).
Proof.
  intros H. eapply Nat.le_trans; [exact (few_changes s t thr tests tot k Hwf Hnd Hlt Htot Hd Hk HU modes est m ess est' est_is_at H)|apply n_open_le].
Qed.
Lemma calls_pool modes ess est' n a b : calls est modes = Ok (ess, est') -> nth_error modes n = Some false -> nth_error ess n = Some a -> nth_error ess (S n) = Some b -> a = b.
Proof. intros H. exact (pool_then s t thr tests tot k Hwf Hnd Hlt Htot Hd Hk HU modes est m ess est' est_is_at H n a b). Qed.
Lemma calls_binary modes ess est' a b : k <= 2 -> calls est modes = Ok (ess, est') -> In a ess -> In b ess -> a = b.
Proof. intros H2 H. exact (binary_calls s t thr tests tot k Hwf Hnd Hlt Htot Hd Hk HU H2 est m modes ess est' est_is_at H a b). Qed.
Lemma calls_total modes : exists ess est', calls est modes = Ok (ess, est') /\ length ess = length modes.
Proof.
  destruct est_is_at as [A [B [C D]]].
  destruct (calls_char s t thr tests tot k Hwf Hnd Hlt Htot Hd Hk HU modes est m _ A B C D (has_protection s t thr tests tot Hwf Hlt m D)) as [ess [est' [E [F _]]]]. eauto.
Qed.

Lemma val_k2 v : In v (nodes_labels s) -> val_of s v = k.
Proof. intros Hv. destruct (wf_lookup s v Hwf Hv) as [q [_ [_ [W _]]]]. apply HU. exact (nth_error_In _ _ W). Qed.
Lemma gives_up_ask v p S : test_ok s v p S -> removable est p v ->
  (gives_up est v p S <-> snd (the_ask (MkEnv s t thr tests) tot v k p S) = true).
Proof.
  intros Ht Hr. pose proof Ht as [Hv [Hp _]].
  assert (Ee : cb_e est = MkEnv s t thr tests) by exact (env_eta (cb_e est)).
  assert (EV : verdict (MkEnv s t thr tests) tot v p S k = Ok (the_ask (MkEnv s t thr tests) tot v k p S)).
  { destruct (verdict_meaning (MkEnv s t thr tests) tot k v p S Hwf Hd Htot Hk HU Ht) as [b [mk [E _]]]. unfold the_ask. rewrite E. reflexivity. }
  destruct (the_ask (MkEnv s t thr tests) tot v k p S) as [b0 mk] eqn:EA. cbn [snd].
  destruct (wf_lookup s v Hwf Hv) as [_ [_ [_ [_ [Ev Ec]]]]]. destruct (wf_lookup s p Hwf Hp) as [_ [_ [_ [_ [Ep _]]]]].
  pose proof (Hr _ _ Ep Ev) as EM. fold m in EM. set (e0 := MkEnv s t thr tests) in *.
  assert (ET : complete_test e0 (MkState m empty_cache) p v S k tot (idx_of s p) (idx_of s v)
       = with_cache (cache_after e0 tot v p S empty_cache) (if mk then let* m' := mat_set m (idx_of s p) (idx_of s v) false in Ok (b0, m') else Ok (b0, m))).
  { rewrite (complete_test_empty e0 tot Hwf v) by exact Ht. rewrite ideal_verdict, EV. reflexivity. }
  unfold gives_up. fold tot m. rewrite Ee. change (e_struct e0) with s. split.
  + intros [cs [i [j [st' [E1 [E2 [E3 [E4 E5]]]]]]]]. rewrite Ec in E1. injection E1 as <-. rewrite Ep in E2. injection E2 as <-. rewrite Ev in E3. injection E3 as <-.
    rewrite (val_k2 v Hv) in E4. rewrite ET in E4. destruct mk; [reflexivity|]. cbn [with_cache] in E4. injection E4 as _ <-. cbn [st_matrix] in E5. congruence.
  + intros ->. destruct (mat_set_ok _ _ _ false _ EM) as [m' Em]. rewrite Em in ET. cbn [bind with_cache] in ET.
    exists k, (idx_of s p), (idx_of s v). eexists. rewrite Ec, (val_k2 v Hv). split; [reflexivity|]. split; [exact Ep|]. split; [exact Ev|].
    destruct b0; [destruct (verdict_mark _ _ _ _ _ _ EV)|]. split; [exact ET|]. cbn [st_matrix]. apply mat_set_get in Em as [_ Em]. rewrite Em, !Nat.eqb_refl. reflexivity.
Qed.
Lemma marked_why mp es est' p v : cb_estimate_structure est mp = Ok (es, est') -> In v (nodes_labels s) -> In p (others s v) ->
  removable est p v -> removable est' p v \/ exists sep, test_ok s v p sep /\ gives_up est v p sep.
Proof.
  intros H Hv Hp Hr. pose proof est_is_at as [A [B [C D]]]. rewrite (same_estimate s t thr tests tot est m mp A B C) in H.
  pose proof (has_protection s t thr tests tot Hwf Hlt m D) as HP. set (pr := fun v0 => _) in HP.
  destruct (estimate_step s t thr tests tot k Hwf Hnd Hlt Htot Hd Hk HU m pr mp D HP) as [es1 [m' [g [E [_ [_ [_ [_ [_ P]]]]]]]]].
  rewrite E in H. assert (E' : est' = MkCbEst (MkEnv (clean_structure_edges s) t thr tests) tot (MkState m' empty_cache) g) by congruence. clear H.
  pose proof (proj1 (others_In _ _ _) Hp) as [Hpl Hpv].
  destruct (wf_lookup s v Hwf Hv) as [_ [_ [_ [_ [Ev _]]]]]. destruct (wf_lookup s p Hwf Hpl) as [_ [_ [_ [_ [Ep _]]]]].
  pose proof (Hr _ _ Ep Ev) as EM. fold m in EM.
  assert (EM' : mat_get m' (idx_of s p) (idx_of s v) = Ok (negb (lmem p (if mp then ctpc_protected (the_ask (MkEnv (clean_structure_edges s) t thr tests) tot v k) (pr v) (others s v) else pr v)))) by exact (P v Hv p Hp).
  assert (N : ~ In p (pr v)).
  { intros Hin. pose proof (HP v Hv p Hp : mat_get m (idx_of s p) (idx_of s v) = _) as Q. rewrite EM in Q. apply lmem_In in Hin. rewrite Hin in Q. discriminate. }
  destruct (lmem p (if mp then _ else _)) eqn:EL; cbn [negb] in EM'.
  - right. apply lmem_In in EL. destruct mp; [|contradiction].
    apply (rounds_gave_up _ (others s v)) in EL; [|apply NoDup_filter', Hwf|intros q Hq; exact Hq]. destruct EL as [Hin|[sep [A1 [A2 [A3 A4]]]]]; [contradiction|].
    assert (Ht : test_ok s v p sep).
    { split; [exact Hv|]. split; [exact Hpl|]. split.
      - constructor; [|exact A2]. intros [Q|Q]; [congruence|]. apply A3, others_In in Q. tauto.
      - intros q Hq. apply A3, others_In in Hq. tauto. }
    exists sep. split; [exact Ht|]. apply (gives_up_ask v p sep Ht Hr). exact A4.
  - left. intros i j Ei Ej. rewrite E' in *. cbn [cb_e cb_st e_struct st_matrix] in *.
    change (structure_get_node_indx s p = Ok i) in Ei. change (structure_get_node_indx s v = Ok j) in Ej. rewrite Ep in Ei. rewrite Ev in Ej. injection Ei as <-. injection Ej as <-. exact EM'.
Qed.
End any.

Section new.
Variables (s : structure) (t : trajectory) (tot k : nat) (known : list edge) (thr : Qc) (tests : nat -> cim -> cim -> bool) (est : cb_estimator).
Hypothesis Hwf : wf_structure s.
Hypothesis Hnd : NoDup (nodes_indexes s).
Hypothesis Hlt : forall i, In i (nodes_indexes s) -> i < tot.
Hypothesis Htot : total_variables_number s = tot.
Hypothesis Hd : data_ok s t.
Hypothesis Hk : 0 < k.
Hypothesis HU : forall x, In x (nodes_values s) -> x = k.
Hypothesis HN : new_cb_estimator s t tot known thr tests = Ok est.

Lemma every_call v modes : In v (nodes_labels s) -> let ask := the_ask (MkEnv s t thr tests) tot v k in
  exists ess est', calls est modes = Ok (ess, est') /\ length ess = length modes
    /\ forall n es, nth_error ess n = Some es -> forall p,
         In (p, v) es <-> In p (ctpc_parents ask (protected_after ask (others s v) (protected_of s known v) (firstn n modes)) (others s v)).
Proof.
  intros Hv ask. destruct (new_estimator_ok s t tot known thr tests est Hwf Hnd Hlt HN) as [Hok [Ee [Et [_ HM]]]].
  assert (SQ : square tot (st_matrix (cb_st est))) by (destruct Hok as [_ [_ [_ [A [B _]]]]]; rewrite Et in *; split; assumption).
  assert (HP : protected_by s t thr tests (st_matrix (cb_st est)) (protected_of s known)).
  { intros w Hw q Hq. pose proof (proj1 (others_In _ _ _) Hq) as [Hql _].
    destruct (wf_lookup s w Hwf Hw) as [_ [_ [_ [_ [Ew _]]]]]. destruct (wf_lookup s q Hwf Hql) as [_ [_ [_ [_ [Eq _]]]]].
    change (mat_get (st_matrix (cb_st est)) (idx_of s q) (idx_of s w) = Ok (negb (lmem q (protected_of s known w)))). rewrite (HM q w _ _ Hql Hw Eq Ew).
    f_equal. f_equal. apply eq_true_iff_eq. rewrite lmem_In. unfold protected_of. rewrite filter_In. change (others (e_struct _) w) with (others s w) in Hq. tauto. }
  destruct (calls_char s t thr tests tot k Hwf Hnd Hlt Htot Hd Hk HU modes est (st_matrix (cb_st est)) (protected_of s known)) as [ess [est' [A [B C]]]];
    [unfold cleaned; rewrite Ee; reflexivity|exact Et|exact (est_state est Hok)|exact SQ|exact HP|].
  exists ess, est'. split; [exact A|]. split; [exact B|]. intros n es Hn p. exact (C n es Hn v p Hv).
Qed.
End new.
