(** Exact recovery stated on the data (C62). *)
From Coq Require Import Reals Lra.
From Verif Require Import Base Lib ModelStructure ModelGraph ModelCims ModelData ModelParams ModelCache ModelCtpc ModelFamScore ModelIndep
  SpecStructure SpecGraph SpecComb SpecParams SpecCtpc SpecRecover SpecFamScore SpecIndep SpecRecover2
  ProofStructure ProofGraph ProofComb ProofIndex ProofParams3 ProofCache ProofCtpc ProofCtpc2 ProofCtpc3 ProofCtpc4 ProofCtpc5 ProofCtpc6 ProofCtpc7 ProofIndep2 ProofRecover PropsIndep PropsCtpc.
Open Scope nat_scope.


Lemma jumps_nonneg n c x y : stats_ok n c -> (0 <= jumps_of c x y)%Z.
Proof.
  intros [_ [L [_ H]]]. unfold jumps_of. destruct (nth_error (c_trans c) x) as [row|] eqn:E.
  - rewrite (nth_error_nth _ _ _ E). destruct (H x row E) as [_ [F _]].
    destruct (nth_error row y) as [z|] eqn:Ez.
    + rewrite (nth_error_nth _ _ _ Ez). rewrite Forall_forall in F. apply F. eapply nth_error_In, Ez.
    + apply nth_error_None in Ez. rewrite nth_overflow by exact Ez. lia.
  - apply nth_error_None in E. rewrite (nth_overflow _ _ E). destruct y; cbn; lia.
Qed.
Lemma singleton_pearson a b : (0 <= a)%R -> (0 <= b)%R -> (a + b <> 0)%R -> pearson [a] [b] = 0%R.
Proof.
  intros Ha Hb Hn. unfold pearson, pearson_cell, Rsum. cbn [combine map fst snd fold_right].
  rewrite !Rplus_0_r. replace (a * (a + b) / (a + b))%R with a by (field; exact Hn). replace (b * (a + b) / (a + b))%R with b by (field; exact Hn).
  unfold Rdiv. replace (a - a)%R with 0%R by ring. replace (b - b)%R with 0%R by ring. ring.
Qed.
Lemma binary_state P c1 c2 x : quantiles_ok P -> stats_ok 2 c1 -> stats_ok 2 c2 -> x < 2 -> state_accepts P 2 c1 c2 x <-> rates_agree P c1 c2 x.
Proof.
  intros HQ S1 S2 Hx. unfold state_accepts, rates_agree.
  assert (Z : unseen_cell 2 c1 c2 x \/ forall q, chi2_ppf P (1 - chi_alpha P)%R (2 - 1) = Fin q -> (pearson (jump_row 2 c1 x) (jump_row 2 c2 x) <= q)%R).
  { assert (E : exists y, y < 2 /\ y <> x /\ other_states 2 x = [y]).
    { destruct x as [|[|x]]; [exists 1|exists 0|lia]; repeat split; lia. }
    destruct E as [y [Hy [Ny E]]]. unfold jump_row. rewrite E. cbn [map].
    pose proof (jumps_nonneg 2 c1 x y S1) as A. pose proof (jumps_nonneg 2 c2 x y S2) as B.
    destruct (Z.eq_dec (jumps_of c1 x y + jumps_of c2 x y) 0) as [C|C].
    - left. exists y. repeat split; try assumption; lia.
    - right. intros q Hq. destruct HQ as [_ [_ [Q3 [_ [_ A2]]]]].
      destruct (Q3 (1 - chi_alpha P)%R (2 - 1)) as [q' [Eq Pq]]; [lra|lia|]. rewrite Hq in Eq. injection Eq as <-.
      rewrite singleton_pearson; [lra|apply IZR_le; exact A|apply IZR_le; exact B|]. rewrite <- plus_IZR. apply not_0_IZR. exact C. }
  tauto.
Qed.

Section data.
Variables (P : test_params) (s : structure) (t : trajectory) (known : list edge) (thr : Qc) (est : cb_estimator).
Let tot := total_variables_number s.
Hypothesis HQ : quantiles_ok P.
Hypothesis Hwf : wf_structure s.
Hypothesis Hn : NoDup (nodes_indexes s).
Hypothesis Hi : forall i, In i (nodes_indexes s) -> i < tot.
Hypothesis HV : forall x, In x (nodes_values s) -> x = 2.
Hypothesis Hd : data_ok s t.
Hypothesis HT : Forall (fun q => 0 <= q)%Qc (t_times t).
Hypothesis Hnew : new_cb_estimator s t tot known thr (the_tests P) = Ok est.

Lemma answers_iff v q sep : test_ok s v q sep ->
  test_answers (cb_e est) (cb_tot est) (st_matrix (cb_st est)) v q sep true <-> separated P s t v q sep.
Proof.
  intros Hto. destruct (new_estimator_ok s t tot known thr (the_tests P) est Hwf Hn Hi Hnew) as [Hok [He [Ht [_ HG]]]].
  assert (Es : e_struct (cb_e est) = s) by (rewrite He; reflexivity).
  assert (ET : e_traj (cb_e est) = t) by (rewrite He; reflexivity).
  assert (EE : e_tests (cb_e est) = the_tests P) by (rewrite He; reflexivity).
  destruct Hto as [Hv [Hq [ND Hsep]]].
  destruct (wf_lookup s v Hwf Hv) as [iv [_ [_ [Vv [Ev Ec]]]]].
  destruct (wf_lookup s q Hwf Hq) as [iq [_ [_ [_ [Eq _]]]]].
  rewrite (HV _ (nth_error_In _ _ Vv)) in Ec.
  set (sp := filter (fun l => lmem l sep) (nodes_labels s)). set (lp := filter (fun l => lmem l (q :: sep)) (nodes_labels s)).
  assert (CO : forall ls, (forall l, In l ls -> In l (nodes_labels s)) -> columns_of s ls (map (idx_of s) ls)).
  { induction ls as [|l ls IH]; intros Hls; [constructor|]. constructor; [|apply IH; intros z Hz; apply Hls; right; exact Hz].
    destruct (wf_lookup s l Hwf (Hls l (or_introl eq_refl))) as [_ [_ [_ [_ [El _]]]]]. exact El. }
  assert (Csp : columns_of s sp (map (idx_of s) sp)) by (apply CO; intros l Hl; apply filter_In in Hl; tauto).
  assert (Clp : columns_of s lp (map (idx_of s) lp)) by (apply CO; intros l Hl; apply filter_In in Hl; tauto).
  destruct (C61_independence_test_on_data P (cb_e est) tot 2 v q sep (st_matrix (cb_st est)) (idx_of s q) (idx_of s v) (negb (emem (q, v) known)) (idx_of s v) (map (idx_of s) sp) (map (idx_of s) lp)
     HQ EE) as [b [st' [E1 K]]]; rewrite ?Es, ?ET; try assumption.
  { reflexivity. } { lia. } { split; [assumption|]. split; [assumption|]. split; assumption. }
  { apply HG; assumption. }
  rewrite Es, ET in K. cbn zeta in K. fold sp lp in K. unfold test_answers. rewrite Es, Ht. split.
  - intros [cs [i [j [st2 [A1 [A2 [A3 A4]]]]]]]. rewrite Ec in A1. injection A1 as <-. rewrite Eq in A2. injection A2 as <-.
    rewrite Ev in A3. injection A3 as <-. rewrite A4 in E1. injection E1 as <- _.
    intros ni spc lpc a B1 B2 B3 B4 x Hx. fold sp lp in B2, B3 |- *. rewrite Ev in B1. injection B1 as <-.
    rewrite (columns_idx s sp spc Hwf B2), (columns_idx s lp lpc Hwf B3).
    apply (binary_state P); try assumption; try (apply exact_cim_computed; exact HT).
    apply (proj1 K eq_refl a B4); exact Hx.
  - intros HS. exists 2, (idx_of s q), (idx_of s v), st'. split; [exact Ec|]. split; [exact Eq|]. split; [exact Ev|].
    rewrite E1. f_equal. f_equal. apply K. intros a Ha. split; [intros K2; lia|]. intros x Hx.
    apply (binary_state P); try assumption; try (apply exact_cim_computed; exact HT).
    exact (HS _ _ _ a Ev Csp Clp Ha x Hx).
Qed.

Lemma recovery_on_data mp (pa : label -> list label) :
  (forall v, In v (nodes_labels s) -> sublist (pa v) (others s v)) ->
  (forall v p sep, In v (nodes_labels s) -> In p (pa v) -> sublist sep (others s v) -> ~ In p sep -> ~ separated P s t v p sep) ->
  (forall v q, In v (nodes_labels s) -> In q (others s v) -> ~ In q (pa v) -> separated P s t v q (pa v)) ->
  (forall a b, In (a, b) known -> In a (pa b)) ->
  exists es est', cb_estimate_structure est mp = Ok (es, est')
    /\ forall a b, In (a, b) es <-> In b (nodes_labels s) /\ In a (pa b).
Proof.
  intros H1 H2 H3 H4. destruct (new_estimator_ok s t tot known thr (the_tests P) est Hwf Hn Hi Hnew) as [Hok [He [Ht [_ HG]]]].
  assert (Es : e_struct (cb_e est) = s) by (rewrite He; reflexivity).
  assert (ET : e_traj (cb_e est) = t) by (rewrite He; reflexivity).
  assert (TO : forall v q sep, In v (nodes_labels s) -> In q (others s v) -> sublist sep (others s v) -> ~ In q sep -> test_ok s v q sep).
  { intros v q sep Hv Hq Hs Hnq. pose proof (proj1 (others_In _ _ _) Hq) as [Q1 Q2].
    assert (NO : NoDup (others s v)) by (apply NoDup_filter'; apply Hwf).
    split; [exact Hv|]. split; [exact Q1|]. split.
    - constructor; [|constructor; [exact Hnq|eapply sublist_NoDup; eassumption]].
      intros [E|E]; [congruence|]. apply (sublist_In _ _ _ Hs) in E. apply others_In in E. tauto.
    - intros z Hz. apply (sublist_In _ _ _ Hs) in Hz. apply others_In in Hz. tauto. }
  destruct (C24_estimation_succeeds est mp 2 Hok) as [es [est' E]].
  { split; [lia|]. rewrite Es, ET, Ht. split; [exact HV|]. split; [reflexivity|exact Hd]. }
  exists es, est'. split; [exact E|].
  apply (exact_recovery_binary s t tot known thr (the_tests P) est mp es est' pa); try assumption.
  { intros x Hx. rewrite (HV x Hx). lia. }
  intros v Hv. unfold faithful. rewrite Es. split; [exact (H1 v Hv)|]. split.
  - intros p sep Hp Hs Hnp. rewrite answers_iff; [exact (H2 v p sep Hv Hp Hs Hnp)|]. apply TO; try assumption. eapply sublist_In; [exact (H1 v Hv)|exact Hp].
  - intros q Hq Hnq. apply answers_iff; [apply TO; try assumption; exact (H1 v Hv)|]. exact (H3 v q Hv Hq Hnq).
Qed.
End data.
