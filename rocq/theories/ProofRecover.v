(** Exact recovery by the constraint-based estimator (C62). *)
From Verif Require Import Base Lib ModelStructure ModelGraph ModelCims ModelData ModelParams ModelCache ModelCtpc
  SpecStructure SpecGraph SpecComb SpecParams SpecCtpc SpecRecover
  ProofStructure ProofGraph ProofComb ProofIndex ProofParams3 ProofCache ProofCtpc ProofCtpc2 ProofCtpc3 ProofCtpc4 ProofCtpc5 ProofCtpc6 ProofCtpc7.

(** the structure's edge list plays no part in a test *)
Lemma complete_test_cleaned est st p c sep cs tot i j :
  complete_test (cleaned est) st p c sep cs tot i j = complete_test (cb_e est) st p c sep cs tot i j.
Proof.
  unfold complete_test, large_graph, cleaned; cbn [e_struct e_traj e_threshold e_tests].
  change (nodes_labels (clean_structure_edges (e_struct (cb_e est)))) with (nodes_labels (e_struct (cb_e est))).
  change (nodes_indexes (clean_structure_edges (e_struct (cb_e est)))) with (nodes_indexes (e_struct (cb_e est))).
  change (nodes_values (clean_structure_edges (e_struct (cb_e est)))) with (nodes_values (e_struct (cb_e est))).
  assert (HC : forall cs st c1 l th i j, test_cims (cleaned est) st cs c1 l th i j = test_cims (cb_e est) st cs c1 l th i j).
  { intros cs0 st0 c1 l th i0 j0. revert st0. induction l as [|c2 l IH]; intros st0; cbn [test_cims]; [reflexivity|].
    change (independence_test (cleaned est) st0 cs0 c1 c2 th i0 j0) with (independence_test (cb_e est) st0 cs0 c1 c2 th i0 j0).
    destruct (independence_test (cb_e est) st0 cs0 c1 c2 th i0 j0) as [[[] st1]|y]; cbn [bind]; auto. }
  assert (HT : forall l st so2 flt th, test_configs (cleaned est) st cs l so2 flt th i j = test_configs (cb_e est) st cs l so2 flt th i j).
  { induction l as [|[c1 pc] l IH]; intros st0 so2 flt th; cbn [test_configs]; [reflexivity|].
    destruct (filter_cims_with_mask so2 flt pc) as [cc|y]; cbn [bind]; [|reflexivity]. rewrite HC.
    destruct (test_cims (cb_e est) st0 cs c1 cc th i j) as [[[] st1]|y]; cbn [bind]; auto. }
  change (structure_get_states_number (clean_structure_edges (e_struct (cb_e est))) p) with (structure_get_states_number (e_struct (cb_e est)) p).
  fold (cleaned est).
  repeat (match goal with |- bind ?x _ = bind ?x _ => destruct x as [?|?]; cbn [bind]; [|reflexivity] end;
          repeat match goal with a : (_ * _)%type |- _ => destruct a end).
  apply HT.
Qed.

Section recover.
Variable est : cb_estimator.
Let e := cb_e est.
Let s := e_struct e.
Let tot := cb_tot est.
Let m := st_matrix (cb_st est).
Hypothesis Hok : estimator_ok est.
Variable v : label.
Hypothesis Hv : In v (nodes_labels s).

(** a removable entry stays removable unless some legal test gives up *)
Lemma stays_removable q es st' : In q (nodes_labels s) -> removable est q v ->
  optimize_structure e tot (cb_st est) v = Ok (es, st') ->
  mat_get (st_matrix st') (idx_of s q) (idx_of s v) = Ok true \/ exists sep, test_ok s v q sep /\ gives_up est v q sep.
Proof.
  intros Hq Hr H. rewrite (est_state est Hok), (optimize_ideal e tot v (Hwf est Hok) Hv) in H.
  destruct (optimize_with (e_struct e) v _ _ _) as [[es1 m1]|y] eqn:EO; cbn [with_empty] in H; [|discriminate]. injection H as <- <-. cbn [st_matrix].
  destruct (wf_lookup s q (Hwf est Hok) Hq) as [_ [_ [_ [_ [Eq _]]]]]. destruct (wf_lookup s v (Hwf est Hok) Hv) as [_ [_ [_ [_ [Ev Ec]]]]].
  pose proof (Hr _ _ Eq Ev) as Hm. fold s m in Hm.
  set (I := fun m0 => dims tot m0 /\ (mat_get m0 (idx_of s q) (idx_of s v) = Ok true \/ exists sep, test_ok s v q sep /\ gives_up est v q sep)).
  assert (HI : I m1); [|exact (proj2 HI)].
  refine (proj2 (optimize_err s v _ _ UnboundLocalError I (Hwf est Hok) Hv _ _ _ m _) _ _ EO).
  - discriminate.
  - intros m2 p _ _ K. apply mat_get_err in K. discriminate.
  - intros m2 p ps [D2 G2] Ht. split; [apply (av_ideal UnboundLocalError (or_intror eq_refl))|].
    intros b m3 K. split; [exact (ideal_dims est Hok v _ p ps _ b m3 Hv (proj1 (proj2 Ht)) D2 K)|].
    destruct G2 as [G2|G2]; [|right; exact G2].
    rewrite ideal_verdict in K. unfold apply_mark in K. apply bind_ok in K as [[b1 mk] [EV K]].
    destruct mk; [|injection K as <- <-; left; exact G2]. apply bind_ok in K as [m4 [Em K]]. injection K as <- <-.
    destruct b1; [apply verdict_mark in EV; contradiction|]. apply mat_set_get in Em as [_ Em]. rewrite Em.
    destruct (Nat.eqb_spec (idx_of s q) (idx_of s p)) as [Eqp|Nqp]; cbn [andb]; [|left; exact G2]. right.
    assert (p = q) as ->.
    { pose proof (proj1 (proj2 Ht)) as Hp. destruct (wf_lookup s p (Hwf est Hok) Hp) as [i1 [A1 [A2 _]]].
      destruct (wf_lookup s q (Hwf est Hok) Hq) as [i2 [B1 [B2 _]]]. rewrite <- Eqp in A2.
      assert (i1 = i2); [|congruence]. apply (proj1 (NoDup_nth_error _) (Hnd est Hok)); [apply nth_error_Some; fold e s; congruence|]. fold e s. congruence. }
    destruct (mat_set_ok m (idx_of s q) (idx_of s v) false true Hm) as [m5 Em5].
    exists ps. split; [exact Ht|]. exists (val_of s v), (idx_of s q), (idx_of s v). eexists. split; [exact Ec|]. split; [exact Eq|]. split; [exact Ev|].
    fold e tot m. rewrite (complete_test_empty e tot (Hwf est Hok) v) by exact Ht. rewrite ideal_verdict, EV. unfold apply_mark. cbn [bind].
    rewrite Em5. cbn [bind with_cache]. split; [reflexivity|]. cbn [st_matrix]. apply mat_set_get in Em5 as [_ Em5]. rewrite Em5, !Nat.eqb_refl. reflexivity.
  - split; [apply est_dims, Hok|left; exact Hm].
Qed.

Lemma recovered pa es st' : faithful est v pa ->
  optimize_structure e tot (cb_st est) v = Ok (es, st') ->
  (forall p, In p pa -> In (p, v) es)
  /\ (forall q, In (q, v) es -> ~ In q pa -> ~ removable est q v \/ exists sep, test_ok s v q sep /\ gives_up est v q sep)
  /\ ((forall q, In q (others s v) -> ~ In q pa -> removable est q v /\ forall sep, test_ok s v q sep -> ~ gives_up est v q sep) ->
      forall a b, In (a, b) es <-> In a pa /\ b = v).
Proof.
  intros [F1 [F2 F3]] H. destruct (optimize_justified est Hok v es st' Hv H) as [_ [kept [K1 [K2 [K3 K4]]]]].
  fold e s tot m in F1, F2, F3, K1, K2, K3, K4 |- *.
  assert (P1 : forall p, In p pa -> In p kept).
  { intros p Hp. destruct (in_dec string_dec p kept) as [Hk|Hk]; [exact Hk|exfalso].
    destruct (K3 p (sublist_In _ _ _ F1 Hp) Hk) as [sep [S1 [S2 S3]]]. exact (F2 p sep Hp S1 S2 S3). }
  assert (SP : sublist pa kept).
  { clear - F1 K1 P1 Hok. assert (N : NoDup (others s v)) by (apply NoDup_filter'; apply (Hwf est Hok)).
    remember (others s v) as o eqn:Eo. clear Eo. revert pa F1 P1 N. induction K1 as [|x a b K1 IH|x a b K1 IH]; intros pa F1 P1 N.
    - exact F1.
    - apply NoDup_cons_iff in N as [N1 N2]. inversion F1 as [|y a' b' F1' E1 E2|y a' b' F1' E1 E2]; subst; [apply IH; assumption|].
      exfalso. apply N1. apply (sublist_In _ _ _ K1). apply P1. left; reflexivity.
    - apply NoDup_cons_iff in N as [N1 N2]. inversion F1 as [|y a' b' F1' E1 E2|y a' b' F1' E1 E2]; subst.
      + constructor. apply IH; try assumption. intros p Hp. destruct (P1 p Hp) as [<-|K]; [|exact K]. exfalso. apply N1. exact (sublist_In _ _ _ F1' Hp).
      + apply sub_keep. apply IH; try assumption. intros p Hp. destruct (P1 p (or_intror Hp)) as [<-|K]; [|exact K]. exfalso. apply N1. exact (sublist_In _ _ _ F1' Hp). }
  assert (HQ : forall q, In q kept -> ~ In q pa -> mat_get (st_matrix st') (idx_of s q) (idx_of s v) = Ok true -> False).
  { intros q Hq Hn Hm. assert (Ho : In q (others s v)) by (eapply sublist_In; eassumption). pose proof (proj1 (others_In _ _ _) Ho) as [Hl _].
    destruct (wf_lookup s q (Hwf est Hok) Hl) as [_ [_ [_ [_ [Eq _]]]]]. destruct (wf_lookup s v (Hwf est Hok) Hv) as [_ [_ [_ [_ [Ev _]]]]].
    destruct (K4 q _ _ Hq Eq Ev Hm pa SP Hn) as [cs [i [j [s1 [A1 [A2 [A3 A4]]]]]]].
    destruct (F3 q Ho Hn) as [cs' [i' [j' [s1' [B1 [B2 [B3 B4]]]]]]]. congruence. }
  split; [intros p Hp; apply K2; auto|]. split.
  - intros q Hq Hn. apply K2 in Hq as [Hq _].
    assert (Ho : In q (others s v)) by (eapply sublist_In; eassumption). pose proof (proj1 (others_In _ _ _) Ho) as [Hl _].
    destruct (wf_lookup s q (Hwf est Hok) Hl) as [_ [_ [_ [_ [Eq _]]]]]. destruct (wf_lookup s v (Hwf est Hok) Hv) as [_ [_ [_ [_ [Ev _]]]]].
    destruct (mat_get m (idx_of s q) (idx_of s v)) as [[]|x] eqn:E0.
    2,3: left; intros K; specialize (K _ _ Eq Ev); fold e s m in K; congruence.
    assert (R : removable est q v) by (intros i j Hi Hj; fold e s in Hi, Hj |- *; fold m; congruence).
    destruct (stays_removable q es st' Hl R H) as [K|K]; [exfalso; exact (HQ q Hq Hn K)|right; exact K].
  - intros HG a b. rewrite K2. split; [|intros [A ->]; auto]. intros [Ha ->]. split; [|reflexivity].
    destruct (in_dec string_dec a pa) as [K|Hn]; [exact K|exfalso].
    assert (Ho : In a (others s v)) by (eapply sublist_In; eassumption). pose proof (proj1 (others_In _ _ _) Ho) as [Hl _].
    destruct (HG a Ho Hn) as [R G]. destruct (stays_removable a es st' Hl R H) as [K|[sep [K1' K2']]]; [exact (HQ a Ha Hn K)|exact (G sep K1' K2')].
Qed.

(** a child with at most two states never makes a test give up *)
Lemma binary_never_gives_up q sep : test_ok s v q sep -> removable est q v -> val_of s v <= 2 -> ~ gives_up est v q sep.
Proof.
  intros Ht Hr Hc [cs [i [j [st' [E1 [E2 [E3 [E4 E5]]]]]]]]. fold e s tot m in E1, E2, E3, E4.
  pose proof (Hr _ _ E2 E3) as Hm. fold m in Hm.
  assert (cs = val_of s v) by (unfold val_of; rewrite E1; reflexivity). subst cs.
  rewrite (complete_test_empty e tot (Hwf est Hok) v) in E4 by exact Ht. rewrite ideal_verdict in E4.
  destruct (apply_mark i j m _) as [[b m1]|x] eqn:EA; cbn [with_cache] in E4; [|discriminate]. injection E4 as -> <-. cbn [st_matrix] in E5.
  unfold apply_mark in EA. apply bind_ok in EA as [[b1 mk] [EV EA]]. destruct mk; [|injection EA as _ <-; congruence].
  unfold verdict in EV. apply bind_ok in EV as [so2 [_ EV]]. apply bind_ok in EV as [so1 [_ EV]]. apply bind_ok in EV as [th [_ EV]].
  assert (TF : forall c1, too_few e (val_of s v) th c1 = false).
  { intros c1. unfold too_few. destruct (Nat.ltb_spec 2 (val_of s v)); [lia|reflexivity]. }
  revert EV. induction (combine (so_actual_cims so1) (so_p_combs so1)) as [|[c1 pc] l IH]; cbn [verdict_configs]; [discriminate|].
  intros EV. apply bind_ok in EV as [cc [_ EV]].
  assert (snd (verdict_cims e (val_of s v) c1 th cc) = false).
  { clear EV. induction cc as [|c2 cc IHc]; cbn [verdict_cims]; [reflexivity|]. rewrite TF. destruct (e_tests e (val_of s v) c1 c2); [exact IHc|reflexivity]. }
  destruct (verdict_cims e (val_of s v) c1 th cc) as [[] mk]; [apply IH, EV|]. injection EV as _ ->. discriminate.
Qed.
End recover.

(** faithfulness and giving up do not depend on the structure's edges *)
Lemma test_answers_cleaned est tot m c p sep b : test_answers (cleaned est) tot m c p sep b <-> test_answers (cb_e est) tot m c p sep b.
Proof.
  split; intros [cs [i [j [st' [A [B [C D]]]]]]]; exists cs, i, j, st'; (split; [exact A|]; split; [exact B|]; split; [exact C|]);
  [rewrite complete_test_cleaned in D|rewrite complete_test_cleaned]; exact D.
Qed.
Lemma faithful_cleaned est v pa : faithful est v pa -> faithful (cleaned_est est) v pa.
Proof.
  intros [F1 [F2 F3]]. split; [exact F1|]. cbn [cleaned_est cb_e cb_tot cb_st]. split.
  - intros p sep Hp Hs Hn K. apply (F2 p sep Hp Hs Hn). apply test_answers_cleaned, K.
  - intros q Hq Hn. apply test_answers_cleaned, F3; assumption.
Qed.
Lemma gives_up_cleaned est v q sep : gives_up (cleaned_est est) v q sep -> gives_up est v q sep.
Proof.
  intros [cs [i [j [st' [A [B [C D]]]]]]]. exists cs, i, j, st'. split; [exact A|]. split; [exact B|]. split; [exact C|].
  cbn [cleaned_est cb_e cb_tot cb_st] in D. rewrite complete_test_cleaned in D. exact D.
Qed.

Lemma exact_recovery est mp es est' (pa : label -> list label) : estimator_ok est ->
  cb_estimate_structure est mp = Ok (es, est') ->
  (forall v, In v (nodes_labels (e_struct (cb_e est))) -> faithful est v (pa v)) ->
  (forall v q, In v (nodes_labels (e_struct (cb_e est))) -> In q (others (e_struct (cb_e est)) v) -> ~ In q (pa v) ->
     removable est q v /\ forall sep, test_ok (e_struct (cb_e est)) v q sep -> ~ gives_up est v q sep) ->
  forall a b, In (a, b) es <-> In b (nodes_labels (e_struct (cb_e est))) /\ In a (pa b).
Proof.
  intros Hok H HF HG a b. destruct (estimate_char est Hok mp es est' H) as [_ [H2 [H3 _]]].
  assert (K : In b (nodes_labels (e_struct (cb_e est))) -> (In (a, b) es <-> In a (pa b))).
  { intros Hb. destruct (H2 b Hb) as [esv [stv [Ho [He _]]]]. rewrite He.
    destruct (recovered (cleaned_est est) (cleaned_ok est Hok) b Hb (pa b) esv stv (faithful_cleaned est b (pa b) (HF b Hb)) Ho) as [_ [_ R]].
    rewrite R; [tauto|]. intros q Hq Hn. destruct (HG b q Hb Hq Hn) as [R1 R2]. split; [exact R1|]. intros sep Ht Kg. exact (R2 sep Ht (gives_up_cleaned _ _ _ _ Kg)). }
  split.
  - intros Hab. destruct (H3 a b Hab) as [_ [Hb _]]. split; [exact Hb|]. apply K; assumption.
  - intros [Hb Ha]. apply K; assumption.
Qed.

Lemma exact_recovery_binary s t tot known thr tests est mp es est' (pa : label -> list label) :
  wf_structure s -> NoDup (nodes_indexes s) -> (forall i, In i (nodes_indexes s) -> i < tot) ->
  (forall x, In x (nodes_values s) -> x <= 2) ->
  new_cb_estimator s t tot known thr tests = Ok est -> cb_estimate_structure est mp = Ok (es, est') ->
  (forall v, In v (nodes_labels s) -> faithful est v (pa v)) ->
  (forall a b, In (a, b) known -> In a (pa b)) ->
  forall a b, In (a, b) es <-> In b (nodes_labels s) /\ In a (pa b).
Proof.
  intros Hwf Hn Hi H2 Hnew Hes HF HK. destruct (new_estimator_ok s t tot known thr tests est Hwf Hn Hi Hnew) as [Hok [He [_ [_ HG]]]].
  assert (E : e_struct (cb_e est) = s) by (rewrite He; reflexivity). intros a b.
  pose proof (exact_recovery est mp es est' pa Hok Hes) as R. rewrite E in R. apply R; [exact HF|].
  intros v q Hv Hq Hnq. pose proof (proj1 (others_In _ _ _) Hq) as [Hql _].
  assert (Rm : removable est q v).
  { intros i j Ei Ej. rewrite E in Ei, Ej. rewrite (HG q v i j Hql Hv Ei Ej). f_equal. apply negb_true_iff, emem_false. intros K. exact (Hnq (HK q v K)). }
  split; [exact Rm|]. intros sep Ht. apply (binary_never_gives_up est Hok v); rewrite ?E; try assumption.
  destruct (wf_lookup s v Hwf Hv) as [i [_ [_ [K _]]]]. apply H2. eapply nth_error_In, K.
Qed.
