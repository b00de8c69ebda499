(** estimate_structure of the constraint-based estimator (C23-C26). *)
From Verif Require Import Base Lib ModelStructure ModelGraph ModelCims ModelData ModelParams ModelCache ModelCtpc
  SpecStructure SpecGraph SpecComb SpecParams SpecCtpc
  ProofStructure ProofGraph ProofComb ProofIndex ProofParams3 ProofCache ProofCtpc ProofCtpc2 ProofCtpc3 ProofCtpc4 ProofCtpc5 ProofCtpc6.

Lemma edge_set_fold l : forall acc, NoDup acc ->
  let r := fold_left (fun acc x => if emem x acc then acc else acc ++ [x]) l acc in
  NoDup r /\ forall x, In x r <-> In x acc \/ In x l.
Proof.
  induction l as [|y l IH]; intros acc Hn; cbn [fold_left]; [split; [exact Hn|simpl; tauto]|].
  destruct (emem y acc) eqn:E.
  - destruct (IH acc Hn) as [I1 I2]. split; [exact I1|]. intros x. rewrite I2. simpl. apply emem_In in E. split; [tauto|]. intros [H|[<-|H]]; auto.
  - apply emem_false in E. destruct (IH (acc ++ [y])) as [I1 I2].
    { apply NoDup_app_intro; [exact Hn|constructor; [simpl; tauto|constructor]|]. intros x Hx [<-|[]]. contradiction. }
    split; [exact I1|]. intros x. rewrite I2, in_app_iff. simpl. tauto.
Qed.
Lemma edge_set_spec l : NoDup (edge_set_of l) /\ forall x, In x (edge_set_of l) <-> In x l.
Proof. destruct (edge_set_fold l [] (NoDup_nil _)) as [H1 H2]. split; [exact H1|]. intros x. unfold edge_set_of. rewrite H2. simpl. tauto. Qed.

(** the estimator as estimate_structure uses it: the shared structure loses its edges (line 226) *)
Definition cleaned (est : cb_estimator) : cb_env :=
  MkEnv (clean_structure_edges (e_struct (cb_e est))) (e_traj (cb_e est)) (e_threshold (cb_e est)) (e_tests (cb_e est)).
Definition cleaned_est (est : cb_estimator) : cb_estimator := MkCbEst (cleaned est) (cb_tot est) (cb_st est) (cb_graph est).
Lemma cleaned_ok est : estimator_ok est -> estimator_ok (cleaned_est est).
Proof. intros H. exact H. Qed.

Section one.
Variable est : cb_estimator.
Hypothesis Hok : estimator_ok est.
Let s := e_struct (cb_e est).
Let e := cleaned est.
Let Hc := cleaned_ok est Hok.

Lemma run_agree : match sequential_run e (cb_tot est) (cb_st est) (nodes_labels s), pool_run e (cb_tot est) (cb_st est) (nodes_labels s) with
  | Ok (ess1, st1), Ok (ess2, _) => ess1 = ess2 /\ st_cache st1 = empty_cache /\ marks_grow (st_matrix (cb_st est)) (st_matrix st1)
  | Err x, Err y => x = y
  | _, _ => False
  end.
Proof.
  pose proof (sequential_pool (cleaned_est est) Hc (nodes_labels s) (proj1 (proj1 Hok)) (fun v Hv => Hv) (st_matrix (cb_st est)) (fun v _ i => eq_refl)) as H.
  pose proof (est_state (cleaned_est est) Hc) as ES. cbn [cleaned_est cb_st cb_e cb_tot] in ES, H. rewrite <- ES in H. exact H.
Qed.

Lemma estimate_modes_agree :
  match cb_estimate_structure est true, cb_estimate_structure est false with
  | Ok (es1, _), Ok (es2, _) => es1 = es2
  | Err x, Err y => x = y
  | _, _ => False
  end.
Proof.
  unfold cb_estimate_structure. fold (cleaned est). fold e. change (nodes_labels (e_struct e)) with (nodes_labels s).
  pose proof run_agree as H.
  destruct (sequential_run e (cb_tot est) (cb_st est) (nodes_labels s)) as [[ess1 st1]|x], (pool_run e (cb_tot est) (cb_st est) (nodes_labels s)) as [[ess2 st2]|y];
    cbn [bind]; try contradiction; [|exact H]. destruct H as [-> _]. reflexivity.
Qed.

Lemma estimate_char mp es est' : cb_estimate_structure est mp = Ok (es, est') ->
  NoDup es
  /\ (forall v, In v (nodes_labels s) -> exists esv stv, optimize_structure e (cb_tot est) (cb_st est) v = Ok (esv, stv)
        /\ (forall a, In (a, v) es <-> In (a, v) esv) /\ (forall a b, In (a, b) esv -> b = v))
  /\ (forall a b, In (a, b) es -> In a (nodes_labels s) /\ In b (nodes_labels s) /\ a <> b)
  /\ cb_e est' = e /\ cb_tot est' = cb_tot est /\ st_cache (cb_st est') = empty_cache
  /\ marks_grow (st_matrix (cb_st est)) (st_matrix (cb_st est'))
  /\ (mp = false -> cb_st est' = cb_st est)
  /\ (forall x, In x (g_edges_view (cb_graph est')) <-> In x es).
Proof.
  intros H. unfold cb_estimate_structure in H. fold (cleaned est) in H. fold e in H. change (nodes_labels (e_struct e)) with (nodes_labels s) in H.
  apply bind_ok in H as [[ess st'] [H E]]. injection E as <- <-.
  assert (HP : exists stp, pool_run e (cb_tot est) (cb_st est) (nodes_labels s) = Ok (ess, stp)
     /\ st_cache st' = empty_cache /\ marks_grow (st_matrix (cb_st est)) (st_matrix st') /\ (mp = false -> st' = cb_st est)).
  { destruct mp.
    - pose proof run_agree as HA. rewrite H in HA.
      destruct (pool_run e (cb_tot est) (cb_st est) (nodes_labels s)) as [[ess2 st2]|y]; [|contradiction].
      destruct HA as [<- [A1 A2]]. eexists. split; [reflexivity|]. split; [exact A1|]. split; [exact A2|discriminate].
    - exists st'. split; [exact H|]. destruct (pool_ok (cleaned_est est) (nodes_labels s) (fun v Hv => Hv) ess st' H) as [-> _].
      split; [apply Hok|]. split; [split; [reflexivity|]; intros i j b Hb; exists b; auto|reflexivity]. }
  destruct HP as [stp [HP [P1 [P2 P3]]]].
  destruct (pool_ok (cleaned_est est) (nodes_labels s) (fun v Hv => Hv) ess stp HP) as [_ HF]. cbn [cb_e cb_tot cb_st cleaned_est] in HF. fold e in HF.
  destruct (edge_set_spec (concat ess)) as [S1 S2].
  assert (HE : forall v esv stv, In v (nodes_labels s) -> optimize_structure e (cb_tot est) (cb_st est) v = Ok (esv, stv) ->
     forall a b, In (a, b) esv -> b = v /\ In a (nodes_labels s) /\ a <> v).
  { intros v esv stv Hv Ho a b Hab. destruct (optimize_justified (cleaned_est est) Hc v esv stv Hv Ho) as [_ [kept [K1 [K2 _]]]].
    destruct (proj1 (K2 a b) Hab) as [Ha Eb]. pose proof (proj1 (others_In _ _ _) (sublist_In _ _ _ K1 Ha)) as [A1 A2]. auto. }
  assert (HI : forall a b, In (a, b) (concat ess) <-> exists v esv stv, In v (nodes_labels s) /\ optimize_structure e (cb_tot est) (cb_st est) v = Ok (esv, stv) /\ In (a, b) esv).
  { intros a b. rewrite in_concat. split.
    - intros [esv [H1 H2]]. apply In_nth_error in H1 as [i Hi]. destruct (Forall2_nth_error_r _ _ _ HF i esv Hi) as [v [Hv [stv Ho]]].
      exists v, esv, stv. split; [eapply nth_error_In, Hv|auto].
    - intros [v [esv [stv [Hv [Ho Hab]]]]]. apply In_nth_error in Hv as [i Hi]. destruct (Forall2_nth_error _ _ _ HF i v Hi) as [esv' [Hv' [stv' Ho']]].
      exists esv'. split; [eapply nth_error_In, Hv'|]. congruence. }
  split; [exact S1|]. split.
  { intros v Hv. pose proof Hv as Hv'. apply In_nth_error in Hv' as [i Hi]. destruct (Forall2_nth_error _ _ _ HF i v Hi) as [esv [_ [stv Ho]]].
    exists esv, stv. split; [exact Ho|]. split; [|intros a b Hab; apply (HE v esv stv Hv Ho a b Hab)].
    intros a. rewrite S2, HI. split.
    - intros [w [esw [stw [Hw [How Haw]]]]]. destruct (HE w esw stw Hw How a v Haw) as [-> _]. congruence.
    - intros Ha. eauto 8. }
  split.
  { intros a b Hab. rewrite S2, HI in Hab. destruct Hab as [w [esw [stw [Hw [How Haw]]]]]. destruct (HE w esw stw Hw How a b Haw) as [-> [K1 K2]]. auto. }
  split; [reflexivity|]. split; [reflexivity|]. split; [exact P1|]. split; [exact P2|]. split; [exact P3|].
  intros x. cbn [cb_graph]. destruct (add_edges_from_spec empty_digraph (edge_set_of (concat ess)) dinv_empty) as [D1 [D2 _]].
  destruct (edges_view_spec _ D1) as [_ V2]. rewrite V2, D2. simpl. tauto.
Qed.

Lemma estimate_keeps_false mp es est' a b i j : cb_estimate_structure est mp = Ok (es, est') ->
  In a (nodes_labels s) -> In b (nodes_labels s) -> a <> b ->
  structure_get_node_indx s a = Ok i -> structure_get_node_indx s b = Ok j ->
  mat_get (st_matrix (cb_st est)) i j = Ok false -> In (a, b) es.
Proof.
  intros H Ha Hb Hab Hi Hj Hf. destruct (estimate_char mp es est' H) as [_ [H2 _]]. destruct (H2 b Hb) as [esv [stv [Ho [He _]]]].
  apply He. pose proof (est_state (cleaned_est est) Hc) as ES. cbn [cleaned_est cb_st cb_e cb_tot] in ES. rewrite ES in Ho.
  pose proof (proj1 Hc) as Hwf. cbn [cleaned_est cb_e] in Hwf.
  rewrite (optimize_ideal e (cb_tot est) b Hwf Hb) in Ho.
  destruct (optimize_with (e_struct e) b _ _ _) as [[es1 m1]|y] eqn:EO; cbn [with_empty] in Ho; [|discriminate]. injection Ho as <- <-.
  destruct (optimize_char e (cb_tot est) b Hwf Hb _ _ _ EO) as [u [_ [_ [U3 [_ [_ [U6 _]]]]]]].
  apply U3. split; [|reflexivity]. apply U6; [apply others_In; auto|].
  apply idx_of_ok in Hi, Hj. change (idx_of (e_struct e) a) with (idx_of s a). change (idx_of (e_struct e) b) with (idx_of s b). rewrite Hi, Hj. exact Hf.
Qed.

Lemma pool_repeatable es est' : cb_estimate_structure est false = Ok (es, est') -> exists est'', cb_estimate_structure est' false = Ok (es, est'').
Proof.
  intros H. pose proof (estimate_char false es est' H) as [_ [_ [_ [H1 [H2 [_ [_ [H3 _]]]]]]]]. specialize (H3 eq_refl).
  destruct est' as [e1 t1 s1 g1]. cbn [cb_e cb_tot cb_st] in *. subst e1 t1 s1.
  unfold cb_estimate_structure in *. cbn [cb_e cb_tot cb_st]. fold (cleaned est) in H. fold e in H. change (clean_structure_edges (e_struct e)) with (e_struct e).
  replace (MkEnv (e_struct e) (e_traj e) (e_threshold e) (e_tests e)) with e by reflexivity.
  apply bind_ok in H as [[ess st'] [H E]]. rewrite H. cbn [bind]. injection E as <- _ _. eauto.
Qed.

Lemma estimate_total mp k : uniform_data est k -> exists es est', cb_estimate_structure est mp = Ok (es, est').
Proof.
  intros Hu. assert (HP : exists r, pool_run e (cb_tot est) (cb_st est) (nodes_labels s) = Ok r).
  { unfold pool_run. assert (HF : forall ns, (forall v, In v ns -> In v (nodes_labels s)) ->
      exists ess, res_map (fun n => let* (es, _) := optimize_structure e (cb_tot est) (cb_st est) n in Ok es) ns = Ok ess).
    { induction ns as [|v ns IH]; intros Hin; cbn [res_map]; [eauto|].
      destruct (proj2 (proj2 (proj2 (optimize_safe (cleaned_est est) Hc v (Hin v (or_introl eq_refl))))) k Hu) as [es [st' E]].
      cbn [cleaned_est cb_e cb_tot cb_st] in E. fold e in E. rewrite E. cbn [bind]. destruct IH as [ess ->]; [intros w Hw; apply Hin; right; exact Hw|]. cbn [bind]. eauto. }
    destruct (HF (nodes_labels s) (fun v Hv => Hv)) as [ess ->]. cbn [bind]. eauto. }
  destruct HP as [[ess stp] HP]. unfold cb_estimate_structure. fold (cleaned est). fold e. change (nodes_labels (e_struct e)) with (nodes_labels s).
  pose proof run_agree as HA. rewrite HP in HA |- *. destruct mp; [|cbn [bind]; eauto].
  destruct (sequential_run e (cb_tot est) (cb_st est) (nodes_labels s)) as [[ess1 st1]|x]; [|contradiction]. cbn [bind]. eauto.
Qed.
End one.

Lemma new_estimator_ok s t tot known thr tests est : wf_structure s -> NoDup (nodes_indexes s) -> (forall i, In i (nodes_indexes s) -> i < tot) ->
  new_cb_estimator s t tot known thr tests = Ok est ->
  estimator_ok est /\ cb_e est = MkEnv s t thr tests /\ cb_tot est = tot /\ edges_within (nodes_labels s) known
  /\ forall a b i j, In a (nodes_labels s) -> In b (nodes_labels s) -> structure_get_node_indx s a = Ok i -> structure_get_node_indx s b = Ok j ->
       mat_get (st_matrix (cb_st est)) i j = Ok (negb (emem (a, b) known)).
Proof.
  intros Hwf Hn Hi H. unfold new_cb_estimator in H. apply bind_ok in H as [m [Hm H]]. injection H as <-. cbn [cb_e cb_tot cb_st st_matrix].
  assert (HI : forall l, In l (nodes_labels s) -> idx_of s l < tot).
  { intros l Hl. destruct (wf_lookup s l Hwf Hl) as [i [_ [K _]]]. apply Hi. eapply nth_error_In, K. }
  destruct (removable_matrix s tot known Hwf HI) as [R1 R2].
  assert (HK : edges_within (nodes_labels s) known).
  { assert (dec : {edges_within (nodes_labels s) known} + {~ edges_within (nodes_labels s) known}).
    { unfold edges_within. clear. induction known as [|x r IH]; [left; intros ? []|].
      destruct (in_dec string_dec (fst x) (nodes_labels s)), (in_dec string_dec (snd x) (nodes_labels s)), IH as [IH|IH];
      try (right; intros K; apply IH; intros y Hy; apply K; right; exact Hy);
      try (right; intros K; destruct (K x (or_introl eq_refl)); contradiction).
      left. intros y [<-|Hy]; [split; assumption|apply IH, Hy]. }
    destruct dec as [d|d]; [exact d|]. apply R2 in d. congruence. }
  destruct (R1 HK) as [m' [E [D G]]]. assert (m' = m) by congruence. subst m'.
  split; [|split; [reflexivity|split; [reflexivity|split; [exact HK|]]]].
  - split; [exact Hwf|]. split; [exact Hn|]. split; [exact Hi|]. split; [apply D|]. split; [apply D|reflexivity].
  - intros a b i j Ha Hb Ei Ej. apply idx_of_ok in Ei, Ej. subst i j. rewrite (G _ _ (HI a Ha) (HI b Hb)). f_equal. f_equal. apply known_at_spec; assumption.
Qed.

Lemma known_edges_kept s t tot known thr tests est mp es est' a b :
  wf_structure s -> NoDup (nodes_indexes s) -> (forall i, In i (nodes_indexes s) -> i < tot) ->
  new_cb_estimator s t tot known thr tests = Ok est -> cb_estimate_structure est mp = Ok (es, est') ->
  In (a, b) known -> a <> b -> In (a, b) es.
Proof.
  intros Hwf Hn Hi Hnew Hes Hin Hab. destruct (new_estimator_ok s t tot known thr tests est Hwf Hn Hi Hnew) as [Hok [He [_ [HK HG]]]].
  destruct (HK _ Hin) as [Ha Hb]. cbn [fst snd] in Ha, Hb.
  destruct (wf_lookup s a Hwf Ha) as [_ [_ [_ [_ [Ei _]]]]]. destruct (wf_lookup s b Hwf Hb) as [_ [_ [_ [_ [Ej _]]]]].
  eapply (estimate_keeps_false est Hok mp es est' a b (idx_of s a) (idx_of s b) Hes); rewrite ?He; try assumption.
  rewrite (HG a b _ _ Ha Hb Ei Ej). apply emem_In in Hin. rewrite Hin. reflexivity.
Qed.

(** the cache is not keyed by the child *)
Lemma cache_not_keyed_by_child e st p c c' sep cs tot i j v2 v1 :
  cache_find (st_cache st) (p :: sep) = Ok (Some v2) -> cache_find (st_cache st) sep = Ok (Some v1) ->
  complete_test e st p c sep cs tot i j = complete_test e st p c' sep cs tot i j.
Proof. intros H2 H1. unfold complete_test. rewrite H2. cbn [bind]. rewrite H1. reflexivity. Qed.

Lemma worker_schedule est ns : estimator_ok est -> NoDup ns ->
  (forall v, In v ns -> In v (nodes_labels (e_struct (cb_e est)))) ->
  match sequential_run (cb_e est) (cb_tot est) (cb_st est) ns, pool_run (cb_e est) (cb_tot est) (cb_st est) ns with
  | Ok (ess1, _), Ok (ess2, _) => ess1 = ess2
  | Err x, Err y => x = y
  | _, _ => False
  end.
Proof.
  intros Hok Hn Hin. pose proof (sequential_pool est Hok ns Hn Hin (st_matrix (cb_st est)) (fun v _ i => eq_refl)) as H.
  rewrite <- (est_state est Hok) in H.
  destruct (sequential_run _ _ _ ns) as [[ess1 st1]|x], (pool_run _ _ _ ns) as [[ess2 st2]|y]; tauto.
Qed.
Lemma new_estimator_spec s t tot known thr tests : wf_structure s -> NoDup (nodes_indexes s) -> (forall i, In i (nodes_indexes s) -> i < tot) ->
  (edges_within (nodes_labels s) known -> exists est, new_cb_estimator s t tot known thr tests = Ok est
     /\ cb_graph est = build_complete_graph (nodes_labels s) /\ estimator_ok est
     /\ forall a b i j, In a (nodes_labels s) -> In b (nodes_labels s) ->
          structure_get_node_indx s a = Ok i -> structure_get_node_indx s b = Ok j ->
          mat_get (st_matrix (cb_st est)) i j = Ok (negb (emem (a, b) known)))
  /\ (~ edges_within (nodes_labels s) known -> new_cb_estimator s t tot known thr tests = Err ValueError).
Proof.
  intros Hwf Hn Hi.
  assert (HI : forall l, In l (nodes_labels s) -> idx_of s l < tot).
  { intros l Hl. destruct (wf_lookup s l Hwf Hl) as [i [_ [K _]]]. apply Hi. eapply nth_error_In, K. }
  destruct (removable_matrix s tot known Hwf HI) as [R1 R2]. split.
  - intros HK. destruct (R1 HK) as [m [E [D G]]].
    assert (EN : exists est, new_cb_estimator s t tot known thr tests = Ok est /\ cb_graph est = build_complete_graph (nodes_labels s)).
    { unfold new_cb_estimator. rewrite E. cbn [bind]. eexists. split; reflexivity. }
    destruct EN as [est [EN EG]]. exists est. split; [exact EN|]. split; [exact EG|].
    destruct (new_estimator_ok s t tot known thr tests est Hwf Hn Hi EN) as [Ho [_ [_ [_ H]]]]. split; assumption.
  - intros HK. unfold new_cb_estimator. rewrite (R2 HK). reflexivity.
Qed.
