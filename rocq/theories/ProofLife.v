(** Proofs for C71: the life cycle of ParametersEstimator. *)
From Verif Require Import Base Lib ModelStructure ModelGraph ModelCims ModelData ModelParams ModelLife
  SpecStructure SpecGraph SpecLife ProofStructure ProofGraph ProofCtpc.

(** ** Objects *)
Definition finished (w : world) (i : nat) : Prop := exists o, nth_error (w_heap w) i = Some o /\ o_stats o = false.
Definition keeps (w w' : world) : Prop := forall i o, nth_error (w_heap w) i = Some o -> o_stats o = false -> nth_error (w_heap w') i = Some o.
Definition cur_ok (w : world) : Prop := match w_cur w with Some i => i < length (w_heap w) | None => True end.

Lemma fill_live t g v cur o' : est_fill t g v cur = Ok o' -> exists o, cur = Some o /\ o_stats o = true /\ o_stats o' = false.
Proof.
  unfold est_fill. intro H. apply bind_ok in H as [ni [_ H]]. destruct cur as [o|]; [|discriminate].
  apply bind_ok in H as [tf [_ H]]. apply bind_ok in H as [ti [_ H]]. exists o. split; [reflexivity|].
  destruct (o_stats o).
  - split; [reflexivity|]. apply bind_ok in H as [T [_ H]]. apply bind_ok in H as [mf [_ H]]. apply bind_ok in H as [mi [_ H]].
    apply bind_ok in H as [M [_ H]]. injection H as <-. reflexivity.
  - apply bind_ok in H as [b [_ H]]. discriminate.
Qed.
Lemma compute_cases t w v : cur_ok w ->
  (exists i o o', w_cur w = Some i /\ nth_error (w_heap w) i = Some o /\ o_stats o = true /\ o_stats o' = false
     /\ est_fill t (w_graph w) v (Some o) = Ok o'
     /\ est_compute t w v = (MkWorld (w_graph w) (set_at (w_heap w) i o') (w_cur w), Returned i))
  \/ (exists x, est_compute t w v = (w, Raised x)).
Proof.
  intro C. unfold est_compute. destruct (w_cur w) as [i|] eqn:EC.
  - destruct (est_fill t (w_graph w) v (nth_error (w_heap w) i)) as [o'|x] eqn:EF; [left|right; eexists; reflexivity].
    destruct (fill_live _ _ _ _ _ EF) as [o [E1 [E2 E3]]]. exists i, o, o'. rewrite E1 in EF. auto 10.
  - right. destruct (est_fill t (w_graph w) v None); eexists; reflexivity.
Qed.
Lemma step_heap t w o : cur_ok w ->
  let w' := fst (life_step t w o) in
  cur_ok w' /\ keeps w w' /\ length (w_heap w) <= length (w_heap w')
  /\ (forall i, snd (life_step t w o) = Returned i -> w_cur w = Some i /\ ~ finished w i /\ finished w' i).
Proof.
  intro C. assert (REFL : forall g, cur_ok (MkWorld g (w_heap w) (w_cur w)) /\ keeps w (MkWorld g (w_heap w) (w_cur w))) by (intro g; split; [exact C|intros i o' E _; exact E]).
  destruct o as [v|es|es|v|v|v]; cbn [life_step].
  - destruct (graph_init (w_graph w) v) as [g r] eqn:EG. cbn [fst snd]. split; [apply REFL|]. split; [apply REFL|]. split; [reflexivity|].
    intros i Q. subst r. unfold graph_init in EG. destruct (ng_get_ordered_by_indx_set_of_parents _ v); [|discriminate].
    destruct (ng_get_states_number _ v); [|discriminate]. destruct (ng_get_node_indx _ v); discriminate.
  - cbn [fst snd]. split; [apply REFL|]. split; [apply REFL|]. split; [reflexivity|discriminate].
  - cbn [fst snd]. split; [apply REFL|]. split; [apply REFL|]. split; [reflexivity|discriminate].
  - destruct (g_remove_node _ v) as [d|]; [destruct (structure_remove_node _ v)|]; cbn [fst snd];
      (split; [first [apply REFL|exact C]|]; split; [first [apply REFL|intros i o' E _; exact E]|]; split; [reflexivity|discriminate]).
  - unfold est_init. destruct (ng_pinfo (w_graph w)) as [pi|]; [destruct (ng_get_states_number (w_graph w) v)|]; cbn [fst snd];
      [|split; [exact C|]; split; [intros i o' E _; exact E|]; split; [reflexivity|discriminate] ..].
    unfold cur_ok, keeps. cbn [w_heap w_cur]. rewrite app_length. cbn [length]. split; [lia|]. split; [|split; [lia|discriminate]].
    intros i o E _. rewrite nth_error_app1; [exact E|]. apply nth_error_Some. congruence.
  - destruct (compute_cases t w v C) as [[i [o [o' [E1 [E2 [E3 [E4 [E5 E]]]]]]]]|[x E]]; rewrite E; cbn [fst snd].
    + assert (Hi : i < length (w_heap w)) by (apply nth_error_Some; congruence).
      split; [unfold cur_ok; cbn [w_heap w_cur]; rewrite E1, set_at_length; exact Hi|].
      split; [intros j oj Ej Fj; cbn [w_heap]; rewrite nth_error_set_at|].
      * destruct (Nat.eqb_spec i j) as [<-|]; [congruence|]. exact Ej.
      * split; [cbn [w_heap]; rewrite set_at_length; reflexivity|]. intros j Q. injection Q as <-. split; [exact E1|]. split.
        -- intros [o2 [K1 K2]]. congruence.
        -- exists o'. cbn [w_heap]. rewrite nth_error_set_at, Nat.eqb_refl. destruct (Nat.ltb_spec i (length (w_heap w))); [|lia]. auto.
    + split; [exact C|]. split; [intros i o' K _; exact K|]. split; [reflexivity|discriminate].
Qed.
Lemma run_heap t os : forall w, cur_ok w ->
  let w' := fst (life_run t w os) in
  cur_ok w' /\ keeps w w' /\ length (w_heap w) <= length (w_heap w')
  /\ (forall i, In (Returned i) (snd (life_run t w os)) -> ~ finished w i /\ finished w' i)
  /\ NoDup (filter (fun r => match r with Returned _ => true | _ => false end) (snd (life_run t w os))).
Proof.
  induction os as [|o r IH]; intros w C.
  - cbn. split; [exact C|]. split; [intros i o E _; exact E|]. split; [reflexivity|]. split; [tauto|constructor].
  - destruct (step_heap t w o C) as [C1 [K1 [L1 R1]]]. cbn [life_run]. destruct (life_step t w o) as [w1 x] eqn:ES. cbn [fst snd] in *.
    destruct (IH w1 C1) as [C2 [K2 [L2 [R2 N2]]]]. destruct (life_run t w1 r) as [w2 xs] eqn:ER. cbn [fst snd] in *.
    assert (NF : forall i, finished w i -> finished w1 i). { intros i [oi [A B]]. exists oi. split; [apply K1; assumption|exact B]. }
    assert (NF2 : forall i, finished w1 i -> finished w2 i). { intros i [oi [A B]]. exists oi. split; [apply K2; assumption|exact B]. }
    split; [exact C2|]. split; [intros i oi A B; apply K2; [apply K1; assumption|exact B]|]. split; [lia|]. split.
    + intros i [->|Hi]; [destruct (R1 i eq_refl) as [_ [A B]]; auto|]. destruct (R2 i Hi) as [A B]. auto.
    + cbn [filter]. destruct x as [|i|y]; [exact N2| |exact N2]. constructor; [|exact N2]. intro Q. apply filter_In in Q as [Q _].
      destruct (R1 i eq_refl) as [_ [_ B]]. destruct (R2 i Q) as [A _]. contradiction.
Qed.
Lemma run_app t os1 : forall os2 w, life_run t w (os1 ++ os2) =
  (fst (life_run t (fst (life_run t w os1)) os2), snd (life_run t w os1) ++ snd (life_run t (fst (life_run t w os1)) os2)).
Proof.
  induction os1 as [|o r IH]; intros os2 w; cbn [app life_run]; [cbn [fst snd app]; destruct (life_run t w os2); reflexivity|].
  destruct (life_step t w o) as [w1 x]. rewrite IH. destruct (life_run t w1 r) as [w2 xs]. cbn [fst snd].
  destruct (life_run t w2 os2). reflexivity.
Qed.
(** without a new fast_init nothing more is returned *)
Lemma no_more t os : forall w, cur_ok w -> (w_cur w = None \/ exists i, w_cur w = Some i /\ finished w i) ->
  (forall v, ~ In (EstInit v) os) -> forall i, ~ In (Returned i) (snd (life_run t w os)).
Proof.
  induction os as [|o r IH]; intros w C F H i; [exact (fun x => x)|].
  destruct (step_heap t w o C) as [C1 [K1 [L1 R1]]]. cbn [life_run].
  assert (EC : w_cur (fst (life_step t w o)) = w_cur w).
  { destruct o as [v|es|es|v|v|v]; cbn [life_step]; try reflexivity.
    - destruct (graph_init _ v); reflexivity.
    - destruct (g_remove_node _ v); [destruct (structure_remove_node _ v)|]; reflexivity.
    - exfalso. apply (H v). left; reflexivity.
    - destruct (compute_cases t w v C) as [[j [o [o' [E1 [E2 [E3 [E4 [E5 E]]]]]]]]|[x E]]; rewrite E; reflexivity. }
  destruct (life_step t w o) as [w1 x]. cbn [fst snd] in *. destruct (life_run t w1 r) as [w2 xs] eqn:ER. cbn [snd].
  intros [->|Hi].
  - destruct (R1 i eq_refl) as [A [B _]]. destruct F as [F|[j [F1 F2]]]; [congruence|]. rewrite A in F1. injection F1 as <-. contradiction.
  - apply (IH w1 C1) with (i := i).
    + rewrite EC. destruct F as [F|[j [F1 [oj [F2 F3]]]]]; [left; exact F|right]. exists j. split; [exact F1|]. exists oj. split; [apply K1; assumption|exact F3].
    + intros v Hv. apply (H v). right; exact Hv.
    + rewrite ER. exact Hi.
Qed.

(** ** The graph *)
Definition graph_ok (g : netgraph) : Prop := wf_structure (ng_struct g) /\ dinv (ng_graph g)
  /\ edges_within (nodes_labels (ng_struct g)) (g_edges (ng_graph g)) /\ edges_within (nodes_labels (ng_struct g)) (edges_list (ng_struct g)).
Lemma graph_ok_with g d : graph_ok g -> dinv d -> edges_within (nodes_labels (ng_struct g)) (g_edges d) -> graph_ok (with_graph g d).
Proof. intros [H1 [H2 [H3 H4]]] K1 K2. split; [exact H1|]. split; [exact K1|]. split; [exact K2|exact H4]. Qed.
Lemma graph_ok_ext g g' : ng_struct g' = ng_struct g -> ng_graph g' = ng_graph g -> graph_ok g -> graph_ok g'.
Proof. unfold graph_ok. intros -> ->. exact (fun x => x). Qed.
Lemma step_graph t w o : graph_ok (w_graph w) -> legal_life w o -> graph_ok (w_graph (fst (life_step t w o))).
Proof.
  intros G L. pose proof G as [H1 [H2 [H3 H4]]]. destruct o as [v|es|es|v|v|v]; cbn [life_step legal_life] in *.
  - assert (G2 : graph_ok (ng_add_edges (ng_add_nodes (w_graph w) (nodes_labels (ng_struct (w_graph w)))) (edges_list (ng_struct (w_graph w))))).
    { destruct (add_nodes_loop_dspec (nodes_labels (ng_struct (w_graph w))) _ 0 (nodes_indexes (ng_struct (w_graph w))) (nodes_values (ng_struct (w_graph w))) H2) as [D1 [D2 _]].
      unfold ng_add_edges. apply graph_ok_with; [apply graph_ok_with; [exact G|exact D1|rewrite D2; exact H3]|apply add_edges_from_spec; exact D1|].
      intros e He. apply (add_edges_from_spec _ _ D1) in He as [He|He]; [rewrite D2 in He; apply H3, He|apply H4, He]. }
    destruct (graph_init (w_graph w) v) as [g r] eqn:EG. cbn [fst w_graph]. unfold graph_init in EG.
    destruct (ng_get_ordered_by_indx_set_of_parents _ v); [|injection EG as <- _; exact G2].
    destruct (ng_get_states_number _ v); [destruct (ng_get_node_indx _ v)|];
      injection EG as <- _; (eapply graph_ok_ext; [| |exact G2]; reflexivity).
  - apply graph_ok_with; [exact G|apply add_edges_from_spec, H2|]. intros e He. apply (add_edges_from_spec _ _ H2) in He as [He|He]; [apply H3, He|apply L, He].
  - apply graph_ok_with; [exact G|apply remove_edges_from_spec, H2|]. intros e He. apply (remove_edges_from_spec _ _ H2) in He as [He _]. apply H3, He.
  - destruct (g_remove_node (ng_graph (w_graph w)) v) as [d|] eqn:ED; [|exact G].
    destruct (remove_node_dspec _ _ _ H2 ED) as [D1 [D2 [D3 _]]].
    destruct (structure_remove_node (ng_struct (w_graph w)) v) as [s|] eqn:ES; cbn [fst w_graph].
    + destruct (in_dec string_dec v (nodes_labels (ng_struct (w_graph w)))) as [Hv|Hv].
      * destruct (proj1 (remove_node_spec _ v H1) Hv) as [s' [E [W [Hl [_ [He _]]]]]]. rewrite ES in E. injection E as <-.
        unfold graph_ok. cbn [ng_struct ng_graph]. split; [exact W|]. split; [exact D1|]. rewrite Hl, He. split; intros e Q.
        -- apply D3 in Q as [Q [Q1 Q2]]. destruct (H3 e Q). split; apply filter_In; (split; [assumption|]); apply negb_true_iff, String.eqb_neq; congruence.
        -- apply filter_In in Q as [Q Q1]. destruct (H4 e Q). apply negb_true_iff in Q1. unfold mentions in Q1. apply orb_false_iff in Q1 as [Q1 Q2].
           split; apply filter_In; (split; [assumption|]).
           ++ rewrite Q1. reflexivity.
           ++ rewrite Q2. reflexivity.
      * rewrite (proj2 (remove_node_spec _ v H1) Hv) in ES. discriminate.
    + apply graph_ok_with; [exact G|exact D1|]. intros e' Q. apply D3 in Q as [Q _]. apply H3, Q.
  - unfold est_init. destruct (ng_pinfo _); [destruct (ng_get_states_number _ v)|]; exact G.
  - unfold est_compute. destruct (w_cur w); destruct (est_fill _ _ _ _); exact G.
Qed.
Lemma run_graph t os : forall w, graph_ok (w_graph w) -> legal_lives t w os -> graph_ok (w_graph (fst (life_run t w os))).
Proof.
  induction os as [|o r IH]; intros w G L; [exact G|]. cbn [life_run legal_lives] in *. destruct L as [L1 L2].
  pose proof (step_graph t w o G L1) as G1. destruct (life_step t w o) as [w1 x]. cbn [fst] in *.
  specialize (IH w1 G1 L2). destruct (life_run t w1 r). exact IH.
Qed.
Lemma new_world_ok s : wf_structure s -> edges_within (nodes_labels s) (edges_list s) -> graph_ok (w_graph (new_world s)) /\ cur_ok (new_world s).
Proof. intros H K. split; [|exact I]. split; [exact H|]. split; [apply dinv_empty|]. split; [intros e []|exact K]. Qed.
(** fast_init of the graph with its state agrees with the function used elsewhere *)
Lemma graph_init_ok g v g' : ng_fast_init g v = Ok g' -> graph_init g v = (g', Done).
Proof.
  unfold ng_fast_init, graph_init. cbn zeta. intro H. apply bind_ok in H as [pi [E1 H]].
  change (edges_list (ng_struct (ng_add_nodes g (nodes_labels (ng_struct g))))) with (edges_list (ng_struct g)) in *.
  rewrite E1. apply bind_ok in H as [c [E2 H]]. apply bind_ok in H as [ni [E3 H]]. injection H as <-.
  match goal with |- context [match ng_get_states_number ?h v with _ => _ end] =>
    change (ng_get_states_number h v) with (ng_get_states_number (ng_add_edges (ng_add_nodes g (nodes_labels (ng_struct g))) (edges_list (ng_struct g))) v);
    change (ng_get_node_indx h v) with (ng_get_node_indx (ng_add_edges (ng_add_nodes g (nodes_labels (ng_struct g))) (edges_list (ng_struct g))) v) end.
  rewrite E2, E3. reflexivity.
Qed.
(** the three calls in the documented order *)
Lemma three_calls t w v g : ng_fast_init (w_graph w) v = Ok g ->
  let r := life_run t w [GraphInit v; EstInit v; EstCompute v] in
  match compute_parameters_for_node t g v with
  | Ok so => snd r = [Done; Done; Returned (length (w_heap w))] /\ holds (fst r) (length (w_heap w)) so
  | Err x => snd r = [Done; Done; Raised x]
  end.
Proof.
  intros H r. subst r. cbn [life_run life_step]. rewrite (graph_init_ok _ _ _ H).
  assert (F : exists pi tf ti mf mi pc c ni, ng_pinfo g = Some pi /\ ng_time_filtering g = Some tf /\ ng_time_indexing g = Some ti
     /\ ng_trans_filtering g = Some mf /\ ng_trans_indexing g = Some mi /\ ng_p_combs g = Some pc /\ ng_get_states_number g v = Ok c /\ ng_get_node_indx g v = Ok ni).
  { unfold ng_fast_init in H. cbn zeta in H. apply bind_ok in H as [pi [E1 H]]. apply bind_ok in H as [c [E2 H]]. apply bind_ok in H as [ni [E3 H]]. injection H as <-.
    cbn [ng_pinfo ng_time_filtering ng_time_indexing ng_trans_filtering ng_trans_indexing ng_p_combs]. do 8 eexists. do 6 (split; [reflexivity|]). split; [exact E2|exact E3]. }
  destruct F as [pi [tf [ti [mf [mi [pc [c [ni [F1 [F2 [F3 [F4 [F5 [F6 [F7 F8]]]]]]]]]]]]]]].
  unfold est_init. cbn [w_graph w_heap w_cur]. rewrite F1, F7. unfold est_compute. cbn [w_graph w_heap w_cur].
  rewrite nth_error_app2, Nat.sub_diag by reflexivity. cbn [nth_error]. unfold est_fill, compute_parameters_for_node.
  rewrite F1, F2, F3, F4, F5, F6, F7, F8. cbn [opt_get bind o_stats o_pvals o_states o_node o_combs o_cims app].
  destruct (compute_state_res_time_for_node (t_times t) (traj_trajectory t) tf ti (nat_prod (snd pi)) c) as [T|x]; cbn [bind]; [|reflexivity].
  destruct (compute_state_transitions_for_a_node ni (traj_complete t) (t_width t) mf mi (nat_prod (snd pi)) c) as [M|x]; cbn [bind]; [|reflexivity].
  split; [reflexivity|]. cbn [fst]. exists (MkObj v (snd pi) c (Some pc) false (build_cims T M)). cbn [w_heap].
  split; [|split; reflexivity].
  rewrite nth_error_set_at, Nat.eqb_refl, app_length. cbn [length]. destruct (Nat.ltb_spec (length (w_heap w)) (length (w_heap w) + 1)); [|lia]. reflexivity.
Qed.
Lemma any_history s t os v : wf_structure s -> edges_within (nodes_labels s) (edges_list s) -> legal_lives t (new_world s) os ->
  let w := fst (life_run t (new_world s) os) in
  let s' := ng_struct (w_graph w) in
  wf_structure s' /\ edges_within (nodes_labels s') (edges_list s') /\ edges_within (nodes_labels s') (ng_edges (w_graph w))
  /\ (In v (nodes_labels s') -> exists g, ng_fast_init (fresh_graph s' (ng_edges (w_graph w))) v = Ok g
      /\ let r := life_run t w [GraphInit v; EstInit v; EstCompute v] in
         match compute_parameters_for_node t g v with
         | Ok so => snd r = [Done; Done; Returned (length (w_heap w))] /\ holds (fst r) (length (w_heap w)) so
         | Err x => snd r = [Done; Done; Raised x]
         end).
Proof.
  intros Hwf He L w s'. destruct (new_world_ok s Hwf He) as [G0 _]. pose proof (run_graph t os _ G0 L) as [H1 [H2 [H3 H4]]]. fold w in H1, H2, H3, H4. fold s' in H1, H3, H4.
  destruct (edges_view_spec _ H2) as [_ EV].
  assert (HE : edges_within (nodes_labels s') (ng_edges (w_graph w))) by (intros e Q; apply H3, EV, Q).
  split; [exact H1|]. split; [exact H4|]. split; [exact HE|]. intro Hv.
  destruct (fast_init_canonical (w_graph w) v H1 H2 H3 H4 Hv) as [g1 [A1 [A2 [A3 [A4 A5]]]]].
  destruct (fast_init_fresh s' (ng_edges (w_graph w)) v H1 HE H4 Hv) as [g [B1 [B2 [B3 [B4 B5]]]]].
  exists g. split; [exact B1|]. pose proof (three_calls t w v g1 A1) as T.
  assert (EQ : compute_parameters_for_node t g v = compute_parameters_for_node t g1 v).
  { apply params_ext.
    - rewrite A5, B5. apply canonical_ext. intros l _. f_equal. apply eq_true_iff_eq. rewrite !emem_In. apply EV.
    - destruct (ginv_lookup g v B2) as [_ ->]; [rewrite B3; exact Hv|]. destruct (ginv_lookup g1 v A2) as [_ ->]; [rewrite A3; exact Hv|]. rewrite A3, B3. reflexivity.
    - destruct (ginv_lookup g v B2) as [-> _]; [rewrite B3; exact Hv|]. destruct (ginv_lookup g1 v A2) as [-> _]; [rewrite A3; exact Hv|]. rewrite A3, B3. reflexivity. }
  rewrite EQ. exact T.
Qed.
(** a second computation right after the first *)
Lemma second_compute t w v w' i : cur_ok w -> life_step t w (EstCompute v) = (w', Returned i) -> life_step t w' (EstCompute v) = (w', Raised AttributeError).
Proof.
  intros C H. cbn [life_step] in *. destruct (compute_cases t w v C) as [[j [o [o' [E1 [E2 [E3 [E4 [E5 E]]]]]]]]|[x E]]; rewrite E in H; [|discriminate].
  injection H as <- <-. unfold est_compute. cbn [w_graph w_heap w_cur]. rewrite E1.
  assert (Hi : j < length (w_heap w)) by (apply nth_error_Some; congruence).
  rewrite nth_error_set_at, Nat.eqb_refl. destruct (Nat.ltb_spec j (length (w_heap w))) as [_|]; [|lia]. cbn [andb].
  unfold est_fill in *. apply bind_ok in E5 as [ni [-> H]]. cbn [bind]. apply bind_ok in H as [tf [-> H]]. cbn [bind]. apply bind_ok in H as [ti [-> H]]. cbn [bind].
  rewrite E4. rewrite E3 in H. apply bind_ok in H as [T [H _]]. unfold compute_state_res_time_for_node in H. unfold res_time_bins.
  destruct (hd 0 ti =? 0)%Z; [discriminate|]. apply bind_ok in H as [sel [-> H]]. cbn [bind]. apply bind_ok in H as [b [-> _]]. reflexivity.
Qed.
