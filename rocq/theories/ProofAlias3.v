From Verif Require Import Base Lib ModelStructure ModelGraph ModelLife SpecStructure SpecGraph ProofStructure ProofGraph ProofLife ModelAlias SpecAlias ProofAlias ProofAlias2.

(** ** graphs that still have nodes their structure has lost *)
Definition half (g : netgraph) : Prop := wf_structure (ng_struct g) /\ dinv (ng_graph g) /\ attrs_ok (ng_struct g) (ng_graph g).
Lemma half_lookup g l : half g -> In l (nodes_labels (ng_struct g)) ->
  ng_get_node_indx g l = Ok (idx_of (ng_struct g) l) /\ ng_get_states_number g l = Ok (val_of (ng_struct g) l).
Proof.
  intros [Hwf [_ H]] Hin. destruct (wf_lookup _ l Hwf Hin) as [i [K1 [K2 [K3 _]]]].
  destruct (H i l _ _ K1 K2 K3) as [a [A1 [A2 A3]]]. unfold ng_get_node_indx, ng_get_states_number.
  rewrite A1; simpl. rewrite A2, A3. split; reflexivity.
Qed.
Lemma half_names g l : half g -> In l (nodes_labels (ng_struct g)) -> In l (names (ng_graph g)).
Proof.
  intros [Hwf [_ H]] Hin. destruct (wf_lookup _ l Hwf Hin) as [i [K1 [K2 [K3 _]]]].
  destruct (H i l _ _ K1 K2 K3) as [a [A1 _]]. unfold g_attr in A1. unfold names.
  induction (g_nodes (ng_graph g)) as [|[x o] r IH]; simpl in *; [discriminate|].
  destruct (String.eqb_spec x l); [left; assumption|right; apply IH, A1].
Qed.
Lemma half_parents g v : half g -> In v (nodes_labels (ng_struct g)) ->
  (forall p, In (p, v) (g_edges (ng_graph g)) -> In p (nodes_labels (ng_struct g))) ->
  let ps := filter (fun l => ng_has_edge g (l, v)) (nodes_labels (ng_struct g)) in
  ng_get_ordered_by_indx_set_of_parents g v = Ok (ps, map (idx_of (ng_struct g)) ps, map (val_of (ng_struct g)) ps).
Proof.
  intros Hg Hv H3 ps. pose proof Hg as [Hwf [H1 H2]].
  unfold ng_get_ordered_by_indx_set_of_parents, ng_get_parents_by_id.
  destruct (proj1 (predecessors_spec _ v H1) (half_names g v Hg Hv)) as [qs [-> [Q1 Q2]]]. simpl.
  destruct (sort_parents (nodes_labels (ng_struct g)) qs (fun l => ng_has_edge g (l, v))) as [keyed [-> Hk]].
  - apply Hwf.
  - exact Q1.
  - intros p. rewrite Q2. unfold ng_has_edge, g_has_edge. rewrite emem_In. split; [|tauto].
    intros K; split; [apply (H3 _ K)|exact K].
  - simpl. rewrite Hk. fold ps.
    rewrite (res_map_pure _ (idx_of (ng_struct g))).
    2:{ intros l Hl. apply filter_In in Hl as [Hl _]. apply half_lookup; assumption. }
    simpl. rewrite (res_map_pure _ (val_of (ng_struct g))).
    2:{ intros l Hl. apply filter_In in Hl as [Hl _]. apply half_lookup; assumption. }
    reflexivity.
Qed.
Lemma res_map_key nodes ps p : NoDup nodes -> In p ps -> ~ In p nodes ->
  res_map (fun v => let* k := enum_dict nodes v in Ok (k, v)) ps = Err KeyError.
Proof.
  intros ND Hp Np. induction ps as [|q r IH]; [destruct Hp|]. cbn [res_map]. unfold enum_dict at 1. rewrite enum_dict_from_spec by exact ND.
  destruct (py_index q nodes) as [k|e] eqn:E; cbn [bind]; [|reflexivity].
  destruct Hp as [->|Hp]; [exfalso; apply Np; apply py_index_ok in E as [E _]; apply nth_error_In in E; exact E|].
  rewrite IH by exact Hp. reflexivity.
Qed.
Lemma half_orphan g v p : half g -> In v (nodes_labels (ng_struct g)) ->
  In (p, v) (g_edges (ng_graph g)) -> ~ In p (nodes_labels (ng_struct g)) ->
  ng_get_ordered_by_indx_set_of_parents g v = Err KeyError.
Proof.
  intros Hg Hv He Np. pose proof Hg as [Hwf [H1 H2]]. unfold ng_get_ordered_by_indx_set_of_parents, ng_get_parents_by_id.
  destruct (proj1 (predecessors_spec _ v H1) (half_names g v Hg Hv)) as [qs [-> [Q1 Q2]]]. cbn [bind].
  rewrite (res_map_key _ qs p (proj1 Hwf)); [reflexivity| |exact Np]. apply Q2, He.
Qed.

(** the graph after the first two lines of fast_init *)
Lemma half_start g : wf_structure (ng_struct g) -> dinv (ng_graph g) ->
  let g2 := ng_add_edges (ng_add_nodes g (nodes_labels (ng_struct g))) (edges_list (ng_struct g)) in
  half g2 /\ (forall e, In e (g_edges (ng_graph g2)) <-> In e (g_edges (ng_graph g)) \/ In e (edges_list (ng_struct g))).
Proof.
  intros Hwf Hd g2.
  destruct (add_nodes_loop_dspec (nodes_labels (ng_struct g)) (ng_graph g) 0 (nodes_indexes (ng_struct g)) (nodes_values (ng_struct g)) Hd) as [I1 [I2 _]].
  unfold g2, ng_add_edges, ng_add_nodes, with_graph; cbn [ng_struct ng_graph].
  destruct (add_edges_from_spec _ (edges_list (ng_struct g)) I1) as [J1 [J2 _]]. split.
  - split; [exact Hwf|]. split; [exact J1|]. intros k l x v K1 K2 K3. cbn [ng_struct ng_graph]. eexists. split.
    + apply attr_add_edges. eapply add_nodes_attr; eauto. apply Hwf.
    + split; reflexivity.
  - intro e. rewrite J2, I2. tauto.
Qed.

Lemma stale_init s s' es v n : wf_structure s -> edges_within (nodes_labels s) es -> edges_within (nodes_labels s) (edges_list s) ->
  In n (nodes_labels s) -> structure_remove_node s n = Ok s' -> In v (nodes_labels s) -> v <> n ->
  (In (n, v) es -> snd (graph_init (with_struct s' (fresh_graph s es)) v) = Raised KeyError)
  /\ (~ In (n, v) es -> exists g h, ng_fast_init (with_struct s' (fresh_graph s es)) v = Ok g
        /\ ng_fast_init (fresh_graph s' (filter (fun e => negb (mentions n e)) es)) v = Ok h
        /\ init_fields g = init_fields h).
Proof.
  intros Hwf He Hp Hn R Hv Hvn. set (g := with_struct s' (fresh_graph s es)).
  destruct (proj1 (remove_node_spec s n Hwf) Hn) as [s1 [Es [Hwf' [Hlab [_ [Hed _]]]]]]. assert (s1 = s') by congruence. subst s1.
  pose proof (fresh_ginv s es Hwf He) as [_ [D [_ _]]].
  destruct (half_start g Hwf' D) as [HG HE]. set (g2 := ng_add_edges (ng_add_nodes g (nodes_labels (ng_struct g))) (edges_list (ng_struct g))) in *.
  assert (Hin' : forall l, In l (nodes_labels s') <-> In l (nodes_labels s) /\ l <> n).
  { intros l. rewrite Hlab, filter_In, negb_true_iff, String.eqb_neq. tauto. }
  assert (Hfilm : forall es0 e, In e (filter (fun e => negb (mentions n e)) es0) <-> In e es0 /\ fst e <> n /\ snd e <> n).
  { intros es0 e. rewrite filter_In. unfold mentions. rewrite negb_orb, andb_true_iff, !negb_true_iff, !String.eqb_neq. tauto. }
  assert (Hfil : forall es0, edges_within (nodes_labels s) es0 -> edges_within (nodes_labels s') (filter (fun e => negb (mentions n e)) es0)).
  { intros es0 K e Q. apply Hfilm in Q as (Q1 & Q2 & Q3). rewrite !Hin'. specialize (K e Q1). tauto. }
  assert (Hv' : In v (nodes_labels s')) by (apply Hin'; auto).
  assert (HE' : forall e, In e (g_edges (ng_graph g2)) <-> In e es \/ (In e (edges_list s) /\ fst e <> n /\ snd e <> n)).
  { intro e. rewrite HE. change (ng_graph g) with (ng_graph (fresh_graph s es)). rewrite (fresh_edges s es Hwf). cbn [g with_struct ng_struct]. rewrite Hed, Hfilm. tauto. }
  split.
  - intro HI. unfold graph_init. fold g2. cbn zeta.
    rewrite (half_orphan g2 v n HG Hv'); [reflexivity|apply HE'; left; exact HI|]. change (~ In n (nodes_labels s')). rewrite Hin'. tauto.
  - intro HI.
    assert (HP : forall p, In (p, v) (g_edges (ng_graph g2)) -> In p (nodes_labels (ng_struct g2))).
    { intros p Q. change (In p (nodes_labels s')). apply Hin'. apply HE' in Q as [Q|[Q [Q1 Q2]]].
      - split; [apply (He _ Q)|]. intro E. subst p. contradiction.
      - split; [apply (Hp _ Q)|exact Q1]. }
    destruct (fast_init_fresh s' (filter (fun e => negb (mentions n e)) es) v) as [h [Eh [_ [_ [_ Fh]]]]]; [exact Hwf'|apply Hfil, He|rewrite Hed; apply Hfil, Hp|exact Hv'|].
    unfold ng_fast_init. change (edges_list (ng_struct (ng_add_nodes g (nodes_labels (ng_struct g))))) with (edges_list (ng_struct g)). fold g2.
    rewrite (half_parents g2 v HG Hv' HP). cbn [bind fst snd]. destruct (half_lookup g2 v HG Hv') as [L1 L2]. rewrite L1, L2. cbn [bind].
    eexists. exists h. split; [reflexivity|]. split; [exact Eh|]. rewrite Fh. unfold init_fields, canonical_fields.
    cbn [ng_pinfo ng_time_indexing ng_trans_indexing ng_time_filtering ng_trans_filtering ng_p_combs].
    change (ng_struct g2) with s'.
    rewrite (Lib.filter_ext_In (fun l => ng_has_edge g2 (l, v)) (fun l => emem (l, v) (filter (fun e => negb (mentions n e)) es) || emem (l, v) (edges_list s'))); [reflexivity|].
    intros l Hl. apply eq_true_iff_eq. unfold ng_has_edge, g_has_edge. rewrite orb_true_iff, !emem_In, HE', Hed, !Hfilm. cbn [fst snd].
    apply Hin' in Hl. tauto.
Qed.

(** ** a structure whose list of labels lost an element *)
Lemma filter_positions (ls : list label) n p : NoDup ls -> nth_error ls p = Some n -> forall i,
  nth_error (filter (fun l => negb (String.eqb l n)) ls) i = nth_error ls (if i <? p then i else S i).
Proof.
  revert p. induction ls as [|a l IH]; intros p ND P i; [destruct p; discriminate|]. apply NoDup_cons_iff in ND as [N1 N2].
  destruct p as [|p]; cbn [nth_error] in P.
  - injection P as ->. cbn [filter]. rewrite String.eqb_refl. cbn [negb]. rewrite (Lib.filter_ext_In _ (fun _ => true)).
    + replace (filter (fun _ => true) l) with l; [destruct i; reflexivity|]. clear. induction l; cbn; congruence.
    + intros x Hx. destruct (String.eqb x n) eqn:E; [|reflexivity]. apply String.eqb_eq in E. subst. contradiction.
  - cbn [filter]. destruct (String.eqb a n) eqn:E.
    + apply String.eqb_eq in E. subst. exfalso. apply N1. apply nth_error_In in P. exact P.
    + cbn [negb]. destruct i as [|i]; [reflexivity|]. cbn [nth_error]. rewrite (IH p N2 P i).
      change (S i <? S p) with (i <? p). destruct (i <? p); reflexivity.
Qed.
Lemma lost_lookup t n p l i : wf_structure t -> nth_error (nodes_labels t) p = Some n -> nth_error (nodes_labels t) i = Some l -> i <> p ->
  structure_get_positional_node_indx (label_lost n t) l = Ok (if i <? p then i else i - 1)
  /\ structure_get_node_indx (label_lost n t) l = nth_res (nodes_indexes t) (if i <? p then i else i - 1)
  /\ structure_get_states_number (label_lost n t) l = nth_res (nodes_values t) (if i <? p then i else i - 1).
Proof.
  intros (ND & _ & _) P I N.
  assert (Q : py_index l (nodes_labels (label_lost n t)) = Ok (if i <? p then i else i - 1)).
  { apply py_index_NoDup; [apply NoDup_filter', ND|]. cbn [label_lost nodes_labels]. rewrite (filter_positions _ _ _ ND P).
    destruct (i <? p) eqn:E.
    - rewrite E. exact I.
    - apply Nat.ltb_ge in E. destruct (i - 1 <? p) eqn:E2; [apply Nat.ltb_lt in E2; lia|]. replace (S (i - 1)) with i by lia. exact I. }
  unfold structure_get_positional_node_indx, structure_get_node_indx, structure_get_states_number. rewrite Q. cbn [bind label_lost nodes_indexes nodes_values]. auto.
Qed.
