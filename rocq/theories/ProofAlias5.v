From Verif Require Import Base Lib ModelStructure ModelGraph ModelLife SpecStructure SpecGraph ProofStructure ProofGraph ProofLife ModelAlias SpecAlias ProofAlias ProofAlias2 ProofAlias3 ProofAlias4.

Lemma alias_run_app h os os' h1 r1 : alias_run h os = Some (h1, r1) ->
  alias_run h (os ++ os') = match alias_run h1 os' with Some (h2, r2) => Some (h2, r1 ++ r2) | None => None end.
Proof.
  revert h h1 r1. induction os as [|o os IH]; intros h h1 r1 H; cbn [alias_run app] in *.
  - injection H as <- <-. destruct (alias_run h os') as [[h2 r2]|]; reflexivity.
  - destruct (alias_step h o) as [[ha x]|]; [|discriminate]. destruct (alias_run ha os) as [[hb xs]|] eqn:E; [|discriminate]. injection H as <- <-.
    rewrite (IH _ _ _ E). destruct (alias_run hb os') as [[h2 r2]|]; reflexivity.
Qed.
Lemma nth_snoc_len {A} (l : list A) x : nth_error (l ++ [x]) (length l) = Some x.
Proof. rewrite nth_error_app2 by lia. rewrite Nat.sub_diag. reflexivity. Qed.
Lemma struct_in h j s : struct_at h j = Some s -> j < length (h_structs h).
Proof. intro H. unfold struct_at in H. destruct (nth_error (h_structs h) j) eqn:E; [|discriminate]. apply nth_error_Some. congruence. Qed.
Lemma graph_in h k g : graph_at h k = Some g -> k < length (h_graphs h).
Proof. intro H. unfold graph_at in H. destruct (nth_error (h_graphs h) k) eqn:E; [|discriminate]. apply nth_error_Some. congruence. Qed.

(** the four objects a new graph needs *)
Definition made (h : heap) (s : structure) : heap :=
  MkHeap (h_labels h ++ [nodes_labels s]) (h_edges h ++ [edges_list s])
    (h_structs h ++ [MkSobj (length (h_labels h)) (nodes_indexes s) (nodes_values s) (length (h_edges h)) (total_variables_number s)])
    (h_graphs h ++ [MkGobj (length (h_structs h)) (new_netgraph s)]).
Lemma struct_eta s : MkStructure (nodes_labels s) (nodes_indexes s) (nodes_values s) (edges_list s) (total_variables_number s) = s.
Proof. destruct s; reflexivity. Qed.
Lemma made_struct h s : struct_at (made h s) (length (h_structs h)) = Some s.
Proof. unfold struct_at, made. cbn [h_structs h_labels h_edges]. rewrite nth_snoc_len. cbn [os_labels os_edges os_idx os_vals os_tot]. rewrite !nth_snoc_len. rewrite struct_eta. reflexivity. Qed.
Lemma made_run h s : alias_run h [NewLabels (nodes_labels s); NewEdges (edges_list s);
    NewStructure (length (h_labels h)) (nodes_indexes s) (nodes_values s) (length (h_edges h)) (total_variables_number s); NewGraph (length (h_structs h))]
  = Some (made h s, [Done; Done; Done; Done]).
Proof.
  cbn [alias_run alias_step new_edges h_labels h_edges h_structs h_graphs].
  rewrite !app_length. cbn [length].
  assert (E1 : (length (h_labels h) <? length (h_labels h) + 1) = true) by (apply Nat.ltb_lt; lia).
  assert (E2 : (length (h_edges h) <? length (h_edges h) + 1) = true) by (apply Nat.ltb_lt; lia).
  rewrite E1, E2. cbn [andb].
  set (h3 := MkHeap (h_labels h ++ [nodes_labels s]) (h_edges h ++ [edges_list s]) (h_structs h ++ [_]) (h_graphs h)).
  assert (E3 : struct_at h3 (length (h_structs h)) = Some s).
  { change (struct_at (made h s) (length (h_structs h)) = Some s). apply made_struct. }
  rewrite E3. reflexivity.
Qed.
Lemma made_old h s j t : struct_at h j = Some t -> struct_at (made h s) j = Some t.
Proof.
  intro H. pose proof H as H0. apply struct_find in H0 as (o & F & _). apply find_parts in F as (A & B & C). apply (struct_at_frame _ _ _ _ H).
  intros o' E. assert (o' = o) by congruence. subst o'. cbn [made h_structs h_labels h_edges].
  rewrite (nth_snoc_lt _ _ _ _ A), (nth_snoc_lt _ _ _ _ B), (nth_snoc_lt _ _ _ _ C). auto.
Qed.
Lemma made_old_graph h s k g : graph_at h k = Some g -> graph_at (made h s) k = Some g.
Proof.
  intro H. apply graph_parts in H as (o & t & A & B & ->). apply graph_parts. exists o, t. split; [cbn [made h_graphs]; apply nth_snoc_lt, A|]. split; [apply made_old, B|reflexivity].
Qed.
Lemma made_graph h s : graph_at (made h s) (length (h_graphs h)) = Some (new_netgraph s).
Proof. apply graph_parts. exists (MkGobj (length (h_structs h)) (new_netgraph s)), s. cbn [made h_graphs og_struct og_body]. rewrite nth_snoc_len. split; [reflexivity|]. split; [apply made_struct|reflexivity]. Qed.

Lemma tests_private h s p c g1 g2 g3 : NoDup (nodes_labels s) ->
  ng_fast_init (new_netgraph s) c = Ok g1 -> ng_remove_node g1 p = Ok g2 -> ng_fast_init g2 c = Ok g3 ->
  exists h', alias_run h (test_calls h (nodes_labels s) (nodes_indexes s) (nodes_values s) (edges_list s) (total_variables_number s) p c)
              = Some (h', repeat Done 7)
    /\ graph_at h' (length (h_graphs h)) = Some g3
    /\ (forall j t, struct_at h j = Some t -> struct_at h' j = Some t)
    /\ (forall k g, graph_at h k = Some g -> graph_at h' k = Some g).
Proof.
  intros ND E1 E2 E3. unfold test_calls. set (S2 := length (h_structs h)). set (G2 := length (h_graphs h)).
  change [NewLabels (nodes_labels s); NewEdges (edges_list s); NewStructure (length (h_labels h)) (nodes_indexes s) (nodes_values s) (length (h_edges h)) (total_variables_number s);
     NewGraph S2; GFastInit G2 c; GRemoveNode G2 p; GFastInit G2 c]
   with ([NewLabels (nodes_labels s); NewEdges (edges_list s); NewStructure (length (h_labels h)) (nodes_indexes s) (nodes_values s) (length (h_edges h)) (total_variables_number s);
     NewGraph (length (h_structs h))] ++ [GFastInit G2 c; GRemoveNode G2 p; GFastInit G2 c]).
  rewrite (alias_run_app _ _ _ _ _ (made_run h s)). set (h4 := made h s).
  set (o4 := MkGobj (length (h_structs h)) (new_netgraph s)).
  assert (N4 : nth_error (h_graphs h4) G2 = Some o4) by (unfold h4, G2; cbn [made h_graphs]; apply nth_snoc_len).
  assert (A4 : graph_at h4 G2 = Some (new_netgraph s)) by (apply made_graph).
  (* fast_init *)
  assert (SG1 : ng_struct g1 = s).
  { pose proof (graph_init_struct (new_netgraph s) c) as Q. rewrite (graph_init_ok _ _ _ E1) in Q. exact Q. }
  assert (SG3 : ng_struct g3 = ng_struct g2).
  { pose proof (graph_init_struct g2 c) as Q. rewrite (graph_init_ok _ _ _ E3) in Q. exact Q. }
  set (h5 := set_body h4 G2 o4 g1).
  assert (T5 : alias_step h4 (GFastInit G2 c) = Some (h5, Done)).
  { cbn [alias_step]. rewrite N4, A4, (graph_init_ok _ _ _ E1). reflexivity. }
  destruct (graph_call h4 G2 (new_netgraph s) g1 A4 SG1 o4 N4) as (A5 & O5 & C5). fold h5 in A5, O5, C5.
  assert (N5 : nth_error (h_graphs h5) G2 = Some (MkGobj S2 g1)) by (unfold h5; cbn [set_body h_graphs]; apply (nth_set_eq _ _ _ _ N4)).
  assert (GS : graph_of_struct h5 G2 S2) by (exists (MkGobj S2 g1); auto).
  destruct (graph_remove_step h5 G2 g1 p g2 S2 A5) as (h6 & T6 & A6 & B6 & _ & C6 & D6); [rewrite SG1; exact ND|exact GS|exact E2|].
  destruct (nth_error (h_graphs h6) G2) as [o6|] eqn:N6; [|unfold graph_at in A6; rewrite N6 in A6; discriminate].
  destruct (graph_call h6 G2 g2 g3 A6 SG3 o6 N6) as (A7 & O7 & C7). set (h7 := set_body h6 G2 o6 g3) in *.
  assert (T7 : alias_step h6 (GFastInit G2 c) = Some (h7, Done)).
  { cbn [alias_step]. rewrite N6, A6, (graph_init_ok _ _ _ E3). reflexivity. }
  exists h7. cbn [alias_run]. rewrite T5, T6, T7. split; [reflexivity|]. split; [exact A7|].
  assert (ST5 : h_structs h5 = h_structs h4) by reflexivity.
  assert (NS : forall j t, struct_at h j = Some t -> j <> S2 /\ ~ same_label_list h5 S2 j).
  { intros j t T. pose proof (struct_in _ _ _ T) as Lj. split; [unfold S2; lia|]. intros (a & b & Q1 & Q2 & Q3). rewrite ST5 in Q1, Q2.
    unfold h4, S2 in Q1, Q2. cbn [made h_structs] in Q1, Q2. rewrite nth_snoc_len in Q1. injection Q1 as <-. cbn [os_labels] in Q3.
    rewrite nth_error_app1 in Q2 by exact Lj. apply struct_find in T as (o & F & _). apply find_parts in F as (F1 & F2 & _). assert (o = b) by congruence. subst o.
    assert (os_labels b < length (h_labels h)) by (apply nth_error_Some; congruence). lia. }
  assert (KS : forall j t, struct_at h j = Some t -> struct_at h7 j = Some t).
  { intros j t T. rewrite C7. destruct (NS j t T) as [N1 N2]. apply (proj2 (C6 j t N1 ltac:(rewrite C5; apply made_old, T))). exact N2. }
  split; [exact KS|].
  intros k g G. pose proof (graph_in _ _ _ G) as Lk. assert (Nk : k <> G2) by (unfold G2; lia).
  rewrite (O7 k Nk). assert (G5 : graph_at h5 k = Some g) by (rewrite (O5 k Nk); apply made_old_graph, G).
  apply (step_graph _ _ _ _ _ _ T6 G5). split; [|auto].
  intros j Hj. cbn [leaves_struct]. intros i Hi. assert (i = S2). { destruct Hi as (a & Q1 & Q2). rewrite N5 in Q1. injection Q1 as <-. exact (eq_sym Q2). } subst i.
  apply graph_parts in G as (o & t & P1 & P2 & P3). destruct Hj as (a & Q1 & Q2).
  assert (EA : a = o). { unfold h5, h4 in Q1. cbn [set_body h_graphs made] in Q1. rewrite nth_set_ne in Q1 by auto. rewrite nth_error_app1 in Q1 by exact Lk. congruence. }
  subst a. destruct (NS j t) as [N1 N2]; [rewrite <- Q2; exact P2|]. split; [auto|exact N2].
Qed.

(** ** what fast_init reads from a structure that lost a label *)
Lemma lost_attrs t n p b v l i : wf_structure t -> nth_error (nodes_labels t) p = Some n -> nth_error (nodes_labels t) i = Some l -> i <> p ->
  let g := fst (graph_init (with_struct (label_lost n t) b) v) in
  ng_get_node_indx g l = nth_res (nodes_indexes t) (if i <? p then i else i - 1)
  /\ ng_get_states_number g l = nth_res (nodes_values t) (if i <? p then i else i - 1).
Proof.
  intros W P I N g. pose proof W as (ND & L1 & L2).
  set (q := if i <? p then i else i - 1).
  assert (Hi : i < length (nodes_labels t)) by (apply nth_error_Some; congruence).
  assert (Hp : p < length (nodes_labels t)) by (apply nth_error_Some; congruence).
  assert (Hq : q < length (nodes_labels t)) by (unfold q; destruct (i <? p); lia).
  assert (Q : nth_error (nodes_labels (label_lost n t)) q = Some l).
  { cbn [label_lost nodes_labels]. rewrite (filter_positions _ _ _ ND P). unfold q. destruct (i <? p) eqn:E.
    - rewrite E. exact I.
    - apply Nat.ltb_ge in E. destruct (i - 1 <? p) eqn:E2; [apply Nat.ltb_lt in E2; lia|]. replace (S (i - 1)) with i by lia. exact I. }
  destruct (nth_error (nodes_indexes t) q) as [x|] eqn:X; [|apply nth_error_None in X; lia].
  destruct (nth_error (nodes_values t) q) as [w|] eqn:V; [|apply nth_error_None in V; lia].
  set (s' := label_lost n t) in *. set (gb := with_struct s' b) in *.
  set (g2 := ng_add_edges (ng_add_nodes gb (nodes_labels (ng_struct gb))) (edges_list (ng_struct gb))).
  assert (A : g_attr (ng_graph g2) l = Ok (MkNattr x w (0 + q))).
  { unfold g2, ng_add_edges, ng_add_nodes, with_graph. cbn [ng_graph ng_struct gb with_struct]. apply attr_add_edges.
    apply add_nodes_attr; auto. apply NoDup_filter', ND. }
  assert (G : ng_graph g = ng_graph g2).
  { unfold g, graph_init. cbn zeta. fold g2. destruct (ng_get_ordered_by_indx_set_of_parents g2 v); [|reflexivity].
    repeat (match goal with |- context [match ?y with Ok _ => _ | Err _ => _ end] => destruct y end); reflexivity. }
  unfold ng_get_node_indx, ng_get_states_number. rewrite G, A. cbn [bind a_indx a_val].
  unfold nth_res. rewrite X, V. auto.
Qed.

(** ** the generator *)
Lemma generate_run h L ls idx vals es : nth_error (h_labels h) L = Some ls ->
  let t := MkStructure ls idx vals es (length ls) in
  exists h', alias_run h (generate_calls h L ls idx vals es) = Some (h', repeat Done 5)
    /\ nth_error (h_structs h') (length (h_structs h)) = Some (MkSobj L idx vals (length (h_edges h)) (length ls))
    /\ struct_at h' (length (h_structs h)) = Some t
    /\ graph_of_struct h' (length (h_graphs h)) (length (h_structs h))
    /\ graph_at h' (length (h_graphs h)) = Some (fresh_graph t es)
    /\ h_labels h' = h_labels h /\ length (h_structs h') = S (length (h_structs h)) /\ length (h_graphs h') = S (length (h_graphs h))
    /\ (forall j o, nth_error (h_structs h) j = Some o -> nth_error (h_structs h') j = Some o)
    /\ (forall j o, nth_error (h_graphs h) j = Some o -> nth_error (h_graphs h') j = Some o)
    /\ (forall j s, struct_at h j = Some s -> struct_at h' j = Some s)
    /\ (forall k g, graph_at h k = Some g -> graph_at h' k = Some g).
Proof.
  intros E t. unfold generate_calls. set (S2 := length (h_structs h)). set (G2 := length (h_graphs h)).
  assert (HL : (L <? length (h_labels h)) = true) by (apply Nat.ltb_lt, nth_error_Some; congruence).
  cbn [alias_run]. set (h1 := new_edges h es). assert (T1 : alias_step h (NewEdges es) = Some (h1, Done)) by reflexivity. rewrite T1.
  set (ob := MkSobj L idx vals (length (h_edges h)) (length ls)).
  set (h2 := MkHeap (h_labels h) (h_edges h ++ [es]) (h_structs h ++ [ob]) (h_graphs h)).
  assert (T2 : alias_step h1 (NewStructure L idx vals (length (h_edges h)) (length ls)) = Some (h2, Done)).
  { cbn [alias_step h1 new_edges h_labels h_edges h_structs h_graphs]. rewrite HL, app_length. cbn [length].
    assert (X : (length (h_edges h) <? length (h_edges h) + 1) = true) by (apply Nat.ltb_lt; lia). rewrite X. reflexivity. }
  rewrite T2.
  assert (S2t : struct_at h2 S2 = Some t).
  { unfold struct_at, h2, S2. cbn [h_structs h_labels h_edges]. rewrite nth_snoc_len. cbn [ob os_labels os_edges os_idx os_vals os_tot]. rewrite E, nth_snoc_len. reflexivity. }
  set (h3 := MkHeap (h_labels h) (h_edges h ++ [es]) (h_structs h ++ [ob]) (h_graphs h ++ [MkGobj S2 (new_netgraph t)])).
  assert (T3 : alias_step h2 (NewGraph S2) = Some (h3, Done)) by (cbn [alias_step]; rewrite S2t; reflexivity).
  rewrite T3. set (o3 := MkGobj S2 (new_netgraph t)).
  assert (N3 : nth_error (h_graphs h3) G2 = Some o3) by (unfold h3, G2; cbn [h_graphs]; apply nth_snoc_len).
  assert (A3 : graph_at h3 G2 = Some (new_netgraph t)) by (apply graph_parts; exists o3, t; split; [exact N3|]; split; [exact S2t|reflexivity]).
  set (g4 := ng_add_nodes (new_netgraph t) ls).
  assert (T4 : alias_step h3 (GAddNodes G2 ls) = Some (set_body h3 G2 o3 g4, Done)) by (cbn [alias_step]; rewrite N3, A3; reflexivity).
  rewrite T4. set (h4 := set_body h3 G2 o3 g4).
  destruct (graph_call h3 G2 (new_netgraph t) g4 A3 eq_refl o3 N3) as (A4 & O4 & C4). fold h4 in A4, O4, C4.
  set (o4 := MkGobj S2 g4). assert (N4 : nth_error (h_graphs h4) G2 = Some o4) by (unfold h4; cbn [set_body h_graphs]; apply (nth_set_eq _ _ _ _ N3)).
  set (g5 := ng_add_edges g4 es).
  assert (T5 : alias_step h4 (GAddEdges G2 es) = Some (set_body h4 G2 o4 g5, Done)) by (cbn [alias_step]; rewrite N4, A4; reflexivity).
  rewrite T5. set (h5 := set_body h4 G2 o4 g5).
  destruct (graph_call h4 G2 g4 g5 A4 eq_refl o4 N4) as (A5 & O5 & C5). fold h5 in A5, O5, C5.
  assert (ES : h_structs h5 = h_structs h ++ [ob]) by reflexivity.
  assert (EG : h_graphs h5 = set_at (set_at (h_graphs h ++ [MkGobj S2 (new_netgraph t)]) G2 (MkGobj S2 g4)) G2 (MkGobj S2 g5)) by reflexivity.
  assert (OS : forall j o, nth_error (h_structs h) j = Some o -> nth_error (h_structs h5) j = Some o) by (intros j o Q; rewrite ES; apply nth_snoc_lt, Q).
  assert (OG : forall j o, nth_error (h_graphs h) j = Some o -> nth_error (h_graphs h5) j = Some o).
  { intros j o Q. assert (j < length (h_graphs h)) by (apply nth_error_Some; congruence). rewrite EG. rewrite !nth_set_ne by (unfold G2; lia). apply nth_snoc_lt, Q. }
  assert (OV : forall j s, struct_at h j = Some s -> struct_at h5 j = Some s).
  { intros j s Q. pose proof Q as Q0. apply struct_find in Q0 as (o & F & _). apply find_parts in F as (F1 & F2 & F3). apply (struct_at_frame _ _ _ _ Q).
    intros o' E'. assert (o' = o) by congruence. subst o'. split; [apply OS, F1|]. split; [reflexivity|]. change (h_edges h5) with (h_edges h ++ [es]).
    rewrite (nth_snoc_lt _ _ _ _ F3). symmetry. exact F3. }
  exists h5. split; [reflexivity|]. split; [rewrite ES; unfold S2; apply nth_snoc_len|]. split; [exact S2t|].
  split; [exists (MkGobj S2 g5); split; [rewrite EG; apply (nth_set_eq _ _ _ o4 N4)|reflexivity]|].
  split; [exact A5|]. split; [reflexivity|]. split; [rewrite ES, app_length; cbn; lia|]. split; [rewrite EG, !set_at_length, app_length; cbn; lia|].
  split; [exact OS|]. split; [exact OG|]. split; [exact OV|].
  intros k g Q. apply graph_parts in Q as (o & s & Q1 & Q2 & ->). apply graph_parts. exists o, s. split; [apply OG, Q1|]. split; [apply OV, Q2|reflexivity].
Qed.

Lemma generated_share h L ls vals es1 es2 n p : nth_error (h_labels h) L = Some ls -> NoDup ls -> length vals = length ls ->
  edges_within ls es1 -> nth_error ls p = Some n ->
  let k1 := length (h_graphs h) in let k2 := S k1 in
  exists h1 h2 h3, alias_run h (generate_calls h L ls (seq 0 (length ls)) vals es1) = Some (h1, repeat Done 5)
   /\ alias_run h1 (generate_calls h1 L ls (seq 0 (length ls)) vals es2) = Some (h2, repeat Done 5)
   /\ alias_step h2 (GRemoveNode k1 n) = Some (h3, Done)
   /\ nth_error (h_labels h3) L = Some (filter (fun l => negb (String.eqb l n)) ls)
   /\ forall v, exists h4 x g, alias_step h3 (GFastInit k2 v) = Some (h4, x) /\ graph_at h4 k2 = Some g
        /\ forall l i, nth_error ls i = Some l -> i <> p ->
             ng_get_node_indx g l = Ok (if i <? p then i else i - 1) /\ ng_get_states_number g l = nth_res vals (if i <? p then i else i - 1).
Proof.
  intros E ND HV HE P k1 k2.
  destruct (generate_run h L ls (seq 0 (length ls)) vals es1 E) as (h1 & R1 & O1 & S1 & GS1 & G1 & EL1 & LS1 & LG1 & OS1 & OG1 & OV1 & OW1).
  assert (E1 : nth_error (h_labels h1) L = Some ls) by (rewrite EL1; exact E).
  destruct (generate_run h1 L ls (seq 0 (length ls)) vals es2 E1) as (h2 & R2 & O2 & S2 & GS2 & G2 & EL2 & LS2 & LG2 & OS2 & OG2 & OV2 & OW2).
  set (t1 := MkStructure ls (seq 0 (length ls)) vals es1 (length ls)) in *. set (t2 := MkStructure ls (seq 0 (length ls)) vals es2 (length ls)) in *.
  assert (W1 : wf_structure t1) by (split; [exact ND|split; [apply seq_length|exact HV]]).
  assert (W2 : wf_structure t2) by (split; [exact ND|split; [apply seq_length|exact HV]]).
  pose proof (fresh_ginv t1 es1 W1 HE) as GI.
  destruct (ginv_remove_node (fresh_graph t1 es1) n GI) as (g1' & RM & _ & RS & _); [apply nth_error_In in P; exact P|].
  assert (GS1' : graph_of_struct h2 k1 (length (h_structs h))).
  { destruct GS1 as (o & Q1 & Q2). exists o. split; [apply OG2, Q1|exact Q2]. }
  destruct (graph_remove_step h2 k1 (fresh_graph t1 es1) n g1' (length (h_structs h)) (OW2 _ _ G1) ND GS1' RM) as (h3 & T3 & A3 & B3 & L3 & C3 & D3).
  exists h1, h2, h3. split; [exact R1|]. split; [exact R2|]. split; [exact T3|].
  assert (RL : nodes_labels (ng_struct g1') = filter (fun l => negb (String.eqb l n)) ls).
  { rewrite (removed_labels t1 n (ng_struct g1') ND RS). reflexivity. }
  split; [rewrite <- RL; apply (L3 _ (OS2 _ _ O1))|].
  assert (SL : same_label_list h2 (length (h_structs h)) (length (h_structs h1))).
  { exists (MkSobj L (seq 0 (length ls)) vals (length (h_edges h)) (length ls)), (MkSobj L (seq 0 (length ls)) vals (length (h_edges h1)) (length ls)).
    split; [apply OS2, O1|]. split; [exact O2|reflexivity]. }
  assert (K2 : length (h_graphs h1) = k2) by exact LG1. rewrite K2 in GS2, G2.
  assert (X3 : struct_at h3 (length (h_structs h1)) = Some (label_lost n t2)).
  { apply (proj1 (C3 (length (h_structs h1)) t2 ltac:(lia) S2)). exact SL. }
  destruct (D3 k2 (fresh_graph t2 es2) ltac:(unfold k2; lia) G2) as (s3 & Y3 & Z3).
  assert (s3 = label_lost n t2) by (specialize (Z3 _ GS2); congruence). subst s3.
  intro v. destruct (nth_error (h_graphs h3) k2) as [o3|] eqn:N3; [|unfold graph_at in Y3; rewrite N3 in Y3; discriminate].
  destruct (graph_init (with_struct (label_lost n t2) (fresh_graph t2 es2)) v) as [g x] eqn:EI.
  assert (GE : g = fst (graph_init (with_struct (label_lost n t2) (fresh_graph t2 es2)) v)) by (rewrite EI; reflexivity).
  assert (SGE : ng_struct g = ng_struct (with_struct (label_lost n t2) (fresh_graph t2 es2))) by (rewrite GE; apply graph_init_struct).
  destruct (graph_call h3 k2 _ g Y3 SGE o3 N3) as (A4 & _ & _).
  exists (set_body h3 k2 o3 g), x, g. split; [cbn [alias_step]; rewrite N3, Y3, EI; reflexivity|]. split; [exact A4|].
  intros l i I N. rewrite GE. destruct (lost_attrs t2 n p (fresh_graph t2 es2) v l i W2 P I N) as [M1 M2]. split; [|exact M2]. rewrite M1.
  cbn [nodes_indexes t2]. assert (Hi : i < length ls) by (apply nth_error_Some; congruence).
  assert (Q : (if i <? p then i else i - 1) < length ls) by (destruct (i <? p); lia).
  unfold nth_res. rewrite (nth_error_nth' _ 0) by (rewrite seq_length; exact Q). rewrite seq_nth by exact Q. reflexivity.
Qed.
