From Verif Require Import Base Lib ModelStructure ModelGraph ModelLife SpecStructure SpecGraph ProofStructure ProofGraph ProofLife ModelAlias SpecAlias ProofAlias ProofAlias2 ProofAlias3.

Lemma remove_node_step h i s n : struct_at h i = Some s -> NoDup (nodes_labels s) ->
  forall s', structure_remove_node s n = Ok s' ->
  exists h', alias_step h (SRemoveNode i n) = Some (h', Done) /\ struct_at h' i = Some s'
   /\ forall j t, j <> i -> struct_at h j = Some t ->
        (same_label_list h i j -> struct_at h' j = Some (label_lost n t)) /\ (~ same_label_list h i j -> struct_at h' j = Some t).
Proof.
  intros H ND s' R. pose proof H as H0. apply struct_find in H0 as (o & F & A & B & C).
  destruct (remove_self _ _ _ _ _ H R _ F) as (h' & E & S1 & L1). exists h'. cbn [alias_step]. rewrite F, E. split; [reflexivity|]. split; [exact S1|].
  intros j t Hj T. destruct (remove_others _ _ _ _ _ _ _ _ H R F E j t Hj T) as [K1 K2]. split; [|exact K2]. intro SL. rewrite (K1 SL).
  unfold label_lost. rewrite (removed_labels _ _ _ ND R). f_equal.
  assert (Q : nodes_labels t = nodes_labels s).
  { destruct SL as (a & b & Q1 & Q2 & Q3). apply struct_find in T as (ot & FT & _). apply find_parts in FT as (T1 & T2 & _). apply find_parts in F as (F1 & F2 & _).
    assert (a = o) by congruence. assert (b = ot) by congruence. subst a b. congruence. }
  rewrite Q. reflexivity.
Qed.
Lemma remove_node_raises h i s n x : struct_at h i = Some s -> structure_remove_node s n = Err x ->
  exists h', alias_step h (SRemoveNode i n) = Some (h', Raised x) /\ (~ In n (nodes_labels s) -> h' = h).
Proof.
  intros H R. apply struct_find in H as (o & F & A & B & C). cbn [alias_step]. rewrite F. unfold struct_remove_node.
  unfold structure_remove_node in R. destruct (py_index n (nodes_labels s)) as [pos|y] eqn:P; cbn [bind] in R.
  - rewrite <- A. destruct (np_delete (nodes_indexes s) pos) as [idx|y] eqn:I; cbn [bind] in R.
    + rewrite <- B. destruct (np_delete (nodes_values s) pos) as [vals|y] eqn:V; cbn [bind] in R; [discriminate|]. injection R as ->.
      eexists. split; [reflexivity|]. intro N. exfalso. apply N. apply py_index_ok in P as [P _]. apply nth_error_In in P. exact P.
    + injection R as ->. eexists. split; [reflexivity|]. intro N. exfalso. apply N. apply py_index_ok in P as [P _]. apply nth_error_In in P. exact P.
  - injection R as ->. eexists. split; [reflexivity|]. auto.
Qed.

Lemma same_edges_same h i j o t oj s : struct_at h i = Some s -> struct_at h j = Some t -> nth_error (h_structs h) i = Some o ->
  nth_error (h_structs h) j = Some oj -> os_edges o = os_edges oj -> edges_list t = edges_list s.
Proof.
  intros H T E1 E2 Q. apply struct_find in H as (o' & F & _). apply struct_find in T as (ot & FT & _). apply find_parts in F as (F1 & _ & F3). apply find_parts in FT as (T1 & _ & T3).
  congruence.
Qed.
Lemma set_edges_at h i s o es : struct_at h i = Some s -> nth_error (h_structs h) i = Some o ->
  forall j t, struct_at h j = Some t ->
    (same_edge_list h i j -> struct_at (set_edges h (os_edges o) es) j = Some (MkStructure (nodes_labels t) (nodes_indexes t) (nodes_values t) es (total_variables_number t)))
    /\ (~ same_edge_list h i j -> struct_at (set_edges h (os_edges o) es) j = Some t).
Proof.
  intros H E j t T. split.
  - intros (a & b & Q1 & Q2 & Q3). assert (a = o) by congruence. subst a. apply struct_find in T as (ot & FT & I & V & TT). apply find_parts in FT as (T1 & T2 & T3).
    assert (b = ot) by congruence. subst b. unfold struct_at. cbn [set_edges h_structs h_labels h_edges]. rewrite T1, T2, Q3, (nth_set_eq _ _ _ _ T3), I, V, TT. reflexivity.
  - intro N. apply set_edges_other; [exact T|]. intros o' Q Q'. apply N. exists o, o'. auto.
Qed.
Lemma self_edge_list h i s : struct_at h i = Some s -> same_edge_list h i i.
Proof. intro H. apply struct_find in H as (o & F & _). apply find_parts in F as (A & _). exists o, o. auto. Qed.

Lemma add_edge_step h i s e : struct_at h i = Some s ->
  exists h', alias_step h (SAddEdge i e) = Some (h', Done) /\ struct_at h' i = Some (structure_add_edge s e)
   /\ forall j t, struct_at h j = Some t ->
        (same_edge_list h i j -> struct_at h' j = Some (structure_add_edge t e)) /\ (~ same_edge_list h i j -> struct_at h' j = Some t).
Proof.
  intros H. pose proof H as H0. apply struct_find in H0 as (o & F & _). cbn [alias_step]. rewrite F. eexists. split; [reflexivity|].
  apply find_parts in F as (A & _).
  assert (K : forall j t, struct_at h j = Some t ->
        (same_edge_list h i j -> struct_at (set_edges h (os_edges o) (edges_list s ++ [e])) j = Some (structure_add_edge t e))
        /\ (~ same_edge_list h i j -> struct_at (set_edges h (os_edges o) (edges_list s ++ [e])) j = Some t)).
  { intros j t T. destruct (set_edges_at h i s o (edges_list s ++ [e]) H A j t T) as [K1 K2]. split; [|exact K2]. intro SE. rewrite (K1 SE).
    destruct SE as (a & b & Q1 & Q2 & Q3). assert (a = o) by congruence. subst a. unfold structure_add_edge. rewrite (same_edges_same h i j o t b s H T A Q2 Q3). reflexivity. }
  split; [apply (K i s H), (self_edge_list _ _ _ H)|exact K].
Qed.
Lemma remove_edge_step h i s e : struct_at h i = Some s ->
  match structure_remove_edge s e with
  | Ok s' => exists h', alias_step h (SRemoveEdge i e) = Some (h', Done) /\ struct_at h' i = Some s'
       /\ forall j t, struct_at h j = Some t ->
            (same_edge_list h i j -> exists t', structure_remove_edge t e = Ok t' /\ struct_at h' j = Some t')
            /\ (~ same_edge_list h i j -> struct_at h' j = Some t)
  | Err x => alias_step h (SRemoveEdge i e) = Some (h, Raised x)
  end.
Proof.
  intros H. pose proof H as H0. apply struct_find in H0 as (o & F & _). cbn [alias_step]. rewrite F. apply find_parts in F as (A & _).
  unfold structure_remove_edge at 1. destruct (py_remove edge_eqb e (edges_list s)) as [es|x] eqn:P; cbn [bind]; [|reflexivity].
  eexists. split; [reflexivity|].
  assert (K : forall j t, struct_at h j = Some t ->
        (same_edge_list h i j -> exists t', structure_remove_edge t e = Ok t' /\ struct_at (set_edges h (os_edges o) es) j = Some t')
        /\ (~ same_edge_list h i j -> struct_at (set_edges h (os_edges o) es) j = Some t)).
  { intros j t T. destruct (set_edges_at h i s o es H A j t T) as [K1 K2]. split; [|exact K2]. intro SE. rewrite (K1 SE).
    destruct SE as (a & b & Q1 & Q2 & Q3). assert (a = o) by congruence. subst a. unfold structure_remove_edge. rewrite (same_edges_same h i j o t b s H T A Q2 Q3), P.
    eexists. split; reflexivity. }
  split; [|exact K]. destruct (proj1 (K i s H) (self_edge_list _ _ _ H)) as (t' & Q1 & Q2). unfold structure_remove_edge in Q1. rewrite P in Q1. cbn [bind] in Q1.
  injection Q1 as <-. exact Q2.
Qed.
Lemma clean_step h i s : struct_at h i = Some s ->
  exists h', alias_step h (SClean i) = Some (h', Done) /\ struct_at h' i = Some (clean_structure_edges s)
   /\ forall j t, j <> i -> struct_at h j = Some t -> struct_at h' j = Some t.
Proof.
  intro H. pose proof H as H0. apply struct_find in H0 as (o & F & I & V & T). cbn [alias_step]. rewrite F. eexists. split; [reflexivity|].
  apply find_parts in F as (A & B & C). split.
  - unfold struct_at. cbn [set_struct new_edges h_structs h_labels h_edges]. rewrite (nth_set_eq _ _ _ _ A). cbn [os_labels os_edges os_idx os_vals os_tot].
    rewrite B, nth_error_app2 by lia. rewrite Nat.sub_diag. cbn [nth_error]. unfold clean_structure_edges. rewrite I, V, T. reflexivity.
  - intros j t Hj T'. apply set_struct_other; [auto|]. apply new_edges_struct, T'.
Qed.

(** ** calls on graphs *)
Lemma graph_call h k g g' : graph_at h k = Some g -> ng_struct g' = ng_struct g ->
  forall o, nth_error (h_graphs h) k = Some o ->
  graph_at (set_body h k o g') k = Some g' /\ (forall k', k' <> k -> graph_at (set_body h k o g') k' = graph_at h k')
  /\ (forall j, struct_at (set_body h k o g') j = struct_at h j).
Proof.
  intros G S o E. pose proof G as G0. apply graph_parts in G0 as (o' & s & A & B & Q). assert (o' = o) by congruence. subst o'. split; [|split].
  - rewrite (set_body_self h k o g' s E B). rewrite Q in S. cbn [with_struct ng_struct] in S. rewrite <- S, with_struct_id. reflexivity.
  - intros k' N. apply set_body_other, N.
  - intro j. apply set_body_struct.
Qed.
Lemma graph_init_struct g v : ng_struct (fst (graph_init g v)) = ng_struct g.
Proof.
  unfold graph_init. cbn zeta. destruct (ng_get_ordered_by_indx_set_of_parents _ v); [|reflexivity].
  repeat (match goal with |- context [match ?x with Ok _ => _ | Err _ => _ end] => destruct x end); reflexivity.
Qed.

Lemma ng_remove_parts g n g' : ng_remove_node g n = Ok g' -> exists d s', g_remove_node (ng_graph g) n = Ok d /\ structure_remove_node (ng_struct g) n = Ok s'
  /\ g' = MkNetgraph s' d None None None None None None.
Proof. intro H. unfold ng_remove_node in H. apply bind_ok in H as [d [E1 H]]. apply bind_ok in H as [s' [E2 H]]. injection H as <-. exists d, s'. auto. Qed.

Lemma graph_remove_step h k g n g' i : graph_at h k = Some g -> NoDup (nodes_labels (ng_struct g)) -> graph_of_struct h k i ->
  ng_remove_node g n = Ok g' ->
  exists h', alias_step h (GRemoveNode k n) = Some (h', Done) /\ graph_at h' k = Some g' /\ struct_at h' i = Some (ng_struct g')
   /\ (forall o, nth_error (h_structs h) i = Some o -> nth_error (h_labels h') (os_labels o) = Some (nodes_labels (ng_struct g')))
   /\ (forall j t, j <> i -> struct_at h j = Some t ->
        (same_label_list h i j -> struct_at h' j = Some (label_lost n t)) /\ (~ same_label_list h i j -> struct_at h' j = Some t))
   /\ (forall k' b, k' <> k -> graph_at h k' = Some b -> exists s', graph_at h' k' = Some (with_struct s' b)
        /\ forall j, graph_of_struct h k' j -> struct_at h' j = Some s').
Proof.
  intros G ND (o & EO & Ei) R. subst i. pose proof G as G0. apply graph_parts in G0 as (o' & s & A & B & Q). assert (o' = o) by congruence. subst o'.
  destruct (ng_remove_parts _ _ _ R) as (d & s' & R1 & R2 & ->).
  assert (SG : ng_struct g = s) by (rewrite Q; reflexivity). rewrite SG in *.
  pose proof B as B0. apply struct_find in B0 as (so & F & FA & FB & FC).
  set (h1 := set_body h k o (with_graph g d)).
  assert (B1 : struct_at h1 (og_struct o) = Some s) by exact B. assert (F1 : find_struct h1 (og_struct o) = Some (so, nodes_labels s, edges_list s)) by exact F.
  destruct (remove_self _ _ _ _ _ B1 R2 _ F1) as (h2 & E & S2 & L2).
  destruct (remove_frame _ _ _ _ _ _ _ _ F1 E) as (GR & _).
  cbn [alias_step]. rewrite EO, G, R1, F. fold h1. rewrite E. eexists. split; [reflexivity|].
  assert (K2 : nth_error (h_graphs h2) k = Some (MkGobj (og_struct o) (with_graph g d))).
  { rewrite GR. unfold h1. cbn [set_body h_graphs]. apply (nth_set_eq _ _ _ _ EO). }
  split; [|split; [|split; [|split]]].
  - apply graph_parts. exists (MkGobj (og_struct o) (MkNetgraph s d None None None None None None)), s'. cbn [set_body h_graphs og_struct og_body].
    split; [rewrite SG; apply (nth_set_eq _ _ _ _ K2)|]. split; [exact S2|reflexivity].
  - cbn [ng_struct]. exact S2.
  - intros o' Eo'. apply find_parts in F as (F1' & _). assert (o' = so) by congruence. subst o'. exact L2.
  - intros j t Hj T. assert (T1 : struct_at h1 j = Some t) by exact T.
    destruct (remove_others _ _ _ _ _ _ _ _ B1 R2 F1 E j t Hj T1) as [M1 M2]. split; [|exact M2]. intro SL.
    change (struct_at h2 j = Some (label_lost n t)). rewrite (M1 SL). unfold label_lost. rewrite (removed_labels _ _ _ ND R2). f_equal.
    assert (QL : nodes_labels t = nodes_labels s).
    { destruct SL as (a & b & Q1 & Q2 & Q3). apply struct_find in T as (ot & FT & _). apply find_parts in FT as (T1' & T2 & _). apply find_parts in F as (F1' & F2 & _).
      assert (a = so) by congruence. assert (b = ot) by congruence. subst a b. congruence. }
    rewrite QL. reflexivity.
  - intros k' b Nk GB. apply graph_parts in GB as (ob & sb & A1 & A2 & ->).
    assert (K : exists s1, struct_at h2 (og_struct ob) = Some s1).
    { destruct (Nat.eq_dec (og_struct ob) (og_struct o)) as [e|ne]; [rewrite e; exists s'; exact S2|].
      destruct (remove_others _ _ _ _ _ _ _ _ B1 R2 F1 E (og_struct ob) sb ne A2) as [M1 M2].
      destruct (nth_error (h_structs h1) (og_struct ob)) as [ot|] eqn:E5.
      - destruct (Nat.eq_dec (os_labels so) (os_labels ot)) as [e|ne2].
        + eexists. apply M1. apply find_parts in F1 as (X1 & _). exists so, ot. auto.
        + eexists. apply M2. intros (x & y & Q1 & Q2 & Q3). apply find_parts in F1 as (X1 & _). apply ne2. congruence.
      - exfalso. unfold struct_at in A2. change (h_structs h1) with (h_structs h) in E5. rewrite E5 in A2. discriminate. }
    destruct K as [s1 K]. exists s1. split.
    + apply graph_parts. exists ob, s1. split; [|split; [exact K|reflexivity]]. cbn [set_body h_graphs]. rewrite nth_set_ne by auto. rewrite GR. unfold h1. cbn [set_body h_graphs].
      rewrite nth_set_ne by auto. exact A1.
    + intros j (oj & J1 & J2). assert (oj = ob) by congruence. subst oj j. exact K.
Qed.
