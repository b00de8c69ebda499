(** C93: which objects a call on a Structure or on a NetworkGraph affects. *)
From Verif Require Import Base Lib ModelStructure ModelGraph ModelLife SpecStructure SpecGraph ModelCache ModelCtpc ModelAlias SpecAlias ProofAlias ProofAlias2 ProofAlias3 ProofAlias4 ProofAlias5.

(** An object is changed only by calls on it, on its Structure, or on a Structure that was given the same list. *)
Theorem C93_structures_are_separate h os h' rs j s : alias_run h os = Some (h', rs) -> struct_at h j = Some s ->
  all_steps (fun h o => leaves_struct h o j) h os -> struct_at h' j = Some s.
Proof. exact (run_struct os h h' rs j s). Qed.
Theorem C93_graphs_are_separate h os h' rs k g : alias_run h os = Some (h', rs) -> graph_at h k = Some g ->
  all_steps (fun h o => leaves_graph h o k) h os -> graph_at h' k = Some g.
Proof. exact (run_graph os h h' rs k g). Qed.

(** Structure.remove_node: the structure itself, and every other one *)
Theorem C93_remove_node h i s n : struct_at h i = Some s -> wf_structure s ->
  (In n (nodes_labels s) -> exists h' s', structure_remove_node s n = Ok s' /\ alias_step h (SRemoveNode i n) = Some (h', Done)
     /\ struct_at h' i = Some s'
     /\ forall j t, j <> i -> struct_at h j = Some t ->
          (same_label_list h i j -> struct_at h' j = Some (label_lost n t)) /\ (~ same_label_list h i j -> struct_at h' j = Some t))
  /\ (~ In n (nodes_labels s) -> alias_step h (SRemoveNode i n) = Some (h, Raised ValueError)).
Proof.
  intros H W. destruct (ProofStructure.remove_node_spec s n W) as [K1 K2]. split.
  - intro Hn. destruct (K1 Hn) as (s' & R & _). destruct (remove_node_step h i s n H (proj1 W) s' R) as (h' & A & B & C). exists h', s'. auto.
  - intro Hn. destruct (remove_node_raises h i s n _ H (K2 Hn)) as (h' & A & B). rewrite (B Hn) in A. exact A.
Qed.
(** a structure whose list of labels was shortened by somebody else: every label after the lost one is given the
    dataset index and the cardinality of its predecessor *)
Theorem C93_lost_label t n p l i : wf_structure t -> nth_error (nodes_labels t) p = Some n -> nth_error (nodes_labels t) i = Some l -> i <> p ->
  structure_get_node_indx (label_lost n t) l = nth_res (nodes_indexes t) (if i <? p then i else i - 1)
  /\ structure_get_states_number (label_lost n t) l = nth_res (nodes_values t) (if i <? p then i else i - 1)
  /\ ~ wf_structure (label_lost n t).
Proof.
  intros W P I N. destruct (lost_lookup t n p l i W P I N) as (_ & A & B). split; [exact A|]. split; [exact B|]. intros (_ & Q & _).
  destruct W as (ND & L1 & L2). cbn [label_lost nodes_labels nodes_indexes] in Q. rewrite L1 in Q.
  pose proof (filter_positions _ _ _ ND P (length (nodes_labels t) - 1)) as F.
  assert (Hp : p < length (nodes_labels t)) by (apply nth_error_Some; congruence).
  destruct (length (nodes_labels t) - 1 <? p) eqn:E; [apply Nat.ltb_lt in E; lia|].
  replace (S (length (nodes_labels t) - 1)) with (length (nodes_labels t)) in F by lia.
  rewrite (proj2 (nth_error_None _ _) (Nat.le_refl _)) in F. apply nth_error_None in F. lia.
Qed.
(** the three edge calls of Structure *)
Theorem C93_edge_calls h i s e : struct_at h i = Some s ->
  (exists h', alias_step h (SAddEdge i e) = Some (h', Done) /\ struct_at h' i = Some (structure_add_edge s e)
     /\ forall j t, struct_at h j = Some t ->
          (same_edge_list h i j -> struct_at h' j = Some (structure_add_edge t e)) /\ (~ same_edge_list h i j -> struct_at h' j = Some t))
  /\ match structure_remove_edge s e with
     | Ok s' => exists h', alias_step h (SRemoveEdge i e) = Some (h', Done) /\ struct_at h' i = Some s'
          /\ forall j t, struct_at h j = Some t ->
               (same_edge_list h i j -> exists t', structure_remove_edge t e = Ok t' /\ struct_at h' j = Some t')
               /\ (~ same_edge_list h i j -> struct_at h' j = Some t)
     | Err x => alias_step h (SRemoveEdge i e) = Some (h, Raised x)
     end
  /\ (exists h', alias_step h (SClean i) = Some (h', Done) /\ struct_at h' i = Some (clean_structure_edges s)
        /\ forall j t, j <> i -> struct_at h j = Some t -> struct_at h' j = Some t).
Proof. intro H. split; [apply add_edge_step, H|]. split; [apply remove_edge_step, H|apply clean_step, H]. Qed.

(** the calls on a graph other than remove_node change that graph only, and as the rest of the model says *)
Theorem C93_graph_calls h k g : graph_at h k = Some g ->
  forall op g' r, (exists ls, (op, g', r) = (GAddNodes k ls, ng_add_nodes g ls, Done)) \/ (exists es, (op, g', r) = (GAddEdges k es, ng_add_edges g es, Done)) \/ (exists es, (op, g', r) = (GRemoveEdges k es, ng_remove_edges g es, Done))
    \/ (exists v, op = GFastInit k v /\ (g', r) = graph_init g v) ->
  exists h', alias_step h op = Some (h', r) /\ graph_at h' k = Some g'
    /\ (forall k', k' <> k -> graph_at h' k' = graph_at h k') /\ (forall j, struct_at h' j = struct_at h j).
Proof.
  intros G op g' r H. pose proof G as G0. apply graph_parts in G0 as (o & s & A & B & _).
  destruct H as [(ls & H)|[(es & H)|[(es & H)|(v & H1 & H2)]]].
  - injection H as -> -> ->. exists (set_body h k o (ng_add_nodes g ls)). split; [cbn [alias_step]; rewrite A, G; reflexivity|]. apply (graph_call h k g); auto.
  - injection H as -> -> ->. exists (set_body h k o (ng_add_edges g es)). split; [cbn [alias_step]; rewrite A, G; reflexivity|]. apply (graph_call h k g); auto.
  - injection H as -> -> ->. exists (set_body h k o (ng_remove_edges g es)). split; [cbn [alias_step]; rewrite A, G; reflexivity|]. apply (graph_call h k g); auto.
  - subst op. exists (set_body h k o g'). cbn [alias_step]. rewrite A, G, <- H2. split; [reflexivity|]. apply (graph_call h k g); auto.
    pose proof (graph_init_struct g v) as Q. rewrite <- H2 in Q. exact Q.
Qed.
(** NetworkGraph.remove_node changes its Structure, hence every graph made with the same one *)
Theorem C93_graph_remove_node h k g n g' i : graph_at h k = Some g -> NoDup (nodes_labels (ng_struct g)) -> graph_of_struct h k i ->
  ng_remove_node g n = Ok g' ->
  exists h', alias_step h (GRemoveNode k n) = Some (h', Done) /\ graph_at h' k = Some g' /\ struct_at h' i = Some (ng_struct g')
   /\ (forall j t, j <> i -> struct_at h j = Some t ->
        (same_label_list h i j -> struct_at h' j = Some (label_lost n t)) /\ (~ same_label_list h i j -> struct_at h' j = Some t))
   /\ (forall k' b, k' <> k -> graph_at h k' = Some b -> graph_of_struct h k' i -> graph_at h' k' = Some (with_struct (ng_struct g') b)).
Proof.
  intros G ND S R. destruct (graph_remove_step h k g n g' i G ND S R) as (h' & A & B & C & _ & D & E). exists h'.
  split; [exact A|]. split; [exact B|]. split; [exact C|]. split; [exact D|]. intros k' b N GB GS. destruct (E k' b N GB) as (s' & F1 & F2).
  specialize (F2 i GS). rewrite C in F2. injection F2 as <-. exact F1.
Qed.
(** ... which can then no longer be initialised for the children of the removed node (KeyError); for the other nodes
    the result is that of a graph without it *)
Theorem C93_second_graph_on_the_same_structure h k1 k2 i s es1 es2 n : k1 <> k2 -> wf_structure s ->
  edges_within (nodes_labels s) es1 -> edges_within (nodes_labels s) es2 -> edges_within (nodes_labels s) (edges_list s) -> In n (nodes_labels s) ->
  graph_of_struct h k1 i -> graph_of_struct h k2 i -> graph_at h k1 = Some (fresh_graph s es1) -> graph_at h k2 = Some (fresh_graph s es2) ->
  exists h' s', alias_step h (GRemoveNode k1 n) = Some (h', Done) /\ structure_remove_node s n = Ok s' /\ struct_at h' i = Some s'
   /\ forall v, In v (nodes_labels s) -> v <> n ->
      (In (n, v) es2 -> exists h2, alias_step h' (GFastInit k2 v) = Some (h2, Raised KeyError))
      /\ (~ In (n, v) es2 -> exists h2 g g', alias_step h' (GFastInit k2 v) = Some (h2, Done) /\ graph_at h2 k2 = Some g
            /\ ng_fast_init (fresh_graph s' (filter (fun e => negb (mentions n e)) es2)) v = Ok g' /\ init_fields g = init_fields g').
Proof.
  intros Nk W E1 E2 E3 Hn S1 S2 G1 G2.
  destruct (ProofGraph.ginv_remove_node (fresh_graph s es1) n (ProofGraph.fresh_ginv s es1 W E1) Hn) as (g1 & R & _ & RS & _).
  destruct (C93_graph_remove_node h k1 _ n g1 i G1 (proj1 W) S1 R) as (h' & A & B & C & D & E). exists h', (ng_struct g1).
  split; [exact A|]. split; [exact RS|]. split; [exact C|]. pose proof (E k2 _ (not_eq_sym Nk) G2 S2) as G2'.
  pose proof G2' as Q. apply graph_parts in Q as (o & s0 & Q1 & Q2 & _).
  intros v Hv Nv. destruct (stale_init s (ng_struct g1) es2 v n W E2 E3 Hn RS Hv Nv) as [K1 K2]. split.
  - intro I. specialize (K1 I). destruct (graph_init (with_struct (ng_struct g1) (fresh_graph s es2)) v) as [g x] eqn:EI. cbn [snd] in K1. subst x.
    exists (set_body h' k2 o g). cbn [alias_step]. rewrite Q1, G2', EI. reflexivity.
  - intro I. destruct (K2 I) as (g & g' & F1 & F2 & F3). pose proof (ProofLife.graph_init_ok _ _ _ F1) as EI.
    assert (SG : ng_struct g = ng_struct g1). { pose proof (graph_init_struct (with_struct (ng_struct g1) (fresh_graph s es2)) v) as X. rewrite EI in X. exact X. }
    exists (set_body h' k2 o g), g, g'. split; [cbn [alias_step]; rewrite Q1, G2', EI; reflexivity|]. split; [|split; [exact F2|exact F3]].
    apply (graph_call h' k2 _ g G2' SG o Q1).
Qed.

(** the independence tests work on objects of their own: whatever exists when a test is made is unchanged after it *)
Theorem C93_tests_touch_nothing_else h e p c sep tot g1 g2 g3 : wf_structure (e_struct e) -> large_graph e p c sep tot = Ok g1 ->
  ng_remove_node g1 p = Ok g2 -> ng_fast_init g2 c = Ok g3 ->
  let s2 := ng_struct g1 in
  exists h', alias_run h (test_calls h (nodes_labels s2) (nodes_indexes s2) (nodes_values s2) (edges_list s2) (total_variables_number s2) p c)
               = Some (h', repeat Done 7)
    /\ graph_at h' (length (h_graphs h)) = Some g3
    /\ (forall j t, struct_at h j = Some t -> struct_at h' j = Some t)
    /\ (forall k g, graph_at h k = Some g -> graph_at h' k = Some g).
Proof.
  intros W H1 H2 H3 s2. unfold large_graph in H1. cbn zeta in H1.
  match type of H1 with ng_fast_init (new_netgraph ?x) c = _ => set (s := x) in * end.
  assert (Q : s2 = s). { pose proof (graph_init_struct (new_netgraph s) c) as X. rewrite (ProofLife.graph_init_ok _ _ _ H1) in X. exact X. }
  rewrite Q. apply (tests_private h s p c g1 g2 g3); auto. unfold s. cbn [nodes_labels].
  unfold isin_mask. rewrite ProofCtpc.mask_filter. apply ProofStructure.NoDup_filter', W.
Qed.

(** all graphs a generator makes share its list of labels (finding) *)
Theorem C93_generated_graphs_refuted h L ls vals es1 es2 n p : nth_error (h_labels h) L = Some ls -> NoDup ls -> length vals = length ls ->
  edges_within ls es1 -> nth_error ls p = Some n ->
  let k1 := length (h_graphs h) in let k2 := S k1 in
  exists h1 h2 h3, alias_run h (generate_calls h L ls (seq 0 (length ls)) vals es1) = Some (h1, repeat Done 5)
   /\ alias_run h1 (generate_calls h1 L ls (seq 0 (length ls)) vals es2) = Some (h2, repeat Done 5)
   /\ alias_step h2 (GRemoveNode k1 n) = Some (h3, Done)
   /\ nth_error (h_labels h3) L = Some (filter (fun l => negb (String.eqb l n)) ls)
   /\ forall v, exists h4 x g, alias_step h3 (GFastInit k2 v) = Some (h4, x) /\ graph_at h4 k2 = Some g
        /\ forall l i, nth_error ls i = Some l -> i <> p ->
             ng_get_node_indx g l = Ok (if i <? p then i else i - 1) /\ ng_get_states_number g l = nth_res vals (if i <? p then i else i - 1).
Proof. exact (generated_share h L ls vals es1 es2 n p). Qed.

(** ** the hypotheses can be met *)
Definition ah : heap := MkHeap [["X";"Y";"Z"]] [] [] [].
(** two graphs from one generator; X is removed from the first; Y and Z of the second change columns and cardinalities *)
Example C93_case : exists h1 h2 h3 h4 x g,
  alias_run ah (generate_calls ah 0 ["X";"Y";"Z"] [0;1;2] [2;3;4] [("X","Y")]) = Some (h1, repeat Done 5)
  /\ alias_run h1 (generate_calls h1 0 ["X";"Y";"Z"] [0;1;2] [2;3;4] [("Y","Z")]) = Some (h2, repeat Done 5)
  /\ alias_step h2 (GRemoveNode 0 "X") = Some (h3, Done)
  /\ alias_step h3 (GFastInit 1 "Z") = Some (h4, x) /\ graph_at h4 1 = Some g
  /\ x = Done /\ ng_get_node_indx g "Z" = Ok 1 /\ ng_get_states_number g "Z" = Ok 3 /\ ng_time_filtering g = Some [1; 0].
Proof.
  do 6 eexists. do 4 (split; [vm_compute; reflexivity|]). split; [vm_compute; reflexivity|]. vm_compute. repeat (split; [reflexivity|]). reflexivity.
Qed.
(** two graphs over the Structure of one sample path *)
Definition ah2 := MkHeap [["X";"Y";"Z"]] [[]] [MkSobj 0 [0;1;2] [2;2;2] 0 3] [].
Example C93_case_same_structure : exists h1 h2 h3,
  alias_run ah2 [NewGraph 0; NewGraph 0; GAddNodes 0 ["X";"Y";"Z"]; GAddNodes 1 ["X";"Y";"Z"]; GAddEdges 1 [("X","Y")]; GRemoveNode 0 "X"]
     = Some (h1, repeat Done 6)
  /\ alias_step h1 (GFastInit 1 "Y") = Some (h2, Raised KeyError) /\ alias_step h1 (GFastInit 1 "Z") = Some (h3, Done).
Proof. do 3 eexists. do 2 (split; [vm_compute; reflexivity|]). vm_compute. reflexivity. Qed.
(** an independent structure is left alone by all this *)
Example C93_case_separate : exists h' rs,
  let h := MkHeap [["X";"Y"];["X";"Y"]] [[];[]] [MkSobj 0 [0;1] [2;2] 0 2; MkSobj 1 [0;1] [2;2] 1 2] [] in
  let os := [SRemoveNode 0 "X"; SAddEdge 0 ("Y","Y"); SClean 0; SRemoveNode 0 "Y"] in
  alias_run h os = Some (h', rs) /\ all_steps (fun h o => leaves_struct h o 1) h os
  /\ struct_at h' 1 = Some (MkStructure ["X";"Y"] [0;1] [2;2] [] 2).
Proof.
  do 2 eexists. cbn zeta. split; [vm_compute; reflexivity|]. split; [|vm_compute; reflexivity].
  assert (NL : forall h a b, nth_error (h_structs h) 0 = Some a -> nth_error (h_structs h) 1 = Some b -> os_labels a <> os_labels b -> ~ same_label_list h 0 1).
  { intros h a b A B N (x & y & Q1 & Q2 & Q3). congruence. }
  assert (NE : forall h a b, nth_error (h_structs h) 0 = Some a -> nth_error (h_structs h) 1 = Some b -> os_edges a <> os_edges b -> ~ same_edge_list h 0 1).
  { intros h a b A B N (x & y & Q1 & Q2 & Q3). congruence. }
  cbn [all_steps]. split; [split; [discriminate|eapply NL; [reflexivity|reflexivity|discriminate]]|]. intros h1 x1 E1. vm_compute in E1. injection E1 as <- <-.
  split; [eapply NE; [reflexivity|reflexivity|discriminate]|]. intros h2 x2 E2. vm_compute in E2. injection E2 as <- <-.
  split; [discriminate|]. intros h3 x3 E3. vm_compute in E3. injection E3 as <- <-.
  split; [split; [discriminate|eapply NL; [reflexivity|reflexivity|discriminate]]|]. intros. exact I.
Qed.

Print Assumptions C93_structures_are_separate.
Print Assumptions C93_graphs_are_separate.
Print Assumptions C93_remove_node.
Print Assumptions C93_lost_label.
Print Assumptions C93_edge_calls.
Print Assumptions C93_graph_calls.
Print Assumptions C93_graph_remove_node.
Print Assumptions C93_second_graph_on_the_same_structure.
Print Assumptions C93_tests_touch_nothing_else.
Print Assumptions C93_generated_graphs_refuted.
