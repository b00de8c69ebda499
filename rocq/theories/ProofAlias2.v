From Verif Require Import Base Lib ModelStructure ModelGraph ModelLife SpecStructure ProofStructure ModelAlias SpecAlias ProofAlias.

Lemma set_body_struct h k o g j : struct_at (set_body h k o g) j = struct_at h j.
Proof. reflexivity. Qed.
Lemma set_body_find h k o g j : find_struct (set_body h k o g) j = find_struct h j.
Proof. reflexivity. Qed.
Lemma set_body_other h k o g k' : k' <> k -> graph_at (set_body h k o g) k' = graph_at h k'.
Proof. intro H. unfold graph_at. cbn [set_body h_graphs]. rewrite nth_set_ne by auto. destruct (nth_error (h_graphs h) k'); [rewrite set_body_struct|]; reflexivity. Qed.
Lemma set_body_self h k o g s : nth_error (h_graphs h) k = Some o -> struct_at h (og_struct o) = Some s ->
  graph_at (set_body h k o g) k = Some (with_struct s g).
Proof. intros H S. unfold graph_at. cbn [set_body h_graphs]. rewrite (nth_set_eq _ _ _ _ H). cbn [og_struct og_body]. rewrite set_body_struct, S. reflexivity. Qed.
Lemma graph_parts h k g : graph_at h k = Some g <->
  exists o s, nth_error (h_graphs h) k = Some o /\ struct_at h (og_struct o) = Some s /\ g = with_struct s (og_body o).
Proof.
  unfold graph_at. destruct (nth_error (h_graphs h) k) as [o|]; [|split; [discriminate|intros (o & s & Q & _); discriminate]].
  destruct (struct_at h (og_struct o)) as [s|] eqn:E; split; try discriminate.
  - intro Q. exists o, s. repeat split; auto. congruence.
  - intros (o' & s' & Q & A & B). injection Q as <-. congruence.
  - intros (o' & s' & Q & A & B). injection Q as <-. congruence.
Qed.
Lemma with_struct_id g : with_struct (ng_struct g) g = g. Proof. destruct g; reflexivity. Qed.

Lemma set_edges_other h q es j s : struct_at h j = Some s ->
  (forall o, nth_error (h_structs h) j = Some o -> os_edges o <> q) -> struct_at (set_edges h q es) j = Some s.
Proof.
  intros H N. apply (struct_at_frame _ _ _ _ H). intros o E. cbn [set_edges h_structs h_labels h_edges].
  split; [exact E|]. split; [reflexivity|]. apply nth_set_ne. intro Q. exact (N _ E (eq_sym Q)).
Qed.
Lemma new_edges_struct h es j s : struct_at h j = Some s -> struct_at (new_edges h es) j = Some s.
Proof.
  intro H. pose proof H as H0. apply struct_find in H0 as (o & F & _). apply find_parts in F as (A & B & C).
  apply (struct_at_frame _ _ _ _ H). intros o' E. assert (o' = o) by congruence. subst o'. cbn [new_edges h_structs h_labels h_edges].
  split; [exact E|]. split; [reflexivity|]. rewrite (nth_snoc_lt _ _ _ _ C). symmetry. exact C.
Qed.
Lemma set_struct_other h i o j s : i <> j -> struct_at h j = Some s -> struct_at (set_struct h i o) j = Some s.
Proof.
  intros N H. apply (struct_at_frame _ _ _ _ H). intros o' E. cbn [set_struct h_structs h_labels h_edges]. rewrite nth_set_ne by exact N. auto.
Qed.

Lemma step_struct h op h' r j s : alias_step h op = Some (h', r) -> struct_at h j = Some s -> leaves_struct h op j -> struct_at h' j = Some s.
Proof.
  intros H S L. pose proof S as S0. apply struct_find in S0 as (oj & Fj & _). apply find_parts in Fj as (J1 & J2 & J3).
  destruct op; cbn [alias_step] in H; cbn [leaves_struct] in L.
  - injection H as <- <-. apply (struct_at_frame _ _ _ _ S). intros o E. assert (o = oj) by congruence. subst o. cbn [h_structs h_labels h_edges].
    split; [exact E|]. split; [rewrite (nth_snoc_lt _ _ _ _ J2); auto|reflexivity].
  - injection H as <- <-. apply new_edges_struct, S.
  - destruct (_ && _); [|discriminate]. injection H as <- <-. apply (struct_at_frame _ _ _ _ S). intros o E. cbn [h_structs h_labels h_edges].
    split; [apply nth_snoc_lt, E|]. auto.
  - destruct (struct_at h s0); [|discriminate]. injection H as <- <-. exact S.
  - destruct (find_struct h s0) as [[[o ls] es]|] eqn:F; [|discriminate]. destruct L as [L1 L2].
    destruct (struct_remove_node h s0 o ls es n) as [h2 r2] eqn:E. injection H as <- <-.
    destruct (remove_frame _ _ _ _ _ _ _ _ F E) as (G & ST & LB & ED). apply find_parts in F as (A1 & A2 & A3).
    apply (struct_at_frame _ _ _ _ S). intros o' Q. assert (o' = oj) by congruence. subst o'.
    split; [rewrite ST by auto; exact J1|]. split; [|rewrite (ED _ _ J3); auto]. apply LB. intro Q'. apply L2. exists o, oj. auto.
  - destruct (find_struct h s0) as [[[o ls] es]|] eqn:F; [|discriminate]. injection H as <- <-. apply find_parts in F as (A1 & A2 & A3).
    apply set_edges_other; [exact S|]. intros o' Q Q'. apply L. exists o, o'. auto.
  - destruct (find_struct h s0) as [[[o ls] es]|] eqn:F; [|discriminate]. apply find_parts in F as (A1 & A2 & A3).
    destruct (py_remove edge_eqb e es); injection H as <- <-; [|exact S].
    apply set_edges_other; [exact S|]. intros o' Q Q'. apply L. exists o, o'. auto.
  - destruct (find_struct h s0) as [[[o ls] es]|] eqn:F; [|discriminate]. injection H as <- <-. apply set_struct_other; [exact L|]. apply new_edges_struct, S.
  - destruct (nth_error (h_graphs h) g) as [o|]; [|discriminate]. destruct (graph_at h g); [|discriminate]. injection H as <- <-. exact S.
  - destruct (nth_error (h_graphs h) g) as [o|]; [|discriminate]. destruct (graph_at h g); [|discriminate]. injection H as <- <-. exact S.
  - destruct (nth_error (h_graphs h) g) as [o|]; [|discriminate]. destruct (graph_at h g); [|discriminate]. injection H as <- <-. exact S.
  - destruct (nth_error (h_graphs h) g) as [o|] eqn:EG; [|discriminate]. destruct (graph_at h g) as [g0|]; [|discriminate].
    destruct (L (og_struct o)) as [L1 L2]; [exists o; auto|].
    destruct (g_remove_node (ng_graph g0) n) as [d|x]; [|injection H as <- <-; exact S].
    destruct (find_struct h (og_struct o)) as [[[so ls] es]|] eqn:F; [|discriminate].
    set (h1 := set_body h g o (with_graph g0 d)) in H.
    destruct (struct_remove_node h1 (og_struct o) so ls es n) as [h2 r2] eqn:E.
    assert (F1 : find_struct h1 (og_struct o) = Some (so, ls, es)) by exact F.
    destruct (remove_frame _ _ _ _ _ _ _ _ F1 E) as (G & ST & LB & ED). apply find_parts in F as (A1 & A2 & A3).
    assert (K : struct_at h2 j = Some s).
    { apply (struct_at_frame _ _ _ _ S). intros o' Q. assert (o' = oj) by congruence. subst o'.
      split; [rewrite ST by auto; exact J1|]. split; [|rewrite (ED _ _ J3); auto]. apply LB. intro Q'. apply L2. exists so, oj. auto. }
    destruct r2; injection H as <- <-; exact K.
  - destruct (nth_error (h_graphs h) g) as [o|]; [|discriminate]. destruct (graph_at h g) as [g0|]; [|discriminate].
    destruct (graph_init g0 v) as [g' r']. injection H as <- <-. exact S.
Qed.

Lemma step_graphs h op h' r k o : alias_step h op = Some (h', r) -> nth_error (h_graphs h) k = Some o ->
  match op with GAddNodes k' _ | GAddEdges k' _ | GRemoveEdges k' _ | GRemoveNode k' _ | GFastInit k' _ => k' <> k | _ => True end ->
  nth_error (h_graphs h') k = Some o.
Proof.
  intros H K L. destruct op; cbn [alias_step] in H.
  - injection H as <- <-. exact K.
  - injection H as <- <-. exact K.
  - destruct (_ && _); [|discriminate]. injection H as <- <-. exact K.
  - destruct (struct_at h s); [|discriminate]. injection H as <- <-. apply nth_snoc_lt, K.
  - destruct (find_struct h s) as [[[o' ls] es]|] eqn:F; [|discriminate].
    destruct (struct_remove_node h s o' ls es n) as [h2 r2] eqn:E. injection H as <- <-.
    destruct (remove_frame _ _ _ _ _ _ _ _ F E) as (G & _). rewrite G. exact K.
  - destruct (find_struct h s) as [[[o' ls] es]|] eqn:F; [|discriminate]. injection H as <- <-. exact K.
  - destruct (find_struct h s) as [[[o' ls] es]|] eqn:F; [|discriminate]. destruct (py_remove edge_eqb e es); injection H as <- <-; exact K.
  - destruct (find_struct h s) as [[[o' ls] es]|] eqn:F; [|discriminate]. injection H as <- <-. exact K.
  - destruct (nth_error (h_graphs h) g) as [o'|]; [|discriminate]. destruct (graph_at h g); [|discriminate]. injection H as <- <-. cbn [set_body h_graphs]. rewrite nth_set_ne; auto.
  - destruct (nth_error (h_graphs h) g) as [o'|]; [|discriminate]. destruct (graph_at h g); [|discriminate]. injection H as <- <-. cbn [set_body h_graphs]. rewrite nth_set_ne; auto.
  - destruct (nth_error (h_graphs h) g) as [o'|]; [|discriminate]. destruct (graph_at h g); [|discriminate]. injection H as <- <-. cbn [set_body h_graphs]. rewrite nth_set_ne; auto.
  - destruct (nth_error (h_graphs h) g) as [o'|] eqn:EG; [|discriminate]. destruct (graph_at h g) as [g0|]; [|discriminate].
    destruct (g_remove_node (ng_graph g0) n) as [d|x]; [|injection H as <- <-; exact K].
    destruct (find_struct h (og_struct o')) as [[[so ls] es]|] eqn:F; [|discriminate].
    set (h1 := set_body h g o' (with_graph g0 d)) in H.
    destruct (struct_remove_node h1 (og_struct o') so ls es n) as [h2 r2] eqn:E.
    assert (F1 : find_struct h1 (og_struct o') = Some (so, ls, es)) by exact F.
    destruct (remove_frame _ _ _ _ _ _ _ _ F1 E) as (G & _).
    assert (Q : nth_error (h_graphs h2) k = Some o) by (rewrite G; unfold h1; cbn [set_body h_graphs]; rewrite nth_set_ne; auto).
    destruct r2; injection H as <- <-; try exact Q. cbn [set_body h_graphs]. rewrite nth_set_ne; auto.
  - destruct (nth_error (h_graphs h) g) as [o'|]; [|discriminate]. destruct (graph_at h g) as [g0|]; [|discriminate].
    destruct (graph_init g0 v) as [g' r']. injection H as <- <-. cbn [set_body h_graphs]. rewrite nth_set_ne; auto.
Qed.

Lemma step_graph h op h' r k g : alias_step h op = Some (h', r) -> graph_at h k = Some g -> leaves_graph h op k -> graph_at h' k = Some g.
Proof.
  intros H G [L1 L2]. apply graph_parts in G as (o & s & A & B & ->).
  assert (A' : nth_error (h_graphs h') k = Some o) by (apply (step_graphs _ _ _ _ _ _ H A L2)).
  apply graph_parts. exists o, s. split; [exact A'|]. split; [|reflexivity]. apply (step_struct _ _ _ _ _ _ H B). apply L1. exists o. auto.
Qed.

Lemma run_struct os : forall h h' rs j s, alias_run h os = Some (h', rs) -> struct_at h j = Some s ->
  all_steps (fun h o => leaves_struct h o j) h os -> struct_at h' j = Some s.
Proof.
  induction os as [|o os IH]; intros h h' rs j s H S L; cbn [alias_run] in H.
  - injection H as <- <-. exact S.
  - destruct (alias_step h o) as [[h1 x]|] eqn:E; [|discriminate]. destruct (alias_run h1 os) as [[h2 xs]|] eqn:E2; [|discriminate].
    injection H as <- <-. cbn [all_steps] in L. destruct L as [L1 L2]. apply (IH _ _ _ _ _ E2); [|apply (L2 _ _ E)]. apply (step_struct _ _ _ _ _ _ E S L1).
Qed.
Lemma run_graph os : forall h h' rs k g, alias_run h os = Some (h', rs) -> graph_at h k = Some g ->
  all_steps (fun h o => leaves_graph h o k) h os -> graph_at h' k = Some g.
Proof.
  induction os as [|o os IH]; intros h h' rs k g H S L; cbn [alias_run] in H.
  - injection H as <- <-. exact S.
  - destruct (alias_step h o) as [[h1 x]|] eqn:E; [|discriminate]. destruct (alias_run h1 os) as [[h2 xs]|] eqn:E2; [|discriminate].
    injection H as <- <-. cbn [all_steps] in L. destruct L as [L1 L2]. apply (IH _ _ _ _ _ E2); [|apply (L2 _ _ E)]. apply (step_graph _ _ _ _ _ _ E S L1).
Qed.
