(** Lookups through the graph (node attributes) against lookups through the structure. *)
From Verif Require Import Base Lib ModelStructure ModelGraph SpecStructure SpecGraph ProofStructure ProofGraph ProofIndex ModelGenerator ModelDocument ProofDocument.

Lemma attr_ensure d n l : g_attr (MkDigraph (ensure_node (g_nodes d) n) (g_edges d)) l = g_attr d l.
Proof.
  unfold g_attr. cbn [g_nodes]. unfold ensure_node. destruct (lmem n (map fst (g_nodes d))); [reflexivity|].
  generalize (g_nodes d) as ns. induction ns as [|[x o] r IH]; cbn.
  - destruct (String.eqb n l); reflexivity.
  - destruct (String.eqb x l); [reflexivity|exact IH].
Qed.
Lemma attr_add_edge d e l : g_attr (g_add_edge d e) l = g_attr d l.
Proof.
  rewrite <- (attr_ensure d (fst e) l).
  rewrite <- (attr_ensure (MkDigraph (ensure_node (g_nodes d) (fst e)) (g_edges d)) (snd e) l).
  apply g_attr_nodes. reflexivity.
Qed.
Lemma attr_add_edges_eq es : forall d l, g_attr (g_add_edges_from d es) l = g_attr d l.
Proof.
  unfold g_add_edges_from. induction es as [|e r IH]; intros d l; [reflexivity|]. cbn [fold_left]. rewrite IH. apply attr_add_edge.
Qed.

Lemma fresh_attr s es k l x v : wf_structure s -> nth_error (nodes_labels s) k = Some l -> nth_error (nodes_indexes s) k = Some x ->
  nth_error (nodes_values s) k = Some v -> g_attr (ng_graph (fresh_graph s es)) l = Ok (MkNattr x v k).
Proof.
  intros [H _] H1 H2 H3. unfold fresh_graph, ng_add_edges, with_graph; cbn [ng_graph]. rewrite attr_add_edges_eq.
  unfold ng_add_nodes, with_graph, new_netgraph; cbn [ng_graph ng_struct].
  exact (add_nodes_attr (nodes_labels s) empty_digraph 0 _ _ k l x v H H1 H2 H3).
Qed.
Lemma fresh_attr_absent s es l : ~ In l (nodes_labels s) -> g_attr (ng_graph (fresh_graph s es)) l = Err KeyError.
Proof.
  intros H. unfold fresh_graph, ng_add_edges, with_graph; cbn [ng_graph]. rewrite attr_add_edges_eq.
  unfold ng_add_nodes, with_graph, new_netgraph; cbn [ng_graph ng_struct]. rewrite add_nodes_attr_other by exact H. reflexivity.
Qed.

Lemma graph_lookups s es l : wf_structure s ->
  (In l (nodes_labels s) -> ng_get_node_indx (fresh_graph s es) l = structure_get_node_indx s l
     /\ ng_get_states_number (fresh_graph s es) l = structure_get_states_number s l
     /\ ng_get_positional_node_indx (fresh_graph s es) l = structure_get_positional_node_indx s l)
  /\ (~ In l (nodes_labels s) -> ng_get_node_indx (fresh_graph s es) l = Err KeyError
     /\ ng_get_states_number (fresh_graph s es) l = Err KeyError
     /\ ng_get_positional_node_indx (fresh_graph s es) l = Err KeyError).
Proof.
  intros H. unfold ng_get_node_indx, ng_get_states_number, ng_get_positional_node_indx. split; intro Hin.
  - destruct (wf_lookup _ l H Hin) as [i [K1 [K2 [K3 _]]]]. rewrite (fresh_attr s es i l _ _ H K1 K2 K3). cbn [bind].
    destruct (lookup_eq s l i (proj1 H) K1) as [E1 [E2 E3]]. rewrite E1, E2, E3. cbn [a_indx a_val a_pos].
    unfold nth_res. rewrite K2, K3. repeat split.
  - rewrite (fresh_attr_absent s es l Hin). repeat split.
Qed.

(** after a removal the recorded position of a later node is the old one *)
Lemma graph_lookups_removed s es n p g l i : wf_structure s -> nth_error (nodes_labels s) p = Some n ->
  ng_remove_node (fresh_graph s es) n = Ok g -> nth_error (nodes_labels (ng_struct g)) i = Some l ->
  ng_get_node_indx g l = structure_get_node_indx (ng_struct g) l
  /\ ng_get_states_number g l = structure_get_states_number (ng_struct g) l
  /\ ng_get_positional_node_indx g l = Ok (if i <? p then i else S i).
Proof.
  intros H Hp E Hi. assert (Hn : In n (nodes_labels s)) by (apply nth_error_In in Hp; exact Hp).
  destruct (proj1 (remove_node_spec s n H) Hn) as [s' [R1 [R2 [R3 [R4 [_ _]]]]]].
  unfold ng_remove_node in E. apply bind_ok in E as [d [E1 E]]. rewrite fresh_struct, R1 in E. cbn [bind] in E. injection E as <-.
  cbn [ng_struct] in *.
  assert (Hl : In l (nodes_labels s')) by (apply nth_error_In in Hi; exact Hi).
  assert (Hln : n <> l). { rewrite R3 in Hl. apply filter_In in Hl as [_ K]. apply negb_true_iff, String.eqb_neq in K. congruence. }
  assert (A : g_attr d l = g_attr (ng_graph (fresh_graph s es)) l).
  { unfold g_remove_node in E1. destruct (g_has_node _ n); [|discriminate]. injection E1 as <-.
    unfold g_attr. cbn [g_nodes]. rewrite assoc_filter_ne by exact Hln. reflexivity. }
  assert (P : nth_error (nodes_labels s) (if i <? p then i else S i) = Some l).
  { rewrite R3, <- (remove_at_filter _ p n (proj1 H) Hp) in Hi. clear -Hi Hp.
    assert (p < length (nodes_labels s)) by (apply nth_error_Some; congruence).
    destruct (Nat.ltb_spec i p).
    - rewrite nth_error_app1 in Hi by (rewrite firstn_length; lia). rewrite nth_error_firstn' in Hi by assumption. exact Hi.
    - rewrite nth_error_app2 in Hi by (rewrite firstn_length; lia). rewrite firstn_length, Nat.min_l in Hi by lia.
      rewrite nth_error_skipn' in Hi. rewrite <- Hi. f_equal. lia. }
  unfold ng_get_node_indx, ng_get_states_number, ng_get_positional_node_indx. cbn [ng_graph]. rewrite A.
  destruct (R4 l (not_eq_sym Hln)) as [R5 R6]. rewrite R5, R6.
  set (j := if i <? p then i else S i) in *.
  assert (Hin : In l (nodes_labels s)) by (apply nth_error_In in P; exact P).
  destruct (wf_lookup _ l H Hin) as [k [K1 [K2 [K3 _]]]].
  assert (k = j). { apply (proj1 (NoDup_nth_error (nodes_labels s)) (proj1 H)); [apply nth_error_Some; congruence|congruence]. }
  subst k. rewrite (fresh_attr s es j l _ _ H K1 K2 K3). cbn [bind a_indx a_val a_pos].
  destruct (lookup_eq s l j (proj1 H) K1) as [E2 [E3 _]]. rewrite E2, E3. unfold nth_res. rewrite K2, K3. repeat split.
Qed.

Lemma python_positions {A} (l : list A) i :
  ((0 <= i < Z.of_nat (length l))%Z -> exists x, nth_error l (Z.to_nat i) = Some x /\ py_get l i = Ok x)
  /\ ((- Z.of_nat (length l) <= i < 0)%Z -> exists x, nth_error (rev l) (Z.to_nat (- i - 1)) = Some x /\ py_get l i = Ok x)
  /\ ((i < - Z.of_nat (length l) \/ Z.of_nat (length l) <= i)%Z -> py_get l i = Err IndexError).
Proof.
  unfold py_get. repeat split; intro H.
  - destruct (Z.leb_spec 0 i); [|lia]. destruct (nth_error l (Z.to_nat i)) as [x|] eqn:E; [|apply nth_error_None in E; lia].
    exists x. split; [reflexivity|]. unfold nth_res. rewrite E. reflexivity.
  - destruct (Z.leb_spec 0 i); [lia|]. destruct (Z.leb_spec (- Z.of_nat (length l)) i); [|lia].
    set (k := Z.to_nat (Z.of_nat (length l) + i)). destruct (nth_error l k) as [x|] eqn:E; [|apply nth_error_None in E; lia].
    exists x. split; [|unfold nth_res; rewrite E; reflexivity].
    assert (Hk : Z.to_nat (- i - 1) < length (rev l)) by (rewrite rev_length; lia).
    rewrite (nth_error_nth' _ x Hk). rewrite rev_nth by (rewrite rev_length in Hk; exact Hk). f_equal.
    apply nth_error_nth. rewrite <- E. f_equal. subst k. rewrite rev_length in Hk. lia.
  - destruct H; [destruct (Z.leb_spec 0 i); [lia|]; destruct (Z.leb_spec (- Z.of_nat (length l)) i); [lia|reflexivity]|].
    destruct (Z.leb_spec 0 i); [|lia]. unfold nth_res.
    destruct (nth_error l (Z.to_nat i)) as [x|] eqn:E; [|reflexivity].
    assert (Z.to_nat i < length l) by (apply nth_error_Some; congruence). lia.
Qed.
Lemma document_positions ds indx sl stl vl tk cl :
  ((0 <= indx < Z.of_nat (length ds))%Z -> exists d, nth_error ds (Z.to_nat indx) = Some d
     /\ json_document_import (JArr ds) sl stl vl tk cl indx = json_document_import (JArr [d]) sl stl vl tk cl 0)
  /\ ((- Z.of_nat (length ds) <= indx < 0)%Z -> exists d, nth_error (rev ds) (Z.to_nat (- indx - 1)) = Some d
     /\ json_document_import (JArr ds) sl stl vl tk cl indx = json_document_import (JArr [d]) sl stl vl tk cl 0)
  /\ ((indx < - Z.of_nat (length ds) \/ Z.of_nat (length ds) <= indx)%Z ->
     json_document_import (JArr ds) sl stl vl tk cl indx = Err IndexError).
Proof.
  destruct (python_positions ds indx) as [H1 [H2 H3]]. repeat split; intro H.
  - destruct (H1 H) as [d [K1 K2]]. exists d. split; [exact K1|]. apply import_at, K2.
  - destruct (H2 H) as [d [K1 K2]]. exists d. split; [exact K1|]. apply import_at, K2.
  - unfold json_document_import, get_key. cbn [read_json_file]. rewrite (H3 H). reflexivity.
Qed.
Lemma get_key_obj d k : get_key (read_json_file (JObj d)) 0 k = dict_get d k.
Proof. reflexivity. Qed.
Lemma import_without_cims d d' sl stl vl tk : dict_get d sl = dict_get d' sl -> dict_get d stl = dict_get d' stl ->
  dict_get d vl = dict_get d' vl ->
  json_document_import (JObj d) sl stl vl tk None 0 = json_document_import (JObj d') sl stl vl tk None 0
  /\ forall im c, json_document_import (JObj d) sl stl vl tk None 0 = Ok (im, c) -> c = None.
Proof.
  intros H1 H2 H3. unfold json_document_import. rewrite !get_key_obj, H1, H2, H3. split; [reflexivity|].
  intros im c K. repeat (apply bind_ok in K as [? [_ K]]). injection K as _ <-. reflexivity.
Qed.
Lemma import_with_cims d sl stl vl tk k im c : json_document_import (JObj d) sl stl vl tk None 0 = Ok (im, c) ->
  json_document_import (JObj d) sl stl vl tk (Some k) 0
  = match dict_get d k with Ok j => Ok (im, Some j) | Err _ => Err KeyError end.
Proof.
  unfold json_document_import. rewrite !get_key_obj. intro K.
  do 9 (apply bind_ok in K as [? [? K]]; match goal with E : _ = Ok _ |- _ => rewrite E; clear E; cbn [bind] end).
  injection K as <- _. destruct (dict_get d k) as [j|e] eqn:E; [reflexivity|]. cbn [bind].
  assert (Q : e = KeyError); [|rewrite Q; reflexivity].
  clear -E. induction d as [|[a b] d IH]; cbn in E; [congruence|]. destruct (String.eqb a k); [discriminate|]. apply IH, E.
Qed.
