(** More property theorems on lookups: C02 through the graph, and Python positions. *)
From Verif Require Import Base ModelStructure ModelGraph ModelGenerator ModelDocument SpecStructure SpecGraph ProofGraph2.

(** C02: a graph built from a structure answers like the structure; a label it does not know is a KeyError *)
Theorem C02_graph_lookups s es l : wf_structure s ->
  (In l (nodes_labels s) -> ng_get_node_indx (fresh_graph s es) l = structure_get_node_indx s l
     /\ ng_get_states_number (fresh_graph s es) l = structure_get_states_number s l
     /\ ng_get_positional_node_indx (fresh_graph s es) l = structure_get_positional_node_indx s l)
  /\ (~ In l (nodes_labels s) -> ng_get_node_indx (fresh_graph s es) l = Err KeyError
     /\ ng_get_states_number (fresh_graph s es) l = Err KeyError
     /\ ng_get_positional_node_indx (fresh_graph s es) l = Err KeyError).
Proof. exact (graph_lookups s es l). Qed.
Print Assumptions C02_graph_lookups.
(** after a node is removed through the graph, the dataset column and the number of states are still right,
    and the position recorded in the graph is the one the node had before the removal *)
Theorem C02_graph_lookups_after_removal s es n p g l i : wf_structure s -> nth_error (nodes_labels s) p = Some n ->
  ng_remove_node (fresh_graph s es) n = Ok g -> nth_error (nodes_labels (ng_struct g)) i = Some l ->
  ng_get_node_indx g l = structure_get_node_indx (ng_struct g) l
  /\ ng_get_states_number g l = structure_get_states_number (ng_struct g) l
  /\ ng_get_positional_node_indx g l = Ok (if i <? p then i else S i).
Proof. exact (graph_lookups_removed s es n p g l i). Qed.
Print Assumptions C02_graph_lookups_after_removal.
(** finding: so the graph's position of a later node disagrees with the structure's *)
Theorem C02_graph_positions_refuted : exists s es n g l,
  wf_structure s /\ ng_remove_node (fresh_graph s es) n = Ok g /\ In l (nodes_labels (ng_struct g))
  /\ ng_get_positional_node_indx g l = Ok 2 /\ structure_get_positional_node_indx (ng_struct g) l = Ok 1.
Proof.
  exists (MkStructure ["X";"Y";"Z"] [0;1;2] [2;3;4] [] 3), [("X","Z")], "Y". eexists. exists "Z".
  split; [repeat split; repeat constructor; cbn; intuition discriminate|]. split; [reflexivity|].
  split; [cbn; tauto|split; reflexivity].
Qed.
Print Assumptions C02_graph_positions_refuted.
(** get_node_id takes a Python position: negative ones count from the end, others out of the range raise IndexError *)
Theorem C02_node_id_positions s i :
  ((0 <= i < Z.of_nat (length (nodes_labels s)))%Z ->
     exists l, nth_error (nodes_labels s) (Z.to_nat i) = Some l /\ structure_get_node_id s i = Ok l)
  /\ ((- Z.of_nat (length (nodes_labels s)) <= i < 0)%Z ->
     exists l, nth_error (rev (nodes_labels s)) (Z.to_nat (- i - 1)) = Some l /\ structure_get_node_id s i = Ok l)
  /\ ((i < - Z.of_nat (length (nodes_labels s)) \/ Z.of_nat (length (nodes_labels s)) <= i)%Z ->
     structure_get_node_id s i = Err IndexError).
Proof.
  unfold structure_get_node_id. apply python_positions.
Qed.
Print Assumptions C02_node_id_positions.
Example C02_graph_case :
  let s := MkStructure ["X";"Y";"Z"] [0;1;2] [2;3;4] [] 3 in
  map (structure_get_node_id s) [0; 2; -1; -3; -4; 3]%Z = [Ok "X"; Ok "Z"; Ok "Z"; Ok "X"; Err IndexError; Err IndexError]
  /\ map (ng_get_positional_node_indx (fresh_graph s [("X","Z")])) ["Z";"Q"] = [Ok 2; Err KeyError]
  /\ exists g, ng_remove_node (fresh_graph s [("X","Z")]) "X" = Ok g
      /\ map (ng_get_positional_node_indx g) ["Y";"Z";"X"] = [Ok 1; Ok 2; Err KeyError]
      /\ map (ng_get_node_indx g) ["Y";"Z"] = [Ok 1; Ok 2].
Proof. split; [reflexivity|]. split; [reflexivity|]. eexists. repeat split; reflexivity. Qed.

(** C66: which element of the file is read, with Python positions *)
Theorem C66_index_positions ds indx sl stl vl tk cl :
  ((0 <= indx < Z.of_nat (length ds))%Z -> exists d, nth_error ds (Z.to_nat indx) = Some d
     /\ json_document_import (JArr ds) sl stl vl tk cl indx = json_document_import (JArr [d]) sl stl vl tk cl 0)
  /\ ((- Z.of_nat (length ds) <= indx < 0)%Z -> exists d, nth_error (rev ds) (Z.to_nat (- indx - 1)) = Some d
     /\ json_document_import (JArr ds) sl stl vl tk cl indx = json_document_import (JArr [d]) sl stl vl tk cl 0)
  /\ ((indx < - Z.of_nat (length ds) \/ Z.of_nat (length ds) <= indx)%Z ->
     json_document_import (JArr ds) sl stl vl tk cl indx = Err IndexError).
Proof. exact (document_positions ds indx sl stl vl tk cl). Qed.
Print Assumptions C66_index_positions.
(** without a label for the CIMs, only the samples, the structure and the variables of the document matter, and no CIMs are read *)
Theorem C66_without_cims d d' sl stl vl tk : dict_get d sl = dict_get d' sl -> dict_get d stl = dict_get d' stl ->
  dict_get d vl = dict_get d' vl ->
  json_document_import (JObj d) sl stl vl tk None 0 = json_document_import (JObj d') sl stl vl tk None 0
  /\ forall im c, json_document_import (JObj d) sl stl vl tk None 0 = Ok (im, c) -> c = None.
Proof. exact (import_without_cims d d' sl stl vl tk). Qed.
Print Assumptions C66_without_cims.
(** with one, the CIMs are that entry of the document, the rest is read as without, and a missing entry is a KeyError *)
Theorem C66_with_cims d sl stl vl tk k im c : json_document_import (JObj d) sl stl vl tk None 0 = Ok (im, c) ->
  json_document_import (JObj d) sl stl vl tk (Some k) 0
  = match dict_get d k with Ok j => Ok (im, Some j) | Err _ => Err KeyError end.
Proof. exact (import_with_cims d sl stl vl tk k im c). Qed.
Print Assumptions C66_with_cims.
