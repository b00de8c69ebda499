(** Property theorems C01-C04. *)
From Verif Require Import Base ModelStructure SpecStructure ProofStructure.

Definition ex_s := MkStructure ["X";"Y";"Z"] [0;1;2] [2;3;4] [("X","Y");("Y","Z");("X","Z");("Z","Z")] 3.
Example ex_s_wf : wf_structure ex_s /\ nodes_indexes ex_s = seq 0 (length (nodes_labels ex_s)).
Proof. repeat split; repeat constructor; cbn; intuition discriminate. Qed.

(** C01 *)
Theorem C01_remove_node s n : wf_structure s ->
  (In n (nodes_labels s) ->
   exists s', structure_remove_node s n = Ok s' /\ wf_structure s'
     /\ nodes_labels s' = filter (fun l => negb (String.eqb l n)) (nodes_labels s)
     /\ (forall l, l <> n -> structure_get_node_indx s' l = structure_get_node_indx s l
                          /\ structure_get_states_number s' l = structure_get_states_number s l)
     /\ edges_list s' = filter (fun e => negb (mentions n e)) (edges_list s)
     /\ total_variables_number s' = total_variables_number s)
  /\ (~ In n (nodes_labels s) -> structure_remove_node s n = Err ValueError).
Proof. exact (remove_node_spec s n). Qed.
Print Assumptions C01_remove_node.
Example C01_case : wf_structure ex_s /\ In "Y" (nodes_labels ex_s)
  /\ structure_remove_node ex_s "Y" = Ok (MkStructure ["X";"Z"] [0;2] [2;4] [("X","Z");("Z","Z")] 3)
  /\ structure_remove_node ex_s "W" = Err ValueError.
Proof. split; [apply ex_s_wf|]. split; [cbn; tauto|split; reflexivity]. Qed.

(** any sequence of removals: the same, for the set of all removed labels *)
Fixpoint remove_all (s : structure) (ns : list label) : result structure :=
  match ns with [] => Ok s | n :: r => let* s1 := structure_remove_node s n in remove_all s1 r end.
Theorem C01_remove_sequence ns : forall s, wf_structure s ->
  (NoDup ns /\ incl ns (nodes_labels s) ->
   exists s', remove_all s ns = Ok s' /\ wf_structure s'
     /\ nodes_labels s' = filter (fun l => negb (lmem l ns)) (nodes_labels s)
     /\ (forall l, ~ In l ns -> structure_get_node_indx s' l = structure_get_node_indx s l
                             /\ structure_get_states_number s' l = structure_get_states_number s l)
     /\ edges_list s' = filter (fun e => negb (lmem (fst e) ns) && negb (lmem (snd e) ns)) (edges_list s)
     /\ total_variables_number s' = total_variables_number s)
  /\ (~ (NoDup ns /\ incl ns (nodes_labels s)) -> remove_all s ns = Err ValueError).
Proof.
  induction ns as [|n ns IH]; intros s W; cbn [remove_all].
  - split; [|intro H; exfalso; apply H; split; [constructor|intros x []]]. intros _. exists s. split; [reflexivity|]. split; [exact W|].
    assert (F : forall A (l : list A), filter (fun _ => true) l = l) by (intros A l; induction l as [|a l IHl]; cbn; [reflexivity|f_equal; exact IHl]).
    cbn [lmem existsb negb andb]. rewrite !F. auto.
  - destruct (remove_node_spec s n W) as [K1 K2]. destruct (in_dec string_dec n (nodes_labels s)) as [Hn|Hn].
    + destruct (K1 Hn) as (s1 & E & W1 & L1 & A1 & D1 & T1). rewrite E. cbn [bind]. destruct (IH s1 W1) as [I1 I2]. clear K1 K2.
      assert (Q : (NoDup (n :: ns) /\ incl (n :: ns) (nodes_labels s)) <-> (NoDup ns /\ incl ns (nodes_labels s1))).
      { rewrite NoDup_cons_iff. split.
        - intros [[N1 N2] N3]. split; [exact N2|]. intros x Hx. rewrite L1, filter_In, negb_true_iff, String.eqb_neq. split; [apply N3; right; exact Hx|].
          intro; subst x; contradiction.
        - intros [N2 N3]. split; [split; [|exact N2]|].
          + intro Hx. apply N3 in Hx. rewrite L1, filter_In, negb_true_iff, String.eqb_neq in Hx. tauto.
          + intros x [<-|Hx]; [exact Hn|]. apply N3 in Hx. rewrite L1, filter_In in Hx. tauto. }
      split; [|intro H; apply I2; rewrite <- Q; exact H].
      intro H. apply Q in H. destruct (I1 H) as (s' & E' & W' & L' & A' & D' & T'). exists s'. split; [exact E'|]. split; [exact W'|].
      assert (FF : forall A (f g : A -> bool) l, filter f (filter g l) = filter (fun x => g x && f x) l).
      { intros A f g l. induction l as [|a l IHl]; cbn; [reflexivity|]. destruct (g a); cbn; [|exact IHl]. destruct (f a); rewrite IHl; reflexivity. }
      split; [|split; [|split; [|congruence]]].
      * rewrite L', L1, FF. apply filter_ext. intro l. cbn [lmem existsb]. rewrite negb_orb. reflexivity.
      * intros l Hl. cbn [In] in Hl. destruct (A' l) as [Q1 Q2]; [tauto|]. destruct (A1 l) as [Q3 Q4]; [intro; subst; tauto|]. split; congruence.
      * rewrite D', D1, FF. apply filter_ext. intros [a b]. unfold mentions. cbn [fst snd lmem existsb]. rewrite !negb_orb.
        repeat (match goal with |- context [String.eqb ?x ?y] => destruct (String.eqb x y) end); cbn [negb andb orb]; rewrite ?andb_false_r; reflexivity.
    + rewrite (K2 Hn). cbn [bind]. split; [|reflexivity]. intros [_ N]. exfalso. apply Hn, N. left. reflexivity.
Qed.
Print Assumptions C01_remove_sequence.
Example C01_sequence_case : remove_all ex_s ["Z";"X"] = Ok (MkStructure ["Y"] [1] [3] [] 3) /\ remove_all ex_s ["X";"X"] = Err ValueError.
Proof. split; reflexivity. Qed.

(** C02: the round trip on a freshly built structure, and exactly what it does after a removal *)
Theorem C02_lookups_agree s l : wf_structure s -> nodes_indexes s = seq 0 (length (nodes_labels s)) ->
  In l (nodes_labels s) ->
  exists i, structure_get_node_indx s l = Ok i /\ structure_get_positional_node_indx s l = Ok i
            /\ structure_get_node_id s (Z.of_nat i) = Ok l.
Proof. exact (lookup_roundtrip s l). Qed.
Print Assumptions C02_lookups_agree.
Theorem C02_after_removal s n s' p l i :
  wf_structure s -> nodes_indexes s = seq 0 (length (nodes_labels s)) ->
  nth_error (nodes_labels s) p = Some n -> structure_remove_node s n = Ok s' ->
  In l (nodes_labels s') -> structure_get_node_indx s' l = Ok i ->
  (i < p -> structure_get_node_id s' (Z.of_nat i) = Ok l)
  /\ (p < i -> structure_get_node_id s' (Z.of_nat i)
       = match nth_error (nodes_labels s) (S i) with Some l' => Ok l' | None => Err IndexError end)
  /\ i <> p.
Proof. exact (lookup_after_remove s n s' p l i). Qed.
Print Assumptions C02_after_removal.
Theorem C02_roundtrip_refuted :
  exists s n s', wf_structure s /\ nodes_indexes s = seq 0 (length (nodes_labels s))
   /\ structure_remove_node s n = Ok s'
   /\ (exists l i l', structure_get_node_indx s' l = Ok i /\ structure_get_node_id s' (Z.of_nat i) = Ok l' /\ l' <> l)
   /\ (exists l i, In l (nodes_labels s') /\ structure_get_node_indx s' l = Ok i
        /\ structure_get_node_id s' (Z.of_nat i) = Err IndexError).
Proof.
  exists ex_s, "X", (MkStructure ["Y";"Z"] [1;2] [3;4] [("Y","Z");("Z","Z")] 3).
  split; [apply ex_s_wf|]. split; [reflexivity|]. split; [reflexivity|]. split.
  - exists "Y", 1, "Z". repeat split; try reflexivity. discriminate.
  - exists "Z", 2. repeat split; try reflexivity. cbn; tauto.
Qed.
Print Assumptions C02_roundtrip_refuted.

(** C03 *)
Theorem C03_eq_is_equivalence :
  (forall a, structure_eq a a = true)
  /\ (forall a b, structure_eq a b = true -> structure_eq b a = true)
  /\ (forall a b c, structure_eq a b = true -> structure_eq b c = true -> structure_eq a c = true).
Proof. exact structure_eq_equiv. Qed.
Print Assumptions C03_eq_is_equivalence.
Theorem C03_eq_meaning a b : structure_eq a b = true <->
  (forall x, In x (nodes_labels a) <-> In x (nodes_labels b))
  /\ nodes_values a = nodes_values b /\ nodes_indexes a = nodes_indexes b /\ edges_list a = edges_list b.
Proof. exact (structure_eq_iff a b). Qed.
Print Assumptions C03_eq_meaning.
Theorem C03_congruence_refuted :
  exists a b l, wf_structure a /\ wf_structure b /\ structure_eq a b = true
   /\ structure_get_states_number a l <> structure_get_states_number b l
   /\ structure_get_node_indx a l <> structure_get_node_indx b l.
Proof.
  exists (MkStructure ["X";"Y"] [0;1] [2;3] [] 2), (MkStructure ["Y";"X"] [0;1] [2;3] [] 2), "X".
  repeat split; try (repeat constructor; cbn; intuition discriminate); cbn; discriminate.
Qed.
Print Assumptions C03_congruence_refuted.

(** C04 *)
Theorem C04_edge_list_is_a_multiset s os s' t : run_edge_ops s os = (s', t) ->
  forall e, let rest := snd (after_last_clean t) in
   let initial := if fst (after_last_clean t) then 0 else occurrences e (edges_list s) in
   (structure_contains_edge s' e = true <-> removes_of e rest < adds_of e rest + initial).
Proof. exact (edge_history_contains s os s' t). Qed.
Print Assumptions C04_edge_list_is_a_multiset.
Theorem C04_remove_edge_outcome s e :
  match structure_remove_edge s e with
  | Ok s' => In e (edges_list s) /\ nodes_labels s' = nodes_labels s /\ nodes_indexes s' = nodes_indexes s
             /\ nodes_values s' = nodes_values s /\ total_variables_number s' = total_variables_number s
             /\ forall x, occurrences x (edges_list s) = occurrences x (edges_list s') + (if edge_eqb x e then 1 else 0)
  | Err ex => ex = ValueError /\ ~ In e (edges_list s)
  end.
Proof. exact (edge_remove_outcome s e). Qed.
Print Assumptions C04_remove_edge_outcome.
Example C04_case :
  let h := run_edge_ops ex_s [OpClean; OpAdd ("X","Y"); OpAdd ("X","Y"); OpRemove ("X","Y"); OpRemove ("Y","Z")] in
  map snd (snd h) = [true; true; true; true; false] /\ structure_contains_edge (fst h) ("X","Y") = true.
Proof. split; reflexivity. Qed.
