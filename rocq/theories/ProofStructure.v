From Verif Require Import Base Lib ModelStructure SpecStructure.

Lemma structure_remove_ok s n p : wf_structure s -> nth_error (nodes_labels s) p = Some n ->
  structure_remove_node s n = Ok (MkStructure
    (firstn p (nodes_labels s) ++ skipn (S p) (nodes_labels s))
    (firstn p (nodes_indexes s) ++ skipn (S p) (nodes_indexes s))
    (firstn p (nodes_values s) ++ skipn (S p) (nodes_values s))
    (filter (fun e => negb (mentions n e)) (edges_list s))
    (total_variables_number s)).
Proof.
  intros [H1 [H2 H3]] Hp. unfold structure_remove_node.
  rewrite (py_index_NoDup _ _ _ H1 Hp). simpl.
  assert (Hl : p < length (nodes_labels s)) by (apply nth_error_Some; congruence).
  unfold np_delete. rewrite H2, H3. apply Nat.ltb_lt in Hl. rewrite Hl. simpl.
  do 2 f_equal. apply filter_ext. intros [a b]; unfold mentions; simpl.
  rewrite negb_orb; reflexivity.
Qed.

Lemma remove_at_filter (l : list label) p n : NoDup l -> nth_error l p = Some n ->
  firstn p l ++ skipn (S p) l = filter (fun x => negb (String.eqb x n)) l.
Proof.
  revert p; induction l as [|a r IH]; intros p Hd Hp; [destruct p; discriminate|].
  inversion Hd as [|? ? Hn Hd']; subst. destruct p as [|p]; cbn [nth_error] in Hp.
  - injection Hp as ->. cbn [firstn skipn app filter]. rewrite String.eqb_refl. cbn [negb].
    rewrite filter_true; [reflexivity|]. intros x Hx. destruct (String.eqb_spec x n); [subst; contradiction|reflexivity].
  - change (a :: (firstn p r ++ skipn (S p) r) = filter (fun x => negb (String.eqb x n)) (a :: r)).
    cbn [filter]. destruct (String.eqb_spec a n) as [->|].
    + apply nth_error_In in Hp; contradiction.
    + cbn [negb]. f_equal. apply IH; assumption.
Qed.

Lemma lookup_eq s l i : NoDup (nodes_labels s) -> nth_error (nodes_labels s) i = Some l ->
  structure_get_node_indx s l = nth_res (nodes_indexes s) i
  /\ structure_get_states_number s l = nth_res (nodes_values s) i
  /\ structure_get_positional_node_indx s l = Ok i.
Proof.
  intros H Hi. unfold structure_get_node_indx, structure_get_states_number, structure_get_positional_node_indx.
  rewrite (py_index_NoDup _ _ _ H Hi). simpl. auto.
Qed.

Lemma NoDup_filter' {A} (f : A -> bool) l : NoDup l -> NoDup (filter f l).
Proof. apply NoDup_filter. Qed.

Lemma wf_length_removed {A} (l : list A) p : p < length l -> length (firstn p l ++ skipn (S p) l) = length l - 1.
Proof. intros H. rewrite app_length, firstn_length, skipn_length. lia. Qed.

Lemma remove_node_spec s n : wf_structure s ->
  (In n (nodes_labels s) ->
   exists s', structure_remove_node s n = Ok s' /\ wf_structure s'
     /\ nodes_labels s' = filter (fun l => negb (String.eqb l n)) (nodes_labels s)
     /\ (forall l, l <> n -> structure_get_node_indx s' l = structure_get_node_indx s l
                          /\ structure_get_states_number s' l = structure_get_states_number s l)
     /\ edges_list s' = filter (fun e => negb (mentions n e)) (edges_list s)
     /\ total_variables_number s' = total_variables_number s)
  /\ (~ In n (nodes_labels s) -> structure_remove_node s n = Err ValueError).
Proof.
  intros Hwf; split.
  - intros Hin. apply In_nth_error in Hin as [p Hp].
    eexists; split; [apply structure_remove_ok; eassumption|].
    destruct Hwf as [H1 [H2 H3]].
    assert (Hl : p < length (nodes_labels s)) by (apply nth_error_Some; congruence).
    split; [|split; [|split; [|split]]]; cbn [nodes_labels nodes_indexes nodes_values edges_list total_variables_number];
      try reflexivity.
    + split; [|split]; cbn [nodes_labels nodes_indexes nodes_values].
      * rewrite (remove_at_filter _ _ _ H1 Hp). apply NoDup_filter; exact H1.
      * rewrite !wf_length_removed; lia.
      * rewrite !wf_length_removed; lia.
    + apply remove_at_filter; assumption.
    + intros l Hl'.
      set (s' := MkStructure _ _ _ _ _).
      assert (Hd' : NoDup (nodes_labels s')).
      { subst s'; cbn [nodes_labels]. rewrite (remove_at_filter _ _ _ H1 Hp). apply NoDup_filter; exact H1. }
      destruct (in_dec string_dec l (nodes_labels s)) as [Hin|Hnin].
      * apply In_nth_error in Hin as [q Hq].
        destruct (lookup_eq s l q H1 Hq) as [-> [-> _]].
        assert (Hpq : p <> q). { intros ->. congruence. }
        set (q' := if q <? p then q else q - 1).
        assert (Hq' : nth_error (nodes_labels s') q' = Some l).
        { subst s' q'; cbn [nodes_labels nodes_indexes nodes_values]. rewrite nth_error_remove by assumption.
          destruct (Nat.ltb_spec q p) as [K|K].
          - destruct (Nat.ltb_spec q p); [exact Hq|lia].
          - destruct (Nat.ltb_spec (q - 1) p); [lia|]. replace (S (q - 1)) with q by lia. exact Hq. }
        destruct (lookup_eq s' l q' Hd' Hq') as [-> [-> _]].
        unfold nth_res; subst s' q'; cbn [nodes_labels nodes_indexes nodes_values]. rewrite !nth_error_remove by lia.
        destruct (Nat.ltb_spec q p) as [K|K].
        -- destruct (Nat.ltb_spec q p); [split; reflexivity|lia].
        -- destruct (Nat.ltb_spec (q - 1) p); [lia|]. replace (S (q - 1)) with q by lia. split; reflexivity.
      * unfold structure_get_node_indx, structure_get_states_number.
        rewrite (py_index_not_In l (nodes_labels s)) by assumption.
        rewrite (py_index_not_In l (nodes_labels s')); [split; reflexivity|].
        subst s'; cbn [nodes_labels]. rewrite (remove_at_filter _ _ _ H1 Hp). intros K; apply filter_In in K as [K _]; contradiction.
  - intros Hn. unfold structure_remove_node. rewrite py_index_not_In by assumption. reflexivity.
Qed.

(** ** C02 *)
Lemma py_get_nat {A} (l : list A) i : py_get l (Z.of_nat i) = nth_res l i.
Proof.
  unfold py_get. destruct (Z.leb_spec 0 (Z.of_nat i)); [|lia]. rewrite Nat2Z.id. reflexivity.
Qed.

Lemma seq_lookup s l i : wf_structure s -> nodes_indexes s = seq 0 (length (nodes_labels s)) ->
  nth_error (nodes_labels s) i = Some l -> structure_get_node_indx s l = Ok i.
Proof.
  intros [H1 [H2 H3]] Hs Hi. destruct (lookup_eq s l i H1 Hi) as [-> _].
  apply nth_res_ok. rewrite Hs, nth_error_seq'.
  assert (i < length (nodes_labels s)) by (apply nth_error_Some; congruence).
  destruct (Nat.ltb_spec i (length (nodes_labels s))); [reflexivity|lia].
Qed.

Lemma lookup_roundtrip s l : wf_structure s -> nodes_indexes s = seq 0 (length (nodes_labels s)) ->
  In l (nodes_labels s) ->
  exists i, structure_get_node_indx s l = Ok i /\ structure_get_positional_node_indx s l = Ok i
            /\ structure_get_node_id s (Z.of_nat i) = Ok l.
Proof.
  intros Hwf Hs Hin. apply In_nth_error in Hin as [i Hi]. exists i.
  split; [apply seq_lookup; assumption|]. split; [apply (lookup_eq s l i (proj1 Hwf) Hi)|].
  unfold structure_get_node_id. rewrite py_get_nat. apply nth_res_ok; exact Hi.
Qed.

Lemma lookup_after_remove s n s' p l i : wf_structure s -> nodes_indexes s = seq 0 (length (nodes_labels s)) ->
  nth_error (nodes_labels s) p = Some n -> structure_remove_node s n = Ok s' ->
  In l (nodes_labels s') -> structure_get_node_indx s' l = Ok i ->
  (i < p -> structure_get_node_id s' (Z.of_nat i) = Ok l)
  /\ (p < i -> structure_get_node_id s' (Z.of_nat i)
       = match nth_error (nodes_labels s) (S i) with Some l' => Ok l' | None => Err IndexError end)
  /\ i <> p.
Proof.
  intros Hwf Hs Hp Hrm Hin Hi.
  assert (Hinn : In n (nodes_labels s)) by (eapply nth_error_In; eassumption).
  destruct (proj1 (remove_node_spec s n Hwf) Hinn) as [s2 [E2 [Hwf' [Hlab [Hkeep _]]]]].
  rewrite Hrm in E2; injection E2 as <-.
  assert (Hln : l <> n).
  { intros ->. rewrite Hlab in Hin. apply filter_In in Hin as [_ K]. rewrite String.eqb_refl in K; discriminate. }
  assert (Hin0 : In l (nodes_labels s)) by (rewrite Hlab in Hin; apply filter_In in Hin; tauto).
  apply In_nth_error in Hin0 as [q Hq].
  rewrite (proj1 (Hkeep l Hln)), (seq_lookup s l q Hwf Hs Hq) in Hi. injection Hi as <-.
  pose proof (structure_remove_ok s n p Hwf Hp) as E. rewrite Hrm in E; injection E as E. 
  assert (El : nodes_labels s' = firstn p (nodes_labels s) ++ skipn (S p) (nodes_labels s)) by (rewrite E; reflexivity).
  assert (Hlen : p < length (nodes_labels s)) by (apply nth_error_Some; congruence).
  unfold structure_get_node_id. rewrite py_get_nat. unfold nth_res. rewrite El, nth_error_remove by assumption.
  split; [|split].
  - intros K. destruct (Nat.ltb_spec q p); [rewrite Hq; reflexivity|lia].
  - intros K. destruct (Nat.ltb_spec q p); [lia|]. reflexivity.
  - congruence.
Qed.

(** ** C03 *)
Lemma list_eqb_spec {A} (eqb : A -> A -> bool) (H : forall a b, reflect (a = b) (eqb a b)) l1 l2 :
  list_eqb eqb l1 l2 = true <-> l1 = l2.
Proof.
  revert l2; induction l1 as [|a r IH]; intros [|b l2]; simpl; try (split; congruence).
  rewrite andb_true_iff, IH. destruct (H a b); split; [intros [_ ->]|..]; try congruence.
  - intros E; injection E as <-; auto.
  - intros [K _]; discriminate.
Qed.
Lemma lset_eqb_spec a b : lset_eqb a b = true <-> (forall x, In x a <-> In x b).
Proof.
  unfold lset_eqb. rewrite andb_true_iff, !forallb_forall. split.
  - intros [H1 H2] x; split; intros H; [apply lmem_In, H1, H|apply lmem_In, H2, H].
  - intros H; split; intros x Hx; apply lmem_In, H, Hx.
Qed.
Lemma structure_eq_iff a b : structure_eq a b = true <->
  (forall x, In x (nodes_labels a) <-> In x (nodes_labels b))
  /\ nodes_values a = nodes_values b /\ nodes_indexes a = nodes_indexes b /\ edges_list a = edges_list b.
Proof.
  unfold structure_eq. rewrite !andb_true_iff, lset_eqb_spec.
  rewrite (list_eqb_spec Nat.eqb Nat.eqb_spec), (list_eqb_spec Nat.eqb Nat.eqb_spec).
  rewrite (list_eqb_spec edge_eqb edge_eqb_spec). tauto.
Qed.

Lemma structure_eq_equiv :
  (forall a, structure_eq a a = true)
  /\ (forall a b, structure_eq a b = true -> structure_eq b a = true)
  /\ (forall a b c, structure_eq a b = true -> structure_eq b c = true -> structure_eq a c = true).
Proof.
  split; [|split].
  - intros a; rewrite structure_eq_iff; repeat split; auto.
  - intros a b; rewrite !structure_eq_iff; intros [H1 [H2 [H3 H4]]]; repeat split; try congruence; apply H1.
  - intros a b c; rewrite !structure_eq_iff; intros [H1 [H2 [H3 H4]]] [K1 [K2 [K3 K4]]].
    repeat split; try congruence; intros K; [apply K1, H1, K|apply H1, K1, K].
Qed.

(** ** C04 *)
Lemma occ_app e l1 l2 : occurrences e (l1 ++ l2) = occurrences e l1 + occurrences e l2.
Proof. unfold occurrences. rewrite filter_app, app_length. reflexivity. Qed.
Lemma occ_pos e l : 0 < occurrences e l <-> In e l.
Proof.
  unfold occurrences. split.
  - intros H. destruct (filter (edge_eqb e) l) as [|x r] eqn:E; [simpl in H; lia|].
    assert (K : In x (filter (edge_eqb e) l)) by (rewrite E; left; reflexivity).
    apply filter_In in K as [K1 K2]. destruct (edge_eqb_spec e x); [subst; assumption|discriminate].
  - intros H. assert (K : In e (filter (edge_eqb e) l)) by (apply filter_In; split; [assumption|apply edge_eqb_refl]).
    destruct (filter (edge_eqb e) l); [contradiction|simpl; lia].
Qed.
Lemma py_remove_edge e l : match py_remove edge_eqb e l with
  | Ok l' => In e l /\ forall x, occurrences x l = occurrences x l' + (if edge_eqb x e then 1 else 0)
  | Err ex => ex = ValueError /\ ~ In e l end.
Proof.
  induction l as [|a r IH]; simpl; [tauto|].
  destruct (edge_eqb_spec e a) as [->|Hn].
  - split; [left; reflexivity|]. intros x. unfold occurrences; simpl.
    destruct (edge_eqb x a); simpl; lia.
  - destruct (py_remove edge_eqb e r) as [r'|ex]; simpl.
    + destruct IH as [H1 H2]. split; [tauto|]. intros x. specialize (H2 x). unfold occurrences in *; simpl.
      destruct (edge_eqb x a); simpl; lia.
    + destruct IH as [-> H]; split; [reflexivity|]. intros [K|K]; [congruence|tauto].
Qed.

Lemma edge_history s os s' t : run_edge_ops s os = (s', t) ->
  forall e, occurrences e (edges_list s') + removes_of e (snd (after_last_clean t))
   = adds_of e (snd (after_last_clean t)) +
     (if fst (after_last_clean t) then 0 else occurrences e (edges_list s)).
Proof.
  revert s s' t; induction os as [|o r IH]; intros s s' t H e; simpl in H.
  - injection H as <- <-. unfold adds_of, removes_of; simpl. lia.
  - destruct (run_edge_op s o) as [s1 b] eqn:E1. destruct (run_edge_ops s1 r) as [s2 t2] eqn:E2.
    injection H as <- <-. specialize (IH _ _ _ E2 e). simpl.
    destruct (after_last_clean t2) as [found rest] eqn:E3; simpl in IH.
    destruct found; [exact IH|].
    destruct o as [e'|e'|]; simpl in E1.
    + injection E1 as <- <-. simpl in *. unfold adds_of, removes_of in *; simpl. 
      rewrite occ_app in IH. unfold occurrences in IH at 3; simpl in IH.
      destruct (edge_eqb e e'); simpl in *; lia.
    + unfold structure_remove_edge in E1. pose proof (py_remove_edge e' (edges_list s)) as K.
      destruct (py_remove edge_eqb e' (edges_list s)) as [l'|ex]; simpl in E1; injection E1 as <- <-; simpl in *.
      * destruct K as [_ K]. specialize (K e). unfold adds_of, removes_of in *; simpl.
        destruct (edge_eqb e e'); simpl in *; lia.
      * unfold adds_of, removes_of in *; simpl. lia.
    + injection E1 as <- <-. simpl in *. 
      assert (Hr : rest = t2).
      { clear - E3. revert rest E3; induction t2 as [|x t IH]; simpl; intros rest H; [congruence|].
        destruct (after_last_clean t) as [f q]; destruct f; [congruence|].
        destruct (fst x); try congruence; injection H as <-; f_equal; apply IH; reflexivity. }
      subst rest. unfold occurrences in IH at 2; simpl in IH. exact IH.
Qed.

Lemma edge_remove_outcome s e :
  match structure_remove_edge s e with
  | Ok s' => In e (edges_list s) /\ nodes_labels s' = nodes_labels s /\ nodes_indexes s' = nodes_indexes s
             /\ nodes_values s' = nodes_values s /\ total_variables_number s' = total_variables_number s
             /\ forall x, occurrences x (edges_list s) = occurrences x (edges_list s') + (if edge_eqb x e then 1 else 0)
  | Err ex => ex = ValueError /\ ~ In e (edges_list s)
  end.
Proof.
  unfold structure_remove_edge. pose proof (py_remove_edge e (edges_list s)) as K.
  destruct (py_remove edge_eqb e (edges_list s)); simpl; tauto.
Qed.

Lemma edge_history_contains s os s' t : run_edge_ops s os = (s', t) ->
  forall e, let rest := snd (after_last_clean t) in
   let initial := if fst (after_last_clean t) then 0 else occurrences e (edges_list s) in
   (structure_contains_edge s' e = true <-> removes_of e rest < adds_of e rest + initial).
Proof.
  intros H e rest initial. unfold structure_contains_edge. rewrite emem_In, <- occ_pos.
  pose proof (edge_history _ _ _ _ H e) as K. subst rest initial. lia.
Qed.
