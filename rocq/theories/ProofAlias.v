From Verif Require Import Base Lib ModelStructure ModelGraph ModelLife SpecStructure ProofStructure ModelAlias SpecAlias.

Lemma struct_find h i s : struct_at h i = Some s <->
  exists o, find_struct h i = Some (o, nodes_labels s, edges_list s) /\ nodes_indexes s = os_idx o /\ nodes_values s = os_vals o
            /\ total_variables_number s = os_tot o.
Proof.
  unfold struct_at, find_struct. destruct (nth_error (h_structs h) i) as [o|]; [|split; [discriminate|intros (o & Q & _); discriminate]].
  destruct (nth_error (h_labels h) (os_labels o)) as [ls|]; [|split; [discriminate|intros (o' & Q & _); discriminate]].
  destruct (nth_error (h_edges h) (os_edges o)) as [es|]; [|split; [discriminate|intros (o' & Q & _); discriminate]].
  split.
  - intro Q. assert (Q' : MkStructure ls (os_idx o) (os_vals o) es (os_tot o) = s) by congruence. subst s. exists o. cbn. auto.
  - intros (o' & Q & A & B & C). destruct s as [l1 i1 v1 e1 t1]; cbn in *. congruence.
Qed.
Lemma find_parts h i o ls es : find_struct h i = Some (o, ls, es) <->
  nth_error (h_structs h) i = Some o /\ nth_error (h_labels h) (os_labels o) = Some ls /\ nth_error (h_edges h) (os_edges o) = Some es.
Proof.
  unfold find_struct. destruct (nth_error (h_structs h) i) as [o'|] eqn:E1; [|split; [discriminate|intros (Q & _); discriminate]].
  destruct (nth_error (h_labels h) (os_labels o')) as [l'|] eqn:E2.
  - destruct (nth_error (h_edges h) (os_edges o')) as [e'|] eqn:E3.
    + split; [intro Q; injection Q as <- <- <-; auto|]. intros (Q & A & B). injection Q as <-. congruence.
    + split; [discriminate|]. intros (Q & A & B). injection Q as <-. congruence.
  - split; [discriminate|]. intros (Q & A & B). injection Q as <-. congruence.
Qed.

(** enough of the objects is the same: the structure says the same *)
Lemma struct_at_frame h h' j s : struct_at h j = Some s ->
  (forall o, nth_error (h_structs h) j = Some o -> nth_error (h_structs h') j = Some o
     /\ nth_error (h_labels h') (os_labels o) = nth_error (h_labels h) (os_labels o)
     /\ nth_error (h_edges h') (os_edges o) = nth_error (h_edges h) (os_edges o)) ->
  struct_at h' j = Some s.
Proof.
  intros H F. unfold struct_at in *. destruct (nth_error (h_structs h) j) as [o|]; [|discriminate].
  destruct (F o eq_refl) as (A & B & C). rewrite A, B, C. exact H.
Qed.
Lemma nth_snoc_lt {A} (l : list A) a q x : nth_error l q = Some x -> nth_error (l ++ [a]) q = Some x.
Proof. intro H. rewrite nth_error_app1; [exact H|]. apply nth_error_Some. congruence. Qed.
Lemma nth_set_ne {A} (l : list A) i j v : i <> j -> nth_error (set_at l i v) j = nth_error l j.
Proof. intro H. rewrite nth_error_set_at. apply Nat.eqb_neq in H. rewrite H. reflexivity. Qed.
Lemma nth_set_eq {A} (l : list A) i v x : nth_error l i = Some x -> nth_error (set_at l i v) i = Some v.
Proof.
  intro H. rewrite nth_error_set_at, Nat.eqb_refl. assert (L : i < length l) by (apply nth_error_Some; congruence).
  apply Nat.ltb_lt in L. rewrite L. reflexivity.
Qed.
Lemma nth_set_in {A} (l : list A) i j v x : nth_error l j = Some x -> exists y, nth_error (set_at l i v) j = Some y /\ (i <> j -> y = x).
Proof.
  intro H. destruct (Nat.eq_dec i j) as [->|N].
  - exists v. split; [apply (nth_set_eq _ _ _ x H)|congruence].
  - exists x. rewrite nth_set_ne by exact N. auto.
Qed.

Lemma remove_frame h i o ls es n h' r : find_struct h i = Some (o, ls, es) -> struct_remove_node h i o ls es n = (h', r) ->
  h_graphs h' = h_graphs h
  /\ (forall j, j <> i -> nth_error (h_structs h') j = nth_error (h_structs h) j)
  /\ (forall q, q <> os_labels o -> nth_error (h_labels h') q = nth_error (h_labels h) q)
  /\ (forall q x, nth_error (h_edges h) q = Some x -> nth_error (h_edges h') q = Some x).
Proof.
  intros F H. unfold struct_remove_node in H. destruct (py_index n ls) as [pos|x]; [|injection H as <- <-; auto].
  destruct (np_delete (os_idx o) pos) as [idx|x].
  - destruct (np_delete (os_vals o) pos) as [vals|x]; injection H as <- <-; cbn [set_struct set_labels new_edges h_graphs h_structs h_labels h_edges];
      (split; [reflexivity|]; split; [intros j Hj; apply nth_set_ne; auto|]; split; [intros q Hq; apply nth_set_ne; auto|]).
    + intros q x Hq. apply nth_snoc_lt, Hq.
    + auto.
  - injection H as <- <-. cbn [set_labels h_graphs h_structs h_labels h_edges]. split; [reflexivity|]. split; [auto|]. split; [intros q Hq; apply nth_set_ne; auto|auto].
Qed.

(** structure.py:35-44 for the structure itself *)
Lemma remove_self h i s n s' : struct_at h i = Some s -> structure_remove_node s n = Ok s' ->
  forall o, find_struct h i = Some (o, nodes_labels s, edges_list s) ->
  exists h', struct_remove_node h i o (nodes_labels s) (edges_list s) n = (h', Done)
    /\ struct_at h' i = Some s' /\ nth_error (h_labels h') (os_labels o) = Some (nodes_labels s').
Proof.
  intros H R o F. pose proof F as F0. apply struct_find in H as (o' & F' & A & B & C). assert (o' = o) by congruence. subst o'.
  apply find_parts in F as (E1 & E2 & E3). unfold structure_remove_node in R. apply bind_ok in R as [pos [P R]]. apply bind_ok in R as [idx [I R]].
  apply bind_ok in R as [vals [V R]]. injection R as <-. unfold struct_remove_node. rewrite P, <- A, I, <- B, V.
  eexists. split; [reflexivity|]. cbn [set_struct set_labels new_edges h_labels nodes_labels].
  assert (L : nth_error (set_at (h_labels h) (os_labels o) (firstn pos (nodes_labels s) ++ skipn (S pos) (nodes_labels s))) (os_labels o)
              = Some (firstn pos (nodes_labels s) ++ skipn (S pos) (nodes_labels s))) by (apply (nth_set_eq _ _ _ _ E2)).
  split; [|exact L]. unfold struct_at. cbn [set_struct set_labels new_edges h_structs h_labels h_edges].
  rewrite (nth_set_eq _ _ _ _ E1). cbn [os_labels os_edges os_idx os_vals os_tot]. rewrite L.
  rewrite nth_error_app2 by lia. rewrite Nat.sub_diag. cbn [nth_error]. rewrite C. reflexivity.
Qed.
Lemma removed_labels s n s' : NoDup (nodes_labels s) -> structure_remove_node s n = Ok s' ->
  nodes_labels s' = filter (fun l => negb (String.eqb l n)) (nodes_labels s).
Proof.
  intros ND R. unfold structure_remove_node in R. apply bind_ok in R as [pos [P R]]. apply bind_ok in R as [idx [I R]].
  apply bind_ok in R as [vals [V R]]. injection R as <-. cbn [nodes_labels]. apply py_index_ok in P as [P _].
  clear I V. revert pos P. induction (nodes_labels s) as [|a l IH]; intros [|pos] P; cbn [nth_error] in P; try discriminate.
  - injection P as ->. cbn [firstn skipn app filter]. rewrite String.eqb_refl. cbn [negb]. apply NoDup_cons_iff in ND as [N1 N2].
    rewrite (Lib.filter_ext_In _ (fun _ => true)).
    + clear. induction l; cbn; congruence.
    + intros x Hx. destruct (String.eqb x n) eqn:E; [|reflexivity]. apply String.eqb_eq in E. subst. contradiction.
  - apply NoDup_cons_iff in ND as [N1 N2]. cbn [firstn skipn app filter].
    destruct (String.eqb a n) eqn:E.
    + apply String.eqb_eq in E. subst. exfalso. apply N1. apply nth_error_In in P. exact P.
    + cbn [negb]. f_equal. rewrite <- (IH N2 pos P). reflexivity.
Qed.

(** what the removal does to the other structures *)
Lemma remove_others h i s n s' h' r o : struct_at h i = Some s -> structure_remove_node s n = Ok s' ->
  find_struct h i = Some (o, nodes_labels s, edges_list s) ->
  struct_remove_node h i o (nodes_labels s) (edges_list s) n = (h', r) ->
  forall j t, j <> i -> struct_at h j = Some t ->
    (same_label_list h i j -> struct_at h' j = Some (MkStructure (nodes_labels s') (nodes_indexes t) (nodes_values t) (edges_list t) (total_variables_number t)))
    /\ (~ same_label_list h i j -> struct_at h' j = Some t).
Proof.
  intros H R F E j t Hj T. destruct (remove_self _ _ _ _ _ H R _ F) as (h2 & E2 & S2 & L2). rewrite E2 in E. injection E as <- <-.
  destruct (remove_frame _ _ _ _ _ _ _ _ F E2) as (G & ST & LB & ED). pose proof F as F0. apply find_parts in F as (A1 & A2 & A3).
  pose proof T as T0. apply struct_find in T as (ot & FT & I & V & TT). apply find_parts in FT as (B1 & B2 & B3). split.
  - intros (a & b & Q1 & Q2 & Q3). assert (a = o) by congruence. assert (b = ot) by congruence. subst a b.
    unfold struct_at. rewrite (ST j Hj), B1, <- Q3, L2, (ED _ _ B3), I, V, TT. reflexivity.
  - intro NS. apply (struct_at_frame _ _ _ _ T0). intros ot' Q. assert (ot' = ot) by congruence. subst ot'.
    split; [rewrite (ST j Hj); exact B1|]. split; [|rewrite (ED _ _ B3); symmetry; exact B3].
    apply LB. intro Q'. apply NS. exists o, ot. auto.
Qed.
