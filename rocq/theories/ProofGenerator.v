From Coq Require Import Qround Lqa.
From Verif Require Import Base Lib ModelStructure ModelGraph ModelCims ModelGenerator
  SpecStructure SpecGraph SpecComb SpecGenerator ProofStructure ProofGraph ProofComb ProofParams ProofParams2 LibQc.
Open Scope nat_scope.

Section Edges.
Variable labels : list label.

Lemma all_pairs_In e : In e (all_pairs labels) <-> In (fst e) labels /\ In (snd e) labels.
Proof.
  unfold all_pairs. rewrite in_flat_map. split.
  - intros [i [Hi H]]. apply in_map_iff in H as [j [<- Hj]]. auto.
  - intros [H1 H2]. exists (fst e). split; [exact H1|]. apply in_map_iff. exists (snd e). destruct e; auto.
Qed.
Lemma distinct_pairs_In e : In e (distinct_pairs labels) <-> In (fst e) labels /\ In (snd e) labels /\ fst e <> snd e.
Proof.
  unfold distinct_pairs. rewrite filter_In, all_pairs_In, negb_true_iff, String.eqb_neq. tauto.
Qed.
Lemma NoDup_app_disj {A} (l1 l2 : list A) : NoDup l1 -> NoDup l2 -> (forall x, In x l1 -> ~ In x l2) -> NoDup (l1 ++ l2).
Proof.
  induction l1 as [|a l1 IH]; intros N1 N2 D; cbn [app]; [exact N2|].
  apply NoDup_cons_iff in N1 as [K1 K2]. apply NoDup_cons_iff. split.
  - rewrite in_app_iff. intros [K|K]; [contradiction|]. apply (D a); [left; reflexivity|exact K].
  - apply IH; auto. intros x Hx. apply D. right; exact Hx.
Qed.
Lemma all_pairs_NoDup_gen (A B : list label) : NoDup A -> NoDup B -> NoDup (flat_map (fun i => map (fun j => (i, j)) B) A).
Proof.
  induction A as [|a A IH]; intros HA HB; cbn [flat_map]; [constructor|].
  apply NoDup_cons_iff in HA as [K1 K2]. apply NoDup_app_disj.
  - apply FinFun.Injective_map_NoDup; [|exact HB]. intros x y E. congruence.
  - apply IH; assumption.
  - intros x Hx Hx2. apply in_map_iff in Hx as [j [<- _]]. apply in_flat_map in Hx2 as [i [Hi Hx2]].
    apply in_map_iff in Hx2 as [j' [E _]]. congruence.
Qed.
Lemma all_pairs_length_gen (A B : list label) : length (flat_map (fun i => map (fun j => (i, j)) B) A) = length A * length B.
Proof. induction A as [|a A IH]; cbn [flat_map length]; [reflexivity|]. rewrite app_length, map_length, IH. reflexivity. Qed.

Lemma filter_ne_length (i : label) : forall l, NoDup l -> In i l ->
  length (filter (fun j => negb (String.eqb i j)) l) = length l - 1.
Proof.
  induction l as [|a l IH]; intros N H; [contradiction|]. apply NoDup_cons_iff in N as [K1 K2].
  cbn [filter]. destruct (String.eqb_spec i a) as [->|Ne]; cbn [negb].
  - rewrite filter_true; [cbn [length]; lia|]. intros b Hb. apply negb_true_iff, String.eqb_neq. intro E; subst. contradiction.
  - destruct H as [H|H]; [congruence|]. cbn [length]. rewrite IH by assumption.
    destruct l; [contradiction|]. cbn [length]. lia.
Qed.
Lemma distinct_pairs_length_gen (A : list label) : NoDup labels -> incl A labels ->
  length (filter (fun e => negb (String.eqb (fst e) (snd e))) (flat_map (fun i => map (fun j => (i, j)) labels) A))
  = length A * (length labels - 1).
Proof.
  intros N. induction A as [|a A IH]; intros I; cbn [flat_map length]; [reflexivity|].
  rewrite filter_app, app_length, IH by (intros x Hx; apply I; right; exact Hx).
  assert (E : forall l, length (filter (fun e : edge => negb (String.eqb (fst e) (snd e))) (map (fun j => (a, j)) l))
            = length (filter (fun j => negb (String.eqb a j)) l)).
  { induction l as [|b l IHl]; cbn [map filter fst snd]; [reflexivity|]. destruct (negb (String.eqb a b)); cbn [length]; auto. }
  rewrite E, filter_ne_length; [lia|exact N|apply I; left; reflexivity].
Qed.
Lemma distinct_pairs_length : NoDup labels -> length (distinct_pairs labels) = max_edges (length labels).
Proof. intro N. unfold distinct_pairs, all_pairs. rewrite distinct_pairs_length_gen; [reflexivity|exact N|apply incl_refl]. Qed.
Lemma distinct_pairs_NoDup : NoDup labels -> NoDup (distinct_pairs labels).
Proof. intro N. apply NoDup_filter, all_pairs_NoDup_gen; exact N. Qed.
End Edges.

Lemma py_take_incl {A} k (l : list A) x : In x (py_take k l) -> In x l.
Proof.
  assert (F : forall n (l : list A) x, In x (firstn n l) -> In x l).
  { clear. induction n as [|n IH]; intros [|a l] x; cbn [firstn]; try contradiction; intros [H|H]; [left; exact H|right; apply IH, H]. }
  unfold py_take. destruct (0 <=? k)%Z; apply F.
Qed.
Lemma py_take_NoDup {A} k (l : list A) : NoDup l -> NoDup (py_take k l).
Proof.
  assert (F : forall n (l : list A), NoDup l -> NoDup (firstn n l)).
  { clear. intros n l H. rewrite <- (firstn_skipn n l) in H. revert H. generalize (skipn n l), (firstn n l).
    intros b a. induction a as [|x a IH]; intro H; [constructor|]. cbn [app] in H. apply NoDup_cons_iff in H as [K1 K2].
    apply NoDup_cons_iff. split; [intro; apply K1, in_or_app; auto|apply IH, K2]. }
  intro H. unfold py_take. destruct (0 <=? k)%Z; apply F, H.
Qed.
Definition taken (k : Z) (m : nat) : nat :=
  if (0 <=? k)%Z then Nat.min (Z.to_nat k) m else Z.to_nat (Z.of_nat m + k).
Lemma py_take_length {A} k (l : list A) : length (py_take k l) = taken k (length l).
Proof.
  unfold py_take, taken. destruct (Z.leb_spec 0 k); rewrite firstn_length; [reflexivity|]. lia.
Qed.

Lemma is_integer_iff q : is_integer q = true <-> exists z, q = Qc_of_Z z.
Proof.
  unfold is_integer. rewrite Pos.eqb_eq. split.
  - intro H. exists (Qnum (this q)). apply Qc_is_canon. rewrite this_Z. unfold Qeq, inject_Z. cbn [Qnum Qden]. rewrite H. reflexivity.
  - intros [z ->]. unfold Qc_of_Z, Q2Qc. cbn [this]. unfold inject_Z, Qred.
    pose proof (Z.ggcd_correct_divisors z 1) as D. pose proof (Z.ggcd_gcd z 1) as G.
    destruct (Z.ggcd z 1) as [gg [aa bb]]. cbn [fst snd] in *. rewrite Z.gcd_1_r in G. subst gg.
    destruct D as [_ D]. cbn [Qden]. rewrite Z.mul_1_l in D. subst bb. reflexivity.
Qed.
Lemma py_int_Z z : py_int (Qc_of_Z z) = z.
Proof.
  pose proof (proj2 (is_integer_iff (Qc_of_Z z)) (ex_intro _ z eq_refl)) as H.
  unfold is_integer in H. apply Pos.eqb_eq in H. unfold py_int. apply Qc_of_Z_inj.
  apply Qc_is_canon. rewrite !this_Z. unfold Qeq at 1. 
  pose proof (this_Z z) as K. unfold Qeq in K. rewrite H in K. cbn [Qnum Qden inject_Z] in *. lia.
Qed.

(** generate_edges *)
Lemma coin_combine_In labels coin e :
  In e (map snd (filter (fun ke : nat * edge => coin (fst ke) && negb (String.eqb (fst (snd ke)) (snd (snd ke))))
           (combine (seq 0 (length labels * length labels)) (all_pairs labels))))
  <-> exists k, nth_error (all_pairs labels) k = Some e /\ coin k = true /\ fst e <> snd e.
Proof.
  assert (L : length (all_pairs labels) = length labels * length labels) by apply all_pairs_length_gen.
  rewrite <- L, in_map_iff. split.
  - intros [[k e'] [E H]]. cbn [snd] in E. subst e'. apply filter_In in H as [H1 H2]. cbn [fst snd] in H2.
    apply andb_true_iff in H2 as [H2 H3]. apply negb_true_iff, String.eqb_neq in H3.
    apply seq_combine_In in H1 as [_ H1]. rewrite Nat.sub_0_r in H1. exists k. auto.
  - intros [k [H1 [H2 H3]]]. exists (k, e). split; [reflexivity|]. apply filter_In. split.
    + apply seq_combine_In. rewrite Nat.sub_0_r. split; [lia|exact H1].
    + cbn [fst snd]. rewrite H2. apply negb_true_iff, String.eqb_neq, H3.
Qed.

Lemma all_pairs_nth (A B : list label) : forall i j a b, nth_error A i = Some a -> nth_error B j = Some b ->
  nth_error (flat_map (fun i => map (fun j => (i, j)) B) A) (i * length B + j) = Some (a, b).
Proof.
  intros i j a b Ha Hb.
  replace (i * length B + j) with (j + length B * i) by lia.
  rewrite (nth_error_flat_map_const (fun i => map (fun j => (i, j)) B) (length B) A i j a).
  - rewrite map_nth_error_iff, Hb. reflexivity.
  - intros x _. apply map_length.
  - exact Ha.
  - apply nth_error_Some. congruence.
Qed.
Lemma all_pairs_nth_inv (A B : list label) k e : nth_error (flat_map (fun i => map (fun j => (i, j)) B) A) k = Some e ->
  exists i j, nth_error A i = Some (fst e) /\ nth_error B j = Some (snd e) /\ k = i * length B + j.
Proof.
  intro H. assert (Hk : k < length A * length B) by (rewrite <- all_pairs_length_gen; apply nth_error_Some; congruence).
  assert (HB : 0 < length B) by nia.
  set (i := k / length B). set (j := k mod length B).
  assert (E : k = i * length B + j) by (unfold i, j; rewrite Nat.mul_comm; apply Nat.div_mod; lia).
  assert (Hj : j < length B) by (apply Nat.mod_upper_bound; lia).
  assert (Hi : i < length A) by (unfold i; apply Nat.div_lt_upper_bound; lia).
  destruct (nth_error A i) as [a|] eqn:Ea; [|apply nth_error_None in Ea; lia].
  destruct (nth_error B j) as [b|] eqn:Eb; [|apply nth_error_None in Eb; lia].
  exists i, j. rewrite E, (all_pairs_nth A B i j a b Ea Eb) in H. injection H as <-. cbn [fst snd]. auto.
Qed.

Lemma generate_edges_within labels density fixed shuffle coin es : shuffles shuffle ->
  generate_edges labels density fixed shuffle coin = Ok es ->
  forall e, In e es -> In (fst e) labels /\ In (snd e) labels /\ fst e <> snd e.
Proof.
  intros S H e He. unfold generate_edges in H. destruct fixed.
  - destruct density as [z|d]; [discriminate|]. destruct (is_integer _); [|discriminate]. injection H as <-.
    apply py_take_incl in He. apply distinct_pairs_In. eapply Permutation_in; [symmetry; apply S|exact He].
  - destruct (_ || _); [|discriminate]. injection H as <-.
    apply coin_combine_In in He as [k [H1 [_ H3]]]. apply nth_error_In in H1. apply all_pairs_In in H1. tauto.
Qed.

Definition gen_structure (g : netgen) (es : list edge) : structure :=
  MkStructure (gn_labels g) (seq 0 (length (gn_labels g))) (gn_vals g) es (length (gn_labels g)).

Lemma generate_graph_inv g density fixed shuffle coin g' : generate_graph g density fixed shuffle coin = Ok g' ->
  exists es, generate_edges (gn_labels g) density fixed shuffle coin = Ok es
   /\ g' = MkNetgen (gn_labels g) (gn_vals g) (Some (fresh_graph (gen_structure g es) es)) (gn_cims g).
Proof.
  unfold generate_graph. intro H. apply bind_ok in H as [es [H1 H2]]. injection H2 as <-. exists es. split; [exact H1|reflexivity].
Qed.

Lemma fresh_edges_any s es : NoDup (ng_edges (fresh_graph s es)) /\ forall e, In e (ng_edges (fresh_graph s es)) <-> In e es.
Proof.
  destruct (graph_history s [AddNodes (nodes_labels s); AddEdges es] (fresh_graph s es) eq_refl) as [_ [H1 [H2 _]]].
  split; [exact H1|]. intro e. rewrite H2. cbn. tauto.
Qed.

Lemma no_self_loops g density fixed shuffle coin g' : shuffles shuffle ->
  generate_graph g density fixed shuffle coin = Ok g' ->
  gn_labels g' = gn_labels g /\ gn_vals g' = gn_vals g /\
  exists E, dyn_str g' = Ok E /\ NoDup E
    /\ forall e, In e E -> fst e <> snd e /\ In (fst e) (gn_labels g) /\ In (snd e) (gn_labels g).
Proof.
  intros S H. apply generate_graph_inv in H as [es [H1 ->]]. split; [reflexivity|]. split; [reflexivity|].
  destruct (fresh_edges_any (gen_structure g es) es) as [K1 K2].
  eexists. split; [reflexivity|]. split; [exact K1|]. intros e He. apply K2 in He.
  destruct (generate_edges_within _ _ _ _ _ _ S H1 e He) as [A [B C]]. auto.
Qed.

Lemma NoDup_same_length {A} (l1 l2 : list A) : NoDup l1 -> NoDup l2 -> (forall x, In x l1 <-> In x l2) -> length l1 = length l2.
Proof. intros H1 H2 H. apply Nat.le_antisymm; apply NoDup_incl_length; try assumption; intros x Hx; apply H, Hx. Qed.

Lemma fixed_count g d k shuffle coin : NoDup (gn_labels g) -> shuffles shuffle ->
  (d * Qc_nat (length (gn_labels g)) * Qc_of_Z (Z.of_nat (length (gn_labels g)) - 1))%Qc = Qc_of_Z k ->
  exists g' E, generate_graph g (PyFloat d) true shuffle coin = Ok g' /\ dyn_str g' = Ok E
    /\ length E = taken k (max_edges (length (gn_labels g))).
Proof.
  intros N S Hk. unfold generate_graph, generate_edges.
  rewrite Hk, (proj2 (is_integer_iff _) (ex_intro _ k eq_refl)), py_int_Z. cbn [bind].
  eexists _, _. split; [reflexivity|]. split; [reflexivity|].
  match goal with |- length (ng_edges (ng_add_edges (ng_add_nodes (new_netgraph ?s) _) _)) = _ =>
    destruct (fresh_edges_any s (edges_list s)) as [K1 K2] end.
  unfold fresh_graph in K1, K2. cbn [edges_list] in *.
  assert (N2 : NoDup (shuffle (distinct_pairs (gn_labels g)))).
  { eapply Permutation_NoDup; [apply S|apply distinct_pairs_NoDup, N]. }
  rewrite (NoDup_same_length _ _ K1 (py_take_NoDup k _ N2) K2), py_take_length.
  rewrite <- (Permutation_length (S _)), distinct_pairs_length by exact N. reflexivity.
Qed.

Lemma fixed_not_integer g d shuffle coin :
  (forall k, (d * Qc_nat (length (gn_labels g)) * Qc_of_Z (Z.of_nat (length (gn_labels g)) - 1))%Qc <> Qc_of_Z k) ->
  generate_graph g (PyFloat d) true shuffle coin = Err RuntimeError.
Proof.
  intro H. unfold generate_graph, generate_edges. destruct (is_integer _) eqn:E; [|reflexivity].
  apply is_integer_iff in E as [z E]. exfalso. exact (H z E).
Qed.

Lemma random_graph g density shuffle coin :
  (0 < length (gn_labels g) -> (0 <= density_value density)%Qc /\ (density_value density <= 1)%Qc) ->
  exists g' E, generate_graph g density false shuffle coin = Ok g' /\ dyn_str g' = Ok E
    /\ forall e, In e E <-> exists i j, nth_error (gn_labels g) i = Some (fst e) /\ nth_error (gn_labels g) j = Some (snd e)
         /\ fst e <> snd e /\ coin (i * length (gn_labels g) + j) = true.
Proof.
  intro H. unfold generate_graph, generate_edges.
  match goal with |- context [if ?b then _ else _] => assert (Hb : b = true) end.
  { destruct (length (gn_labels g)) eqn:E; [reflexivity|]. destruct H as [H1 H2]; [lia|].
    apply orb_true_iff; right. apply andb_true_iff. split; apply qc_le_iff; [exact H1|exact H2]. }
  rewrite Hb. cbn [bind]. eexists _, _. split; [reflexivity|]. split; [reflexivity|].
  intro e.
  match goal with |- In e (ng_edges (ng_add_edges (ng_add_nodes (new_netgraph ?s) _) _)) <-> _ =>
    destruct (fresh_edges_any s (edges_list s)) as [_ K2] end.
  unfold fresh_graph in K2. cbn [edges_list] in *. rewrite K2, coin_combine_In. split.
  - intros [k [H1 [H2 H3]]]. apply all_pairs_nth_inv in H1 as [i [j [A [B ->]]]]. exists i, j. auto.
  - intros [i [j [A [B [C D]]]]]. exists (i * length (gn_labels g) + j). split; [|auto].
    destruct e as [a b]. apply all_pairs_nth; assumption.
Qed.
Lemma random_bad_density g density shuffle coin : gn_labels g <> [] ->
  ~ ((0 <= density_value density)%Qc /\ (density_value density <= 1)%Qc) ->
  generate_graph g density false shuffle coin = Err ValueError.
Proof.
  intros Hn H. unfold generate_graph, generate_edges.
  match goal with |- context [if ?b then _ else _] => destruct b eqn:Hb; [|reflexivity] end.
  exfalso. apply orb_true_iff in Hb as [Hb|Hb].
  - destruct (gn_labels g); [congruence|discriminate].
  - apply andb_true_iff in Hb as [A B]. apply H. split; apply qc_le_iff; assumption.
Qed.
