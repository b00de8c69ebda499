From Coq Require Import Qround Lqa.
From Verif Require Import Base Lib ModelStructure ModelGraph ModelCims ModelGenerator
  SpecStructure SpecGraph SpecComb SpecGenerator ProofStructure ProofGraph ProofComb ProofParams ProofParams2 LibQc ProofGenerator ProofGenerator2.
Open Scope nat_scope.

Lemma gen_parents_ext labels E E' v : (forall e, In e E <-> In e E') -> gen_parents labels E v = gen_parents labels E' v.
Proof. intro H. apply filter_ext. intro l. apply eq_true_iff_eq. rewrite !emem_In. apply H. Qed.

Lemma generate_cim_rows u k lo hi c row : In row (generate_cim u k lo hi c) -> length row = c.
Proof.
  unfold generate_cim, raw_cim. intro H. apply in_map_iff in H as [r [<- H]]. apply in_map_iff in H as [i [<- _]].
  rewrite map_length. unfold gen_cim_row. rewrite mapi_length, map_length, seq_length. reflexivity.
Qed.
Lemma generated_cims g density fixed shuffle coin g1 E u lo hi :
  NoDup (gn_labels g) -> length (gn_vals g) = length (gn_labels g) -> shuffles shuffle ->
  generate_graph g density fixed shuffle coin = Ok g1 -> dyn_str g1 = Ok E ->
  exists g2 cs, generate_cims g1 u lo hi = Ok g2 /\ dyn_str g2 = Ok E /\ gn_labels g2 = gn_labels g /\ gn_vals g2 = gn_vals g
    /\ gn_cims g2 = Some cs /\ map fst cs = gn_labels g
    /\ forall v c cards, card_in (gn_labels g) (gn_vals g) v c ->
         Forall2 (card_in (gn_labels g) (gn_vals g)) (gen_parents (gn_labels g) E v) cards ->
         exists so, dict_get cs v = Ok so /\ so_p_combs so = build_p_comb_structure_for_a_node cards
           /\ length (so_actual_cims so) = nat_prod cards
           /\ forall m, In m (so_actual_cims so) -> (length m = c /\ forall row, In row m -> length row = c)
              /\ ((0 <= lo)%Qc -> (lo <= hi)%Qc -> 2 <= c -> (forall n, 0 < u n)%Qc -> (forall n, u n <= 1)%Qc ->
                  forall i row, nth_error m i = Some row ->
                  exists raw, rate_row lo hi c i raw /\ Forall2 rounded4 raw row
                    /\ (- (Qc_nat c * Q2Qc (1#20000)) <= Qcsum row)%Qc /\ (Qcsum row <= Qc_nat c * Q2Qc (1#20000))%Qc).
Proof.
  intros N L S H HE. apply generate_graph_inv in H as [es [H1 ->]]. injection HE as <-.
  destruct (fresh_edges_any (gen_structure g es) es) as [_ K].
  assert (W : edges_within (gn_labels g) es).
  { intros e He. destruct (generate_edges_within _ _ _ _ _ _ S H1 e He) as [A [B _]]. auto. }
  set (g1 := MkNetgen _ _ _ _).
  destruct (generate_cims_ok g1 es u lo hi N L W eq_refl) as [cs [E1 [E2 E3]]].
  exists (MkNetgen (gn_labels g1) (gn_vals g1) (gn_graph g1) (Some cs)), cs. split; [exact E1|]. split; [reflexivity|]. split; [reflexivity|].
  split; [reflexivity|]. split; [reflexivity|]. split; [exact E2|].
  intros v c cards Hc Hcards. rewrite (gen_parents_ext _ _ _ _ K) in Hcards.
  destruct (E3 v) as [so [D1 D2]]. { destruct Hc as [i [Hi _]]. eapply nth_error_In; eauto. }
  destruct (D2 c cards Hc Hcards) as [F1 [F2 F3]]. exists so. split; [exact D1|]. split; [exact F1|]. split; [exact F2|].
  intros m Hm. destruct (F3 m Hm) as [k ->]. split; [split; [apply generate_cim_length|apply generate_cim_rows]|].
  intros Hlo Hhi Hc2 U1 U2 i row Hrow.
  destruct (generate_cim_ok u k lo hi c i row U1 U2 Hlo Hhi Hc2 Hrow) as [raw [R1 R2]].
  exists raw. split; [exact R1|]. split; [exact R2|].
  destruct (Qcsum_close _ _ R2) as [A B]. destruct R1 as [Lr [Sr _]]. rewrite Lr, Sr in A, B.
  generalize dependent (Qc_nat c * Q2Qc (1#20000))%Qc. intros q A B. split; qclra.
Qed.

(** the documented range is impossible when (c-1)*lo > hi *)
Lemma Qcsum_lower lo l : Forall (fun q => lo <= q)%Qc l -> (Qc_nat (length l) * lo <= Qcsum l)%Qc.
Proof.
  induction l as [|x l IH]; intro F.
  - cbn. replace (Qc_nat 0 * lo)%Qc with 0%Qc by (unfold Qc_nat, Qc_of_Z; cbn; change (Q2Qc (inject_Z 0)) with 0%Qc; ring). apply Qcle_refl.
  - cbn [length]. rewrite Qcsum_cons. unfold Qc_nat in *. rewrite Nat2Z.inj_succ, <- Z.add_1_r, Qc_of_Z_add.
    pose proof (IH (Forall_inv_tail F)) as A. pose proof (Forall_inv F) as B. cbn beta in B.
    change (Qc_of_Z 1) with 1%Qc. qclra.
Qed.
Lemma range_impossible lo hi c i row : 0 < c -> i < c -> rate_row lo hi c i row -> (hi < Qc_nat (c - 1) * lo)%Qc ->
  exists j x, j <> i /\ nth_error row j = Some x /\ (x < lo)%Qc.
Proof.
  intros Hc Hi [L [Sm [[d [D1 [_ D2]]] _]]] Hlt.
  destruct (existsb (fun j => negb (j =? i) && negb (qc_le lo (nth j row 0%Qc))) (seq 0 c)) eqn:Ex.
  - apply existsb_exists in Ex as [j [Hj Ej]]. apply in_seq in Hj. apply andb_true_iff in Ej as [A B].
    apply negb_true_iff, Nat.eqb_neq in A. apply negb_true_iff, qc_le_false in B.
    exists j, (nth j row 0%Qc). split; [exact A|]. split; [apply nth_error_nth'; lia|exact B].
  - exfalso. assert (F : Forall (fun q => lo <= q)%Qc (firstn i row ++ skipn (S i) row)).
    { apply Forall_forall. intros q Hq. apply In_nth_error in Hq as [m Hm].
      pose proof (nth_error_remove row i m) as R. rewrite R in Hm by lia. clear R.
      set (j := if m <? i then m else S m) in *.
      assert (Hj : j <> i) by (unfold j; destruct (Nat.ltb_spec m i); lia).
      assert (Hm' : nth_error row j = Some q) by (unfold j; destruct (m <? i); exact Hm).
      assert (Hjc : j < c) by (rewrite <- L; apply nth_error_Some; congruence).
      destruct (qc_le lo q) eqn:Eq; [apply qc_le_iff, Eq|]. exfalso.
      assert (T : existsb (fun j => negb (j =? i) && negb (qc_le lo (nth j row 0%Qc))) (seq 0 c) = true).
      { apply existsb_exists. exists j. split; [apply in_seq; lia|]. apply andb_true_iff. split; [apply negb_true_iff, Nat.eqb_neq, Hj|].
        rewrite (nth_error_nth _ _ _ Hm'), Eq. reflexivity. }
      congruence. }
    apply Qcsum_lower in F. rewrite app_length, firstn_length, skipn_length in F.
    replace (Nat.min i (length row) + (length row - S i)) with (c - 1) in F by lia.
    rewrite Qcsum_app in F. rewrite (Qcsum_split_nth row i) in Sm by lia. rewrite (nth_error_nth _ _ _ D1) in Sm.
    generalize dependent (Qc_nat (c - 1) * lo)%Qc. intros q Hlt F. 
    generalize dependent (Qcsum (firstn i row)). generalize dependent (Qcsum (skipn (S i) row)). intros b a Sm F. qclra.
Qed.
