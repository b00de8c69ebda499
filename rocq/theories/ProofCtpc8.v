(** The independence test for arbitrary cardinalities, relative to the parameters the estimator computes. *)
From Verif Require Import Base Lib ModelStructure ModelGraph ModelCims ModelData ModelParams ModelCache ModelCtpc
  SpecStructure SpecGraph SpecComb SpecParams SpecCtpc SpecCtpc2
  ProofStructure ProofGraph ProofComb ProofIndex ProofParams3 ProofCache ProofCtpc ProofCtpc2 ProofCtpc3 ProofCtpc4 ProofCtpc5 ProofCtpc6.

Lemma parameters_given_set e c K so : wf_structure (e_struct e) -> In c (nodes_labels (e_struct e)) ->
  (forall l, In l K -> In l (nodes_labels (e_struct e))) -> parameters_given e c K so ->
  set_params (e_struct e) (e_traj e) (total_variables_number (e_struct e)) c K = Ok so.
Proof.
  intros Hwf Hv HK [g [E1 E2]]. set (s := e_struct e) in *. set (s0 := clean_structure_edges s) in *.
  destruct (fast_init_fresh s0 (map (fun x => (x, c)) K) c Hwf) as [g' [E1' [G1 [S1 [D1 F1]]]]].
  { intros x Hx. apply in_map_iff in Hx as [y [<- Hy]]. cbn [fst snd]. split; [apply HK, Hy|exact Hv]. }
  { intros x []. } { exact Hv. }
  rewrite E1 in E1'. injection E1' as <-.
  rewrite <- (canonical_params s s0 (e_traj e) (total_variables_number s) c g _ K G1 S1 F1 Hv eq_refl (fun l _ => conj eq_refl eq_refl)); [exact E2|].
  unfold parents_in. apply filter_ext_In. intros l _. cbn [s0 clean_structure_edges edges_list emem existsb]. rewrite orb_false_r.
  apply eq_true_iff_eq. rewrite emem_In, lmem_In, in_map_iff. split; [intros [x [Ex Hx]]; congruence|]. intros Hl. exists l. auto.
Qed.

Lemma mask_filter_vals s (f : label -> bool) : wf_structure s ->
  mask_row (map f (nodes_labels s)) (nodes_values s) = map (val_of s) (filter f (nodes_labels s)).
Proof.
  intros Hwf. pose proof Hwf as [H1 [H2 H3]].
  assert (HV : map (val_of s) (nodes_labels s) = nodes_values s).
  { apply list_ext. intro i. rewrite map_nth_error_iff. destruct (nth_error (nodes_labels s) i) as [l|] eqn:E; cbn [option_map].
    - assert (Hl : In l (nodes_labels s)) by (eapply nth_error_In, E). destruct (wf_lookup s l Hwf Hl) as [j [J1 [_ [J3 _]]]].
      assert (j = i). { apply (proj1 (NoDup_nth_error (nodes_labels s)) H1); [apply nth_error_Some; congruence|congruence]. }
      subst j. symmetry. exact J3.
    - apply nth_error_None in E. symmetry. apply nth_error_None. destruct Hwf as [_ [A B]]. lia. }
  rewrite <- HV. unfold mask_row. generalize (val_of s) as w. clear. intro w. induction (nodes_labels s) as [|l r IH]; [reflexivity|].
  cbn [map combine filter fst snd]. destruct (f l); cbn [map snd]; rewrite IH; reflexivity.
Qed.
Lemma too_few_plenty e cs cm pcard seps : 2 < cs -> 0 < pcard -> Forall (fun k => 0 < k) seps ->
  (too_few e cs ((cs - 1) * (cs - 1) * pcard * nat_prod seps) cm = false <-> plenty (e_threshold e) cs pcard seps cm).
Proof.
  intros Hcs Hp Hs. unfold too_few, plenty. destruct (Nat.ltb_spec 2 cs) as [Hlt|Hge]; [|lia]. cbn [andb]. unfold below_threshold.
  assert (Hpos : 0 < (cs - 1) * (cs - 1) * pcard * nat_prod seps).
  { assert (0 < nat_prod seps) by (clear -Hs; induction Hs; unfold nat_prod in *; cbn [fold_right]; nia). assert (0 < cs - 1) by lia. nia. }
  destruct (Nat.eqb_spec ((cs - 1) * (cs - 1) * pcard * nat_prod seps) 0) as [E0|_]; [lia|].
  assert (ED : diagonal_sum (c_trans cm) = Zsum (map (fun x => nth x (nth x (c_trans cm) []) 0%Z) (seq 0 (length (c_trans cm))))).
  { unfold diagonal_sum. rewrite (mapi_seq _ []). reflexivity. }
  rewrite ED. set (x := (_ / _)%Qc). destruct (Qccompare x (e_threshold e)) eqn:EC.
  - split; [intros _ _|reflexivity]. apply Qceq_alt in EC. rewrite EC. apply Qcle_refl.
  - split; [discriminate|]. intros K. specialize (K Hlt). apply Qclt_alt in EC. exfalso. apply (Qcle_not_lt _ _ K EC).
  - split; [intros _ _|reflexivity]. apply Qcgt_alt in EC. apply Qclt_le_weak, EC.
Qed.

Lemma fold_mul_prod l : forall a, fold_left Nat.mul l a = a * nat_prod l.
Proof. induction l as [|x l IH]; intro a; cbn [fold_left nat_prod]; [unfold nat_prod; cbn; lia|]. rewrite IH. unfold nat_prod; cbn [fold_right]. lia. Qed.

(** the verdict when the filtering never fails *)
Lemma verdict_pairs e cs so flt th l b mk : verdict_configs e cs so flt th l = Ok (b, mk) ->
  (b = true <-> forall c1 u cc c2, In (c1, u) l -> filter_cims_with_mask so flt u = Ok cc -> In c2 cc -> too_few e cs th c1 = false /\ e_tests e cs c1 c2 = true)
  /\ (mk = true -> b = false /\ exists c1 u, In (c1, u) l /\ too_few e cs th c1 = true).
Proof.
  induction l as [|[c1 u] l IH]; cbn [verdict_configs]; intro H.
  - injection H as <- <-. split; [|discriminate]. split; [intros _ c1 u cc c2 []|reflexivity].
  - apply bind_ok in H as [cc [H1 H]]. pose proof (verdict_cims_iff e cs c1 th cc) as HV.
    destruct (verdict_cims e cs c1 th cc) as [b0 mk0] eqn:EV. cbn [fst] in HV. destruct b0.
    + destruct (IH H) as [I1 I2]. split.
      * rewrite I1. split.
        -- intros K c u' cc' c2 [Hin|Hin] HF Hc2; [|apply (K c u' cc' c2 Hin HF Hc2)]. injection Hin as <- <-.
           rewrite H1 in HF. injection HF as <-. apply (proj1 HV eq_refl), Hc2.
        -- intros K c u' cc' c2 Hin. apply K. right; exact Hin.
      * intro M. destruct (I2 M) as [B [c [u' [Hin Q]]]]. split; [exact B|]. exists c, u'. split; [right; exact Hin|exact Q].
    + injection H as <- <-. split.
      * split; [discriminate|]. intros K. apply HV. intros c2 Hc2. apply (K c1 u cc c2); [left; reflexivity|exact H1|exact Hc2].
      * intro M. split; [reflexivity|]. exists c1, u. split; [left; reflexivity|]. clear -EV M. subst mk0. revert EV.
        induction cc as [|c2 r IH]; cbn [verdict_cims]; [discriminate|]. destruct (too_few e cs th c1); [reflexivity|].
        destruct (e_tests e cs c1 c2); [exact IH|discriminate].
Qed.

Lemma test_any e c p sep m i j cs pcard seps so1 so2 b st' :
  wf_structure (e_struct e) -> test_ok (e_struct e) c p sep ->
  structure_get_states_number (e_struct e) p = Ok pcard -> 0 < pcard ->
  Forall2 (fun l k => structure_get_states_number (e_struct e) l = Ok k) (filter (fun l => lmem l sep) (nodes_labels (e_struct e))) seps ->
  Forall (fun k => 0 < k) seps ->
  parameters_given e c sep so1 -> parameters_given e c (p :: sep) so2 ->
  complete_test e (MkState m empty_cache) p c sep cs (total_variables_number (e_struct e)) i j = Ok (b, st') ->
  let mask := map (fun l => negb (String.eqb l p)) (filter (fun l => lmem l (p :: sep)) (nodes_labels (e_struct e))) in
  (b = true <-> forall c1 u cc c2, In (c1, u) (combine (so_actual_cims so1) (so_p_combs so1)) -> filter_cims_with_mask so2 mask u = Ok cc -> In c2 cc ->
       plenty (e_threshold e) cs pcard seps c1 /\ e_tests e cs c1 c2 = true)
  /\ (st_matrix st' = m
      \/ (b = false /\ (exists c1, In c1 (so_actual_cims so1) /\ ~ plenty (e_threshold e) cs pcard seps c1)
          /\ forall i' j', mat_get (st_matrix st') i' j' = if (i' =? i) && (j' =? j) then Ok false else mat_get m i' j')).
Proof.
  intros Hwf Ht Hp Hpp Hs Hsp P1 P2 H mask. set (s := e_struct e) in *. set (tot := total_variables_number s) in *.
  apply parameters_given_set in P1; [|exact Hwf|exact (proj1 Ht)|exact (proj2 (proj2 (proj2 Ht)))].
  apply parameters_given_set in P2; [|exact Hwf|exact (proj1 Ht)|intros l [<-|Hl]; [exact (proj1 (proj2 Ht))|exact (proj2 (proj2 (proj2 Ht)) l Hl)]].
  rewrite (complete_test_empty e tot Hwf c m p sep cs i j Ht), ideal_verdict in H. unfold verdict in H. fold s tot in P1, P2. fold s in H. rewrite P1, P2 in H. cbn [bind] in H.
  assert (EM : filter_of s p sep = mask).
  { unfold filter_of, mask, isin_mask. rewrite (mask_filter (fun n => lmem n (sep ++ [p]))). f_equal. apply filter_ext_In. intros l _. apply eq_true_iff_eq.
    rewrite !lmem_In, in_app_iff. cbn [In]. intuition. }
  rewrite EM in H.
  assert (ET : exists th, thumb_of s cs p sep = Ok th /\ forall cm, too_few e cs th cm = false <-> plenty (e_threshold e) cs pcard seps cm).
  { unfold thumb_of. destruct (Nat.ltb_spec 2 cs) as [K|K].
    - rewrite Hp. cbn [bind]. eexists. split; [reflexivity|]. intro cm. rewrite <- (too_few_plenty e cs cm pcard seps K Hpp Hsp).
      unfold isin_mask. rewrite (mask_filter_vals s (fun n => lmem n sep) Hwf). unfold compute_thumb_value. rewrite fold_mul_prod.
      apply (Forall2_lookup _ (val_of s)) in Hs; [|intros a b0 Q; unfold val_of; rewrite Q; reflexivity]. rewrite <- Hs. reflexivity.
    - exists 0. split; [reflexivity|]. intro cm. unfold too_few, plenty. destruct (Nat.ltb_spec 2 cs); [lia|]. cbn [andb]. split; [intros _ Q; lia|reflexivity]. }
  destruct ET as [th [ET EP]]. rewrite ET in H. cbn [bind] in H.
  destruct (verdict_configs e cs so2 mask th (combine (so_actual_cims so1) (so_p_combs so1))) as [[b0 mk]|x] eqn:EV; [|discriminate].
  destruct (verdict_pairs _ _ _ _ _ _ _ _ EV) as [V1 V2]. unfold apply_mark in H. cbn [bind] in H.
  assert (EB : b = b0). { destruct mk; [destruct (mat_set m i j false)|]; cbn [bind with_cache] in H; try discriminate; injection H as <- _; reflexivity. }
  subst b0. split.
  - rewrite V1. split; intros K c1 u cc c2 Q1 Q2 Q3; destruct (K c1 u cc c2 Q1 Q2 Q3) as [A B]; (split; [apply EP, A|exact B]).
  - destruct mk.
    + destruct (mat_set m i j false) as [m'|] eqn:EMS; cbn [bind with_cache] in H; [|discriminate]. injection H as <-. cbn [st_matrix].
      destruct (V2 eq_refl) as [Bf [c1 [u [Hin Q]]]]. right. split; [exact Bf|]. split.
      * exists c1. split; [eapply in_combine_l, Hin|]. intro N. apply EP in N. congruence.
      * apply mat_set_get, EMS.
    + cbn [with_cache] in H. injection H as <-. left. reflexivity.
Qed.
