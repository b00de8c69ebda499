(** C98: what the independence test compares if the child has a state that never occurs. *)
From Coq Require Import Reals Lra.
From Verif Require Import Base Lib LibQc ModelStructure ModelGraph ModelCims ModelData ModelParams ModelCache ModelCtpc ModelFamScore ModelIndep
  SpecStructure SpecGraph SpecComb SpecParams SpecData SpecCtpc SpecFloating SpecInvariance SpecFamScore SpecIndep SpecRecover2 SpecCoding SpecSpare
  ProofStructure ProofGraph ProofComb ProofParams ProofParams2 ProofParams3 ProofCtpc ProofCtpc2 ProofCtpc4 ProofCtpc6 ProofFamScore2 ProofIndep ProofIndep2
  ProofData ProofInvariance ProofFloating5 ProofCoding ProofCoding3 ProofSpare.
Open Scope nat_scope.

Lemma spare_rates P rs ni pis pis' k u u' d : quantiles_ok P ->
  computed_cim k (raw_cim rs ni pis k u) -> computed_cim k (raw_cim rs ni pis' k u') -> never_observed rs ni d -> d < k ->
  (the_tests P k (raw_cim rs ni pis k u) (raw_cim rs ni pis' k u') = true
   <-> forall x, x < k -> rates_agree P (raw_cim rs ni pis k u) (raw_cim rs ni pis' k u') x).
Proof.
  intros HQ C1 C2 HN Hd. rewrite the_tests_iff by assumption.
  assert (U : forall x, x < k -> exits (raw_cim rs ni pis k u) x = 0%Z \/ unseen_cell k (raw_cim rs ni pis k u) (raw_cim rs ni pis' k u') x).
  { intros x Hx. destruct (Nat.eq_dec x d) as [->|N].
    - left. unfold exits. rewrite jumps_of_raw by assumption. apply spare_from, HN.
    - right. exists d. split; [exact Hd|]. split; [congruence|]. rewrite !jumps_of_raw by assumption. split; apply spare_to; assumption. }
  split; intros H x Hx; specialize (H x Hx); destruct (U x Hx) as [Z|Z]; try (left; exact Z); unfold state_accepts, rates_agree in *; tauto.
Qed.

Lemma spare_test vars cards prior rs k P thr m c p sep ni i j b0 d spc lpc : legal_input vars cards rs -> Forall clock_ok rs -> equal_cards cards k -> quantiles_ok P ->
  let s := struct_of vars cards prior in let t := traj_of vars rs in
  structure_get_node_indx s c = Ok ni -> d < k -> never_observed rs ni d ->
  test_ok s c p sep -> structure_get_node_indx s p = Ok i -> structure_get_node_indx s c = Ok j -> mat_get m i j = Ok b0 ->
  let sp := filter (fun l => lmem l sep) vars in let lp := filter (fun l => lmem l (p :: sep)) vars in
  columns_of s sp spc -> columns_of s lp lpc ->
  exists b, test_answers (MkEnv s t thr (the_tests P)) (length vars) m c p sep b
   /\ (b = true <-> forall a : label -> nat, (forall l, a l < k) ->
        let cm1 := data_cim t (length vars) ni spc k (map a sp) in let cm2 := data_cim t (length vars) ni lpc k (map a lp) in
        enough_data thr k k (map (fun _ => k) sp) cm1 /\ forall x, x < k -> rates_agree P cm1 cm2 x).
Proof.
  intros HL HT [Hk HE] HQ s t Hni Hd HN Ht Hi Hj Hm sp lp Hs Hl.
  pose proof (legal_wf vars cards prior rs HL) as W. fold s in W.
  destruct (test_meaning (MkEnv s t thr (the_tests P)) (length vars) k c p sep m i j b0 ni spc lpc W (legal_data vars cards prior rs HL) eq_refl Hk HE Ht Hm Hni Hs Hl) as [b [st' [E K]]].
  exists b. split.
  { exists k, i, j, st'. split; [|split; [exact Hi|split; [exact Hj|exact E]]]. pose proof Ht as [Hc _]. destruct (wf_lookup s c W Hc) as [iv [_ [_ [Vv [_ Ec]]]]].
    cbn [e_struct]. rewrite Ec. f_equal. apply HE. exact (nth_error_In _ _ Vv). }
  assert (B : forall ls cs, columns_of s ls cs -> Forall (fun q => q < length vars) cs).
  { intros ls cs H. unfold columns_of in H. induction H as [|l q ls cs H _ IH]; constructor; [eapply struct_of_indx; exact H|exact IH]. }
  assert (Bn : ni < length vars) by (eapply struct_of_indx; exact Hni).
  assert (X : forall pis u, Forall (fun q => q < length vars) pis -> data_cim t (length vars) ni pis k u = raw_cim rs ni pis k u).
  { intros pis u H. apply (raw_cim_exact vars cards rs ni pis k u HL). constructor; assumption. }
  rewrite K. unfold pair_accepts. cbn [e_traj e_threshold e_tests]. split; intros H a Ha; specialize (H a Ha); destruct H as [H1 H2]; (split; [exact H1|]); revert H2.
  - rewrite !X by (eapply B; eassumption). apply (spare_rates P rs ni spc lpc k _ _ d); auto; apply (raw_computed vars cards); auto; constructor; auto; eapply B; eassumption.
  - rewrite !X by (eapply B; eassumption). apply (spare_rates P rs ni spc lpc k _ _ d); auto; apply (raw_computed vars cards); auto; constructor; auto; eapply B; eassumption.
Qed.
