(** C89: the constraint-based estimator on many copies of the data. *)
From Coq Require Import Reals Lra Classical_Prop.
From Verif Require Import Base Lib LibQc ModelStructure ModelGraph ModelCims ModelData ModelParams ModelCache ModelCtpc ModelFamScore ModelIndep
  SpecStructure SpecGraph SpecComb SpecParams SpecData SpecCtpc SpecRecover SpecFamScore SpecInvariance SpecBias SpecIndep SpecEnough SpecEnoughCb SpecFloating
  ProofStructure ProofGraph ProofComb ProofParams ProofParams2 ProofParams3 ProofCache ProofCtpc ProofCtpc2 ProofCtpc3 ProofCtpc4 ProofCtpc5 ProofCtpc6 ProofCtpc7 ProofInvariance ProofIndep2 ProofBias
  ProofRecover ProofAlgorithm3 ProofFew4 ProofEnough4 ProofEnough5 ProofEnoughCb3.
Close Scope R_scope. Open Scope nat_scope.

Section runs.
Variables (vars : list label) (cards : list nat) (k : nat) (rs : list raw).
Hypothesis HL : legal_input vars cards rs.
Hypothesis HE : equal_cards cards k.
Hypothesis Hk : 2 <= k.
Hypothesis HC : Forall clock_strict rs.
Variables (P : test_params) (thr : Qc).
Hypothesis HQ : quantiles_ok P.
Hypothesis HS : quantiles_settle P.
Hypothesis HV : k = 2 \/ forall v, In v vars -> every_change_seen vars k rs v.
Notation estimator n prior known est := (exists s t, imports_to vars cards prior (copies n rs) s t /\ new_cb_estimator s t (length vars) known thr (the_tests P) = Ok est).
Notation run prior n known mp es := (exists s t est est', imports_to vars cards prior (copies n rs) s t
  /\ new_cb_estimator s t (length vars) known thr (the_tests P) = Ok est /\ cb_estimate_structure est mp = Ok (es, est')).
Notation eventually Q := (exists N, forall n : nat, N <= n -> Q n).
Definition right_answers (n : nat) : Prop := forall prior known est v p K, estimator n prior known est -> In v vars -> In p vars -> p <> v -> incl K vars -> ~ In v K -> ~ In p K -> NoDup K ->
  (forall b, test_answers (cb_e est) (cb_tot est) (st_matrix (cb_st est)) v p K b <-> (b = true <-> ~ depends vars rs v K p))
  /\ (~ In (p, v) known -> ~ gives_up est v p K).
Lemma one_test : exists N, 2 <= N /\ forall n, N <= n -> right_answers n.
Proof.
  destruct (settled_all vars cards k rs HL HE Hk HC P thr HQ HS HV) as [N [N2 H]]. exists N. split; [exact N2|]. intros n Hn prior known est v p K [s [t [HI HN]]] Hv Hp Npv HK NvK NpK ND.
  pose proof (copies_legal vars cards n rs ltac:(lia) HL) as HLn. apply (imports_det vars cards prior _ s t HLn) in HI as [-> ->].
  assert (Ht : test_ok (struct_of vars cards prior) v p K).
  { split; [exact Hv|]. split; [exact Hp|]. split; [|exact HK]. constructor; [intros [I|I]; [congruence|contradiction]|constructor; assumption]. }
  destruct (verdict_settled vars cards k rs HL HE Hk HC P thr HQ HV prior n v p K ltac:(lia) Ht (H n Hn v p K Hv Hp HK NvK)) as [b [EV EB]].
  destruct (few_ok vars cards prior _ HLn known thr _ est HN) as [Hok [Ee Et]].
  destruct (ask_faithful (struct_of vars cards prior) (traj_of vars (copies n rs)) (length vars) k known thr (the_tests P) est (few_wf vars cards prior _ HLn) (few_nd vars cards prior) (few_lt vars cards prior) eq_refl
    (legal_data vars cards prior _ HLn) (proj1 HE) (proj2 HE) HN v p K Ht) as [G1 G2].
  unfold the_ask in G1, G2. rewrite EV in G1, G2. cbn [fst snd] in G1, G2. rewrite Ee, Et. split.
  - intros b'. rewrite G1. split; [intros ->; exact EB|]. intros E. destruct b', b; try reflexivity; exfalso; intuition discriminate.
  - intros Hkn G. apply (G2 Hkn) in G. discriminate.
Qed.
Lemma run_result n prior known mp es : 2 <= n -> right_answers n -> run prior n known mp es -> forall v, In v vars ->
  (forall a, In (a, v) es -> In a vars /\ a <> v)
  /\ (forall a, In a vars -> a <> v -> ~ In (a, v) es -> exists K, incl K vars /\ ~ In v K /\ ~ In a K /\ ~ depends vars rs v K a)
  /\ (forall a K, In (a, v) es -> ~ In (a, v) known -> (forall b, In b K -> In (b, v) es) -> ~ In a K -> depends vars rs v K a).
Proof.
  intros Hn HR [s [t [est [est' [HI [HN E]]]]]] v Hv. pose proof (copies_legal vars cards n rs ltac:(lia) HL) as HLn. assert (HX : estimator n prior known est) by (exists s, t; auto).
  apply (imports_det vars cards prior _ s t HLn) in HI as [-> ->]. set (s := struct_of vars cards prior) in *.
  destruct (few_ok vars cards prior _ HLn known thr _ est HN) as [Hok [Ee Et]]. fold s in Ee. assert (Es : e_struct (cb_e est) = s) by (rewrite Ee; reflexivity).
  destruct (estimate_char est Hok mp es est' E) as [_ [W [SH _]]]. rewrite Es in W, SH.
  split; [intros a Ha; destruct (SH a v Ha) as [S1 [_ S2]]; auto|]. split.
  - intros a Ha Nav Hab. destruct (absent_separated vars cards prior _ HLn known thr _ est HN mp es est' v a E Hv Ha Nav Hab) as [sep [T1 T2]].
    destruct T1 as [_ [_ [ND Hsep]]]. inversion ND as [|? ? ND1 ND2]; subst. inversion ND2 as [|? ? ND3 ND4]; subst.
    exists sep. split; [exact Hsep|]. split; [intros I; apply ND1; right; exact I|]. split; [exact ND3|].
    apply (proj1 (HR prior known est v a sep HX Hv Ha Nav Hsep ltac:(intros I; apply ND1; right; exact I) ND3 ND4)) in T2. apply T2. reflexivity.
  - intros a K Ha Hkn HK NaK. destruct (SH a v Ha) as [Ha1 [_ Ha2]].
    destruct (W v Hv) as [esv [stv [Ho [He' _]]]]. clear W.
    destruct (optimize_justified (cleaned_est est) (cleaned_ok est Hok) v esv stv) as [_ [kept [K1 [K2 [_ K4]]]]]; [change (In v (nodes_labels (e_struct (cb_e est)))); rewrite Es; exact Hv|exact Ho|].
    change (others (e_struct (cb_e (cleaned_est est))) v) with (others (e_struct (cb_e est)) v) in K1. rewrite Es in K1.
    assert (KE : forall b, In (b, v) es <-> In b kept) by (intros b; rewrite He', K2; tauto).
    assert (Rm : removable est a v).
    { intros i j Ei Ej. rewrite Es in Ei, Ej. destruct (new_estimator_ok s _ _ known thr (the_tests P) est (few_wf vars cards prior _ HLn) (few_nd vars cards prior) (few_lt vars cards prior) HN) as [_ [_ [_ [_ HG]]]].
      rewrite (HG a v i j Ha1 Hv Ei Ej). f_equal. apply negb_true_iff, emem_false, Hkn. }
    destruct (wf_lookup s a (few_wf vars cards prior _ HLn) Ha1) as [_ [_ [_ [_ [Ea _]]]]]. destruct (wf_lookup s v (few_wf vars cards prior _ HLn) Hv) as [_ [_ [_ [_ [Ev _]]]]].
    assert (Hv' : In v (nodes_labels (e_struct (cb_e est)))) by (rewrite Es; exact Hv). assert (Ha' : In a (nodes_labels (e_struct (cb_e est)))) by (rewrite Es; exact Ha1).
    destruct (stays_removable (cleaned_est est) (cleaned_ok est Hok) v Hv' a esv stv Ha' Rm Ho) as [Hm|[sep [St Sg]]].
    2:{ exfalso. apply gives_up_cleaned in Sg. change (e_struct (cb_e (cleaned_est est))) with (clean_structure_edges (e_struct (cb_e est))) in St. destruct St as [_ [_ [ND Hsep]]].
        cbn [nodes_labels clean_structure_edges] in Hsep. rewrite Es in Hsep. inversion ND as [|? ? ND1 ND2]; subst. inversion ND2 as [|? ? ND3 ND4]; subst.
        exact (proj2 (HR prior known est v a sep HX Hv Ha1 Ha2 Hsep ltac:(intros I; apply ND1; right; exact I) ND3 ND4) Hkn Sg). }
    set (K' := filter (fun l => lmem l K) kept).
    assert (SS : same_set K' K) by (intros b; unfold K'; rewrite filter_In, lmem_In, <- KE; split; [tauto|]; intros Hb; split; [apply HK, Hb|exact Hb]).
    assert (NaK' : ~ In a K') by (intros I; apply NaK, SS, I).
    assert (T : test_answers (cb_e est) (cb_tot est) (st_matrix (cb_st est)) v a K' false).
    { apply test_answers_cleaned. apply (K4 a (idx_of s a) (idx_of s v)); [apply KE, Ha| | | |apply sublist_filter|exact NaK'].
      - change (structure_get_node_indx (e_struct (cb_e est)) a = Ok (idx_of s a)). rewrite Es. exact Ea.
      - change (structure_get_node_indx (e_struct (cb_e est)) v = Ok (idx_of s v)). rewrite Es. exact Ev.
      - change (idx_of (e_struct (cb_e (cleaned_est est))) a) with (idx_of (e_struct (cb_e est)) a) in Hm. change (idx_of (e_struct (cb_e (cleaned_est est))) v) with (idx_of (e_struct (cb_e est)) v) in Hm. rewrite Es in Hm. exact Hm. }
    assert (HK' : incl K' vars) by (intros b Hb; apply SS, HK in Hb; exact (proj1 (SH b v Hb))).
    assert (NvK' : ~ In v K') by (intros Hb; apply SS, HK in Hb; destruct (SH v v Hb) as [_ [_ X]]; congruence).
    assert (NDK : NoDup K') by (apply NoDup_filter'; eapply sublist_NoDup; [exact K1|apply NoDup_filter'; apply (few_wf vars cards prior _ HLn)]).
    apply (proj1 (HR prior known est v a K' HX Hv Ha1 Ha2 HK' NvK' NaK' NDK)) in T. apply (depends_ext vars cards k rs HL HE v K' K a Hv Ha1 HK' SS).
    apply NNPP. intros D. apply T in D. discriminate.
Qed.
Lemma cb_search_result : eventually (fun n => forall prior known mp es, run prior n known mp es -> forall v, In v vars ->
  (forall a, In a vars -> a <> v -> ~ In (a, v) es -> exists K, incl K vars /\ ~ In v K /\ ~ In a K /\ ~ depends vars rs v K a)
  /\ (forall a K, In (a, v) es -> ~ In (a, v) known -> (forall b, In b K -> In (b, v) es) -> ~ In a K -> depends vars rs v K a)).
Proof.
  destruct one_test as [N [N2 H]]. exists N. intros n Hn prior known mp es HX v Hv. destruct (run_result n prior known mp es ltac:(lia) (H n Hn) HX v Hv) as [_ R]. exact R.
Qed.
Lemma cb_exact_parents : eventually (fun n => forall v Pa prior known mp es, In v vars -> faithful_data vars rs v Pa -> (forall a, In (a, v) known -> In a Pa) -> run prior n known mp es -> forall a, In (a, v) es <-> In a Pa).
Proof.
  destruct one_test as [N [N2 H]]. exists N. intros n Hn v Pa prior known mp es Hv [F1 [F2 [F3 F4]]] HKn HX a. destruct (run_result n prior known mp es ltac:(lia) (H n Hn) HX v Hv) as [R0 [R1 R2]].
  assert (G : forall p, In p Pa -> In (p, v) es).
  { intros p Hp. destruct (in_dec edge_dec (p, v) es) as [I|I]; [exact I|exfalso]. destruct (R1 p (F1 p Hp) ltac:(congruence) I) as [K [K1 [K2 [K3 K4]]]]. exact (K4 (F3 K p K1 K2 Hp K3)). }
  split; [|apply G]. intros Ha. destruct (in_dec string_dec a Pa) as [I|I]; [exact I|exfalso]. destruct (R0 a Ha) as [A1 A2]. apply (F4 a A1 A2 I). apply R2; auto.
Qed.
Lemma cb_returns n prior known mp : 1 <= n -> edges_within vars known -> exists es, run prior n known mp es.
Proof.
  intros Hn HW. pose proof (copies_legal vars cards n rs Hn HL) as HLn.
  destruct (new_estimator_spec (struct_of vars cards prior) (traj_of vars (copies n rs)) (length vars) known thr (the_tests P) (few_wf vars cards prior _ HLn) (few_nd vars cards prior) (few_lt vars cards prior)) as [EN _].
  destruct (EN HW) as [est [HN [_ [Hok _]]]]. destruct (estimate_total est Hok mp k (few_uniform vars cards prior _ k HLn HE known thr _ est HN)) as [es [est' E]].
  exists es, (struct_of vars cards prior), (traj_of vars (copies n rs)), est, est'. split; [apply imports_exists, HLn|]. auto.
Qed.
Lemma cb_exact_network net : edges_within vars net -> (forall v, In v vars -> exists Pa, faithful_data vars rs v Pa /\ forall a, In (a, v) net <-> In a Pa) ->
  eventually (fun n => forall prior known mp, incl known net -> (exists es, run prior n known mp es) /\ forall es, run prior n known mp es -> forall e, In e es <-> In e net).
Proof.
  intros HW HF. destruct cb_exact_parents as [N H]. exists (1 + N). intros n Hn prior known mp HI. split.
  - apply cb_returns; [lia|]. intros e He. apply HW, HI, He.
  - intros es HX [a v]. destruct (in_dec string_dec v vars) as [Hv|Hv].
    + destruct (HF v Hv) as [Pa [F1 F2]]. rewrite F2. apply (H n ltac:(lia) v Pa prior known mp es Hv F1); [|exact HX]. intros b Hb. apply F2, HI, Hb.
    + split; intros I; exfalso; apply Hv; [|exact (proj2 (HW _ I))]. destruct HX as [s [t [est [est' [HI' [HN E]]]]]].
      pose proof (copies_legal vars cards n rs ltac:(lia) HL) as HLn. apply (imports_det vars cards prior _ s t HLn) in HI' as [-> ->].
      destruct (few_ok vars cards prior _ HLn known thr _ est HN) as [Hok [Ee Et]]. destruct (estimate_char est Hok mp es est' E) as [_ [_ [SH _]]]. rewrite Ee in SH. exact (proj1 (proj2 (SH a v I))).
Qed.
End runs.
