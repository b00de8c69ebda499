(** C90: the constraint-based estimator on many copies of any data. *)
From Coq Require Import Reals Lra Classical_Prop.
From Verif Require Import Base Lib LibQc ModelStructure ModelGraph ModelCims ModelData ModelParams ModelCache ModelCtpc ModelFamScore ModelIndep
  SpecStructure SpecGraph SpecComb SpecParams SpecData SpecCtpc SpecRecover SpecFamScore SpecInvariance SpecBias SpecIndep SpecEnough SpecEnoughCb SpecVisible SpecFloating
  ProofStructure ProofGraph ProofComb ProofParams ProofParams2 ProofParams3 ProofCache ProofConserve ProofCtpc ProofCtpc2 ProofCtpc3 ProofCtpc4 ProofCtpc5 ProofCtpc6 ProofCtpc7 ProofFamScore2 ProofInvariance ProofUnit3 ProofIndep2 ProofBias
  ProofRecover ProofAlgorithm3 ProofFew3 ProofFew4 ProofEnough2 ProofEnough3 ProofEnough4 ProofEnough5 ProofEnoughCb3 ProofEnoughCb4 ProofVisible ProofVisible2.
Close Scope R_scope. Open Scope nat_scope.

Section runs.
Variables (vars : list label) (cards : list nat) (k : nat) (rs : list raw).
Hypothesis HL : legal_input vars cards rs.
Hypothesis HE : equal_cards cards k.
Hypothesis Hk : 2 <= k.
Hypothesis HC : Forall clock_strict rs.
(** ** what visible and silent mean *)
Lemma visible_ext v K K' p : In v vars -> In p vars -> incl K vars -> same_set K K' -> visible vars k rs v K p -> visible vars k rs v K' p.
Proof.
  intros Hv Hp HK HS [a [b [x [H1 H2]]]]. exists a, b, x. split; [apply (comparable_ext vars cards k rs HL HE v K); assumption|]. assert (HI : incl (p :: K) vars) by (intros l [<-|Hl]; auto).
  destruct (given_ext vars cards k rs HL HE v _ _ a x Hv HI (cons_same p K K' HS)) as [F E]. destruct (given_ext vars cards k rs HL HE v _ _ b x Hv HI (cons_same p K K' HS)) as [F' E'].
  destruct (given_ext vars cards k rs HL HE v _ _ a x Hv HK HS) as [_ G]. unfold leave_rate, exits_given, rate_given, all_targets in *.
  rewrite <- F, <- F'. rewrite <- (map_ext _ _ E), <- (map_ext _ _ E'). destruct H2 as [H2|[H2 [y [Ny H3]]]]; [left; exact H2|right]. split; [intros z Hz Nz; rewrite <- G; auto|]. exists y. split; [exact Ny|]. rewrite <- E, <- E'. exact H3.
Qed.
Lemma silent_ext v K K' : In v vars -> incl K vars -> same_set K K' -> silent vars k rs v K -> silent vars k rs v K'.
Proof. intros Hv HK HS [a [Ha H]]. exists a. split; [exact Ha|]. intros x y Hx Hy N. destruct (given_ext vars cards k rs HL HE v _ _ a x Hv HK HS) as [_ G]. rewrite <- G. auto. Qed.
Lemma silent_more v K K' : In v vars -> incl K K' -> silent vars k rs v K -> silent vars k rs v K'.
Proof.
  intros Hv HS [a [Ha H]]. exists a. split; [exact Ha|]. intros x y Hx Hy N. specialize (H x y Hx Hy N).
  assert (M : (changes_given vars rs v K' a x y <= changes_given vars rs v K a x y)%Z).
  { unfold changes_given, raw_jumps. apply Zsum_mono. intros r _. apply inj_le, filter_sub. intros ab _ F. apply andb_true_iff in F as [F1 F2]. apply andb_true_iff. split; [|exact F2].
    cbn [map] in F1 |- *. rewrite row_shows_cons in F1 |- *. apply andb_true_iff in F1 as [F0 F1]. apply andb_true_iff. split; [exact F0|]. rewrite shows_fun, forallb_forall in F1 |- *. intros l Hl. apply F1, HS, Hl. }
  assert (0 <= changes_given vars rs v K' a x y)%Z by apply raw_jumps_nonneg. lia.
Qed.
Lemma visible_depends v K p : visible vars k rs v K p -> depends vars rs v K p.
Proof.
  intros [a [b [x [HC' [H|[_ [y [N H]]]]]]]]; [|exists a, b, x, y; auto]. apply NNPP. intros ND. apply H. unfold leave_rate, exits_given.
  assert (E : forall y, In y (filter (fun y => negb (y =? x)) (seq 0 k)) -> rate_given vars rs v (p :: K) a x y = rate_given vars rs v (p :: K) b x y).
  { intros y Hy. apply filter_In in Hy as [_ Hy]. apply negb_true_iff, Nat.eqb_neq in Hy. apply NNPP. intros D. apply ND. exists a, b, x, y. auto. }
  destruct HC' as [_ [_ [P1 P2]]]. unfold rate_given in E. induction (filter (fun y => negb (y =? x)) (seq 0 k)) as [|y l IH]; cbn [map]; [unfold Zsum; cbn [fold_right]; unfold Qcdiv; change (Qc_of_Z 0) with 0%Qc; rewrite !Qcmult_0_l; reflexivity|].
  rewrite !Zsum_cons, !Qc_of_Z_add. unfold Qcdiv in *. rewrite !Qcmult_plus_distr_l. rewrite (E y (or_introl eq_refl)), IH; [reflexivity|]. intros; apply E; right; assumption.
Qed.
Lemma depends_visible v K p : In v vars -> In p vars -> incl K vars -> k = 2 \/ (forall a x, (forall l, In l K -> a l < k) -> x < k -> all_targets vars k rs v K a x) -> depends vars rs v K p -> visible vars k rs v K p.
Proof.
  intros Hv Hp HK HA [a [b [x [y [HC' [N H]]]]]]. exists a, b, x. split; [exact HC'|]. destruct HC' as [C1 [C2 [C3 C4]]].
  assert (HI : incl (p :: K) vars) by (intros l [<-|Hl]; auto). destruct (observed vars cards None k rs v HL HE Hk Hv (p :: K) a x HI C3) as [Hx Ha].
  destruct HA as [E2|HA]; [left|right; split; [apply HA; [intros l Hl; apply Ha; right; exact Hl|exact Hx]|exists y; auto]].
  assert (Hy : y < k).
  { destruct (Nat.lt_ge_cases y k) as [|G]; [assumption|]. exfalso. apply H. unfold rate_given. rewrite !(changes_alt vars cards None k rs v HL HE Hv) by exact HI. rewrite !(jumps_big vars cards None k rs v HL HE Hk Hv) by exact G. unfold Qcdiv; change (Qc_of_Z 0) with 0%Qc; rewrite !Qcmult_0_l; reflexivity. }
  intros EL. apply H. unfold leave_rate, exits_given in EL. unfold rate_given.
  assert (E1 : filter (fun y => negb (y =? x)) (seq 0 k) = [y]) by (clear -E2 Hx Hy N; subst k; destruct x as [|[|]]; try lia; destruct y as [|[|]]; try lia; reflexivity).
  rewrite E1 in EL. cbn [map] in EL. unfold Zsum in EL. cbn [fold_right] in EL. rewrite !Z.add_0_r in EL. exact EL.
Qed.
Variables (P : test_params) (thr : Qc).
Hypothesis HQ : quantiles_ok P.
Hypothesis HS : quantiles_settle P.
Hypothesis HT : (0 < thr)%Qc.
Notation estimator n prior known est := (exists s t, imports_to vars cards prior (copies n rs) s t /\ new_cb_estimator s t (length vars) known thr (the_tests P) = Ok est).
Notation run prior n known mp es := (exists s t est est', imports_to vars cards prior (copies n rs) s t
  /\ new_cb_estimator s t (length vars) known thr (the_tests P) = Ok est /\ cb_estimate_structure est mp = Ok (es, est')).
Notation eventually Q := (exists N, forall n : nat, N <= n -> Q n).
Notation lacking v K := (2 < k /\ silent vars k rs v K).
Definition seen_answers (n : nat) : Prop := forall prior known est v p K, estimator n prior known est -> In v vars -> In p vars -> p <> v -> incl K vars -> ~ In v K -> ~ In p K -> NoDup K ->
  (forall b, test_answers (cb_e est) (cb_tot est) (st_matrix (cb_st est)) v p K b <-> (b = true <-> ~ visible vars k rs v K p /\ ~ lacking v K))
  /\ (~ In (p, v) known -> gives_up est v p K -> lacking v K).
Lemma one_test_seen : exists N, 2 <= N /\ forall n, N <= n -> seen_answers n.
Proof.
  destruct (settles_all vars cards k rs Hk HC P thr HQ HS HT) as [N [N2 H]]. exists N. split; [exact N2|]. intros n Hn prior known est v p K [s [t [HI HN]]] Hv Hp Npv HK NvK NpK ND.
  pose proof (copies_legal vars cards n rs ltac:(lia) HL) as HLn. apply (imports_det vars cards prior _ s t HLn) in HI as [-> ->].
  assert (Ht : test_ok (struct_of vars cards prior) v p K).
  { split; [exact Hv|]. split; [exact Hp|]. split; [|exact HK]. constructor; [intros [I|I]; [congruence|contradiction]|constructor; assumption]. }
  destruct (verdict_settles vars cards k rs HL HE Hk HC P thr HQ prior n v p K ltac:(lia) Ht (H n Hn v p K Hv Hp HK)) as [b [mk [EV [EB EM]]]].
  destruct (few_ok vars cards prior _ HLn known thr _ est HN) as [Hok [Ee Et]].
  destruct (ask_faithful (struct_of vars cards prior) (traj_of vars (copies n rs)) (length vars) k known thr (the_tests P) est (few_wf vars cards prior _ HLn) (few_nd vars cards prior) (few_lt vars cards prior) eq_refl
    (legal_data vars cards prior _ HLn) (proj1 HE) (proj2 HE) HN v p K Ht) as [G1 G2].
  unfold the_ask in G1, G2. rewrite EV in G1, G2. cbn [fst snd] in G1, G2. rewrite Ee, Et. split.
  - intros b'. rewrite G1. split; [intros ->; exact EB|]. intros E. destruct b', b; try reflexivity; exfalso; intuition discriminate.
  - intros Hkn G. apply (G2 Hkn) in G. exact (EM G).
Qed.
Lemma run_result_seen n prior known mp es : 2 <= n -> seen_answers n -> run prior n known mp es -> forall v, In v vars ->
  (forall a, In (a, v) es -> In a vars /\ a <> v)
  /\ (forall a, In a vars -> a <> v -> ~ In (a, v) es -> exists K, incl K vars /\ ~ In v K /\ ~ In a K /\ ~ visible vars k rs v K a /\ ~ lacking v K)
  /\ (forall a, In (a, v) es -> ~ In (a, v) known ->
        (exists K, incl K vars /\ ~ In v K /\ ~ In a K /\ lacking v K)
        \/ forall K, (forall b, In b K -> In (b, v) es) -> ~ In a K -> visible vars k rs v K a \/ lacking v K).
Proof.
  intros Hn HR [s [t [est [est' [HI [HN E]]]]]] v Hv. pose proof (copies_legal vars cards n rs ltac:(lia) HL) as HLn. assert (HX : estimator n prior known est) by (exists s, t; auto).
  apply (imports_det vars cards prior _ s t HLn) in HI as [-> ->]. set (s := struct_of vars cards prior) in *.
  destruct (few_ok vars cards prior _ HLn known thr _ est HN) as [Hok [Ee Et]]. fold s in Ee. assert (Es : e_struct (cb_e est) = s) by (rewrite Ee; reflexivity).
  destruct (estimate_char est Hok mp es est' E) as [_ [W [SH _]]]. rewrite Es in W, SH.
  split; [intros a Ha; destruct (SH a v Ha) as [S1 [_ S2]]; auto|]. split.
  - intros a Ha Nav Hab. destruct (absent_separated vars cards prior _ HLn known thr _ est HN mp es est' v a E Hv Ha Nav Hab) as [sep [T1 T2]].
    destruct T1 as [_ [_ [ND Hsep]]]. inversion ND as [|? ? ND1 ND2]; subst. inversion ND2 as [|? ? ND3 ND4]; subst.
    exists sep. split; [exact Hsep|]. split; [intros I; apply ND1; right; exact I|]. split; [exact ND3|].
    apply (proj1 (HR prior known est v a sep HX Hv Ha Nav Hsep ltac:(intros I; apply ND1; right; exact I) ND3 ND4)) in T2. apply T2. reflexivity.
  - intros a Ha Hkn. destruct (SH a v Ha) as [Ha1 [_ Ha2]].
    destruct (W v Hv) as [esv [stv [Ho [He' _]]]]. clear W.
    destruct (optimize_justified (cleaned_est est) (cleaned_ok est Hok) v esv stv) as [_ [kept [K1 [K2 [_ K4]]]]]; [change (In v (nodes_labels (e_struct (cb_e est)))); rewrite Es; exact Hv|exact Ho|].
    change (others (e_struct (cb_e (cleaned_est est))) v) with (others (e_struct (cb_e est)) v) in K1. rewrite Es in K1.
    assert (KE : forall b, In (b, v) es <-> In b kept) by (intros b; rewrite He', K2; tauto).
    assert (Rm : removable est a v).
    { intros i j Ei Ej. rewrite Es in Ei, Ej. destruct (new_estimator_ok s _ _ known thr (the_tests P) est (few_wf vars cards prior _ HLn) (few_nd vars cards prior) (few_lt vars cards prior) HN) as [_ [_ [_ [_ HG]]]].
      rewrite (HG a v i j Ha1 Hv Ei Ej). f_equal. apply negb_true_iff, emem_false, Hkn. }
    destruct (wf_lookup s a (few_wf vars cards prior _ HLn) Ha1) as [_ [_ [_ [_ [Ea _]]]]]. destruct (wf_lookup s v (few_wf vars cards prior _ HLn) Hv) as [_ [_ [_ [_ [Ev _]]]]].
    assert (Hv' : In v (nodes_labels (e_struct (cb_e est)))) by (rewrite Es; exact Hv). assert (Ha' : In a (nodes_labels (e_struct (cb_e est)))) by (rewrite Es; exact Ha1).
    destruct (stays_removable (cleaned_est est) (cleaned_ok est Hok) v Hv' a esv stv Ha' Rm Ho) as [Hm|[sep [St Sg]]].
    2:{ left. apply gives_up_cleaned in Sg. change (e_struct (cb_e (cleaned_est est))) with (clean_structure_edges (e_struct (cb_e est))) in St. destruct St as [_ [_ [ND Hsep]]].
        cbn [nodes_labels clean_structure_edges] in Hsep. rewrite Es in Hsep. inversion ND as [|? ? ND1 ND2]; subst. inversion ND2 as [|? ? ND3 ND4]; subst.
        assert (Nv : ~ In v sep) by (intros I; apply ND1; right; exact I). exists sep. split; [exact Hsep|]. split; [exact Nv|]. split; [exact ND3|].
        exact (proj2 (HR prior known est v a sep HX Hv Ha1 Ha2 Hsep Nv ND3 ND4) Hkn Sg). }
    right. intros K HK NaK. set (K' := filter (fun l => lmem l K) kept).
    assert (SS : same_set K' K) by (intros b; unfold K'; rewrite filter_In, lmem_In, <- KE; split; [tauto|]; intros Hb; split; [apply HK, Hb|exact Hb]).
    assert (NaK' : ~ In a K') by (intros I; apply NaK, SS, I).
    assert (T : test_answers (cb_e est) (cb_tot est) (st_matrix (cb_st est)) v a K' false).
    { apply test_answers_cleaned. apply (K4 a (idx_of s a) (idx_of s v)); [apply KE, Ha| | | |apply sublist_filter|exact NaK'].
      - change (structure_get_node_indx (e_struct (cb_e est)) a = Ok (idx_of s a)). rewrite Es. exact Ea.
      - change (structure_get_node_indx (e_struct (cb_e est)) v = Ok (idx_of s v)). rewrite Es. exact Ev.
      - change (idx_of (e_struct (cb_e (cleaned_est est))) a) with (idx_of (e_struct (cb_e est)) a) in Hm. change (idx_of (e_struct (cb_e (cleaned_est est))) v) with (idx_of (e_struct (cb_e est)) v) in Hm. rewrite Es in Hm. exact Hm. }
    assert (HK' : incl K' vars) by (intros b Hb; apply SS, HK in Hb; exact (proj1 (SH b v Hb))).
    assert (NvK' : ~ In v K') by (intros Hb; apply SS, HK in Hb; destruct (SH v v Hb) as [_ [_ X]]; congruence).
    assert (NDK : NoDup K') by (apply NoDup_filter'; eapply sublist_NoDup; [exact K1|apply NoDup_filter'; apply (few_wf vars cards prior _ HLn)]).
    apply (proj1 (HR prior known est v a K' HX Hv Ha1 Ha2 HK' NvK' NaK' NDK)) in T.
    destruct (classic (visible vars k rs v K' a)) as [V|V]; [left; exact (visible_ext v K' K a Hv Ha1 HK' SS V)|]. destruct (classic (lacking v K')) as [[L1 L2]|L].
    + right. split; [exact L1|]. exact (silent_ext v K' K Hv HK' SS L2).
    + exfalso. assert (false = true) by (apply T; auto). discriminate.
Qed.
Lemma cb_seen_result : eventually (fun n => forall prior known mp es, run prior n known mp es -> forall v, In v vars ->
  (forall a, In a vars -> a <> v -> ~ In (a, v) es -> exists K, incl K vars /\ ~ In v K /\ ~ In a K /\ ~ visible vars k rs v K a /\ ~ lacking v K)
  /\ (forall a, In (a, v) es -> ~ In (a, v) known ->
        (exists K, incl K vars /\ ~ In v K /\ ~ In a K /\ lacking v K)
        \/ forall K, (forall b, In b K -> In (b, v) es) -> ~ In a K -> visible vars k rs v K a \/ lacking v K)).
Proof.
  destruct one_test_seen as [N [N2 H]]. exists N. intros n Hn prior known mp es HX v Hv. destruct (run_result_seen n prior known mp es ltac:(lia) (H n Hn) HX v Hv) as [_ R]. exact R.
Qed.
End runs.
