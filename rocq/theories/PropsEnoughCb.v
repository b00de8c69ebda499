(** Property theorems C89: what the constraint-based estimator learns from enough data. *)
From Coq Require Import Reals Lra Classical_Prop.
From Verif Require Import Base Lib LibQc ModelStructure ModelGraph ModelCims ModelData ModelParams ModelCache ModelCtpc ModelSearch ModelFamScore ModelIndep ModelEstimators
  SpecStructure SpecGraph SpecComb SpecParams SpecData SpecCtpc SpecRecover SpecSearch SpecFamScore SpecEstimators SpecInvariance SpecBias SpecIndep SpecEnough SpecEnoughCb SpecFloating
  ProofStructure ProofGraph ProofCache ProofInvariance ProofBias ProofCtpc ProofCost2 ProofEnough2 ProofEnough3 ProofEnough4 ProofEnough5 ProofEnough6 ProofEnoughCb ProofEnoughCb3 ProofEnoughCb4 PropsEnough.
Close Scope R_scope. Open Scope nat_scope.

Section data.
Variables (vars : list label) (cards : list nat) (k : nat) (rs : list raw).
Hypothesis HL : legal_input vars cards rs.
Hypothesis HE : equal_cards cards k.
Hypothesis Hk : 2 <= k.
Hypothesis HC : Forall clock_strict rs.
Variables (P : test_params) (thr : Qc).
Hypothesis HQ : quantiles_ok P.
Hypothesis HS : quantiles_settle P.
(** binary variables, or every transition seen in every situation *)
Hypothesis HV : k = 2 \/ forall v, In v vars -> every_change_seen vars k rs v.
(** the estimator for [n] copies of the data, and its runs *)
Notation estimator n prior known est := (exists s t, imports_to vars cards prior (copies n rs) s t /\ new_cb_estimator s t (length vars) known thr (the_tests P) = Ok est).
Notation run prior n known mp es := (exists s t est est', imports_to vars cards prior (copies n rs) s t
  /\ new_cb_estimator s t (length vars) known thr (the_tests P) = Ok est /\ cb_estimate_structure est mp = Ok (es, est')).
Notation eventually Q := (exists N, forall n : nat, N <= n -> Q n).

(** every test decides whether the data show a dependence: it answers True if no observed rate of [v] changes with [p] given
    [K], False otherwise, and it never gives up *)
Theorem C89_tests_decide_dependence : eventually (fun n => forall prior known est v p K, estimator n prior known est ->
  In v vars -> In p vars -> p <> v -> incl K vars -> ~ In v K -> ~ In p K -> NoDup K ->
  (forall b, test_answers (cb_e est) (cb_tot est) (st_matrix (cb_st est)) v p K b <-> (b = true <-> ~ depends vars rs v K p))
  /\ (~ In (p, v) known -> ~ gives_up est v p K)).
Proof. destruct (one_test vars cards k rs HL HE Hk HC P thr HQ HS HV) as [N [_ H]]. exists N. exact H. Qed.
(** so every variable that is left out is independent of [v] given some set of others, and every reported parent (that was not
    known before) makes a difference given any set of the other reported parents *)
Theorem C89_search_result : eventually (fun n => forall prior known mp es, run prior n known mp es -> forall v, In v vars ->
  (forall a, In a vars -> a <> v -> ~ In (a, v) es -> exists K, incl K vars /\ ~ In v K /\ ~ In a K /\ ~ depends vars rs v K a)
  /\ (forall a K, In (a, v) es -> ~ In (a, v) known -> (forall b, In b K -> In (b, v) es) -> ~ In a K -> depends vars rs v K a)).
Proof. exact (cb_search_result vars cards k rs HL HE Hk HC P thr HQ HS HV). Qed.
(** the parents of a variable are recovered exactly if the data are faithful to them *)
Theorem C89_exact_recovery : eventually (fun n => forall v Pa prior known mp es, In v vars -> faithful_data vars rs v Pa ->
  (forall a, In (a, v) known -> In a Pa) -> run prior n known mp es -> forall a, In (a, v) es <-> In a Pa).
Proof. exact (cb_exact_parents vars cards k rs HL HE Hk HC P thr HQ HS HV). Qed.
(** and the whole network if they are for every variable: the estimation succeeds and returns no edge more and no edge less *)
Theorem C89_exact_network net : edges_within vars net -> (forall v, In v vars -> exists Pa, faithful_data vars rs v Pa /\ forall a, In (a, v) net <-> In a Pa) ->
  eventually (fun n => forall prior known mp, incl known net -> (exists es, run prior n known mp es) /\ forall es, run prior n known mp es -> forall e, In e es <-> In e net).
Proof. exact (cb_exact_network vars cards k rs HL HE Hk HC P thr HQ HS HV net). Qed.
(** the limit of the method: a variable that makes no difference on its own is never reported, however much data there are and
    whatever difference it makes once other variables are known *)
Theorem C89_invisible_alone : eventually (fun n => forall prior known mp es v a, run prior n known mp es -> In v vars ->
  ~ depends vars rs v [] a -> ~ In (a, v) known -> ~ In (a, v) es).
Proof.
  destruct C89_search_result as [N H]. exists N. intros n Hn prior known mp es v a HX Hv D Hkn Ha. apply D. apply (proj2 (H n Hn prior known mp es HX v Hv) a []); auto. intros b [].
Qed.
(** the two estimators agree on a network that the data single out for both *)
Theorem C89_estimators_agree (lg : R -> R) (tau alpha : R) net : log_gamma_equation lg -> (0 < tau)%R -> (0 < alpha)%R -> edges_within vars net ->
  (forall v, In v vars -> exists Pa, faithful_data vars rs v Pa /\ parents_in_data vars rs v Pa /\ forall a, In (a, v) net <-> In a Pa) ->
  eventually (fun n => forall prior known mp es1 p draws dm pn es2, incl known net -> thorough (length vars - 1) p -> (dm = false -> pn <> Some 0) ->
    (forall v, In v vars -> exists a, In a vars /\ a <> v /\ ~ In (a, v) known) -> run prior n known mp es1 ->
    (exists s t est pr est', imports_to vars cards prior (copies n rs) s t /\ new_sb_estimator s t (length vars) known = Ok est
       /\ sb_estimate_structure R (fun cims => get_fam_score lg cims tau alpha) score_gt est draws p dm pn = Ok (es2, pr, est')) ->
    forall e, In e es1 <-> In e es2).
Proof.
  intros Hlg Ht Ha HW HF. destruct (C89_exact_network net HW) as [N1 H1]; [intros v Hv; destruct (HF v Hv) as [Pa [A [_ B]]]; exists Pa; auto|].
  destruct (C88_exact_network vars cards k rs HL HE Hk HC lg tau alpha Hlg Ht Ha net HW) as [N2 H2]; [intros v Hv; destruct (HF v Hv) as [Pa [_ [A B]]]; exists Pa; auto|].
  exists (N1 + N2). intros n Hn prior known mp es1 p draws dm pn es2 HI HT Hpn HCd HX1 HX2 e.
  rewrite (proj2 (H1 n ltac:(lia) prior known mp HI) es1 HX1 e). symmetry. apply (proj2 (H2 n ltac:(lia) prior known p draws dm pn HT HI Hpn HCd) es2 HX2 e).
Qed.
End data.
Print Assumptions C89_tests_decide_dependence. Print Assumptions C89_search_result. Print Assumptions C89_exact_recovery.
Print Assumptions C89_exact_network. Print Assumptions C89_invisible_alone. Print Assumptions C89_estimators_agree.

(** ** quantiles that meet the hypotheses: 1 - 1/(2 sqrt r1) and 1 + 1/(2 sqrt r1) *)
Definition qset : test_params := MkTests (/10) (/10)
  (fun p r1 r2 => if (0 <? r1)%Z && (0 <? r2)%Z then Fin (if Rlt_dec p (/2) then 1 - / (2 * sqrt (IZR r1)) else 1 + / (2 * sqrt (IZR r1)))%R else NaN)
  (fun p df => match df with 0 => NaN | _ => Fin 1 end).
Lemma qset_half r : (0 < r)%Z -> (0 < / (2 * sqrt (IZR r)) <= / 2)%R.
Proof.
  intros H. assert (A : (1 <= sqrt (IZR r))%R) by (rewrite <- sqrt_1; apply sqrt_le_1_alt; apply IZR_le; lia). split; [apply Rinv_0_lt_compat; lra|apply Rinv_le_contravar; lra].
Qed.
Example qset_quantiles : quantiles_ok qset.
Proof.
  split; [|split; [|split; [|split; [|split]]]]; cbn [qset f_ppf chi2_ppf exp_alpha chi_alpha].
  - intros p r1 r2 _ H1 H2. apply Z.ltb_lt in H1 as E1, H2 as E2. rewrite E1, E2. cbn [andb]. eexists. split; [reflexivity|]. pose proof (qset_half r1 H1). destruct (Rlt_dec p (/2)); lra.
  - intros p r1 r2 H. replace ((0 <? r1)%Z && (0 <? r2)%Z) with false; [reflexivity|]. symmetry. apply andb_false_iff. destruct H as [->| ->]; [left|right]; reflexivity.
  - intros p df _ H. destruct df; [lia|]. exists 1%R. split; [reflexivity|lra].
  - reflexivity.
  - lra.
  - lra.
Qed.
Example qset_settle : quantiles_settle qset.
Proof.
  intros m1 m2 eps c H1 H2 He. destruct (INR_above (/ eps * / eps)) as [na Ha]. destruct (INR_above (4 * (c * c) * INR m1)) as [nb Hb]. exists (1 + na + nb). intros n Hn. cbn [qset f_ppf exp_alpha].
  assert (E1 : (0 <? Z.of_nat (n * m1))%Z = true) by (apply Z.ltb_lt; nia). assert (E2 : (0 <? Z.of_nat (n * m2))%Z = true) by (apply Z.ltb_lt; nia). rewrite E1, E2. cbn [andb].
  destruct (Rlt_dec (/ 10 / 2) (/ 2)) as [_|X]; [|exfalso; lra]. destruct (Rlt_dec (1 - / 10 / 2) (/ 2)) as [X|_]; [exfalso; lra|]. rewrite <- INR_IZR_INZ, mult_INR.
  eexists _, _. split; [reflexivity|]. split; [reflexivity|].
  assert (Hn1 : (1 <= INR n)%R) by (apply (le_INR 1); lia). assert (Hm1 : (1 <= INR m1)%R) by (apply (le_INR 1); lia).
  assert (Ha' : (/ eps * / eps < INR n)%R) by (eapply Rgt_lt, Rge_gt_trans; [|exact Ha]; apply Rle_ge, le_INR; lia).
  assert (Hb' : (4 * (c * c) * INR m1 < INR n)%R) by (eapply Rgt_lt, Rge_gt_trans; [|exact Hb]; apply Rle_ge, le_INR; lia).
  assert (PN : (1 <= INR n * INR m1)%R) by nra. set (r := sqrt (INR n * INR m1)). assert (Rr : (r * r = INR n * INR m1)%R) by (apply sqrt_sqrt; lra). assert (R1 : (1 <= r)%R) by (rewrite <- sqrt_1; apply sqrt_le_1_alt; exact PN).
  assert (Small : (/ (2 * r) < eps)%R).
  { pose proof (Rinv_0_lt_compat _ He) as PE. assert (/ eps < r)%R by (apply Rsqr_incrst_0; [unfold Rsqr; nra|lra|lra]).
    rewrite <- (Rinv_inv eps). apply Rinv_lt_contravar; [apply Rmult_lt_0_compat; lra|lra]. }
  assert (Slow : (c / INR n <= / (2 * r))%R).
  { destruct (Rle_dec c 0) as [C|C].
    - apply Rle_trans with 0%R; [|left; apply Rinv_0_lt_compat; lra]. unfold Rdiv. assert (0 < / INR n)%R by (apply Rinv_0_lt_compat; lra). nra.
    - assert (L : (2 * c * r <= INR n)%R) by (apply Rsqr_incr_0; [unfold Rsqr; replace (2 * c * r * (2 * c * r))%R with (4 * (c * c) * (r * r))%R by ring; rewrite Rr; nra|nra|lra]).
      apply Rmult_le_reg_r with (INR n * (2 * r))%R; [apply Rmult_lt_0_compat; lra|]. unfold Rdiv.
      replace (c * / INR n * (INR n * (2 * r)))%R with (2 * c * r)%R by (field; lra). replace (/ (2 * r) * (INR n * (2 * r)))%R with (INR n) by (field; lra). exact L. }
  lra.
Qed.
(** ** binary data: the example of C88 *)
Lemma sub_depends vars cards k rs v K p : legal_input vars cards rs -> equal_cards cards k -> In v vars -> In p vars -> incl K vars ->
  exists K', In K' (all_sub vars) /\ same_set K' K /\ (depends vars rs v K' p -> depends vars rs v K p).
Proof.
  intros HL HE Hv Hp HK. exists (parents_in (struct_of vars cards None) K). pose proof (norm_same vars cards K HK) as S. split; [apply all_sub_In, sublist_filter|]. split; [exact S|].
  apply (depends_ext vars cards k rs HL HE v _ K p Hv Hp); [|exact S]. intros l Hl. apply HK, S, Hl.
Qed.
Example e_faithful v : In v evars -> exists Pa, faithful_data evars eraws v Pa /\ parents_in_data evars eraws v Pa /\ forall a, In (a, v) [("Y","X")%string] <-> In a Pa.
Proof.
  destruct eraws_legal as [HL [HE _]]. intros Hv. cbn in Hv. destruct Hv as [<-|[<-|[<-|[]]]].
  - exists ["Y"%string]. pose proof e_X as EX. split; [|split; [exact EX|intros a; cbn [In]; intuition congruence]]. destruct EX as [X1 [X2 [_ X4]]]. split; [exact X1|]. split; [exact X2|]. split.
    + intros K p HK NX [<-|[]] NY. destruct (sub_depends evars [2;2;2] 2 eraws "X" K "Y" HL HE ltac:(cbn; tauto) ltac:(cbn; tauto) HK) as [K' [S1 [S2 S3]]]. apply S3, e_depends; [apply e_subs, S1| |]; intros I; apply S2 in I; contradiction.
    + intros q Hq Nq NP. apply (X4 ["Y"%string] q X1 X2 (incl_refl _) Hq Nq NP).
  - exists []. split; [|split; [apply e_none; auto|intros a; cbn [In]; intuition congruence]]. split; [intros l []|]. split; [intros []|]. split; [intros K p _ _ []|]. intros q _ _ _. apply e_indep. auto.
  - exists []. split; [|split; [apply e_none; auto|intros a; cbn [In]; intuition congruence]]. split; [intros l []|]. split; [intros []|]. split; [intros K p _ _ []|]. intros q _ _ _. apply e_indep. auto.
Qed.
Example C89_case : exists N, forall n, N <= n -> forall mp,
  exists s t est es est', imports_to evars [2;2;2] None (copies n eraws) s t /\ new_cb_estimator s t 3 [] (Q2Qc (1#4)) (the_tests qset) = Ok est
    /\ cb_estimate_structure est mp = Ok (es, est') /\ forall e, In e es <-> e = ("Y","X")%string.
Proof.
  destruct eraws_legal as [HL [HE HC]].
  destruct (C89_exact_network evars [2;2;2] 2 eraws HL HE ltac:(lia) HC qset (Q2Qc (1#4)) qset_quantiles qset_settle ltac:(left; reflexivity) [("Y","X")%string]) as [N H].
  - intros e [<-|[]]. cbn. tauto.
  - intros v Hv. destruct (e_faithful v Hv) as [Pa [A [_ B]]]. exists Pa. auto.
  - exists N. intros n Hn mp. destruct (H n Hn None [] mp ltac:(intros e [])) as [[es HX] HU]. pose proof (HU es HX) as HE'. destruct HX as [s [t [est [est' [A [B C]]]]]]. exists s, t, est, es, est'.
    split; [exact A|]. split; [exact B|]. split; [exact C|]. intros e. rewrite HE'. cbn. intuition.
Qed.
(** ** three states: X leaves every state three times more slowly unless Y = 0; Y changes at the same rates whatever X *)
Definition tvars : list label := ["X";"Y"].
Definition tX (x y x' : Z) : raw := [(0%Qc, [x; y]); ((if (y =? 0)%Z then 1 else Q2Qc 3)%Qc, [x'; y])].
Definition tY (x y y' : Z) : raw := [(0%Qc, [x; y]); (1%Qc, [x; y'])].
Definition traws : list raw := flat_map (fun x => flat_map (fun y => flat_map (fun z => (if (x =? z)%Z then [] else [tX x y z]) ++ (if (y =? z)%Z then [] else [tY x y z])) [0;1;2]%Z) [0;1;2]%Z) [0;1;2]%Z.
Example traws_legal : legal_input tvars [3;3] traws /\ equal_cards [3;3] 3 /\ Forall clock_strict traws.
Proof.
  split; [|split].
  - split; [|split; [discriminate|split; [reflexivity|split; [|eexists; split; [left; reflexivity|cbn; lia]]]]].
    + unfold good_header. repeat split; try (repeat constructor; cbn; intuition discriminate); try (cbn; intuition discriminate).
    + unfold traws. cbn [flat_map app Z.eqb]. repeat (constructor; [split; [intros ab [<-|[]]; split; repeat constructor; cbn; lia|intros o [<-|[<-|[]]]; reflexivity]|]). constructor.
  - split; [lia|]. intros x [<-|[<-|[]]]; reflexivity.
  - unfold traws. cbn [flat_map app Z.eqb]. repeat (constructor; [intros ab [<-|[]]; reflexivity|]). constructor.
Qed.
Example t_seen v : In v tvars -> every_change_seen tvars 3 traws v.
Proof.
  intros Hv a x y Ha Hx Hy N. unfold changes_given. cbn in Hv. destruct Hv as [<-|[<-|[]]].
  - change (filter _ tvars) with ["Y"%string]. cbn [map]. pose proof (Ha "Y"%string) as H. destruct (a "Y"%string) as [|[|[|]]]; try lia; destruct x as [|[|[|]]]; try lia; destruct y as [|[|[|]]]; try lia; vm_compute; reflexivity.
  - change (filter _ tvars) with ["X"%string]. cbn [map]. pose proof (Ha "X"%string) as H. destruct (a "X"%string) as [|[|[|]]]; try lia; destruct x as [|[|[|]]]; try lia; destruct y as [|[|[|]]]; try lia; vm_compute; reflexivity.
Qed.
Lemma inX : incl ["X"%string] tvars. Proof. intros l [<-|[]]. left. reflexivity. Qed.
Lemma two3 : 2 <= 3. Proof. lia. Qed.
Lemma inY : In "Y"%string tvars. Proof. right. left. reflexivity. Qed.
Lemma t_indep : ~ depends tvars traws "Y" [] "X".
Proof.
  destruct traws_legal as [HL [HE HC]]. intros [a [b [x [y [[_ [_ [C3 C4]]] [N D]]]]]]. assert (I : incl ["X"%string] tvars) by exact inX.
  destruct (observed tvars [3;3] None 3 traws "Y" HL HE two3 inY ["X"%string] a x I C3) as [Hx Ha]. destruct (observed tvars [3;3] None 3 traws "Y" HL HE two3 inY ["X"%string] b x I C4) as [_ Hb].
  specialize (Ha _ (or_introl eq_refl)). specialize (Hb _ (or_introl eq_refl)). clear C3 C4.
  destruct (Nat.lt_ge_cases y 3) as [Hy|Hy].
  - apply D. unfold rate_given, time_given, changes_given. cbn [map].
    destruct (a "X"%string) as [|[|[|]]]; try lia; destruct (b "X"%string) as [|[|[|]]]; try lia; destruct x as [|[|[|]]]; try lia; destruct y as [|[|[|]]]; try lia; vm_compute; reflexivity.
  - apply D. unfold rate_given. rewrite !(changes_alt tvars [3;3] None 3 traws "Y" HL HE inY) by exact I. rewrite !(jumps_big tvars [3;3] None 3 traws "Y" HL HE two3 inY) by exact Hy.
    unfold Qcdiv. change (Qc_of_Z 0) with 0%Qc. rewrite !Qcmult_0_l. reflexivity.
Qed.
Lemma t_depends : depends tvars traws "X" [] "Y".
Proof.
  exists (fun _ => 0), (fun _ => 1), 0, 1. split; [|split; [discriminate|vm_compute; discriminate]]. split; [intros l []|]. split; [discriminate|]. split; reflexivity.
Qed.
Example t_faithful v : In v tvars -> exists Pa, faithful_data tvars traws v Pa /\ forall a, In (a, v) [("Y","X")%string] <-> In a Pa.
Proof.
  destruct traws_legal as [HL [HE _]]. intros Hv. cbn in Hv. destruct Hv as [<-|[<-|[]]].
  - exists ["Y"%string]. split; [|intros a; cbn [In]; intuition congruence]. split; [intros l [<-|[]]; cbn; tauto|]. split; [intros [X|[]]; discriminate|]. split.
    + intros K p HK NX [<-|[]] NY. destruct K as [|q K]; [exact t_depends|]. exfalso. destruct (HK q (or_introl eq_refl)) as [<-|[<-|[]]]; [apply NX|apply NY]; left; reflexivity.
    + intros q Hq Nq NP. exfalso. cbn in Hq. destruct Hq as [<-|[<-|[]]]; [congruence|apply NP; left; reflexivity].
  - exists []. split; [|intros a; cbn [In]; intuition congruence]. split; [intros l []|]. split; [intros []|]. split; [intros K p _ _ []|]. intros q Hq Nq _. cbn in Hq. destruct Hq as [<-|[<-|[]]]; [exact t_indep|congruence].
Qed.
Example C89_case_three_states : exists N, forall n, N <= n -> forall mp,
  exists s t est es est', imports_to tvars [3;3] None (copies n traws) s t /\ new_cb_estimator s t 2 [] (Q2Qc 25) (the_tests qset) = Ok est
    /\ cb_estimate_structure est mp = Ok (es, est') /\ forall e, In e es <-> e = ("Y","X")%string.
Proof.
  destruct traws_legal as [HL [HE HC]].
  destruct (C89_exact_network tvars [3;3] 3 traws HL HE ltac:(lia) HC qset (Q2Qc 25) qset_quantiles qset_settle (or_intror t_seen) [("Y","X")%string]) as [N H].
  - intros e [<-|[]]. cbn. tauto.
  - exact t_faithful.
  - exists N. intros n Hn mp. destruct (H n Hn None [] mp ltac:(intros e [])) as [[es HX] HU]. pose proof (HU es HX) as HE'. destruct HX as [s [t [est [est' [A [B C]]]]]]. exists s, t, est, es, est'.
    split; [exact A|]. split; [exact B|]. split; [exact C|]. intros e. rewrite HE'. cbn. intuition.
Qed.
(** ** a parent that is invisible on its own: X changes if and only if Y and Z differ *)
Definition xraw (x y z : Z) : raw := [(0%Qc, [x; y; z]); (1%Qc, [if (y =? z)%Z then x else (1 - x)%Z; y; z])].
Definition xraws : list raw := [xraw 0 0 0; xraw 0 0 1; xraw 0 1 0; xraw 0 1 1; xraw 1 0 0; xraw 1 0 1; xraw 1 1 0; xraw 1 1 1].
Example xraws_legal : legal_input evars [2;2;2] xraws /\ equal_cards [2;2;2] 2 /\ Forall clock_strict xraws.
Proof.
  split; [|split].
  - split; [|split; [discriminate|split; [reflexivity|split; [|eexists; split; [left; reflexivity|cbn; lia]]]]].
    + unfold good_header. repeat split; try (repeat constructor; cbn; intuition discriminate); try (cbn; intuition discriminate).
    + repeat (constructor; [split; [intros ab [<-|[]]; split; repeat constructor; cbn; lia|intros o [<-|[<-|[]]]; reflexivity]|]). constructor.
  - split; [lia|]. intros x [<-|[<-|[<-|[]]]]; reflexivity.
  - repeat (constructor; [intros ab [<-|[]]; reflexivity|]). constructor.
Qed.
Lemma inXe : In "X"%string evars. Proof. left. reflexivity. Qed.
Lemma inq q : q = "Y"%string \/ q = "Z"%string -> incl [q] evars. Proof. intros Hq l [<-|[]]. destruct Hq as [-> | ->]; cbn; tauto. Qed.
Lemma x_indep q : q = "Y"%string \/ q = "Z"%string -> ~ depends evars xraws "X" [] q.
Proof.
  destruct xraws_legal as [HL [HE HC]]. intros Hq [a [b [x [y [[_ [_ [C3 C4]]] [N D]]]]]]. assert (I : incl [q] evars) by exact (inq q Hq).
  destruct (observed evars [2;2;2] None 2 xraws "X" HL HE (le_n 2) inXe [q] a x I C3) as [Hx Ha]. destruct (observed evars [2;2;2] None 2 xraws "X" HL HE (le_n 2) inXe [q] b x I C4) as [_ Hb].
  specialize (Ha _ (or_introl eq_refl)). specialize (Hb _ (or_introl eq_refl)). clear C3 C4.
  destruct (Nat.lt_ge_cases y 2) as [Hy|Hy].
  - apply D. unfold rate_given, time_given, changes_given. cbn [map].
    destruct (a q) as [|[|]]; try lia; destruct (b q) as [|[|]]; try lia; destruct x as [|[|]]; try lia; destruct y as [|[|]]; try lia; destruct Hq as [-> | ->]; vm_compute; reflexivity.
  - apply D. unfold rate_given. rewrite !(changes_alt evars [2;2;2] None 2 xraws "X" HL HE inXe) by exact I. rewrite !(jumps_big evars [2;2;2] None 2 xraws "X" HL HE (le_n 2) inXe) by exact Hy.
    unfold Qcdiv. change (Qc_of_Z 0) with 0%Qc. rewrite !Qcmult_0_l. reflexivity.
Qed.
(** given Z, X depends on Y (and given Y on Z), but no edge into X is ever reported *)
Example C89_case_invisible : depends evars xraws "X" ["Z"%string] "Y" /\ depends evars xraws "X" ["Y"%string] "Z"
  /\ exists N, forall n, N <= n -> forall mp s t est es est', imports_to evars [2;2;2] None (copies n xraws) s t -> new_cb_estimator s t 3 [] (Q2Qc (1#4)) (the_tests qset) = Ok est ->
    cb_estimate_structure est mp = Ok (es, est') -> ~ In ("Y","X")%string es /\ ~ In ("Z","X")%string es.
Proof.
  destruct xraws_legal as [HL [HE HC]]. split; [|split].
  - exists (fun _ => 0), (fun l => if String.eqb l "Y" then 1 else 0), 0, 1. split; [|split; [discriminate|vm_compute; discriminate]]. split; [intros l [<-|[]]; reflexivity|]. split; [discriminate|]. split; reflexivity.
  - exists (fun _ => 0), (fun l => if String.eqb l "Z" then 1 else 0), 0, 1. split; [|split; [discriminate|vm_compute; discriminate]]. split; [intros l [<-|[]]; reflexivity|]. split; [discriminate|]. split; reflexivity.
  - destruct (C89_invisible_alone evars [2;2;2] 2 xraws HL HE ltac:(lia) HC qset (Q2Qc (1#4)) qset_quantiles qset_settle ltac:(left; reflexivity)) as [N H]. exists N. intros n Hn mp s t est es est' A B C.
    assert (X : exists s t est est', imports_to evars [2;2;2] None (copies n xraws) s t /\ new_cb_estimator s t (length evars) [] (Q2Qc (1#4)) (the_tests qset) = Ok est /\ cb_estimate_structure est mp = Ok (es, est')) by (exists s, t, est, est'; auto).
    split; apply (H n Hn None [] mp es "X"%string _ X); try (cbn; tauto); [apply x_indep; left|apply x_indep; right]; reflexivity.
Qed.
