(** C88: what the score-based estimator returns for enough copies of the data. *)
From Coq Require Import Reals Lra Classical_Prop.
From Verif Require Import Base Lib LibQc ModelStructure ModelGraph ModelCims ModelData ModelParams ModelCache ModelCtpc ModelSearch ModelFamScore ModelEstimators
  SpecStructure SpecGraph SpecComb SpecParams SpecData SpecCtpc SpecSearch SpecLocalOpt SpecFamScore SpecEstimators SpecInvariance SpecBias SpecEnough SpecFloating
  ProofStructure ProofGraph ProofComb ProofParams ProofCtpc ProofCtpc2 ProofSearch ProofSearch3 ProofCache ProofFew ProofFew2 ProofEstimators2
  ProofInvariance ProofBias ProofEnough2 ProofEnough3 ProofEnough4 ProofLocalOpt2 ProofCost2.
Close Scope R_scope. Open Scope nat_scope.

Lemma all_eventually {A} (Q : A -> nat -> Prop) l : (forall x, In x l -> exists n0, forall n, n0 <= n -> Q x n) -> exists n0, forall n, n0 <= n -> forall x, In x l -> Q x n.
Proof.
  induction l as [|a l IH]; intros H; [exists 0; intros n _ x []|]. destruct (IH (fun x Hx => H x (or_intror Hx))) as [n1 H1]. destruct (H a (or_introl eq_refl)) as [n2 H2].
  exists (n1 + n2). intros n Hn x [<-|Hx]; [apply H2; lia|apply H1; [lia|exact Hx]].
Qed.

Section enough.
Variables (vars : list label) (cards : list nat) (k : nat) (rs : list raw).
Hypothesis HL : legal_input vars cards rs.
Hypothesis HE : equal_cards cards k.
Hypothesis Hk : 2 <= k.
Hypothesis HC : Forall clock_strict rs.
Variables (lg : R -> R) (tau alpha : R).
Hypothesis Hlg : log_gamma_equation lg.
Hypothesis Ht : (0 < tau)%R.
Hypothesis Ha : (0 < alpha)%R.
Let s := struct_of vars cards None.
Notation score := (fun cims => get_fam_score lg cims tau alpha).
Notation famn n v P := (fam vars cards None k v tau alpha (copies n rs) P).
Lemma e_wf : wf_structure s.
Proof. apply (legal_wf vars cards None rs HL). Qed.
Lemma given_ext v P P' a x : In v vars -> incl P vars -> same_set P P' -> time_given vars rs v P a x = time_given vars rs v P' a x /\ forall y, changes_given vars rs v P a x y = changes_given vars rs v P' a x y.
Proof.
  intros Hv HP HS. assert (HP' : incl P' vars) by (intros l Hl; apply HP, HS, Hl). pose proof (parents_in_ext s P P' HS) as E. split; [|intros y].
  - rewrite !(time_alt vars cards None k rs v HL HE Hv) by assumption. unfold cols_of. fold s. rewrite E. reflexivity.
  - rewrite !(changes_alt vars cards None k rs v HL HE Hv) by assumption. unfold cols_of. fold s. rewrite E. reflexivity.
Qed.
Lemma cons_same (p : label) K K' : same_set K K' -> same_set (p :: K) (p :: K').
Proof. intros H x. cbn [In]. rewrite (H x). tauto. Qed.
Lemma comparable_ext v K K' p a b x : In v vars -> In p vars -> incl K vars -> same_set K K' -> comparable vars rs v K p a b x -> comparable vars rs v K' p a b x.
Proof.
  intros Hv Hp HK HS [H1 [H2 [H3 H4]]]. assert (HI : incl (p :: K) vars) by (intros l [<-|Hl]; auto). unfold comparable.
  rewrite <- (proj1 (given_ext v _ _ a x Hv HI (cons_same p K K' HS))), <- (proj1 (given_ext v _ _ b x Hv HI (cons_same p K K' HS))).
  split; [intros l Hl; apply H1, HS, Hl|auto].
Qed.
Lemma depends_ext v K K' p : In v vars -> In p vars -> incl K vars -> same_set K K' -> depends vars rs v K p -> depends vars rs v K' p.
Proof.
  intros Hv Hp HK HS [a [b [x [y [H1 [H2 H3]]]]]]. exists a, b, x, y. split; [apply (comparable_ext v K); assumption|]. split; [exact H2|]. assert (HI : incl (p :: K) vars) by (intros l [<-|Hl]; auto).
  unfold rate_given in *. destruct (given_ext v _ _ a x Hv HI (cons_same p K K' HS)) as [F E]. destruct (given_ext v _ _ b x Hv HI (cons_same p K K' HS)) as [F' E']. rewrite <- E, <- E', <- F, <- F'. exact H3.
Qed.
Lemma varies_ext v K K' p : In v vars -> In p vars -> incl K vars -> same_set K K' -> varies vars rs v K p -> varies vars rs v K' p.
Proof. intros Hv Hp HK HS [a [b [x H]]]. exists a, b, x. apply (comparable_ext v K); assumption. Qed.
Lemma famn_ext n v P P' : same_set P P' -> famn n v P = famn n v P'.
Proof. intros HS. unfold fam, cols_of. fold s. rewrite (parents_in_ext s P P' HS). reflexivity. Qed.
Lemma norm_same K : incl K vars -> same_set (parents_in s K) K.
Proof. intros HK x. unfold parents_in. rewrite filter_In, lmem_In. split; [tauto|]. intros H. split; [apply HK, H|exact H]. Qed.
Lemma same_symm (K K' : list label) : same_set K K' -> same_set K' K.
Proof. intros H x. symmetry. apply H. Qed.

Definition good (n : nat) (v : label) (K : list label) (p : label) : Prop :=
  (depends vars rs v K p -> (famn n v K < famn n v (p :: K))%R)
  /\ (~ depends vars rs v K p -> varies vars rs v K p -> (famn n v (p :: K) < famn n v K)%R)
  /\ (~ varies vars rs v K p -> famn n v (p :: K) = famn n v K).
Lemma good_one v K p : In v vars -> In p vars -> ~ In p K -> incl K vars -> exists n0, forall n, n0 <= n -> good n v K p.
Proof.
  intros Hv Hp HpK HK. pose proof (fun n => case_constant vars cards None k rs v HL HE Hk HC Hv tau alpha Ha p K Hp HpK HK n) as C3.
  destruct (classic (depends vars rs v K p)) as [D|D].
  - destruct (case_depends vars cards None k rs v HL HE Hk HC Hv tau alpha Ht Ha p K Hp HpK HK D) as [n0 [_ H]]. exists n0. intros n Hn. split; [intros _; apply H, Hn|]. split; [contradiction|apply C3].
  - destruct (classic (varies vars rs v K p)) as [V|V].
    + destruct (case_independent vars cards None k rs v HL HE Hk HC Hv tau alpha Ht Ha p K Hp HpK HK D V) as [n0 [_ H]]. exists n0. intros n Hn. split; [contradiction|]. split; [intros; apply H, Hn|contradiction].
    + exists 0. intros n _. split; [contradiction|]. split; [contradiction|apply C3].
Qed.
Lemma good_all : exists n0, 1 <= n0 /\ forall n, n0 <= n -> forall v K p, In v vars -> In p vars -> ~ In p K -> incl K vars -> good n v K p.
Proof.
  destruct (all_eventually (fun (x : label * (list label * label)) n => let '(v, (K, p)) := x in ~ In p K -> good n v K p) (list_prod vars (list_prod (all_sub vars) vars))) as [n0 H].
  - intros [v [K p]] Hx. apply in_prod_iff in Hx as [Hv Hx]. apply in_prod_iff in Hx as [HK Hp]. apply all_sub_In in HK. destruct (in_dec string_dec p K) as [I|I]; [exists 0; intros n _ C; contradiction|].
    destruct (good_one v K p Hv Hp I ltac:(intros l Hl; exact (sublist_In _ _ l HK Hl))) as [n0 H]. exists n0. intros n Hn _. apply H, Hn.
  - exists (S n0). split; [lia|]. intros n Hn v K p Hv Hp HpK HK. pose proof (norm_same K HK) as NS.
    assert (HK' : incl (parents_in s K) vars) by (intros l Hl; apply HK, NS, Hl).
    assert (G : good n v (parents_in s K) p).
    { apply (H n ltac:(lia) (v, (parents_in s K, p))); [|intros I; apply HpK, NS, I]. apply in_prod_iff. split; [exact Hv|]. apply in_prod_iff. split; [|exact Hp]. apply all_sub_In, sublist_filter. }
    destruct G as [G1 [G2 G3]]. pose proof (famn_ext n v _ _ NS) as E1. pose proof (famn_ext n v _ _ (cons_same p _ _ NS)) as E2. rewrite E1, E2 in G1, G2, G3. split; [|split].
    + intros D. apply G1. apply (depends_ext v K); try assumption. apply same_symm, NS.
    + intros D V. apply G2; [|apply (varies_ext v K); try assumption; apply same_symm, NS]. intros D'. apply D. apply (depends_ext v (parents_in s K)); assumption.
    + intros V. apply G3. intros V'. apply V. apply (varies_ext v (parents_in s K)); assumption.
Qed.
(** ** scores *)
Lemma n_ready v : In v vars -> exists m, search_ready s [] m v.
Proof. intros Hv. eexists. split; [exact e_wf|]. split; [reflexivity|]. split; [reflexivity|]. split; [intros e []|]. split; [reflexivity|exact Hv]. Qed.
Lemma n_score n v known m es P : search_ready s known m v -> 1 <= n -> NoDup P -> incl P vars -> (forall e, In e es <-> In e (edges_into v P)) ->
  score_of score (traj_of vars (copies n rs)) s v es = Ok (famn n v P).
Proof.
  intros HR Hn NP HP He. rewrite (score_of_pscore R score _ s known m v HR es P NP HP He).
  apply (fam_pscore vars cards None k rs v HL HE Hk ltac:(apply HR) lg tau alpha Hlg Ht Ha); [apply copies_legal; [lia|exact HL]|apply copies_clock, strict_ok, HC|exact HP].
Qed.
Lemma gt_iff a b : score_gt a b = true <-> (b < a)%R.
Proof. unfold score_gt. destruct (Rgt_dec a b) as [H|H]; split; intros; try discriminate; auto; lra. Qed.

(** ** local optima *)
Section result.
Variables (n : nat) (known : list edge) (m : list (list bool)) (v : label) (es : list edge) (X : list label).
Hypothesis Hn : 1 <= n.
Hypothesis HG : forall v K p, In v vars -> In p vars -> ~ In p K -> incl K vars -> good n v K p.
Hypothesis HR : search_ready s known m v.
Hypothesis HO : locally_optimal score score_gt (traj_of vars (copies n rs)) s v None (candidate_parents s known v) es.
Hypothesis NX : NoDup X.
Hypothesis HX : incl X vars.
Hypothesis HXe : forall e, In e es <-> In e (edges_into v X).
Lemma v_in : In v vars. Proof. apply HR. Qed.
Lemma X_In p : In (p, v) es <-> In p X.
Proof. rewrite HXe, edges_into_In. cbn [fst snd]. tauto. Qed.
Lemma result_complete p : In p vars -> p <> v -> ~ In p X -> (forall a, In (a, v) known -> In a X) -> ~ depends vars rs v X p.
Proof.
  intros Hp Hpv HpX HK D. assert (Hc : In p (candidate_parents s known v)).
  { apply (candidates_In s known v). split; [exact Hp|]. split; [exact Hpv|]. intros H. apply HpX, HK, H. }
  assert (NI : ~ In (p, v) es) by (rewrite X_In; exact HpX).
  assert (HI : incl (p :: X) vars) by (intros l [<-|Hl]; auto).
  pose proof (HO p (edges_into v (p :: X)) (famn n v X) (famn n v (p :: X)) Hc) as H.
  assert (score_gt (famn n v (p :: X)) (famn n v X) = false).
  { apply H; [right; split; [exact NI|]|right; exact I|apply (n_score n v known m); auto|apply (n_score n v known m); auto; [constructor; assumption|tauto]].
    intros e. rewrite HXe, !edges_into_In. destruct e as [a b]. cbn [fst snd In]. split; [intros [[<-|A] ->]; auto|]. intros [[A ->]|E]; [auto|]. injection E as -> ->. auto. }
  pose proof (proj1 (HG v X p v_in Hp HpX HX) D) as L. apply gt_iff in L. congruence.
Qed.
Lemma result_minimal p K : In p X -> p <> v -> ~ In (p, v) known -> (forall a, In a K <-> In a X /\ a <> p) -> depends vars rs v K p \/ ~ varies vars rs v K p.
Proof.
  intros HpX Hpv Hpk HK. destruct (classic (depends vars rs v K p)) as [D|D]; [left; exact D|]. right. intros V. assert (Hp : In p vars) by (apply HX, HpX).
  set (K' := nodup string_dec K). assert (HK' : forall a, In a K' <-> In a X /\ a <> p) by (intros a; unfold K'; rewrite nodup_In; apply HK).
  assert (IK : incl K' vars) by (intros l Hl; apply HK' in Hl as [Hl _]; apply HX, Hl). assert (NK : ~ In p K') by (intros H; apply HK' in H as [_ H]; apply H; reflexivity).
  assert (SS : same_set K K') by (intros x; unfold K'; rewrite nodup_In; tauto). assert (IK0 : incl K vars) by (intros l Hl; apply IK, SS, Hl).
  assert (SX : same_set (p :: K') X). { intros x. cbn [In]. rewrite HK'. split; [intros [<-|H]; [exact HpX|tauto]|]. intros H. destruct (string_dec p x); [left; assumption|right; split; [exact H|congruence]]. }
  assert (Hc : In p (candidate_parents s known v)) by (apply (candidates_In s known v); auto).
  pose proof (HO p (edges_into v K') (famn n v X) (famn n v K') Hc) as H.
  assert (score_gt (famn n v K') (famn n v X) = false).
  { apply H; [left; split; [apply X_In, HpX|]|left; apply X_In, HpX|apply (n_score n v known m); auto|apply (n_score n v known m); auto; [apply NoDup_nodup|tauto]].
    intros e. rewrite HXe, !edges_into_In, HK'. destruct e as [a b]. cbn [fst snd]. split; [intros [[A B] ->]; split; [auto|congruence]|]. intros [[A ->] B]. split; [|reflexivity]. split; [exact A|congruence]. }
  assert (L : (famn n v (p :: K') < famn n v K')%R).
  { apply (HG v K' p v_in Hp NK IK); [intros D'; apply D; apply (depends_ext v K'); auto; [exact v_in|apply same_symm, SS]|apply (varies_ext v K); auto; exact v_in]. }
  rewrite (famn_ext n v _ _ SX) in L. apply gt_iff in L. congruence.
Qed.
End result.
Lemma cands_bound known v : In v vars -> length (candidate_parents s known v) <= length vars - 1.
Proof.
  intros Hv. assert (N : NoDup (v :: candidate_parents s known v)).
  { constructor; [intros H; apply (candidates_In s known v) in H; tauto|]. apply NoDup_filter', e_wf. }
  assert (I : incl (v :: candidate_parents s known v) vars) by (intros l [<-|Hl]; [exact Hv|apply (candidates_In s known v) in Hl; tauto]).
  apply NoDup_incl_length in I; [|exact N]. cbn [length] in I. lia.
Qed.
Lemma pow_mono a b : a <= b -> a * 2 ^ a <= b * 2 ^ b.
Proof. intros H. apply Nat.mul_le_mono; [exact H|apply Nat.pow_le_mono_r; lia]. Qed.
(** the parent set that the estimator reports for [v] *)
Lemma estimate_optimal n prior known est draws p dm pn es pr est' v : 1 <= n ->
  new_sb_estimator (struct_of vars cards prior) (traj_of vars (copies n rs)) (length vars) known = Ok est -> thorough (length vars - 1) p ->
  sb_estimate_structure R score score_gt est draws p dm pn = Ok (es, pr, est') -> In v vars ->
  exists m esv X, search_ready s known m v /\ locally_optimal score score_gt (traj_of vars (copies n rs)) s v None (candidate_parents s known v) esv
   /\ NoDup X /\ incl X vars /\ (forall e, In e esv <-> In e (edges_into v X)) /\ (forall a, In a X <-> In (a, v) es) /\ (forall a, In (a, v) known -> In a X) /\ (~ In (v, v) known -> ~ In v X).
Proof.
  intros Hn HN [T1 [T2 [T3 [T4 [T5 T6]]]]] H Hv. assert (HL' : legal_input vars cards (copies n rs)) by (apply copies_legal; [lia|exact HL]).
  destruct (new_sb_ready _ _ known est (legal_wf vars cards prior _ HL') eq_refl HN) as [Hr [Es Et]].
  assert (Hv' : In v (nodes_labels (sb_struct est))) by (rewrite Es; exact Hv).
  destruct (sb_parents R score score_gt est draws p known Hr dm pn es pr est' v H Hv') as [esv [E1 [_ E3]]]. pose proof (sb_search_ready est known v Hr Hv') as HR.
  unfold estimate_parents in E1. rewrite T1 in E1. cbn [String.eqb Ascii.eqb Bool.eqb] in E1. apply bind_ok in E1 as [[es0 tr] [E1 E]]. injection E as ->. rewrite T2 in E1.
  cbn [sb_cleaned sb_struct sb_traj sb_matrix] in E1, HR. rewrite Es in E1, HR. rewrite Et in E1. change (clean_structure_edges (struct_of vars cards prior)) with s in E1, HR.
  pose proof (cands_bound known v Hv) as CB. exists (sb_matrix est), esv.
  destruct (tabu_outcome _ _ _ _ _ _ _ _ _ HR _ _ _ _ _ _ _ E1) as [HO _].
  assert (WD : forall o, (forall x, o = Some x -> length vars - 1 <= x) -> length (candidate_parents s known v) <= opt_default o (length (candidate_parents s known v))).
  { intros [x|] Ho; cbn [opt_default]; [specialize (Ho x eq_refl); lia|lia]. }
  pose proof (tabu_enough _ _ _ _ _ _ _ _ _ HR _ _ _ _ _ _ E1 (WD _ T3) (WD _ T4) gt_order ltac:(intros x Hx; specialize (T5 x Hx); lia) ltac:(pose proof (pow_mono _ _ CB); lia)) as LO.
  destruct (concl_path R score score_gt _ s known _ v HR None _ _ esv _ HO) as [Q [NQ [HP [_ HQ]]]]. exists Q. split; [exact HR|]. split; [exact LO|]. split; [exact NQ|].
  assert (SH := concl_shape R score score_gt _ s known _ v HR None _ _ esv _ HO).
  assert (QI : forall a, In a Q <-> In (a, v) esv) by (intros a; rewrite HQ, edges_into_In; cbn [fst snd]; tauto).
  split; [intros a Ha'; apply QI in Ha'; exact (proj1 (proj2 (proj2 SH a v Ha')))|]. split; [exact HQ|]. split; [intros a; rewrite QI, E3; tauto|]. split.
  - intros a Hak. apply QI. apply (concl_known R score score_gt _ s known _ v HR None _ _ esv _ HO); [reflexivity|exact Hak].
  - intros Hvv HvQ. apply QI in HvQ. destruct (proj2 (proj2 (proj2 SH v v HvQ))) as [A|A]; [congruence|contradiction].
Qed.

(** ** the parents in the data *)
Section unique.
Variables (n : nat) (v : label) (Pa : list label).
Hypothesis HG : forall v K p, In v vars -> In p vars -> ~ In p K -> incl K vars -> good n v K p.
Hypothesis Hv : In v vars.
Hypothesis HPa : parents_in_data vars rs v Pa.
Lemma shrink : forall c K, incl K vars -> ~ In v K -> incl Pa K -> NoDup K -> length K <= c -> (famn n v K <= famn n v Pa)%R /\ (forall q, In q K -> ~ In q Pa -> (famn n v K < famn n v Pa)%R).
Proof.
  destruct HPa as [P1 [P2 [P3 P4]]]. induction c as [|c IH]; intros K HK NV HI ND HL'.
  - destruct K; [|cbn in HL'; lia]. split; [|intros q []]. rewrite (famn_ext n v [] Pa); [lra|]. intros x. split; [intros []|apply HI].
  - assert (DEC : (exists q, In q K /\ ~ In q Pa) \/ incl K Pa).
    { clear -K. induction K as [|q K IH]; [right; intros x []|]. destruct IH as [[q' [A B]]|IH]; [left; exists q'; cbn; auto|]. destruct (in_dec string_dec q Pa) as [I|I]; [right; intros x [<-|Hx]; auto|left; exists q; cbn; auto]. }
    destruct DEC as [[q [Q1 Q2]]|Q].
    + set (K' := filter (fun x => negb (String.eqb x q)) K). assert (HK' : forall x, In x K' <-> In x K /\ x <> q) by (intros x; unfold K'; rewrite filter_In, negb_true_iff, String.eqb_neq; tauto).
      assert (SX : same_set (q :: K') K) by (intros x; cbn [In]; rewrite HK'; split; [intros [<-|H]; tauto|]; intros H; destruct (string_dec q x); [left; assumption|right; split; congruence]).
      assert (I1 : incl K' vars) by (intros x Hx; apply HK, HK', Hx). assert (I2 : ~ In v K') by (intros Hx; apply HK' in Hx; tauto). assert (I3 : incl Pa K') by (intros x Hx; apply HK'; split; [apply HI, Hx|intros ->; contradiction]).
      assert (I4 : ~ In q K') by (intros Hx; apply HK' in Hx; tauto). assert (I5 : NoDup K') by (apply NoDup_filter', ND). assert (I6 : length K' <= c).
      { assert (length (q :: K') <= length K) by (apply NoDup_incl_length; [constructor; assumption|intros x Hx; apply SX, Hx]). cbn [length] in H. lia. }
      destruct (IH K' I1 I2 I3 I5 I6) as [L1 _]. assert (qv : q <> v) by (intros ->; contradiction). destruct (P4 K' q I1 I2 I3 (HK q Q1) qv I4) as [D V].
      pose proof (proj1 (proj2 (HG v K' q Hv (HK q Q1) I4 I1)) D V) as L2. rewrite (famn_ext n v _ _ SX) in L2. split; [lra|]. intros q' _ _. lra.
    + rewrite (famn_ext n v K Pa) by (intros x; split; [apply Q|apply HI]). split; [lra|]. intros q Hq Nq. exfalso. apply Nq, Q, Hq.
Qed.
Lemma best K : incl K vars -> ~ In v K -> ~ same_set K Pa -> (famn n v K < famn n v Pa)%R.
Proof.
  intros HK NV NS. destruct HPa as [P1 [P2 [P3 P4]]].
  assert (G : forall c K, incl K vars -> ~ In v K -> length (filter (fun q => negb (lmem q K)) Pa) <= c -> (famn n v K <= famn n v Pa)%R /\ ((exists q, In q Pa /\ ~ In q K) -> (famn n v K < famn n v Pa)%R)).
  { induction c as [|c IH]; intros K0 HK0 NV0 HLc.
    - assert (I : incl Pa K0). { intros q Hq. destruct (in_dec string_dec q K0) as [I|I]; [exact I|]. exfalso. assert (In q (filter (fun q => negb (lmem q K0)) Pa)) by (apply filter_In; split; [exact Hq|]; apply negb_true_iff, lmem_false, I).
        destruct (filter (fun q => negb (lmem q K0)) Pa); [contradiction|cbn in HLc; lia]. }
      split; [|intros [q [A B]]; exfalso; apply B, I, A].
      assert (SS : same_set (nodup string_dec K0) K0) by (intros x; apply nodup_In). rewrite <- (famn_ext n v _ _ SS).
      apply (shrink (length (nodup string_dec K0)) (nodup string_dec K0)); [intros x Hx; apply HK0, SS, Hx|intros Hx; apply NV0, SS, Hx|intros x Hx; apply SS, I, Hx|apply NoDup_nodup|lia].
    - destruct (filter (fun q => negb (lmem q K0)) Pa) as [|q0 r0] eqn:EF; [apply IH; [assumption|assumption|rewrite EF; cbn; lia]|].
      assert (Q0 : In q0 (filter (fun q => negb (lmem q K0)) Pa)) by (rewrite EF; left; reflexivity). apply filter_In in Q0 as [Q0 Q1]. apply negb_true_iff, lmem_false in Q1.
      destruct (P3 K0 q0 HK0 NV0 Q0 Q1) as [p [A1 [A2 A3]]]. assert (HpV : In p vars) by (apply P1, A1). pose proof (proj1 (HG v K0 p Hv HpV A2 HK0) A3) as L1.
      destruct (IH (p :: K0)) as [L2 _]; [intros x [<-|Hx]; auto|intros [<-|Hx]; contradiction| |split; [lra|intros _; lra]].
      assert (LT : length (filter (fun q => negb (lmem q (p :: K0))) Pa) < length (filter (fun q => negb (lmem q K0)) Pa)).
      { clear -A1 A2. assert (W : forall q, negb (lmem q (p :: K0)) = negb (String.eqb q p) && negb (lmem q K0)).
        { intros q. apply eq_true_iff_eq. rewrite andb_true_iff, !negb_true_iff, !lmem_false, String.eqb_neq. cbn [In]. split; [intros H; split; [intros ->|]; tauto|]. intros [B1 B2] [B|B]; [congruence|tauto]. }
        rewrite (filter_ext _ _ W). assert (LE : forall l, length (filter (fun q => negb (String.eqb q p) && negb (lmem q K0)) l) <= length (filter (fun q => negb (lmem q K0)) l)).
        { induction l as [|x l IHl]; [cbn; lia|]. cbn [filter]. destruct (negb (lmem x K0)); rewrite ?andb_true_r, ?andb_false_r; [|exact IHl]. destruct (negb (String.eqb x p)); cbn [length]; lia. }
        induction Pa as [|x l IHl]; [destruct A1|]. cbn [filter]. destruct A1 as [<-|A1].
        - rewrite String.eqb_refl. cbn [negb andb]. apply lmem_false in A2. rewrite A2. cbn [negb length]. specialize (LE l). lia.
        - specialize (IHl A1). destruct (negb (lmem x K0)); rewrite ?andb_true_r, ?andb_false_r; [|exact IHl]. destruct (negb (String.eqb x p)); cbn [length]; lia. }
      rewrite EF in LT. cbn [length] in LT, HLc. lia. }
  destruct (G (length (filter (fun q => negb (lmem q K)) Pa)) K HK NV ltac:(lia)) as [L1 L2].
  destruct (classic (exists q, In q Pa /\ ~ In q K)) as [X|X]; [apply L2, X|].
  assert (I : incl Pa K) by (intros q Hq; destruct (in_dec string_dec q K); [assumption|exfalso; apply X; exists q; auto]).
  destruct (classic (exists q, In q K /\ ~ In q Pa)) as [[q [Y1 Y2]]|Y].
  - assert (SS : same_set (nodup string_dec K) K) by (intros x; apply nodup_In). rewrite <- (famn_ext n v _ _ SS).
    apply (proj2 (shrink (length (nodup string_dec K)) (nodup string_dec K) ltac:(intros x Hx; apply HK, SS, Hx) ltac:(intros Hx; apply NV, SS, Hx) ltac:(intros x Hx; apply SS, I, Hx) (NoDup_nodup _ _) ltac:(lia)) q); [apply SS, Y1|exact Y2].
  - exfalso. apply NS. intros q. split; [|apply I]. intros Hq. destruct (in_dec string_dec q Pa); [assumption|exfalso; apply Y; exists q; auto].
Qed.
End unique.
End enough.
