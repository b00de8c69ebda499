(** Property theorems C88: what the score-based estimator learns from enough data. *)
From Coq Require Import Reals Lra Classical_Prop.
From Verif Require Import Base Lib LibQc ModelStructure ModelGraph ModelCims ModelData ModelParams ModelCache ModelCtpc ModelSearch ModelFamScore ModelEstimators
  SpecStructure SpecGraph SpecComb SpecParams SpecData SpecCtpc SpecSearch SpecLocalOpt SpecFamScore SpecEstimators SpecInvariance SpecBias SpecEnough SpecFloating
  ProofStructure ProofGraph ProofSearch ProofSearch3 ProofInvariance ProofBias ProofEnough2 ProofCost2 ProofEnough3 ProofEnough4 ProofEnough5 ProofEnough6 PropsFamScore PropsReturns.
Close Scope R_scope. Open Scope nat_scope.

Section data.
Variables (vars : list label) (cards : list nat) (k : nat) (rs : list raw).
Hypothesis HL : legal_input vars cards rs.
Hypothesis HE : equal_cards cards k.
Hypothesis Hk : 2 <= k.
Hypothesis HC : Forall clock_strict rs.
Variables (lg : R -> R) (tau alpha : R).
Hypothesis Hlg : log_gamma_equation lg.
Hypothesis Ht : (0 < tau)%R.
Hypothesis Ha : (0 < alpha)%R.
Notation score := (fun cims => get_fam_score lg cims tau alpha).
(** [scores n v K K' less]: for [n] copies of the data the scores of [v] with the parents [K] and [K'] exist and are related *)
Definition scores (n : nat) (v : label) (K K' : list label) (rel : R -> R -> Prop) : Prop :=
  forall s t, imports_to vars cards None (copies n rs) s t ->
    exists a b, score_of score t s v (edges_into v K) = Ok a /\ score_of score t s v (edges_into v K') = Ok b /\ rel a b.
Notation run prior n known p draws dm pn es := (exists s t est pr est',
  imports_to vars cards prior (copies n rs) s t /\ new_sb_estimator s t (length vars) known = Ok est
  /\ sb_estimate_structure R score score_gt est draws p dm pn = Ok (es, pr, est')).
(** for every natural number from some point on *)
Notation eventually P := (exists N, forall n : nat, N <= n -> P n).

(** ** one more parent *)
(** whether a further parent pays is decided by the data: it raises the score if some observed rate depends on it, ... *)
Theorem C88_dependence_pays v K p : In v vars -> In p vars -> NoDup K -> incl K vars -> ~ In p K -> depends vars rs v K p ->
  eventually (fun n => scores n v K (p :: K) Rlt).
Proof.
  intros Hv Hp NK HK HpK D. destruct (good_all vars cards k rs HL HE Hk HC tau alpha Ht Ha) as [N [N1 H]]. exists N. intros n Hn s t HI.
  apply (imports_det vars cards None _ s t (copies_legal vars cards n rs ltac:(lia) HL)) in HI as [-> ->]. destruct (n_ready vars cards rs HL v Hv) as [m HR].
  eexists _, _. split; [apply (n_score vars cards k rs HL HE Hk HC lg tau alpha Hlg Ht Ha n v [] m _ K HR); auto; [lia|tauto]|].
  split; [apply (n_score vars cards k rs HL HE Hk HC lg tau alpha Hlg Ht Ha n v [] m _ (p :: K) HR); auto; [lia|constructor; assumption|intros l [<-|Hl]; auto|tauto]|].
  apply (H n Hn v K p Hv Hp HpK HK), D.
Qed.
(** ... lowers it if none does although several of its states were seen, ... *)
Theorem C88_independence_costs v K p : In v vars -> In p vars -> NoDup K -> incl K vars -> ~ In p K -> ~ depends vars rs v K p -> varies vars rs v K p ->
  eventually (fun n => scores n v (p :: K) K Rlt).
Proof.
  intros Hv Hp NK HK HpK D V. destruct (good_all vars cards k rs HL HE Hk HC tau alpha Ht Ha) as [N [N1 H]]. exists N. intros n Hn s t HI.
  apply (imports_det vars cards None _ s t (copies_legal vars cards n rs ltac:(lia) HL)) in HI as [-> ->]. destruct (n_ready vars cards rs HL v Hv) as [m HR].
  eexists _, _. split; [apply (n_score vars cards k rs HL HE Hk HC lg tau alpha Hlg Ht Ha n v [] m _ (p :: K) HR); auto; [lia|constructor; assumption|intros l [<-|Hl]; auto|tauto]|].
  split; [apply (n_score vars cards k rs HL HE Hk HC lg tau alpha Hlg Ht Ha n v [] m _ K HR); auto; [lia|tauto]|].
  apply (H n Hn v K p Hv Hp HpK HK); assumption.
Qed.
(** ... and leaves it as it is if no two of its states can be compared (then for any number of copies) *)
Theorem C88_constant_neutral v K p n : In v vars -> In p vars -> NoDup K -> incl K vars -> ~ In p K -> ~ varies vars rs v K p -> 1 <= n ->
  scores n v K (p :: K) eq.
Proof.
  intros Hv Hp NK HK HpK V Hn s t HI.
  apply (imports_det vars cards None _ s t (copies_legal vars cards n rs ltac:(lia) HL)) in HI as [-> ->]. destruct (n_ready vars cards rs HL v Hv) as [m HR].
  eexists _, _. split; [apply (n_score vars cards k rs HL HE Hk HC lg tau alpha Hlg Ht Ha n v [] m _ K HR); auto; tauto|].
  split; [apply (n_score vars cards k rs HL HE Hk HC lg tau alpha Hlg Ht Ha n v [] m _ (p :: K) HR); auto; [constructor; assumption|intros l [<-|Hl]; auto|tauto]|].
  symmetry. exact (case_constant vars cards None k rs v HL HE Hk HC Hv tau alpha Ha p K Hp HpK HK n V).
Qed.
(** ** the search *)
(** A thorough tabu search (whatever its random numbers, the known edges, the mode): no variable that was left out makes a
    difference given the reported parents, and every reported parent that was not known does so given the others, unless no two
    of its states can be compared *)
Theorem C88_search_result : eventually (fun n => forall prior known p draws dm pn es v S, thorough (length vars - 1) p -> run prior n known p draws dm pn es ->
  In v vars -> (forall a, In a S <-> In (a, v) es) ->
  (forall a, In a vars -> a <> v -> ~ In a S -> ~ depends vars rs v S a)
  /\ (forall a K, In a S -> a <> v -> ~ In (a, v) known -> (forall b, In b K <-> In b S /\ b <> a) -> depends vars rs v K a \/ ~ varies vars rs v K a)).
Proof. exact (search_result vars cards k rs HL HE Hk HC lg tau alpha Hlg Ht Ha). Qed.
(** ** parents in the data *)
(** if the data single out a parent set, it has the best score of all parent sets *)
Theorem C88_unique_best v Pa : In v vars -> NoDup Pa -> parents_in_data vars rs v Pa ->
  eventually (fun n => forall K, NoDup K -> incl K vars -> ~ In v K -> ~ same_set K Pa -> scores n v K Pa Rlt).
Proof. exact (unique_best vars cards k rs HL HE Hk HC lg tau alpha Hlg Ht Ha v Pa). Qed.
(** and a thorough tabu search returns it *)
Theorem C88_exact_recovery v Pa : In v vars -> parents_in_data vars rs v Pa ->
  eventually (fun n => forall prior known p draws dm pn es, thorough (length vars - 1) p -> (forall a, In (a, v) known -> In a Pa) ->
    run prior n known p draws dm pn es -> forall a, In (a, v) es <-> In a Pa).
Proof. exact (exact_parents vars cards k rs HL HE Hk HC lg tau alpha Hlg Ht Ha v Pa). Qed.
(** so if the data single out the parents of every variable, the whole network is returned: no edge more, no edge less *)
Theorem C88_exact_network net : edges_within vars net -> (forall v, In v vars -> exists Pa, parents_in_data vars rs v Pa /\ forall a, In (a, v) net <-> In a Pa) ->
  eventually (fun n => forall prior known p draws dm pn, thorough (length vars - 1) p -> incl known net -> (dm = false -> pn <> Some 0) ->
    (forall v, In v vars -> exists a, In a vars /\ a <> v /\ ~ In (a, v) known) ->
    (exists es, run prior n known p draws dm pn es) /\ forall es, run prior n known p draws dm pn es -> forall e, In e es <-> In e net).
Proof. exact (exact_network vars cards k rs HL HE Hk HC lg tau alpha Hlg Ht Ha net). Qed.
End data.
Print Assumptions C88_dependence_pays. Print Assumptions C88_independence_costs. Print Assumptions C88_constant_neutral.
Print Assumptions C88_search_result. Print Assumptions C88_unique_best. Print Assumptions C88_exact_recovery. Print Assumptions C88_exact_network.

(** ** A data set that meets the hypotheses: X changes state within one unit of time if and only if Y = 1; Z plays no role *)
Definition evars : list label := ["X";"Y";"Z"].
Definition eraw (x y z : Z) : raw := [(0%Qc, [x; y; z]); (1%Qc, [if (y =? 1)%Z then (1 - x)%Z else x; y; z])].
Definition eraws : list raw := [eraw 0 0 0; eraw 0 0 1; eraw 0 1 0; eraw 0 1 1; eraw 1 0 0; eraw 1 0 1; eraw 1 1 0; eraw 1 1 1].
Example eraws_legal : legal_input evars [2;2;2] eraws /\ equal_cards [2;2;2] 2 /\ Forall clock_strict eraws.
Proof.
  split; [|split].
  - split; [|split; [discriminate|split; [reflexivity|split; [|eexists; split; [left; reflexivity|cbn; lia]]]]].
    + unfold good_header. repeat split; try (repeat constructor; cbn; intuition discriminate); try (cbn; intuition discriminate).
    + repeat (constructor; [split; [intros ab [<-|[]]; split; repeat constructor; cbn; lia|intros o [<-|[<-|[]]]; reflexivity]|]). constructor.
  - split; [lia|]. intros x [<-|[<-|[<-|[]]]]; reflexivity.
  - repeat (constructor; [intros ab [<-|[]]; reflexivity|]). constructor.
Qed.
Lemma esteps ab : step_in eraws ab -> exists x y z : Z, (x = 0 \/ x = 1)%Z /\ (y = 0 \/ y = 1)%Z /\ (z = 0 \/ z = 1)%Z /\ snd (fst ab) = [x; y; z] /\ snd (snd ab) = [if (y =? 1)%Z then (1 - x)%Z else x; y; z].
Proof.
  intros [r [Hr Hab]]. cbn in Hr. repeat destruct Hr as [<-|Hr]; try contradiction; destruct Hab as [<-|[]]; eexists _, _, _; cbn [snd fst];
    (split; [|split; [|split; [|split; reflexivity]]]); cbn; lia.
Qed.
Lemma ecol v : In v evars -> column evars v < 3. Proof. intros [<-|[<-|[<-|[]]]]; cbn; lia. Qed.
(** Y and Z never change *)
Lemma e_still v K a x y : v = "Y"%string \/ v = "Z"%string -> x <> y -> changes_given evars eraws v K a x y = 0%Z.
Proof.
  intros Hv N. unfold changes_given. apply jumps_none. intros ab Hab X Y. destruct (esteps ab Hab) as [x0 [y0 [z0 [_ [_ [_ [E1 E2]]]]]]]. rewrite E1 in X. rewrite E2 in Y.
  destruct Hv as [-> | ->]; unfold row_shows in X, Y; cbn [column evars String.eqb Ascii.eqb Bool.eqb map combine forallb fst snd nth_error] in X, Y;
    apply andb_prop in X as [X _]; apply andb_prop in Y as [Y _]; apply Z.eqb_eq in X, Y; lia.
Qed.
Lemma e_indep v K p : v = "Y"%string \/ v = "Z"%string -> ~ depends evars eraws v K p.
Proof. intros Hv [a [b [x [y [_ [N D]]]]]]. apply D. unfold rate_given. rewrite !(e_still v _ _ x y Hv N). unfold Qcdiv. rewrite !Qcmult_0_l. reflexivity. Qed.
Definition e_sub : list (list label) := [[]; ["X"]; ["Y"]; ["Z"]; ["X";"Y"]; ["X";"Z"]; ["Y";"Z"]; ["X";"Y";"Z"]]%string.
Lemma e_subs K : In K (all_sub evars) -> In K e_sub. Proof. intros H. cbn in H. repeat destruct H as [<-|H]; try contradiction; cbn; tauto. Qed.
Lemma e_varies v K p : In v evars -> In K e_sub -> In p evars -> p <> v -> ~ In v K -> ~ In p K -> varies evars eraws v K p.
Proof.
  intros Hv HK Hp Npv NV NK. exists (fun _ => 0), (fun l => if String.eqb l p then 1 else 0), 0. split; [|split; [rewrite String.eqb_refl; discriminate|]].
  { intros l Hl. destruct (String.eqb_spec l p) as [-> |_]; [contradiction|reflexivity]. }
  assert (P : forall q, q = 1%Qc \/ q = Q2Qc 2 \/ q = Q2Qc 4 -> (0 < q)%Qc) by (intros q [-> |[-> | ->]]; reflexivity).
  cbn in Hv. repeat destruct Hv as [<-|Hv]; try contradiction; cbn in Hp; repeat destruct Hp as [<-|Hp]; try contradiction; cbn in HK; repeat destruct HK as [<-|HK]; try contradiction;
    try (exfalso; cbn in NV, NK; intuition congruence); split; apply P; vm_compute; intuition auto.
Qed.
Lemma e_depends K : In K e_sub -> ~ In "X"%string K -> ~ In "Y"%string K -> depends evars eraws "X" K "Y".
Proof.
  intros HK NX NY. exists (fun _ => 0), (fun l => if String.eqb l "Y" then 1 else 0), 0, 1.
  cbn in HK; repeat destruct HK as [<-|HK]; try contradiction; try (exfalso; cbn in NX, NY; intuition congruence).
  - split; [|split; [discriminate|]]; [split; [intros l []|split; [discriminate|split; reflexivity]]|vm_compute; discriminate].
  - split; [|split; [discriminate|]]; [split; [intros l [<-|[]]; reflexivity|split; [discriminate|split; reflexivity]]|vm_compute; discriminate].
Qed.
Lemma e_range K a x l : (0 < time_given evars eraws "X" K a x)%Qc -> In l K -> In l evars -> a l = 0 \/ a l = 1.
Proof.
  intros H Hl Hv. apply dwell_some in H as [ab [Hab X]]. destruct (esteps ab Hab) as [x0 [y0 [z0 [D1 [D2 [D3 [E1 _]]]]]]]. rewrite E1 in X. unfold row_shows in X. rewrite forallb_forall in X.
  assert (I : In (column evars l, a l) (combine (map (column evars) ("X"%string :: K)) (x :: map a K))).
  { cbn [map combine]. right. clear -Hl. induction K as [|q K IH]; [destruct Hl|]. cbn [map combine]. destruct Hl as [<-|Hl]; [left; reflexivity|right; apply IH, Hl]. }
  specialize (X _ I). cbn [fst snd] in X. cbn in Hv. repeat destruct Hv as [<-|Hv]; try contradiction; cbn [column evars String.eqb Ascii.eqb Bool.eqb nth_error] in X; apply Z.eqb_eq in X; lia.
Qed.
Lemma e_X : parents_in_data evars eraws "X" ["Y"%string].
Proof.
  destruct eraws_legal as [HL [HE _]]. apply (data_parents evars [2;2;2] 2 eraws HL HE); [cbn; tauto|intros l [<-|[]]; cbn; tauto|intros [X|[]]; discriminate| |].
  - intros K HK NX q [<-|[]] NY. exists "Y"%string. split; [left; reflexivity|]. split; [exact NY|]. apply e_depends; [apply e_subs, HK|assumption|assumption].
  - intros K HK NX HI p Hp Npv NK. apply e_subs in HK. split; [|apply e_varies; auto; cbn; tauto].
    assert (Y : In "Y"%string K) by (apply HI; left; reflexivity).
    assert (EP : p = "Z"%string) by (cbn in Hp; destruct Hp as [<-|[<-|[<-|[]]]]; [contradiction|contradiction|reflexivity]). subst p.
    assert (EK : K = ["Y"%string]). { cbn in HK; repeat destruct HK as [<-|HK]; try contradiction; try reflexivity; exfalso; cbn in NX, Y, NK; intuition congruence. } subst K. clear -HL.
    intros [a [b [x [y [[C1 [C2 [C3 C4]]] [N D]]]]]]. apply D. clear D. pose proof (C1 "Y"%string (or_introl eq_refl)) as EY.
    assert (A1 := e_range _ a x "Z" C3 ltac:(cbn; tauto) ltac:(cbn; tauto)). assert (A2 := e_range _ b x "Z" C4 ltac:(cbn; tauto) ltac:(cbn; tauto)). assert (A3 := e_range _ a x "Y" C3 ltac:(cbn; tauto) ltac:(cbn; tauto)).
    assert (X : x = 0 \/ x = 1).
    { apply dwell_some in C3 as [ab [Hab X]]. destruct (esteps ab Hab) as [x0 [y0 [z0 [D1 [_ [_ [E1 _]]]]]]]. rewrite E1 in X. unfold row_shows in X.
      cbn [column evars String.eqb Ascii.eqb Bool.eqb map combine forallb fst snd nth_error] in X. apply andb_prop in X as [X _]. apply Z.eqb_eq in X. lia. }
    unfold rate_given, time_given, changes_given. cbn [map]. rewrite <- EY.
    destruct (Nat.lt_ge_cases y 2) as [Hy|Hy].
    + assert (Y : y = 0 \/ y = 1) by lia. destruct A1 as [-> | ->], A2 as [-> | ->], A3 as [-> | ->], X as [-> | ->], Y as [-> | ->]; vm_compute; reflexivity.
    + rewrite !jumps_none; [unfold Qcdiv; rewrite !Qcmult_0_l; reflexivity| |];
        intros ab Hab _ X2; destruct (esteps ab Hab) as [x0 [y0 [z0 [D1 [D2 [_ [_ E2]]]]]]]; rewrite E2 in X2; unfold row_shows in X2;
        cbn [column evars String.eqb Ascii.eqb Bool.eqb map combine forallb fst snd nth_error] in X2; rewrite andb_true_r in X2; apply Z.eqb_eq in X2; destruct (y0 =? 1)%Z; lia.
Qed.
Lemma e_none v : v = "Y"%string \/ v = "Z"%string -> parents_in_data evars eraws v [].
Proof.
  intros Hv. assert (Iv : In v evars) by (destruct Hv as [-> | ->]; cbn; tauto). destruct eraws_legal as [HL [HE _]].
  apply (data_parents evars [2;2;2] 2 eraws HL HE); [exact Iv|intros l []|intros []|intros K _ _ q []|].
  intros K HK NV _ p Hp Npv NK. split; [apply e_indep, Hv|]. apply e_varies; auto. apply e_subs, HK.
Qed.
(** the network Y -> X is recovered exactly from enough copies of these data, with the default parameters of the tabu search
    (10 iterations suffice here), whatever the random numbers *)
Example C88_case : exists lg, log_gamma_equation lg /\ exists N, forall n, N <= n -> forall draws dm,
  (exists s t est es pr est', imports_to evars [2;2;2] None (copies n eraws) s t /\ new_sb_estimator s t 3 [] = Ok est
    /\ sb_estimate_structure R (fun cims => get_fam_score lg cims (/10) 1) score_gt est draws (MkSbParams None 10 None None None "tabu") dm None = Ok (es, pr, est')
    /\ forall e, In e es <-> e = ("Y","X")%string).
Proof.
  destruct log_gamma_exists as [lg Hlg]. exists lg. split; [exact Hlg|]. destruct eraws_legal as [HL [HE HC]].
  destruct (C88_exact_network evars [2;2;2] 2 eraws HL HE ltac:(lia) HC lg (/10) 1 Hlg ltac:(lra) ltac:(lra) [("Y","X")%string]) as [N H].
  - intros e [<-|[]]. cbn. tauto.
  - intros v Hv. cbn in Hv. destruct Hv as [<-|[<-|[<-|[]]]]; [exists ["Y"%string]; split; [exact e_X|]|exists []; split; [apply e_none; auto|]|exists []; split; [apply e_none; auto|]]; intros a; cbn [In];
      intuition congruence.
  - exists N. intros n Hn draws dm. destruct (H n Hn None [] (MkSbParams None 10 None None None "tabu") draws dm None) as [[es HR] HU].
    + repeat split; try reflexivity; try (intros x X; discriminate). cbn. lia.
    + intros e [].
    + discriminate.
    + intros v Hv. cbn in Hv. destruct Hv as [<-|[<-|[<-|[]]]]; [exists "Y"%string|exists "X"%string|exists "X"%string]; (split; [cbn; tauto|split; [discriminate|intros []]]).
    + pose proof (HU es HR) as HE'. destruct HR as [s [t [est [pr [est' [A [B C]]]]]]]. exists s, t, est, es, pr, est'. split; [exact A|]. split; [exact B|]. split; [exact C|].
      intros e. rewrite HE'. cbn. intuition.
Qed.
