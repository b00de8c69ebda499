(** Redundant variables and the score-based search. *)
From Coq Require Import Reals Lra.
From Verif Require Import Base Lib ModelStructure ModelGraph ModelCims ModelData ModelParams ModelCtpc ModelSearch ModelFamScore ModelEstimators
  SpecStructure SpecGraph SpecParams SpecCtpc SpecSearch SpecEstimators SpecRedundant
  ProofStructure ProofGraph ProofParams ProofCtpc ProofSearch ProofSearch3 ProofEstimators2 ProofRedundant2.
Open Scope nat_scope.

Lemma determined_weaken s t p K K' : incl K K' -> determined s t p K -> determined s t p K'.
Proof. intros HI H r1 r2 R1 R2 Q. apply (H r1 r2 R1 R2). intros z i Hz. apply Q, HI, Hz. Qed.

Section inv.
Variables (lg : R -> R) (tau alpha : R) (gt : R -> R -> bool) (t : trajectory) (s : structure) (known : list edge) (m : list (list bool)) (v : label) (k : nat).
Notation score := (fun cims => get_fam_score lg cims tau alpha).
Hypothesis Hok : search_ready s known m v.
Hypothesis Hd : data_ok s t.
Hypothesis Hk : 0 < k.
Hypothesis HV : forall x, In x (nodes_values s) -> x = k.
Hypothesis Hgt : forall a, gt a a = false.
Variable I : list label -> Prop.
Notation cands := (candidate_parents s known v).
Hypothesis I_set : forall P P', same_set P P' -> I P -> I P'.
Hypothesis I_drop : forall P Q c, In c cands -> (forall x, In x Q <-> In x P /\ x <> c) -> I P -> I Q.
Hypothesis I_add : forall P Q c, In c cands -> ~ In c P -> ~ determined s t c P -> (forall x, In x Q <-> In x P \/ x = c) -> I P -> I Q.

Lemma path_inv P tr R0 : search_path v cands None P tr R0 -> forall b b', improving gt b tr b' -> (forall p, In p P -> In p (nodes_labels s)) ->
  pscore R score t s v P = Ok b -> Forall (fun e => score_of score t s v (sl_edges e) = Ok (sl_score e)) tr -> I P -> I R0.
Proof.
  induction 1 as [P R0 N SS|P e Q tr R0 N C A NB NE HE H IH|P e Q P' tr R0 N C A NB NE HE SS H IH]; intros b b' HI HW HP HF HIP.
  - exact (I_set P R0 SS HIP).
  - pose proof (candidates_In s known v (sl_candidate e)) as CC. pose proof (proj1 CC C) as [CL [Cv _]]. clear CC.
    inversion HI as [|b0 e0 tr0 b0' A1 A2 A3|b0 e0 tr0 b0' A1 A2 A3]; subst; [|congruence].
    apply Forall_cons_iff in HF as [HF1 HF2].
    assert (NQ : NoDup Q) by (inversion H; assumption).
    assert (WQ : forall p, In p Q -> In p (nodes_labels s)).
    { intros p Hp. destruct NB as [[_ K]|[[_ [_ K]]|[_ [K _]]]]; [apply HW; apply K in Hp; tauto| |exfalso; apply K; exact Logic.I].
      apply K in Hp as [Hp| ->]; [apply HW, Hp|exact CL]. }
    apply (IH _ _ A3 WQ); [|exact HF2|].
    + rewrite <- (score_of_pscore R score t s known m v Hok (sl_edges e) Q NQ WQ HE). exact HF1.
    + destruct NB as [[K1 K2]|[[K1 [_ K2]]|[_ [K _]]]]; [|  |exfalso; apply K; exact Logic.I].
      * exact (I_drop P Q _ C K2 HIP).
      * apply (I_add P Q _ C K1); [|exact K2|exact HIP]. intros HD.
        assert (E : pscore R score t s v (sl_candidate e :: P) = pscore R score t s v P).
        { apply (red_score s t k (sl_candidate e) P); auto; [apply Hok|apply Hok]. }
        rewrite (score_of_pscore R score t s known m v Hok (sl_edges e) (sl_candidate e :: P)) in HF1.
        -- rewrite E, HP in HF1. injection HF1 as HF1. rewrite <- HF1, Hgt in A2. discriminate.
        -- constructor; assumption.
        -- intros p [<-|Hp]; [exact CL|apply HW, Hp].
        -- intros x. rewrite (HE x), !edges_into_In, (K2 (fst x)). cbn [In]. intuition.
  - inversion HI as [|b0 e0 tr0 b0' A1 A2 A3|b0 e0 tr0 b0' A1 A2 A3]; subst; [congruence|].
    apply Forall_cons_iff in HF as [_ HF2]. assert (NP' : NoDup P') by (inversion H; assumption).
    assert (WP' : forall p, In p P' -> In p (nodes_labels s)) by (intros p Hp; apply HW, SS, Hp).
    apply (IH _ _ A3 WP'); [|exact HF2|exact (I_set P P' SS HIP)].
    rewrite <- HP. rewrite <- (score_of_pscore R score t s known m v Hok (edges_into v P) P N HW) by tauto. symmetry.
    apply (score_of_pscore R score t s known m v Hok); [exact NP'|exact WP'|]. intros x. rewrite !edges_into_In, (SS (fst x)). tauto.
Qed.

Lemma outcome_inv n pat es tr : search_outcome R score gt t s known v None n pat es tr -> I (known_parents s known v) ->
  exists Q, I Q /\ forall a, In (a, v) es <-> In a Q.
Proof.
  intros [K [Q [sc0 [sc [H1 [H2 [H3 [H4 [H5 [H6 [H7 [H8 [H9 [H10 [_ H11]]]]]]]]]]]]]]] HK.
  assert (WK : forall p, In p K -> In p (nodes_labels s)) by (intros p Hp; apply H1 in Hp; apply filter_In in Hp; tauto).
  exists Q. split; [|intros a; rewrite (H6 (a, v)), edges_into_In; cbn [fst snd]; tauto].
  apply (path_inv K tr Q H7 sc0 sc H8 WK); [|exact H11|apply (I_set (known_parents s known v)); [intros x; symmetry; apply H1|exact HK]].
  rewrite <- H9. symmetry. apply (score_of_pscore R score t s known m v Hok); [exact H2|exact WK|].
  intros x. rewrite !edges_into_In, (H1 (fst x)). tauto.
Qed.
End inv.

(** lifted to the whole estimator *)
Section est.
Variables (lg : R -> R) (tau alpha : R) (gt : R -> R -> bool) (est : sb_estimator) (draws : label -> nat -> nat) (p : sb_params) (known : list edge) (k : nat).
Notation score := (fun cims => get_fam_score lg cims tau alpha).
Hypothesis Hr : sb_ready est known.
Hypothesis Hd : data_ok (sb_struct est) (sb_traj est).
Hypothesis Hk : 0 < k.
Hypothesis HV : forall x, In x (nodes_values (sb_struct est)) -> x = k.
Hypothesis Hgt : forall a, gt a a = false.
Hypothesis Hmp : sp_max_parents p = None.
Lemma cleaned_data : data_ok (sb_struct (sb_cleaned est)) (sb_traj est).
Proof. exact Hd. Qed.
Lemma est_inv dm pn es pr est' v (I : list label -> Prop) : sb_estimate_structure R score gt est draws p dm pn = Ok (es, pr, est') -> In v (nodes_labels (sb_struct est)) ->
  (forall P P', same_set P P' -> I P -> I P') ->
  (forall P Q c, c <> v -> ~ In (c, v) known -> (forall x, In x Q <-> In x P /\ x <> c) -> I P -> I Q) ->
  (forall P Q c, c <> v -> ~ In (c, v) known -> ~ In c P -> ~ determined (sb_struct est) (sb_traj est) c P -> (forall x, In x Q <-> In x P \/ x = c) -> I P -> I Q) ->
  I (known_parents (sb_struct est) known v) -> exists Q, I Q /\ forall a, In (a, v) es <-> In a Q.
Proof.
  intros H Hv I1 I2 I3 I4. destruct (sb_parents R score gt est draws p known Hr dm pn es pr est' v H Hv) as [esv [E1 [_ E3]]].
  pose proof (sb_search_ready est known v Hr Hv) as HR.
  assert (O : exists n pat tr, search_outcome R score gt (sb_traj est) (sb_struct (sb_cleaned est)) known v None n pat esv tr).
  { destruct (f_outcome R score gt est draws p v esv E1) as [[tr E]|[tr E]]; rewrite Hmp in E.
    - eexists _, _, _. exact (proj1 (tabu_outcome _ _ _ _ _ _ _ _ _ HR _ _ _ _ _ _ _ E)).
    - eexists _, _, _. exact (hill_outcome _ _ _ _ _ _ _ _ _ HR _ _ _ _ _ E). }
  destruct O as [n [pat [tr O]]].
  edestruct (outcome_inv lg tau alpha gt (sb_traj est) (sb_struct (sb_cleaned est)) known (sb_matrix est) v k HR cleaned_data Hk HV Hgt I I1) as [Q [Q1 Q2]].
  - intros P Q c Hc. apply candidates_In in Hc. apply (I2 P Q c); tauto.
  - intros P Q c Hc. apply candidates_In in Hc. apply (I3 P Q c); tauto.
  - exact O.
  - exact I4.
  - exists Q. split; [exact Q1|]. intros a. rewrite E3. apply Q2.
Qed.
(** a variable determined by known parents *)
Lemma est_redundant dm pn es pr est' v q sep : sb_estimate_structure R score gt est draws p dm pn = Ok (es, pr, est') -> In v (nodes_labels (sb_struct est)) ->
  (forall z, In z sep -> In (z, v) known) -> determined (sb_struct est) (sb_traj est) q sep -> In (q, v) es -> In (q, v) known.
Proof.
  intros H Hv HS HD Hq. destruct (In_dec (fun a b : edge => ltac:(decide equality; apply string_dec)) (q, v) known) as [K|K]; [exact K|exfalso].
  destruct (est_inv dm pn es pr est' v (fun P => incl sep P /\ ~ In q P) H Hv) as [Q [[Q1 Q2] Q3]].
  - intros P P' S [A B]. split; [intros z Hz; apply S, A, Hz|rewrite <- (S q); exact B].
  - intros P Q c Hc Hn HQ [A B]. split.
    + intros z Hz. apply HQ. split; [apply A, Hz|]. intros ->. apply Hn, HS, Hz.
    + rewrite (HQ q). tauto.
  - intros P Q c Hc Hn HcP ND HQ [A B]. split; [intros z Hz; apply HQ; left; apply A, Hz|]. rewrite (HQ q). intros [G| <-]; [exact (B G)|].
    apply ND, (determined_weaken _ _ _ sep); assumption.
  - assert (KP : forall a, In a (known_parents (sb_struct est) known v) <-> In (a, v) known).
    { intros a. exact (known_parents_In (sb_struct (sb_cleaned est)) known (sb_matrix est) v (sb_search_ready est known v Hr Hv) a). }
    split; [intros z Hz; apply KP, HS, Hz|rewrite KP; exact K].
  - apply Q2, Q3, Hq.
Qed.
(** two copies *)
Lemma est_copies dm pn es pr est' v a b : sb_estimate_structure R score gt est draws p dm pn = Ok (es, pr, est') -> In v (nodes_labels (sb_struct est)) -> a <> b ->
  determined (sb_struct est) (sb_traj est) a [b] -> determined (sb_struct est) (sb_traj est) b [a] -> In (a, v) es -> In (b, v) es -> In (a, v) known /\ In (b, v) known.
Proof.
  intros H Hv Nab Da Db Ha Hb.
  destruct (In_dec (fun a b : edge => ltac:(decide equality; apply string_dec)) (a, v) known) as [Ka|Ka].
  { split; [exact Ka|]. apply (est_redundant dm pn es pr est' v b [a] H Hv); auto. intros z [<-|[]]. exact Ka. }
  destruct (In_dec (fun a b : edge => ltac:(decide equality; apply string_dec)) (b, v) known) as [Kb|Kb].
  { exfalso. apply Ka. apply (est_redundant dm pn es pr est' v a [b] H Hv); auto. intros z [<-|[]]. exact Kb. }
  exfalso. destruct (est_inv dm pn es pr est' v (fun P => ~ (In a P /\ In b P)) H Hv) as [Q [Q1 Q3]].
  - intros P P' S. rewrite (S a), (S b). tauto.
  - intros P Q c _ _ HQ. rewrite (HQ a), (HQ b). tauto.
  - intros P Q c _ _ HcP ND HQ IP [A B]. apply HQ in A. apply HQ in B.
    destruct A as [A|A], B as [B|B]; [tauto|subst c|subst c|congruence];
    apply ND; eapply determined_weaken; try eassumption; intros z [<-|[]]; assumption.
  - rewrite (known_parents_In (sb_struct (sb_cleaned est)) known (sb_matrix est) v (sb_search_ready est known v Hr Hv) a). tauto.
  - apply Q1. rewrite <- !Q3. auto.
Qed.
End est.
