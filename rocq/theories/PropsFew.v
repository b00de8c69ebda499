(** Property theorems C87: variables with few observed changes, or none. *)
From Coq Require Import Reals Lra.
From Verif Require Import Base Lib LibQc ModelStructure ModelGraph ModelCims ModelData ModelParams ModelCache ModelCtpc ModelSearch ModelFamScore ModelEstimators ModelIndep
  SpecStructure SpecGraph SpecComb SpecParams SpecData SpecCtpc SpecRecover SpecSearch SpecEstimators SpecInvariance SpecConserve SpecFloating SpecIndep
  ProofStructure ProofGraph ProofInvariance ProofParams3 ProofIndep2 ProofSearch ProofSearch3 ProofEstimators2 ProofCtpc7 ProofFew ProofFew2 ProofFew3 ProofFew4 PropsData PropsInvariance PropsIndep.
Close Scope R_scope. Open Scope nat_scope.

Section data.
Variables (vars : list label) (cards : list nat) (rs : list raw) (k : nat) (v : label) (ni : nat).
Hypothesis HL : legal_input vars cards rs.
Hypothesis HE : equal_cards cards k.
Hypothesis Hv : nth_error vars ni = Some v.

(** ** The score-based estimator *)
(** A variable that never changes: the more parents, the lower (or equal) its score *)
Theorem C87_score_never_rises lg tau alpha s t K Q : imports_to vars cards None rs s t -> Forall clock_ok rs -> observed_changes rs ni = 0%Z -> 2 <= k -> (0 < tau)%R -> (0 <= alpha + 1)%R ->
  NoDup K -> NoDup Q -> incl K Q -> incl Q vars ->
  exists a b, score_of (fun cims => get_fam_score lg cims tau alpha) t s v (edges_into v K) = Ok a
    /\ score_of (fun cims => get_fam_score lg cims tau alpha) t s v (edges_into v Q) = Ok b /\ (b <= a)%R.
Proof.
  intros HI HC H0 Hk Ht Ha NK NQ IK IQ. apply (imports_det vars cards None rs s t HL) in HI as [-> ->].
  set (s := struct_of vars cards None). set (t := traj_of vars rs). destruct (raw_idx vars cards None rs HL v ni Hv) as [Hvl Hi]. fold s in Hvl, Hi.
  pose proof (legal_wf vars cards None rs HL) as W. pose proof (legal_data vars cards None rs HL) as D. fold s t in W, D. pose proof (raw_nonneg vars rs HC) as NN. fold t in NN.
  assert (R : exists m, search_ready s [] m v).
  { eexists. split; [exact W|]. split; [reflexivity|]. split; [reflexivity|]. split; [intros e []|]. split; [reflexivity|exact Hvl]. }
  destruct R as [m R].
  assert (ST : forall pis u x y, x <> y -> jumps t (total_variables_number s) (idx_of s v) pis u x y = 0%Z) by (rewrite Hi; exact (raw_still vars cards rs HL v ni Hv H0)).
  assert (PS : forall P, NoDup P -> incl P vars -> score_of (fun cims => get_fam_score lg cims tau alpha) t s v (edges_into v P) = Ok (still_total s t k v tau alpha P)).
  { intros P NP IP. rewrite (score_of_pscore _ _ t s [] m v R _ P NP IP) by tauto. apply (still_pscore s t k W D); auto; try lia. exact (proj2 HE). }
  exists (still_total s t k v tau alpha K), (still_total s t k v tau alpha Q). split; [apply PS; [exact NK|intros x Hx; apply IQ, IK, Hx]|]. split; [apply PS; assumption|].
  apply (total_grow s t k v); auto; try lia; first [exact (proj2 HE) | intros l Hl; apply IQ, IK, Hl].
Qed.
(** so that hill climbing and tabu search return the known parents of such a variable and no others - whatever the random
    choices, the iterations and the patience; with max_parents set, as long as the variable has no known parents *)
Theorem C87_score_based prior lg tau alpha s t known est draws p dm pn es pr est' : imports_to vars cards prior rs s t -> Forall clock_ok rs ->
  observed_changes rs ni = 0%Z -> 2 <= k -> (0 < tau)%R -> (0 <= alpha + 1)%R ->
  new_sb_estimator s t (length vars) known = Ok est -> sp_max_parents p = None \/ (forall a, ~ In (a, v) known) ->
  sb_estimate_structure R (fun cims => get_fam_score lg cims tau alpha) score_gt est draws p dm pn = Ok (es, pr, est') ->
  forall a, In (a, v) es <-> In (a, v) known.
Proof.
  intros HI HC H0 Hk Ht Ha HN HM H. apply (imports_det vars cards prior rs s t HL) in HI as [-> ->].
  destruct (raw_idx vars cards prior rs HL v ni Hv) as [Hvl Hi].
  destruct (new_sb_ready _ _ known est (legal_wf vars cards prior rs HL) eq_refl HN) as [Hr [Es Et]].
  apply (still_estimate lg tau alpha est draws p known k v Hr) with (dm := dm) (pn := pn) (pr := pr) (est' := est'); rewrite ?Es, ?Et; auto.
  - exact (legal_data vars cards prior rs HL).
  - exact (proj2 HE).
  - exact (raw_nonneg vars rs HC).
  - rewrite Hi. exact (raw_still vars cards rs HL v ni Hv H0).
Qed.

(** ** The constraint-based estimator *)
(** Binary variables: a variable that never changes gets its known parents and no others *)
Theorem C87_binary prior s t known thr P est mp es est' : imports_to vars cards prior rs s t -> Forall clock_ok rs -> quantiles_ok P ->
  observed_changes rs ni = 0%Z -> k <= 2 -> new_cb_estimator s t (length vars) known thr (the_tests P) = Ok est ->
  cb_estimate_structure est mp = Ok (es, est') -> forall a, In (a, v) es <-> In (a, v) known /\ a <> v.
Proof.
  intros HI HC HQ H0 Hk HN H a. apply (imports_det vars cards prior rs s t HL) in HI as [-> ->]. split.
  - intros Ha. split.
    + refine (still_binary vars cards prior rs k HL HE known thr (the_tests P) est HN mp es est' v ni a Hk H Hv H0 _ Ha).
      intros c1 c2 [p1 [u1 ->]] [p2 [u2 ->]] Z. pose proof (raw_nonneg vars rs HC) as NN.
      apply (the_tests_iff P HQ k); [apply exact_cim_computed, NN|apply exact_cim_computed, NN|]. intros x Hx. right. left. apply Z, Hx.
    + destruct (few_ok vars cards prior rs HL known thr _ est HN) as [Hok _]. exact (proj2 (proj2 (proj1 (proj2 (proj2 (estimate_char est Hok mp es est' H))) a v Ha))).
  - intros [Ha Hn]. apply (known_edges_kept _ _ (length vars) known thr (the_tests P) est mp es est' a v (few_wf vars cards prior rs HL) (few_nd vars cards prior) (few_lt vars cards prior) HN H Ha Hn).
Qed.
(** Three states or more.  A test given a set of b variables gives up - it answers "not separated" and protects the edge -
    whenever the variable changes fewer than threshold (k-1)^2 k^(b+1) times in the data *)
Theorem C87_test_gives_up prior s t known thr tests est p sep : imports_to vars cards prior rs s t -> 2 < k ->
  new_cb_estimator s t (length vars) known thr tests = Ok est -> test_ok s v p sep ->
  (Qc_of_Z (observed_changes rs ni) < thr * Qc_of_Z (Z.of_nat ((k - 1) * (k - 1) * k ^ (1 + length sep))))%Qc ->
  ~ test_answers (cb_e est) (cb_tot est) (st_matrix (cb_st est)) v p sep true /\ (~ In (p, v) known -> gives_up est v p sep).
Proof.
  intros HI Hk HN Ht Hf. apply (imports_det vars cards prior rs s t HL) in HI as [-> ->]. split.
  - exact (few_false vars cards prior rs k HL HE known thr tests est HN v ni p sep Hk Hv Ht Hf).
  - intros Hkn. exact (few_gives_up vars cards prior rs k HL HE known thr tests est HN v ni p sep Hk Hv Ht Hkn Hf).
Qed.
(** so a missing edge has been separated by a set that the number of observed changes allows *)
Theorem C87_missing_edge prior s t known thr tests est mp es est' q : imports_to vars cards prior rs s t ->
  new_cb_estimator s t (length vars) known thr tests = Ok est -> cb_estimate_structure est mp = Ok (es, est') -> In q vars -> q <> v -> ~ In (q, v) es ->
  exists sep, test_ok s v q sep /\ test_answers (cb_e est) (cb_tot est) (st_matrix (cb_st est)) v q sep true
    /\ (2 < k -> (thr * Qc_of_Z (Z.of_nat ((k - 1) * (k - 1) * k ^ (1 + length sep))) <= Qc_of_Z (observed_changes rs ni))%Qc).
Proof.
  intros HI HN H Hq Hqv Ha. apply (imports_det vars cards prior rs s t HL) in HI as [-> ->].
  exact (absent_data vars cards prior rs k HL HE known thr tests est HN mp es est' v ni q H Hv Hq Hqv Ha).
Qed.
(** Finding: a variable with three states or more that changes fewer than threshold (k-1)^2 k times gets every other variable
    as a parent, whatever the data and the tests *)
Theorem C87_all_reported prior s t known thr tests est mp es est' : imports_to vars cards prior rs s t -> 2 < k ->
  new_cb_estimator s t (length vars) known thr tests = Ok est -> cb_estimate_structure est mp = Ok (es, est') ->
  (Qc_of_Z (observed_changes rs ni) < thr * Qc_of_Z (Z.of_nat ((k - 1) * (k - 1) * k)))%Qc ->
  forall a, In (a, v) es <-> In a vars /\ a <> v.
Proof.
  intros HI Hk HN H Hf a. apply (imports_det vars cards prior rs s t HL) in HI as [-> ->]. split.
  - intros Ha. destruct (few_ok vars cards prior rs HL known thr _ est HN) as [Hok [Ee _]]. pose proof (proj1 (proj2 (proj2 (estimate_char est Hok mp es est' H))) a v Ha) as X.
    change (nodes_labels (e_struct (cleaned est))) with (nodes_labels (e_struct (cb_e est))) in X. rewrite Ee in X. exact (conj (proj1 X) (proj2 (proj2 X))).
  - intros [Ha Hn]. refine (all_reported vars cards prior rs k HL HE known thr tests est HN mp es est' v ni a Hk H Hv Ha Hn _). unfold thumb. cbn [plus]. rewrite Nat.pow_1_r. exact Hf.
Qed.
End data.
Print Assumptions C87_score_never_rises. Print Assumptions C87_score_based. Print Assumptions C87_binary. Print Assumptions C87_test_gives_up. Print Assumptions C87_missing_edge. Print Assumptions C87_all_reported.

(** With the default threshold of 25 a variable with three states needs 300 observed changes before the constraint-based
    estimator can drop any of its candidate parents *)
Theorem C87_three_states vars cards rs prior s t known tests est mp es est' v ni : legal_input vars cards rs -> equal_cards cards 3 -> imports_to vars cards prior rs s t ->
  nth_error vars ni = Some v -> new_cb_estimator s t (length vars) known (Q2Qc 25) tests = Ok est -> cb_estimate_structure est mp = Ok (es, est') ->
  (observed_changes rs ni < 300)%Z -> forall a, In (a, v) es <-> In a vars /\ a <> v.
Proof.
  intros HL HE HI Hv HN H Hc. apply (C87_all_reported vars cards rs 3 v ni HL HE Hv prior s t known (Q2Qc 25) tests est mp es est' HI ltac:(lia) HN H).
  replace (Q2Qc 25 * Qc_of_Z (Z.of_nat ((3 - 1) * (3 - 1) * 3)))%Qc with (Qc_of_Z 300) by (apply Qc_is_canon; vm_compute; reflexivity).
  apply Qc_of_Z_lt, Hc.
Qed.
Print Assumptions C87_three_states.

(** X changes twice, Y never: the same observations declared with two and with three states *)
Definition few_raw : list raw := [[(0%Qc, [0;0]%Z); (1%Qc, [1;0]%Z); (Q2Qc 2, [0;0]%Z); (Q2Qc 3, [0;0]%Z)]].
Example few_legal c : 2 <= c -> legal_input dvars [c;c] few_raw /\ equal_cards [c;c] c /\ Forall clock_ok few_raw /\ observed_changes few_raw 1 = 0%Z /\ observed_changes few_raw 0 = 2%Z.
Proof.
  intros Hc. split; [|split; [split; [lia|intros x [<-|[<-|[]]]; reflexivity]|split; [|split; reflexivity]]].
  - split; [exact (proj1 (proj1 legal_case))|]. split; [discriminate|]. split; [reflexivity|]. split; [|eexists; split; [left; reflexivity|cbn; lia]].
    constructor; [|constructor]. split.
    + intros ab [<-|[<-|[<-|[]]]]; split; repeat constructor; cbn; lia.
    + intros o [<-|[<-|[<-|[<-|[]]]]]; reflexivity.
  - constructor; [|constructor]. intros ab [<-|[<-|[<-|[]]]]; cbn; discriminate.
Qed.
Example few_case : exists s t est3 est2 es3 es2 r3 r2, imports_to dvars [3;3] None few_raw s t
  /\ new_cb_estimator s t 2 [] (Q2Qc 25) (fun _ _ _ => true) = Ok est3 /\ cb_estimate_structure est3 true = Ok (es3, r3) /\ es3 = [("Y","X");("X","Y")]
  /\ new_cb_estimator (struct_of dvars [2;2] None) t 2 [] (Q2Qc 25) (fun _ _ _ => true) = Ok est2 /\ cb_estimate_structure est2 true = Ok (es2, r2) /\ es2 = [].
Proof.
  exists (struct_of dvars [3;3] None), (traj_of dvars few_raw). do 6 eexists. split; [apply imports_exists, few_legal; lia|].
  split; [vm_compute; reflexivity|]. split; [vm_compute; reflexivity|]. split; [reflexivity|]. split; [vm_compute; reflexivity|]. split; [vm_compute; reflexivity|reflexivity].
Qed.
Example few_ready : exists est, new_sb_estimator (struct_of dvars [2;2] None) (traj_of dvars few_raw) 2 [("X","Y")] = Ok est.
Proof. eexists. vm_compute. reflexivity. Qed.
