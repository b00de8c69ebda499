(** Property theorems C94: the threshold of the rule of thumb (thumb_threshold). *)
From Coq Require Import Reals.
From Verif Require Import Base Lib LibQc ModelStructure ModelGraph ModelCims ModelData ModelParams ModelCache ModelCtpc
  SpecStructure SpecGraph SpecComb SpecParams SpecData SpecCtpc SpecRecover SpecInvariance SpecConserve SpecAlgorithm SpecHistory
  ProofStructure ProofGraph ProofComb ProofParams2 ProofCtpc ProofCtpc2 ProofCtpc3 ProofCtpc4 ProofCtpc5 ProofCtpc7 ProofAlgorithm3 ProofHistory ProofHistory2 ProofHistory3
  ProofInvariance ProofFew3 ProofFew4 ProofCoding3 ProofThumb ProofThumb2 PropsInvariance PropsFew.
Close Scope R_scope. Open Scope nat_scope.

Section data.
Variables (vars : list label) (cards : list nat) (prior : option (list edge)) (rs : list raw) (k : nat) (s : structure) (t : trajectory)
  (known : list edge) (tests : nat -> cim -> cim -> bool).
Hypothesis HL : legal_input vars cards rs.
Hypothesis HE : equal_cards cards k.
Hypothesis HI : imports_to vars cards prior rs s t.

Lemma th_facts : wf_structure s /\ NoDup (nodes_indexes s) /\ (forall i, In i (nodes_indexes s) -> i < length vars) /\ total_variables_number s = length vars
  /\ data_ok s t /\ 0 < k /\ (forall x, In x (nodes_values s) -> x = k) /\ nodes_labels s = vars.
Proof.
  destruct (imports_det vars cards prior rs s t HL HI) as [-> ->].
  split; [exact (legal_wf vars cards prior rs HL)|]. split; [apply seq_NoDup|]. split; [intros i Hi; cbn in Hi; apply in_seq in Hi; lia|]. split; [reflexivity|].
  split; [exact (legal_data vars cards prior rs HL)|]. split; [exact (proj1 HE)|]. split; [exact (proj2 HE)|reflexivity].
Qed.

(** no test gives up: the rule of thumb is off for binary variables and for thresholds that are not positive *)
Theorem C94_switched_off thr est v p sep : k <= 2 \/ (thr <= 0)%Qc -> new_cb_estimator s t (length vars) known thr tests = Ok est ->
  test_ok s v p sep -> ~ In (p, v) known -> ~ gives_up est v p sep.
Proof.
  intros Hc HN Ht Hn G. destruct th_facts as [W [N [L [T [D [K [U V]]]]]]].
  destruct (ask_faithful s t (length vars) k known thr tests est W N L T D K U HN v p sep Ht) as [_ F]. apply (F Hn) in G.
  pose proof (ask_verdict s t (length vars) k thr tests W T D K U v p sep Ht) as E. destruct (the_ask _ _ v k p sep) as [b mk]. cbn [snd] in G. subst mk.
  assert (true = false); [|discriminate]. eapply (no_mark (MkEnv s t thr tests) (length vars) v p sep k Hc); [|exact E].
  intros K0 so c HK0 E0. destruct (imports_det vars cards prior rs s t HL HI) as [-> ->]. pose proof Ht as [Hv [Hp [_ HK]]].
  exact (diagonal_nonneg vars cards prior k HE rs v K0 so c HL Hv ltac:(destruct HK0 as [->| ->]; [exact HK|intros l [<-|Hl]; auto]) E0).
Qed.
(** then all calls on the estimator, in any modes, return the same edges *)
Theorem C94_switched_off_repeatable thr est modes ess est' a b : k <= 2 \/ (thr <= 0)%Qc -> new_cb_estimator s t (length vars) known thr tests = Ok est ->
  calls est modes = Ok (ess, est') -> In a ess -> In b ess -> a = b.
Proof.
  intros Hc HN H. destruct th_facts as [W [N [L [T [D [K [U V]]]]]]]. destruct (new_estimator_ok s t (length vars) known thr tests est W N L HN) as [Hok [Ee [Et _]]].
  assert (HA : is_at s t thr tests (length vars) est (st_matrix (cb_st est))).
  { pose proof (est_is_at est Hok) as A. rewrite Ee, Et in A. exact A. }
  refine (quiet_calls s t thr tests (length vars) k W N L T D K U _ est _ modes ess est' HA H a b).
  intros v p sep Ht. rewrite ask_cleaned. pose proof (ask_verdict s t (length vars) k thr tests W T D K U v p sep Ht) as E. destruct (the_ask _ _ v k p sep) as [b0 mk]. cbn [snd].
  eapply (no_mark (MkEnv s t thr tests) (length vars) v p sep k Hc); [|exact E].
  intros K0 so c HK0 E0. destruct (imports_det vars cards prior rs s t HL HI) as [-> ->]. pose proof Ht as [Hv [Hp [_ HK]]].
  exact (diagonal_nonneg vars cards prior k HE rs v K0 so c HL Hv ltac:(destruct HK0 as [->| ->]; [exact HK|intros l [<-|Hl]; auto]) E0).
Qed.
(** a high enough threshold and at least three states: every other variable is reported, whatever the data and the tests *)
Theorem C94_high_threshold : 2 < k -> exists B : Qc, forall thr est mp es est', (B <= thr)%Qc -> new_cb_estimator s t (length vars) known thr tests = Ok est ->
  cb_estimate_structure est mp = Ok (es, est') -> forall a v, In (a, v) es <-> In a vars /\ In v vars /\ a <> v.
Proof.
  intros Hk. set (top := Zsum (map (observed_changes rs) (seq 0 (length vars)))). exists (Qc_of_Z (top + 1)). intros thr est mp es est' HB HN H a v.
  assert (HV : In (a, v) es -> In v vars).
  { intros Ha. destruct th_facts as [W [N [L [T [D [K [U V]]]]]]]. destruct (new_estimator_ok s t (length vars) known thr tests est W N L HN) as [Hok [Ee _]].
    destruct (estimate_char est Hok mp es est' H) as [_ [_ [X _]]]. destruct (X a v Ha) as [_ [Hv _]]. rewrite Ee in Hv. cbn [e_struct] in Hv. rewrite V in Hv. exact Hv. }
  assert (X : forall ni, nth_error vars ni = Some v -> (In (a, v) es <-> In a vars /\ a <> v)).
  { intros ni Hn. apply (C87_all_reported vars cards rs k v ni HL HE Hn prior s t known thr tests est mp es est' HI Hk HN H).
    assert (Hle : (observed_changes rs ni <= top)%Z).
    { unfold top. assert (In ni (seq 0 (length vars))) as Hin by (apply in_seq; split; [lia|]; cbn; apply nth_error_Some; congruence). revert Hin.
      generalize (seq 0 (length vars)). induction l as [|x l IH]; [intros []|]. cbn [map In]. assert (NN : forall l', (0 <= Zsum (map (observed_changes rs) l'))%Z).
      { induction l' as [|y l' IH']; [cbn; lia|]. cbn [map]. unfold Zsum in *. cbn [fold_right]. pose proof (changes_nonneg rs y). lia. }
      pose proof (changes_nonneg rs x). pose proof (NN l). unfold Zsum in *. cbn [fold_right]. intros [->|Hin]; [lia|]. specialize (IH Hin). lia. }
    assert (H1 : (1 <= (k - 1) * (k - 1) * k)%nat) by (assert (2 <= k - 1) by lia; nia). set (th := (k - 1) * (k - 1) * k) in *.
    apply Qclt_le_trans with (Qc_of_Z (top + 1)); [apply Qc_of_Z_lt; lia|].
    assert (P0 : (0 <= Qc_of_Z (top + 1))%Qc) by (apply Qc_of_Z_nonneg; pose proof (changes_nonneg rs ni); lia).
    apply Qcle_trans with thr; [exact HB|]. rewrite <- (Qcmult_1_r thr) at 1. rewrite (Qcmult_comm thr 1), (Qcmult_comm thr).
    apply Qcmult_le_compat_r; [|exact (Qcle_trans _ _ _ P0 HB)]. change 1%Qc with (Qc_of_Z 1). apply Qc_of_Z_le. lia. }
  split.
  - intros Ha. pose proof (HV Ha) as Hv. apply In_nth_error in Hv as [ni Hn]. pose proof (proj1 (X ni Hn) Ha). apply nth_error_In in Hn. tauto.
  - intros [Ha [Hv Hne]]. apply In_nth_error in Hv as [ni Hn]. apply (X ni Hn). auto.
Qed.

(** two estimators that differ in the threshold only *)
Variables (thr thr' : Qc) (est est1 : cb_estimator).
Hypothesis HN : new_cb_estimator s t (length vars) known thr tests = Ok est.
Hypothesis HN1 : new_cb_estimator s t (length vars) known thr' tests = Ok est1.
Hypothesis HT : (thr <= thr')%Qc.
Notation answers x v p sep b := (test_answers (cb_e x) (cb_tot x) (st_matrix (cb_st x)) v p sep b).

(** raising the threshold turns outcomes of single tests into giving up, and changes nothing else *)
Theorem C94_single_test v p sep : test_ok s v p sep ->
  ((forall b, answers est1 v p sep b <-> answers est v p sep b) /\ (~ In (p, v) known -> (gives_up est1 v p sep <-> gives_up est v p sep)))
  \/ (answers est1 v p sep false /\ (~ In (p, v) known -> gives_up est1 v p sep)).
Proof. destruct th_facts as [W [N [L [T [D [K [U V]]]]]]]. exact (th_test s t (length vars) k known thr thr' tests est est1 W N L T D K U HN HN1 HT v p sep). Qed.
Theorem C94_gives_up_more v p sep : test_ok s v p sep -> ~ In (p, v) known -> gives_up est v p sep -> gives_up est1 v p sep.
Proof. destruct th_facts as [W [N [L [T [D [K [U V]]]]]]]. exact (th_gives_up s t (length vars) k known thr thr' tests est est1 W N L T D K U HN HN1 HT v p sep). Qed.

Variables (mp mp1 : bool) (es es1 : list edge) (est' est1' : cb_estimator).
Hypothesis R0 : cb_estimate_structure est mp = Ok (es, est').
Hypothesis R1 : cb_estimate_structure est1 mp1 = Ok (es1, est1').

(** as long as no test gives up the threshold does not matter *)
Theorem C94_no_effect : (forall v p sep, test_ok s v p sep -> ~ In (p, v) known -> ~ gives_up est1 v p sep) -> forall e, In e es <-> In e es1.
Proof.
  destruct th_facts as [W [N [L [T [D [K [U V]]]]]]]. intros H [a v].
  exact (th_same s t (length vars) k known thr thr' tests est est1 W N L T D K U HN HN1 HT mp mp1 es es1 est' est1' R0 R1 H a v).
Qed.
(** in particular for binary variables, and below zero *)
Theorem C94_no_effect_when_off : k <= 2 \/ (thr' <= 0)%Qc -> forall e, In e es <-> In e es1.
Proof. intros H. apply C94_no_effect. intros v p sep Ht Hn. exact (C94_switched_off thr' est1 v p sep H HN1 Ht Hn). Qed.
(** an edge that is lost by raising the threshold was separated, under both thresholds, by a set that is not part of the
    answer for the lower threshold - or was kept under the lower threshold only because one of its tests gave up *)
Theorem C94_lost_edge q v : In (q, v) es -> ~ In (q, v) es1 ->
  exists sep, test_ok s v q sep /\ answers est v q sep true /\ answers est1 v q sep true
    /\ ((exists z, In z sep /\ ~ In (z, v) es) \/ (exists sep', test_ok s v q sep' /\ gives_up est v q sep' /\ gives_up est1 v q sep')).
Proof.
  destruct th_facts as [W [N [L [T [D [K [U V]]]]]]].
  exact (th_lost s t (length vars) k known thr thr' tests est est1 W N L T D K U HN HN1 HT mp mp1 es es1 est' est1' R0 R1 q v).
Qed.
(** with two variables a higher threshold never loses an edge *)
Theorem C94_two_variables : length vars <= 2 -> incl es es1.
Proof.
  destruct th_facts as [W [N [L [T [D [K [U V]]]]]]]. rewrite <- V.
  intros H. refine (th_two s t (length vars) k known thr thr' tests est est1 W N L T D K U HN HN1 HT mp mp1 es es1 est' est1' R0 R1 H).
Qed.
End data.

(** Five short trajectories of four variables with three states, X leaves state 0 once in each *)
Definition hraw (u w z : Z) (d : Q) : raw := [(0%Qc, [u;w;z;0]%Z); (Q2Qc d, [u;w;z;1]%Z)].
Definition hraws : list raw := [hraw 2 1 1 1; hraw 2 1 1 1; hraw 0 0 0 16; hraw 2 2 1 4; hraw 2 2 1 4].
Definition hvars : list label := ["U";"W";"Z";"X"].
(** accepts unless for some state both matrices have exits and their intensities of leaving it differ by more than a factor 4 *)
Definition hintensity (c : cim) (x : nat) : Qc := Qcopp (nth x (nth x (c_cim c) []) 0%Qc).
Definition hle (a b : Qc) : bool := match Qccompare a b with Gt => false | _ => true end.
Definition htests (n : nat) (c1 c2 : cim) : bool :=
  forallb (fun x => (nth x (nth x (c_trans c1) []) 0 =? 0)%Z || (nth x (nth x (c_trans c2) []) 0 =? 0)%Z
     || (hle (hintensity c1 x) (Q2Qc 4 * hintensity c2 x)%Qc && hle (hintensity c2 x) (Q2Qc 4 * hintensity c1 x)%Qc)) (seq 0 n).
Example hlegal : legal_input hvars [3;3;3;3] hraws /\ equal_cards [3;3;3;3] 3.
Proof.
  split; [|split; [lia|intros x [<-|[<-|[<-|[<-|[]]]]]; reflexivity]].
  split; [repeat constructor; cbn; intuition discriminate|]. split; [discriminate|]. split; [reflexivity|]. split.
  - assert (X : forall u w z d, (0 <= u < 3)%Z -> (0 <= w < 3)%Z -> (0 <= z < 3)%Z -> raw_ok [3;3;3;3] (hraw u w z d)).
    { intros u w z d Hu Hw Hz. split; [|intros o [<-|[<-|[]]]; reflexivity]. intros ab [<-|[]]. split; repeat constructor; cbn; lia. }
    unfold hraws; repeat (constructor; [apply X; lia|]); constructor.
  - eexists. split; [left; reflexivity|cbn; lia].
Qed.
Lemma edges_of_run {B} (r : result (list edge * B)) e f :
  match r with Ok (es, _) => emem e es && negb (emem f es) | Err _ => false end = true -> exists es est', r = Ok (es, est') /\ In e es /\ ~ In f es.
Proof.
  destruct r as [[es b]|]; [|discriminate]. intros H. apply andb_true_iff in H as [H1 H2]. exists es, b. split; [reflexivity|].
  split; [apply emem_In; exact H1|]. intros C. apply emem_In in C. rewrite C in H2. discriminate.
Qed.
(** the threshold 0 reports Z -> X and not W -> X; the threshold 1/36 (one observed change suffices for a separating set
    of one variable) reports W -> X and not Z -> X *)
Theorem C94_a_higher_threshold_can_lose_an_edge : exists s t est est1, imports_to hvars [3;3;3;3] None hraws s t
  /\ new_cb_estimator s t 4 [] 0%Qc htests = Ok est /\ new_cb_estimator s t 4 [] (Q2Qc (1#36)) htests = Ok est1
  /\ forall mp mp1, exists es es1 est' est1', cb_estimate_structure est mp = Ok (es, est') /\ cb_estimate_structure est1 mp1 = Ok (es1, est1')
     /\ (In ("Z","X") es /\ ~ In ("W","X") es) /\ (In ("W","X") es1 /\ ~ In ("Z","X") es1).
Proof.
  exists (struct_of hvars [3;3;3;3] None), (traj_of hvars hraws). do 2 eexists. split; [apply imports_exists, hlegal|].
  split; [reflexivity|]. split; [reflexivity|].
  match goal with |- forall mp mp1, exists es es1 est' est1', cb_estimate_structure ?a mp = _ /\ cb_estimate_structure ?b mp1 = _ /\ _ =>
    assert (A : forall mp, exists es est', cb_estimate_structure a mp = Ok (es, est') /\ In ("Z","X") es /\ ~ In ("W","X") es)
      by (intros []; apply edges_of_run; vm_compute; reflexivity);
    assert (B : forall mp, exists es est', cb_estimate_structure b mp = Ok (es, est') /\ In ("W","X") es /\ ~ In ("Z","X") es)
      by (intros []; apply edges_of_run; vm_compute; reflexivity) end.
  intros mp mp1. destruct (A mp) as [es [est' [A1 A2]]]. destruct (B mp1) as [es1 [est1' [B1 B2]]]. exists es, es1, est', est1'. auto.
Qed.
Print Assumptions C94_switched_off. Print Assumptions C94_switched_off_repeatable. Print Assumptions C94_high_threshold. Print Assumptions C94_single_test.
Print Assumptions C94_gives_up_more. Print Assumptions C94_no_effect. Print Assumptions C94_no_effect_when_off. Print Assumptions C94_lost_edge.
Print Assumptions C94_two_variables. Print Assumptions C94_a_higher_threshold_can_lose_an_edge.
Lemma answers_of_run e tot m c p sep cs i j b : structure_get_states_number (e_struct e) c = Ok cs ->
  structure_get_node_indx (e_struct e) p = Ok i -> structure_get_node_indx (e_struct e) c = Ok j ->
  match complete_test e (MkState m empty_cache) p c sep cs tot i j with Ok (x, _) => Bool.eqb x b | Err _ => false end = true ->
  test_answers e tot m c p sep b.
Proof.
  intros A B C D. exists cs, i, j. destruct (complete_test e (MkState m empty_cache) p c sep cs tot i j) as [[x st']|] eqn:E; [|discriminate].
  exists st'. apply Bool.eqb_prop in D as ->. auto.
Qed.
Lemma gives_up_of_run est v q sep cs i j : structure_get_states_number (e_struct (cb_e est)) v = Ok cs ->
  structure_get_node_indx (e_struct (cb_e est)) q = Ok i -> structure_get_node_indx (e_struct (cb_e est)) v = Ok j ->
  match complete_test (cb_e est) (MkState (st_matrix (cb_st est)) empty_cache) q v sep cs (cb_tot est) i j with
  | Ok (false, st') => match mat_get (st_matrix st') i j with Ok false => true | _ => false end | _ => false end = true ->
  gives_up est v q sep.
Proof.
  intros A B C D. exists cs, i, j. destruct (complete_test _ _ q v sep cs (cb_tot est) i j) as [[[] st']|] eqn:E; try discriminate.
  exists st'. destruct (mat_get (st_matrix st') i j) as [[]|] eqn:M; try discriminate. auto.
Qed.
(** in these data the test of U given Z accepts with threshold 0 and gives up with threshold 1/36 *)
Example C94_case : exists est est1, new_cb_estimator (struct_of hvars [3;3;3;3] None) (traj_of hvars hraws) 4 [] 0%Qc htests = Ok est
  /\ new_cb_estimator (struct_of hvars [3;3;3;3] None) (traj_of hvars hraws) 4 [] (Q2Qc (1#36)) htests = Ok est1
  /\ test_ok (struct_of hvars [3;3;3;3] None) "X" "U" ["Z"]
  /\ test_answers (cb_e est) (cb_tot est) (st_matrix (cb_st est)) "X" "U" ["Z"] true /\ gives_up est1 "X" "U" ["Z"].
Proof.
  do 2 eexists. split; [reflexivity|]. split; [reflexivity|].
  split; [split; [cbn; tauto|]; split; [cbn; tauto|]; split; [repeat constructor; cbn; intuition discriminate|cbn; intuition]|].
  split; [apply (answers_of_run _ _ _ _ _ _ 3 0 3 true); try reflexivity; vm_compute; reflexivity|].
  apply (gives_up_of_run _ _ _ _ 3 0 3); try reflexivity; vm_compute; reflexivity.
Qed.
