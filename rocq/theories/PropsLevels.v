(** Property theorems C77: the significance levels of the constraint-based estimator. *)
From Coq Require Import Reals Lra.
From Verif Require Import Base Lib ModelStructure ModelGraph ModelCims ModelData ModelParams ModelCache ModelCtpc ModelFamScore ModelIndep
  SpecStructure SpecGraph SpecComb SpecParams SpecData SpecCtpc SpecRecover SpecFloating SpecInvariance SpecFamScore SpecIndep SpecLevels
  ProofIndep2 ProofInvariance ProofLevels ProofLevels2.
Open Scope nat_scope.

(** a test that accepts independence still does at lower levels *)
Theorem C77_single_test P P' s t tot k thr m m' c p sep i j : quantiles_ok P -> quantiles_ok P' -> lower_levels P P' ->
  wf_structure s -> data_ok s t -> Forall (fun q => 0 <= q)%Qc (t_times t) -> total_variables_number s = tot ->
  0 < k -> (forall x, In x (nodes_values s) -> x = k) -> test_ok s c p sep ->
  structure_get_node_indx s p = Ok i -> structure_get_node_indx s c = Ok j ->
  (exists b, mat_get m i j = Ok b) -> (exists b, mat_get m' i j = Ok b) ->
  test_answers (MkEnv s t thr (the_tests P)) tot m c p sep true -> test_answers (MkEnv s t thr (the_tests P')) tot m' c p sep true.
Proof. intros H1 H2 H3 H4 H5 H6 H7 H8 H9 H10. exact (test_lower P P' s t tot k thr H1 H2 H3 H4 H5 H6 H7 H8 H9 m m' c p sep sep i j H10 H10 (fun z => iff_refl _)). Qed.
Print Assumptions C77_single_test.

(** binary variables: an edge q -> v that only the run with the lower levels reports is one that the other run rejected given
    a set of variables which are not all parents of v in the new answer *)
Theorem C77_edges_added_by_a_lower_level P P' s t tot k known thr est est1 mp mp' es es' est' est1' v q :
  quantiles_ok P -> quantiles_ok P' -> lower_levels P P' ->
  wf_structure s -> NoDup (nodes_indexes s) -> (forall i, In i (nodes_indexes s) -> i < tot) ->
  data_ok s t -> Forall (fun q => 0 <= q)%Qc (t_times t) -> total_variables_number s = tot ->
  0 < k <= 2 -> (forall x, In x (nodes_values s) -> x = k) ->
  new_cb_estimator s t tot known thr (the_tests P) = Ok est -> new_cb_estimator s t tot known thr (the_tests P') = Ok est1 ->
  cb_estimate_structure est mp = Ok (es, est') -> cb_estimate_structure est1 mp' = Ok (es', est1') ->
  In (q, v) es' -> ~ In (q, v) es ->
  exists sep z, test_ok s v q sep /\ test_answers (cb_e est) tot (st_matrix (cb_st est)) v q sep true /\ In z sep /\ ~ In (z, v) es'.
Proof.
  intros H1 H2 H3 H4 H5 H6 H7 H8 H9 H10 H11 H12 H13 H14 H15 H16 H17.
  destruct (lower_adds P P' s t tot k known thr H1 H2 H3 H4 H5 H6 H7 H8 H9 H10 H11 est est1 mp mp' es es' est' est1' H12 H13 H14 H15 v q H16) as [K|K]; [contradiction|exact K].
Qed.
Print Assumptions C77_edges_added_by_a_lower_level.
(** a variable that the tests separate from v given a set all of which is reported, at the higher or the lower levels, is not
    reported at the lower levels (unless its edge is known) *)
Theorem C77_separated_stays_separated P P' s t tot k known thr est est1 mp' es' est1' v q sep :
  quantiles_ok P -> quantiles_ok P' -> lower_levels P P' ->
  wf_structure s -> NoDup (nodes_indexes s) -> (forall i, In i (nodes_indexes s) -> i < tot) ->
  data_ok s t -> Forall (fun q => 0 <= q)%Qc (t_times t) -> total_variables_number s = tot ->
  0 < k <= 2 -> (forall x, In x (nodes_values s) -> x = k) ->
  new_cb_estimator s t tot known thr (the_tests P) = Ok est -> new_cb_estimator s t tot known thr (the_tests P') = Ok est1 ->
  cb_estimate_structure est1 mp' = Ok (es', est1') ->
  test_ok s v q sep -> test_answers (cb_e est) tot (st_matrix (cb_st est)) v q sep true ->
  (forall z, In z sep -> In (z, v) es') -> In (q, v) es' -> In (q, v) known.
Proof.
  intros H1 H2 H3 H4 H5 H6 H7 H8 H9 H10 H11 H12 H13 H14.
  exact (lower_drops P P' s t tot k known thr H1 H2 H3 H4 H5 H6 H7 H8 H9 H10 H11 est est1 mp' es' est1' H12 H13 H14 v q sep).
Qed.
Print Assumptions C77_separated_stays_separated.
(** with one or two variables, lower levels never add an edge *)
Theorem C77_two_variables P P' s t tot k known thr est est1 mp mp' es es' est' est1' :
  quantiles_ok P -> quantiles_ok P' -> lower_levels P P' ->
  wf_structure s -> NoDup (nodes_indexes s) -> (forall i, In i (nodes_indexes s) -> i < tot) ->
  data_ok s t -> Forall (fun q => 0 <= q)%Qc (t_times t) -> total_variables_number s = tot ->
  0 < k <= 2 -> (forall x, In x (nodes_values s) -> x = k) ->
  new_cb_estimator s t tot known thr (the_tests P) = Ok est -> new_cb_estimator s t tot known thr (the_tests P') = Ok est1 ->
  cb_estimate_structure est mp = Ok (es, est') -> cb_estimate_structure est1 mp' = Ok (es', est1') ->
  length (nodes_labels s) <= 2 -> incl es' es.
Proof.
  intros H1 H2 H3 H4 H5 H6 H7 H8 H9 H10 H11 H12 H13 H14 H15.
  exact (two_variables P P' s t tot k known thr H1 H2 H3 H4 H5 H6 H7 H8 H9 H10 H11 est est1 mp mp' es es' est' est1' H12 H13 H14 H15).
Qed.
Print Assumptions C77_two_variables.

(** Finding: with three variables they can.  On the data below, lowering the level replaces the edge W -> X by U -> X.  The
    conditions on the quantiles of the F distribution are met for the levels 0.1 and 0.05: F(4, 2) has its 0.95 quantile at
    19.2 and its 0.975 quantile at 39.2, the others lie away from the values tested. *)
Theorem C77_a_lower_level_can_add_an_edge P P' thr mode mode' : quantiles_ok P -> quantiles_ok P' -> lower_levels P P' ->
  (forall Q, Q = P \/ Q = P' -> ~ f_accepts Q 8 2 (274/1876) /\ ~ f_accepts Q 8 6 (1370/49) /\ f_accepts Q 8 4 (822/1890) /\ ~ f_accepts Q 8 4 (822/35)
     /\ f_accepts Q 4 2 (270/804) /\ f_accepts Q 6 4 (21/25) /\ f_accepts Q 6 2 (7/15) /\ f_accepts Q 4 4 1 /\ f_accepts Q 2 2 1)%R ->
  ~ f_accepts P 4 2 30 -> f_accepts P' 4 2 30 ->
  exists vars rs s t est est' es es' r r', let cards := [2;2;2] in
   legal_input vars cards rs /\ Forall clock_ok rs /\ imports_to vars cards None rs s t
   /\ new_cb_estimator s t 3 [] thr (the_tests P) = Ok est /\ new_cb_estimator s t 3 [] thr (the_tests P') = Ok est'
   /\ cb_estimate_structure est mode = Ok (es, r) /\ cb_estimate_structure est' mode' = Ok (es', r')
   /\ es = [("W","X")] /\ es' = [("U","X")].
Proof.
  intros HQ HQ' _ HB N30 A30.
  assert (TB : forall Q b, (~ f_accepts Q 8 2 (274/1876) /\ ~ f_accepts Q 8 6 (1370/49) /\ f_accepts Q 8 4 (822/1890) /\ ~ f_accepts Q 8 4 (822/35)
     /\ f_accepts Q 4 2 (270/804) /\ f_accepts Q 6 4 (21/25) /\ f_accepts Q 6 2 (7/15) /\ f_accepts Q 4 4 1 /\ f_accepts Q 2 2 1)%R ->
     (b = true <-> f_accepts Q 4 2 30%R) -> table_ok Q b).
  { intros Q b [B1 [B2 [B3 [B4 [B5 [B6 [B7 [B8 B9]]]]]]]] B30 r1 d1 r2 d2 v I. unfold ltable in I. cbn [In] in I.
    assert (F : forall r r' x y, x = y -> f_accepts Q r r' x <-> f_accepts Q r r' y) by (intros r r' x y ->; reflexivity).
    assert (NF : forall A : Prop, ~ A -> false = true <-> A) by (intros A N; split; [discriminate|tauto]).
    assert (TF : forall A : Prop, A -> true = true <-> A) by (intros A N; split; [intro; exact N|reflexivity]).
    destruct I as [I|[I|[I|[I|[I|[I|[I|[I|[I|[I|[]]]]]]]]]]]; injection I as <- <- <- <- <-; unfold lratio.
    - rewrite (F 8%Z 2%Z _ (274/1876)%R) by field. apply NF, B1.
    - rewrite (F 8%Z 6%Z _ (1370/49)%R) by field. apply NF, B2.
    - rewrite (F 8%Z 4%Z _ (822/1890)%R) by field. apply TF, B3.
    - rewrite (F 8%Z 4%Z _ (822/35)%R) by field. apply NF, B4.
    - rewrite (F 4%Z 2%Z _ (270/804)%R) by field. apply TF, B5.
    - rewrite (F 4%Z 2%Z _ 30%R) by field. exact B30.
    - rewrite (F 4%Z 4%Z _ 1%R) by field. apply TF, B8.
    - rewrite (F 6%Z 4%Z _ (21/25)%R) by field. apply TF, B6.
    - rewrite (F 6%Z 2%Z _ (7/15)%R) by field. apply TF, B7.
    - rewrite (F 2%Z 2%Z _ 1%R) by field. apply TF, B9. }
  destruct (lresult P false mode thr HQ) as [est [es [r [E1 [E2 E3]]]]]; [apply TB; [apply HB; left; reflexivity|split; [discriminate|tauto]]|].
  destruct (lresult P' true mode' thr HQ') as [est' [es' [r' [E1' [E2' E3']]]]]; [apply TB; [apply HB; right; reflexivity|split; [tauto|reflexivity]]|].
  exists lvars, ldata, ls0, (traj_of lvars ldata), est, est', es, es', r, r'. cbv zeta.
  split; [exact ldata_legal|]. split; [exact ldata_clock|]. split; [apply imports_exists, ldata_legal|]. auto 10.
Qed.
Print Assumptions C77_a_lower_level_can_add_an_edge.

(** a concrete case: quantile functions that meet all conditions (those of F are rounded) *)
Definition qf (p : R) (r1 r2 : Z) : xr :=
  if (r1 =? 0)%Z || (r2 =? 0)%Z then NaN else if Rlt_dec p (1/2) then Fin (3/20) else if Rlt_dec p (24/25) then Fin 20 else if (r2 =? 2)%Z then Fin 39 else Fin 20.
Definition qc (p : R) (df : nat) : xr := if df =? 0 then NaN else Fin 4.
Definition levels (a : R) : test_params := MkTests a (1/10)%R qf qc.
Lemma levels_ok a : (0 < a < 1)%R -> quantiles_ok (levels a).
Proof.
  intros Ha. unfold levels, quantiles_ok; cbn. split; [|split; [|split; [|split]]].
  - intros p r1 r2 _ H1 H2. unfold qf. replace (r1 =? 0)%Z with false by lia. replace (r2 =? 0)%Z with false by lia. cbn [orb].
    repeat match goal with |- context[if ?b then _ else _] => destruct b end; eexists; (split; [reflexivity|lra]).
  - intros p r1 r2 H. unfold qf. destruct H as [H|H]; rewrite H; [|rewrite orb_comm]; reflexivity.
  - intros p df _ H. unfold qc. destruct df as [|df]; [lia|]. cbn [Nat.eqb]. eexists. split; [reflexivity|lra].
  - reflexivity.
  - lra.
Qed.
Example C77_case : exists P P', quantiles_ok P /\ quantiles_ok P' /\ lower_levels P P' /\ (exp_alpha P = 1/10)%R /\ (exp_alpha P' = 1/20)%R
  /\ (forall Q, Q = P \/ Q = P' -> ~ f_accepts Q 8 2 (274/1876) /\ ~ f_accepts Q 8 6 (1370/49) /\ f_accepts Q 8 4 (822/1890) /\ ~ f_accepts Q 8 4 (822/35)
     /\ f_accepts Q 4 2 (270/804) /\ f_accepts Q 6 4 (21/25) /\ f_accepts Q 6 2 (7/15) /\ f_accepts Q 4 4 1 /\ f_accepts Q 2 2 1)%R
  /\ ~ f_accepts P 4 2 30 /\ f_accepts P' 4 2 30.
Proof.
  exists (levels (1/10)%R), (levels (1/20)%R). split; [apply levels_ok; lra|]. split; [apply levels_ok; lra|]. split.
  { split; [reflexivity|]. split; [reflexivity|]. cbn. split; [lra|]. split; [lra|]. split.
    - intros p p' r1 r2 q q' [H1 H2] H3. unfold qf. destruct ((r1 =? 0)%Z || (r2 =? 0)%Z); [discriminate|].
      repeat match goal with |- context[if ?b then _ else _] => destruct b end; intros E E'; injection E as <-; injection E' as <-; lra.
    - intros p p' df q q' _ _. unfold qc. destruct (df =? 0); [discriminate|]. intros E E'; injection E as <-; injection E' as <-; lra. }
  split; [reflexivity|]. split; [reflexivity|].
  assert (V : forall a r1 r2 f, (a = 1/10 \/ a = 1/20)%R -> (0 < r1)%Z -> (0 < r2)%Z ->
     f_accepts (levels a) r1 r2 f <-> (3/20 <= f <= (if (r2 =? 2)%Z then if Rlt_dec (1 - a / 2) (24/25) then 20 else 39 else 20))%R).
  { intros a r1 r2 f Ha R1 R2. unfold f_accepts, between, levels; cbn [f_ppf exp_alpha]. unfold qf.
    replace (r1 =? 0)%Z with false by lia. replace (r2 =? 0)%Z with false by lia. cbn [orb].
    destruct (Rlt_dec (a/2) (1/2)) as [_|N]; [|lra]. destruct (Rlt_dec (1 - a/2) (1/2)) as [N|_]; [lra|]. split.
    - intros [A B]. split; [apply A; reflexivity|apply B]. destruct (Rlt_dec (1 - a / 2) (24/25)); destruct (r2 =? 2)%Z; reflexivity.
    - intros [A B]. split; [intros l E; injection E as <-; exact A|]. intros h E. destruct (Rlt_dec (1 - a / 2) (24/25)); destruct (r2 =? 2)%Z; injection E as <-; exact B. }
  split; [|split].
  - intros Q HQ. assert (X : exists a, (a = 1/10 \/ a = 1/20)%R /\ Q = levels a) by (destruct HQ as [HQ|HQ]; [exists (1/10)%R; split; [left; reflexivity|exact HQ]|exists (1/20)%R; split; [right; reflexivity|exact HQ]]).
    destruct X as [a [Ha ->]]. rewrite !V by (try exact Ha; lia). cbn [Z.eqb Pos.eqb]. destruct (Rlt_dec (1 - a / 2) (24/25)); repeat split; lra.
  - rewrite V by (try lia; left; reflexivity). cbn [Z.eqb Pos.eqb]. destruct (Rlt_dec (1 - 1/10/2) (24/25)); lra.
  - rewrite V by (try lia; right; reflexivity). cbn [Z.eqb Pos.eqb]. destruct (Rlt_dec (1 - 1/20/2) (24/25)); lra.
Qed.
