(** Property theorems C72: redundant variables and the order of the columns. *)
From Coq Require Import Reals.
From Verif Require Import Base Lib ModelStructure ModelGraph ModelCims ModelData ModelParams ModelCache ModelCtpc ModelFamScore ModelIndep
  SpecStructure SpecGraph SpecComb SpecParams SpecCtpc SpecRecover SpecRedundant SpecFamScore SpecIndep ProofIndep2 ProofRedundant PropsIndep.
Open Scope nat_scope.

(** a variable whose state is, in the data, a function of variables kept as parents is not kept beside them, unless its
    edge is known or some test on it gave up for lack of data *)
Theorem C72_redundant_never_kept est mp es est' v q sep k : estimator_ok est -> uniform_data est k -> tolerant (cb_e est) (cb_tot est) k ->
  (forall ni, structure_get_node_indx (e_struct (cb_e est)) v = Ok ni -> data_suffice (cb_e est) (cb_tot est) k ni sep) ->
  determined (e_struct (cb_e est)) (e_traj (cb_e est)) q sep -> ~ In q sep ->
  cb_estimate_structure est mp = Ok (es, est') -> (forall z, In z sep -> In (z, v) es) -> In (q, v) es ->
  ~ removable est q v \/ exists sep', test_ok (e_struct (cb_e est)) v q sep' /\ gives_up est v q sep'.
Proof. exact (redundant_estimate est mp es est' v q sep k). Qed.
Print Assumptions C72_redundant_never_kept.
(** binary variables: only known edges can come from redundant variables *)
Theorem C72_binary s t tot known thr tests est mp es est' v q sep k :
  wf_structure s -> NoDup (nodes_indexes s) -> (forall i, In i (nodes_indexes s) -> i < tot) ->
  total_variables_number s = tot -> data_ok s t -> 0 < k <= 2 -> (forall x, In x (nodes_values s) -> x = k) ->
  new_cb_estimator s t tot known thr tests = Ok est -> tolerant (cb_e est) tot k ->
  determined s t q sep -> ~ In q sep ->
  cb_estimate_structure est mp = Ok (es, est') -> (forall z, In z sep -> In (z, v) es) -> In (q, v) es -> In (q, v) known.
Proof. exact (redundant_binary s t tot known thr tests est mp es est' v q sep k). Qed.
Print Assumptions C72_binary.
(** in particular: a variable that never changes is nobody's parent, and of two copies at most one is a parent *)
Theorem C72_constants_and_copies s t tot known thr tests est mp es est' v k :
  wf_structure s -> NoDup (nodes_indexes s) -> (forall i, In i (nodes_indexes s) -> i < tot) ->
  total_variables_number s = tot -> data_ok s t -> 0 < k <= 2 -> (forall x, In x (nodes_values s) -> x = k) ->
  new_cb_estimator s t tot known thr tests = Ok est -> tolerant (cb_e est) tot k ->
  cb_estimate_structure est mp = Ok (es, est') ->
  (forall q i z, structure_get_node_indx s q = Ok i -> (forall row, In row (t_rows t) -> nth_error row i = Some z) ->
     In (q, v) es -> In (q, v) known)
  /\ (forall a b i j, a <> b -> structure_get_node_indx s a = Ok i -> structure_get_node_indx s b = Ok j ->
       (forall row, In row (t_rows t) -> nth_error row i = nth_error row j) ->
       In (a, v) es -> In (b, v) es -> In (a, v) known /\ In (b, v) known).
Proof.
  intros H1 H2 H3 H4 H5 H6 H7 H8 H9 H10.
  assert (R : forall q sep, determined s t q sep -> ~ In q sep -> (forall z, In z sep -> In (z, v) es) -> In (q, v) es -> In (q, v) known).
  { intros q sep D N. exact (redundant_binary s t tot known thr tests est mp es est' v q sep k H1 H2 H3 H4 H5 H6 H7 H8 H9 D N H10). }
  split.
  - intros q i z E C. apply (R q []); [|exact (fun x => x)|intros x []]. intros r1 r2 R1 R2 _ i' E'. rewrite E in E'. injection E' as <-.
    rewrite (C r1 R1), (C r2 R2). reflexivity.
  - intros a b i j N Ei Ej C Ha Hb. split.
    + apply (R a [b]); [|cbn; intuition|intros z [<-|[]]; exact Hb|exact Ha]. intros r1 r2 R1 R2 Q i' E'. rewrite Ei in E'. injection E' as <-.
      rewrite (C r1 R1), (C r2 R2). apply (Q b j); [left; reflexivity|exact Ej].
    + apply (R b [a]); [|cbn; intuition|intros z [<-|[]]; exact Ha|exact Hb]. intros r1 r2 R1 R2 Q i' E'. rewrite Ej in E'. injection E' as <-.
      rewrite <- (C r1 R1), <- (C r2 R2). apply (Q a i); [left; reflexivity|exact Ei].
Qed.
Print Assumptions C72_constants_and_copies.
(** the tests of the estimator meet the requirement: 1 lies between the quantiles of F(n, n) *)
Theorem C72_the_tests_qualify P e tot k : quantiles_ok P -> e_tests e = the_tests P -> Forall (fun q => 0 <= q)%Qc (t_times (e_traj e)) ->
  (forall n, (2 <= n)%Z -> between (f_ppf P (exp_alpha P / 2)%R n n) 1 (f_ppf P (1 - exp_alpha P / 2)%R n n)) -> tolerant e tot k.
Proof.
  intros HQ HE HT HB ni pis u c. assert (HC : forall pis u, computed_cim k (data_cim (e_traj e) tot ni pis k u)) by (intros; apply exact_cim_computed, HT).
  rewrite HE. split.
  - unfold the_tests. rewrite (C61_identical_cims_pass P k c HQ (HC _ _)); [reflexivity|]. intros x _ Hx. apply HB, Hx.
  - intros pis' u' c' Z. apply (the_tests_iff P HQ k c c' (HC _ _) (HC _ _)). intros x Hx. right. left. apply Z, Hx.
Qed.
Print Assumptions C72_the_tests_qualify.

(** Y and Z are copies of each other; X reacts to them *)
Definition rows := [[0;0;0;1;-1;-1]; [1;0;0;0;-1;-1]; [0;0;0;1;-1;-1]; [1;0;0;-1;1;1]; [1;1;1;0;-1;-1]; [0;1;1;1;-1;-1]]%Z.
Definition rt := MkTrajectory [1;1;1;1;1;1]%Qc rows 6 4.
Definition rs (a b : label) := MkStructure ["X";a;b] [0;1;2] [2;2;2] [] 3.
Definition rtests (k : nat) (c1 c2 : cim) : bool :=
  forallb (fun x => (nth x (nth x (c_trans c2) []) 0 =? 0)%Z || (nth x (nth x (c_trans c1) []) 0 =? nth x (nth x (c_trans c2) []) 0)%Z) (seq 0 k).
Example rtests_tolerant s thr : tolerant (MkEnv s rt thr rtests) 3 2.
Proof.
  intros ni pis u. cbn zeta. change (e_tests (MkEnv s rt thr rtests)) with rtests. split.
  - apply forallb_forall. intros x _. rewrite Z.eqb_refl. apply orb_true_r.
  - intros pis' u' Z. apply forallb_forall. intros x Hx. apply in_seq in Hx. rewrite Z by lia. reflexivity.
Qed.
Example rs_ok a b : a <> b -> a <> "X" -> b <> "X" -> wf_structure (rs a b) /\ NoDup (nodes_indexes (rs a b)) /\ data_ok (rs a b) rt.
Proof.
  intros N1 N2 N3. assert (W : wf_structure (rs a b)).
  { split; [|split; reflexivity]. cbn. repeat constructor; cbn; intuition congruence. }
  split; [exact W|]. split; [repeat constructor; cbn; intuition lia|].
  split; [reflexivity|]. split; [reflexivity|]. split; [reflexivity|]. intros row Hrow l i c Hi Hc.
  unfold structure_get_node_indx in Hi. unfold structure_get_states_number in Hc. cbn in Hi, Hc.
  destruct (String.eqb l "X"); [|destruct (String.eqb l a); [|destruct (String.eqb l b); [|discriminate]]];
  cbn in Hi, Hc; injection Hi as <-; injection Hc as <-;
  repeat destruct Hrow as [<-|Hrow]; try contradiction; (split; [cbn; lia|]; split; [first [exists 0; split; [reflexivity|lia]|exists 1; split; [reflexivity|lia]]|eexists; split; [reflexivity|lia]]).
Qed.
(** finding: which copy is reported as the parent of X depends on the order of the columns; the data are the same *)
Theorem C72_column_order_matters_refuted : exists est1 est2 est1' est2',
  new_cb_estimator (rs "Y" "Z") rt 3 [] 1 rtests = Ok est1 /\ new_cb_estimator (rs "Z" "Y") rt 3 [] 1 rtests = Ok est2
  /\ (forall row, In row (t_rows rt) -> nth_error row 1 = nth_error row 2 /\ nth_error row 4 = nth_error row 5)
  /\ cb_estimate_structure est1 true = Ok ([("Z","X")], est1') /\ cb_estimate_structure est2 true = Ok ([("Y","X")], est2').
Proof.
  do 4 eexists. split; [reflexivity|]. split; [reflexivity|]. split; [|split; vm_compute; reflexivity].
  intros row Hrow. repeat destruct Hrow as [<-|Hrow]; try contradiction; split; reflexivity.
Qed.
Print Assumptions C72_column_order_matters_refuted.
(** this case meets the hypotheses of the theorems above *)
Example C72_case : determined (rs "Y" "Z") rt "Y" ["Z"] /\ wf_structure (rs "Y" "Z") /\ data_ok (rs "Y" "Z") rt.
Proof.
  split; [|destruct (rs_ok "Y" "Z") as [A [_ B]]; [discriminate ..|split; assumption]].
  intros r1 r2 R1 R2 Q i Hi. cbn in Hi. injection Hi as <-. specialize (Q "Z" 2 (or_introl eq_refl) eq_refl).
  repeat destruct R1 as [<-|R1]; try contradiction; repeat destruct R2 as [<-|R2]; try contradiction; cbn in *; congruence.
Qed.
