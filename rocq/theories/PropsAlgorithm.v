(** Property theorems C81 and C82: the constraint-based estimator is the CTPC algorithm, and variables that play no part. *)
From Coq Require Import Reals Lra.
From Verif Require Import Base Lib ModelStructure ModelGraph ModelCims ModelData ModelParams ModelCache ModelCtpc ModelSearch ModelIndep
  SpecStructure SpecGraph SpecComb SpecParams SpecData SpecCtpc SpecRecover SpecInvariance SpecFloating SpecIndep SpecColumns SpecRedundant SpecAlgorithm
  ProofStructure ProofGraph ProofData ProofData3 ProofInvariance ProofCtpc ProofCtpc2 ProofCtpc5 ProofCtpc7 ProofRedundant ProofColumns ProofColumns2 ProofColumns3
  ProofAlgorithm3 ProofAlgorithm4 PropsData PropsInvariance PropsIndep PropsRedundant.
Open Scope nat_scope.

(** The answer of estimate_structure is the answer of the CTPC algorithm, run for every variable on the answers of the
    single tests, the known edges being protected *)
Theorem C81_algorithm s t tot k known thr tests est :
  wf_structure s -> NoDup (nodes_indexes s) -> (forall i, In i (nodes_indexes s) -> i < tot) ->
  total_variables_number s = tot -> data_ok s t -> 0 < k -> (forall x, In x (nodes_values s) -> x = k) ->
  new_cb_estimator s t tot known thr tests = Ok est ->
  forall v, In v (nodes_labels s) -> exists ask : label -> list label -> bool * bool,
    (forall p sep, test_ok s v p sep ->
       (forall b, test_answers (cb_e est) (cb_tot est) (st_matrix (cb_st est)) v p sep b <-> b = fst (ask p sep))
       /\ (~ In (p, v) known -> (gives_up est v p sep <-> snd (ask p sep) = true)))
    /\ forall mp, exists es est', cb_estimate_structure est mp = Ok (es, est')
         /\ forall p, In (p, v) es <-> In p (ctpc_parents ask (filter (fun q => emem (q, v) known) (others s v)) (others s v)).
Proof.
  intros Hwf Hnd Hlt Htot Hd Hk HU HN v Hv. exists (the_ask (MkEnv s t thr tests) tot v k).
  destruct (new_estimator_ok s t tot known thr tests est Hwf Hnd Hlt HN) as [Hok [Ee [Et _]]]. split.
  - intros p sep Ht. rewrite Ee, Et. exact (ask_faithful s t tot k known thr tests est Hwf Hnd Hlt Htot Hd Hk HU HN v p sep Ht).
  - intros mp. destruct (estimate_total est Hok mp k) as [es [est' H]].
    + split; [exact Hk|]. rewrite Ee, Et. split; [exact HU|]. split; [exact Htot|exact Hd].
    + exists es, est'. split; [exact H|]. exact (estimate_alg s t tot k known thr tests est Hwf Hnd Hlt Htot Hd Hk HU HN mp es est' v H Hv).
Qed.
Print Assumptions C81_algorithm.

Section data.
Variables (vars : list label) (cards : list nat) (prior prior' : option (list edge)) (rs : list raw) (sg : list nat) (k : nat).
Hypothesis HL : legal_input vars cards rs.
Hypothesis HE : equal_cards cards k.
Hypothesis HS : selection sg (length vars).
(** the kept columns stay in their order *)
Hypothesis HO : sublist (pick sg vars) vars.

Lemma est_facts vs cs pr xs known thr tests est : legal_input vs cs xs -> new_cb_estimator (struct_of vs cs pr) (traj_of vs xs) (length vs) known thr tests = Ok est ->
  wf_structure (struct_of vs cs pr) /\ NoDup (nodes_indexes (struct_of vs cs pr)) /\ (forall i, In i (nodes_indexes (struct_of vs cs pr)) -> i < length vs)
  /\ data_ok (struct_of vs cs pr) (traj_of vs xs) /\ cb_e est = MkEnv (struct_of vs cs pr) (traj_of vs xs) thr tests /\ cb_tot est = length vs.
Proof.
  intros HLx HNx. pose proof (legal_wf vs cs pr xs HLx) as Hwf.
  assert (N1 : NoDup (nodes_indexes (struct_of vs cs pr))) by (cbn [struct_of nodes_indexes]; apply seq_NoDup).
  assert (N2 : forall i, In i (nodes_indexes (struct_of vs cs pr)) -> i < length vs) by (cbn [struct_of nodes_indexes]; intros i Hi; apply in_seq in Hi; lia).
  destruct (new_estimator_ok _ _ _ _ _ _ _ Hwf N1 N2 HNx) as [_ [A [B _]]]. split; [exact Hwf|]. split; [exact N1|]. split; [exact N2|].
  split; [exact (legal_data vs cs pr xs HLx)|]. split; [exact A|exact B].
Qed.

(** Dropping columns: if every dropped variable is found independent of [v] without any separating set, the edges into [v]
    stay what they are *)
Theorem C82_unrelated s t s' t' tests known known' thr est est' v mp mp' es es' est1 est1' :
  imports_to vars cards prior rs s t -> imports_to (pick sg vars) (pick sg cards) prior' (picked sg rs) s' t' ->
  new_cb_estimator s t (length vars) known thr tests = Ok est ->
  new_cb_estimator s' t' (length (pick sg vars)) known' thr tests = Ok est' ->
  In v (pick sg vars) ->
  (forall q, In q vars -> ~ In q (pick sg vars) -> ~ In (q, v) known /\ test_answers (cb_e est) (cb_tot est) (st_matrix (cb_st est)) v q [] true) ->
  (forall q, In q (pick sg vars) -> (In (q, v) known <-> In (q, v) known')) ->
  cb_estimate_structure est mp = Ok (es, est1) -> cb_estimate_structure est' mp' = Ok (es', est1') ->
  forall p, In (p, v) es <-> In (p, v) es'.
Proof.
  intros H H' HN HN' Hv HD HK R R' p. pose proof (legal_picked sg vars cards HS rs HL) as HL'.
  apply (imports_det vars cards prior rs s t HL) in H as [-> ->]. apply (imports_det _ _ prior' _ s' t' HL') in H' as [-> ->].
  destruct (est_facts _ _ _ _ _ _ _ _ HL HN) as [W [N1 [N2 [D [E1 E2]]]]]. destruct (est_facts _ _ _ _ _ _ _ _ HL' HN') as [W' [N1' [N2' [D' [E1' E2']]]]].
  destruct HE as [Hk HU]. pose proof (proj2 (equal' sg cards k HE)) as HU'.
  rewrite (estimate_alg _ _ _ k known thr tests est W N1 N2 eq_refl D Hk HU HN mp es est1 v R (pick_In _ _ _ Hv)).
  rewrite (estimate_alg _ _ _ k known' thr tests est' W' N1' N2' eq_refl D' Hk HU' HN' mp' es' est1' v R' Hv).
  rewrite (same_parents_of sg vars cards prior prior' rs HS HL HO tests thr k HE known known' v Hv); [tauto| |exact HK].
  intros q Hq Hq' Hqv. destruct (HD q Hq Hq') as [A B]. split; [exact A|]. rewrite E1, E2 in B.
  assert (Ht : test_ok (struct_of vars cards prior) v q []).
  { split; [exact (pick_In _ _ _ Hv)|]. split; [exact Hq|]. split; [|intros x []]. constructor; [intros [K|[]]; congruence|]. constructor; [intros []|constructor]. }
  pose proof (ask_faithful _ _ _ k known thr tests est W N1 N2 eq_refl D Hk HU HN v q [] Ht) as [F _]. symmetry. apply F. exact B.
Qed.

(** A column that never changes (the last row of a trajectory, its end, does not count) *)
Definition never_changes (q : label) : Prop :=
  exists i z, nth_error vars i = Some q /\ forall r ab, In r rs -> In ab (steps r) -> nth_error (snd (fst ab)) i = Some z.

(** Binary data: columns that never change can be dropped; the edges among the others stay what they are *)
Theorem C82_constant_variables P s t s' t' known known' thr est est' mp mp' es es' est1 est1' : k <= 2 ->
  quantiles_ok P -> (forall n, (2 <= n)%Z -> between (f_ppf P (exp_alpha P / 2)%R n n) 1 (f_ppf P (1 - exp_alpha P / 2)%R n n)) ->
  Forall clock_ok rs ->
  imports_to vars cards prior rs s t -> imports_to (pick sg vars) (pick sg cards) prior' (picked sg rs) s' t' ->
  new_cb_estimator s t (length vars) known thr (the_tests P) = Ok est ->
  new_cb_estimator s' t' (length (pick sg vars)) known' thr (the_tests P) = Ok est' ->
  (forall q, In q vars -> ~ In q (pick sg vars) -> never_changes q /\ forall v, ~ In (q, v) known) ->
  (forall q v, In q (pick sg vars) -> In v (pick sg vars) -> (In (q, v) known <-> In (q, v) known')) ->
  cb_estimate_structure est mp = Ok (es, est1) -> cb_estimate_structure est' mp' = Ok (es', est1') ->
  forall p v, In v (pick sg vars) -> (In (p, v) es <-> In (p, v) es').
Proof.
  intros Hk2 HQ HB HC H H' HN HN' HD HK R R' p v Hv.
  apply (C82_unrelated s t s' t' (the_tests P) known known' thr est est' v mp mp' es es' est1 est1' H H' HN HN' Hv); [|intros q Hq; apply HK; assumption|exact R|exact R'].
  intros q Hq Hq'. destruct (HD q Hq Hq') as [[i [z [Ei Hz]]] A]. split; [apply A|]. clear R R' HK HD A.
  apply (imports_det vars cards prior rs s t HL) in H as [-> ->]. destruct (est_facts _ _ _ _ _ _ _ _ HL HN) as [W [N1 [N2 [D [E1 E2]]]]]. destruct HE as [Hk HU].
  rewrite E1, E2. set (s0 := struct_of vars cards prior) in *.
  pose proof (pick_In _ _ _ Hv) as Hv0.
  destruct (wf_lookup s0 v W Hv0) as [_ [_ [_ [_ [Ev Ec]]]]]. destruct (wf_lookup s0 q W Hq) as [_ [_ [_ [_ [Eq _]]]]].
  destruct (new_estimator_ok _ _ _ _ _ _ _ W N1 N2 HN) as [_ [_ [_ [_ HM]]]]. pose proof (HM q v _ _ Hq Hv0 Eq Ev) as EM.
  assert (Ht : test_ok s0 v q []).
  { split; [exact Hv0|]. split; [exact Hq|]. split; [|intros x []]. constructor; [intros [K|[]]; congruence|]. constructor; [intros []|constructor]. }
  destruct (redundant_accepted (MkEnv s0 (traj_of vars rs) thr (the_tests P)) (length vars) k v q [] (st_matrix (cb_st est)) (idx_of s0 q) (idx_of s0 v) _ (idx_of s0 v) W D eq_refl Hk HU Ht EM Ev) as [st' ES].
  - apply (C72_the_tests_qualify P); [exact HQ|reflexivity| |exact HB]. cbn [e_traj traj_of t_times]. unfold raw_times. apply Forall_map, Forall_forall. intros ab Hab.
    apply in_flat_map in Hab as [r [Hr Hab]]. rewrite Forall_forall in HC. pose proof (HC r Hr ab Hab) as K. apply (proj1 (Qcle_minus_iff _ _)) in K. exact K.
  - apply suffice_binary, Hk2.
  - assert (X : forall row, In row (t_rows (traj_of vars rs)) -> nth_error row i = Some z).
    { cbn [traj_of t_rows]. intros row Hrow. unfold raw_rows in Hrow. apply in_map_iff in Hrow as [ab [<- Hab]]. apply in_flat_map in Hab as [r [Hr Hab]].
      pose proof (Hz r ab Hr Hab) as K.
      rewrite nth_error_app1; [exact K|]. apply nth_error_Some. congruence. }
    assert (EI : idx_of s0 q = i).
    { destruct (idx_pos prior vars cards q W Hq) as [K _]. change (struct_of vars cards prior) with s0 in K.
      apply (proj1 (NoDup_nth_error vars) (proj1 W)); [apply nth_error_Some; congruence|congruence]. }
    intros r1 r2 Hr1 Hr2 _ j Hj. change (e_struct _) with s0 in Hj. rewrite Eq in Hj. injection Hj as <-. rewrite EI, (X r1 Hr1), (X r2 Hr2). reflexivity.
  - exists (val_of s0 v), (idx_of s0 q), (idx_of s0 v), st'. split; [exact Ec|]. split; [exact Eq|]. split; [exact Ev|].
    assert (EK : val_of s0 v = k). { destruct (idx_pos prior vars cards v W Hv0) as [_ K]. apply HU. exact (nth_error_In _ _ K). }
    rewrite EK. exact ES.
Qed.
End data.
Print Assumptions C82_unrelated. Print Assumptions C82_constant_variables.

(** the algorithm on its own: only B can be separated from the variable, by any set with C in it; then with B protected,
    and with a test of B that gives up *)
Example C81_run : ctpc_parents (fun p sep => (String.eqb p "B" && lmem "C" sep, false)) [] ["A";"B";"C"] = ["A";"C"]
  /\ ctpc_parents (fun p sep => (String.eqb p "B" && lmem "C" sep, false)) ["B"] ["A";"B";"C"] = ["A";"B";"C"]
  /\ ctpc_parents (fun p sep => (String.eqb p "B" && lmem "C" sep, match sep with [] => String.eqb p "B" | _ => false end)) [] ["A";"B";"C"] = ["A";"B";"C"].
Proof. split; [|split]; reflexivity. Qed.
(** the hypotheses of C81 are met by the data of C72 *)
Example C81_case : exists est est', wf_structure (rs "Y" "Z") /\ NoDup (nodes_indexes (rs "Y" "Z")) /\ data_ok (rs "Y" "Z") rt
  /\ new_cb_estimator (rs "Y" "Z") rt 3 [] 1 rtests = Ok est /\ cb_estimate_structure est true = Ok ([("Z","X")], est').
Proof.
  do 2 eexists. destruct (rs_ok "Y" "Z") as [A [B C]]; [discriminate ..|]. split; [exact A|]. split; [exact B|]. split; [exact C|].
  split; [reflexivity|vm_compute; reflexivity].
Qed.
(** a third column, "K", that never changes, between X and Y *)
Definition withK (r : raw) : raw := map (fun o => (fst o, match snd o with [x; y] => [x; if (x =? -1)%Z then (-1)%Z else 1%Z; y] | l => l end)) r.
Definition kvars := ["X";"K";"Y"].
Definition krs := [withK dr1; withK dr2].
Lemma kraw : Forall (raw_ok [2;2;2]) krs.
Proof.
  apply Forall_cons; [split|apply Forall_cons; [split|apply Forall_nil]].
  all: intros o H; cbn in H; repeat (destruct H as [<-|H]; [first [reflexivity|split; cbn; repeat constructor; lia]|]); contradiction.
Qed.
Example C82_case : legal_input kvars [2;2;2] krs /\ equal_cards [2;2;2] 2 /\ selection [0;2] 3 /\ sublist (pick [0;2] kvars) kvars
  /\ pick [0;2] kvars = dvars /\ picked [0;2] krs = [dr1; dr2] /\ Forall clock_ok krs
  /\ (forall q, In q kvars -> ~ In q (pick [0;2] kvars) -> never_changes kvars krs q)
  /\ (forall n, (2 <= n)%Z -> between (f_ppf pex (exp_alpha pex / 2)%R n n) 1 (f_ppf pex (1 - exp_alpha pex / 2)%R n n))
  /\ exists s t s' t' est est' es es' est1 est1', imports_to kvars [2;2;2] None krs s t /\ imports_to dvars [2;2] None [dr1; dr2] s' t'
       /\ new_cb_estimator s t 3 [] (Q2Qc 25) (the_tests pex) = Ok est /\ new_cb_estimator s' t' 2 [] (Q2Qc 25) (the_tests pex) = Ok est'
       /\ cb_estimate_structure est true = Ok (es, est1) /\ cb_estimate_structure est' true = Ok (es', est1').
Proof.
  assert (HLk : legal_input kvars [2;2;2] krs).
  { split; [unfold good_header; repeat constructor; cbn; intuition discriminate|]. split; [discriminate|]. split; [reflexivity|]. split; [exact kraw|].
    exists (withK dr1). split; [left; reflexivity|cbn; lia]. }
  split; [exact HLk|]. split; [split; [lia|cbn; intuition]|]. split. { split; [discriminate|]. split; [repeat constructor; cbn; intuition discriminate|repeat constructor]. }
  split; [exact (sub_keep _ _ _ (sub_skip _ _ _ (sub_keep _ _ _ sub_nil)))|]. split; [reflexivity|]. split; [reflexivity|].
  split. { repeat constructor; intros ab Hab; cbn in Hab; repeat destruct Hab as [<-|Hab]; try contradiction; vm_compute; discriminate. }
  split. { intros q Hq Hn. assert (q = "K"). { destruct Hq as [<-|[<-|[<-|[]]]]; [|reflexivity|]; exfalso; apply Hn; cbn; auto. }
    subst q. exists 1, 1%Z. split; [reflexivity|]. intros r ab Hr Hab. destruct Hr as [<-|[<-|[]]]; cbn in Hab; repeat destruct Hab as [<-|Hab]; try contradiction; reflexivity. }
  split. { intros n Hn. unfold pex; cbn [f_ppf exp_alpha]. destruct (Z.eqb_spec n 0); [lia|]. cbn [orb]. split; intros x E; injection E as <-; lra. }
  exists (struct_of kvars [2;2;2] None), (traj_of kvars krs), (struct_of dvars [2;2] None), (traj_of dvars [dr1; dr2]).
  assert (T : forall vs cs xs, legal_input vs cs xs -> equal_cards cs 2 -> exists est es est1,
     new_cb_estimator (struct_of vs cs None) (traj_of vs xs) (length vs) [] (Q2Qc 25) (the_tests pex) = Ok est /\ cb_estimate_structure est true = Ok (es, est1)).
  { intros vs cs xs HLx [Hk HU]. destruct (new_cb_estimator (struct_of vs cs None) (traj_of vs xs) (length vs) [] (Q2Qc 25) (the_tests pex)) as [est|x] eqn:EN.
    - destruct (est_facts _ _ _ _ _ _ _ _ HLx EN) as [W [N1 [N2 [D [E1 E2]]]]].
      destruct (new_estimator_ok _ _ _ _ _ _ _ W N1 N2 EN) as [Hok _].
      destruct (estimate_total est Hok true 2) as [es [est1 E]]; [split; [exact Hk|]; rewrite E1, E2; split; [exact HU|]; split; [reflexivity|exact D]|].
      exists est, es, est1. auto.
    - exfalso. unfold new_cb_estimator in EN. cbn in EN. discriminate. }
  assert (K2 : equal_cards [2;2;2] 2) by (split; [lia|cbn; intuition]).
  destruct (T _ _ _ HLk K2) as [est [es [est1 [A B]]]].
  destruct (T _ _ _ (proj1 legal_case) (proj2 legal_case)) as [est' [es' [est1' [A' B']]]].
  exists est, est', es, es', est1, est1'. split; [apply imports_exists, HLk|]. split; [apply imports_exists, legal_case|]. auto.
Qed.
