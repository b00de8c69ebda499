(** Property theorems C35, C36 and the searches run with the FamScore. *)
From Coq Require Import Reals Qreals Lra.
From Verif Require Import Base ModelStructure ModelGraph ModelCims ModelData ModelParams ModelCtpc ModelSearch ModelFamScore
  SpecStructure SpecGraph SpecComb SpecParams SpecSearch SpecFamScore
  ProofComb ProofSearch ProofSearch2 ProofSearch3 ProofFamScore ProofFamScore2 ProofFamScore3 PropsParams PropsSearch.
Open Scope nat_scope.

(** log-gamma is a parameter; a function with its functional equation exists *)
Example log_gamma_exists : exists lg, log_gamma_equation lg.
Proof. exists lg_example. exact lg_example_ok. Qed.

(** C35: the score of a set of CIMs is the log marginal likelihood of every history with these statistics *)
Theorem C35_fam_score_is_log_marginal_likelihood lg tau alpha n cims hs :
  log_gamma_equation lg -> (0 < tau)%R -> (0 < alpha)%R -> 2 <= n -> cims <> [] -> histories_of n cims hs ->
  get_fam_score lg cims tau alpha = Ok (total_loglik tau alpha n hs).
Proof. intros Hlg Ht Ha. exact (score_loglik lg Hlg tau alpha Ht Ha n cims hs). Qed.
(** ... and such histories exist for all statistics *)
Theorem C35_statistics_come_from_histories n cims : Forall (stats_ok n) cims -> exists hs, histories_of n cims hs.
Proof. exact (stats_histories n cims). Qed.
(** the score the estimator computes from a data set is the log marginal likelihood of its rows *)
Theorem C35_score_of_data lg tau alpha s t es v c ni pis ps us : log_gamma_equation lg -> (0 < tau)%R -> (0 < alpha)%R ->
  wf_structure s -> data_ok s t -> Forall (fun q => 0 <= q)%Qc (t_times t) ->
  edges_within (nodes_labels s) es -> edges_within (nodes_labels s) (edges_list s) ->
  node_view s (es ++ edges_list s) v c ni pis ps -> 2 <= c -> compat c ps -> Forall (fun p => 0 < p) ps ->
  NoDup us -> (forall u, In u us <-> config_ok ps u) ->
  score_of (fun cims => get_fam_score lg cims tau alpha) t s v es
  = Ok (total_loglik tau alpha c (data_histories t (total_variables_number s) ni pis c us)).
Proof. intros Hlg Ht Ha. exact (node_score lg Hlg tau alpha Ht Ha s t es v c ni pis ps us). Qed.
Theorem C35_binary_dirichlet_part_is_zero lg cims alpha : Forall (stats_ok 2) cims ->
  marginal_likelihood_theta lg cims alpha (alpha / (INR 2 - 1))%R = Ok 0%R.
Proof. exact (binary_theta lg cims alpha). Qed.
Print Assumptions C35_fam_score_is_log_marginal_likelihood. Print Assumptions C35_statistics_come_from_histories.
Print Assumptions C35_score_of_data. Print Assumptions C35_binary_dirichlet_part_is_zero.

(** three states, one parent configuration: 5 transitions out of state 0 (3 to 1, 2 to 2) *)
Definition fc := new_cim [Q2Qc (7#2); 1; 0]%Qc [[5;3;2];[1;2;1];[0;0;0]]%Z.
Example fc_stats : stats_ok 3 fc.
Proof.
  split; [reflexivity|]. split; [reflexivity|]. split.
  - intros [|[|[|x]]] T H; cbn in H; try (destruct x; discriminate); injection H as <-; discriminate.
  - intros [|[|[|x]]] row H; cbn in H; try (destruct x; discriminate); injection H as <-;
      (split; [reflexivity|split; [repeat constructor; lia|reflexivity]]).
Qed.
Example C35_case : exists lg sc, log_gamma_equation lg /\ get_fam_score lg [fc; fc] 1 1 = Ok sc.
Proof.
  destruct log_gamma_exists as [lg Hlg]. exists lg. destruct (stats_scores lg 1 1 3 [fc; fc] Hlg) as [sc H]; try lra; try lia.
  - discriminate.
  - constructor; [exact fc_stats|constructor; [exact fc_stats|constructor]].
  - exists sc. auto.
Qed.
Example C35_data_case : exists lg, log_gamma_equation lg
  /\ score_of (fun cims => get_fam_score lg cims 1 1) pt px "X" pedges
     = Ok (total_loglik 1 1 2 (data_histories pt 3 0 [1;2] 2 [[0;0];[0;1];[1;0];[1;1]])).
Proof.
  destruct log_gamma_exists as [lg Hlg]. exists lg. split; [exact Hlg|].
  apply (C35_score_of_data lg 1 1 px pt pedges "X" 2 0 [1;2] [2;2]); try lra; auto.
  - exact px_wf.
  - exact px_data.
  - repeat constructor; discriminate.
  - apply px_within.
  - apply px_within.
  - exact px_view.
  - exact px_compat.
  - repeat constructor; cbn; intuition discriminate.
  - intros u. split.
    + intros H. cbn in H. repeat destruct H as [<-|H]; try contradiction; repeat constructor.
    + intros H. rewrite <- le_enum_ok in H. cbn in H. cbn. tauto.
Qed.

(** C36 *)
Theorem C36_order_of_configurations_irrelevant lg n cims cims' tau alpha : Permutation cims cims' ->
  Forall (fun c => length (c_times c) = n) cims ->
  forall sc, get_fam_score lg cims tau alpha = Ok sc <-> get_fam_score lg cims' tau alpha = Ok sc.
Proof.
  intros HP HF sc. split; [apply (fam_perm lg n); assumption|]. apply (fam_perm lg n); [symmetry; exact HP|eapply Permutation_Forall; eassumption].
Qed.
Theorem C36_single_state_fails lg c cims tau alpha : length (c_times c) = 1 -> get_fam_score lg (c :: cims) tau alpha = Err ZeroDivisionError.
Proof. exact (fam_one_state lg c cims tau alpha). Qed.
Theorem C36_no_configuration_fails lg tau alpha : get_fam_score lg [] tau alpha = Err IndexError.
Proof. reflexivity. Qed.
Theorem C36_several_states_never_fail lg tau alpha n cims : log_gamma_equation lg -> (0 < tau)%R -> (0 < alpha)%R -> 2 <= n ->
  cims <> [] -> Forall (stats_ok n) cims -> exists sc, get_fam_score lg cims tau alpha = Ok sc.
Proof. exact (stats_scores lg tau alpha n cims). Qed.
Print Assumptions C36_order_of_configurations_irrelevant. Print Assumptions C36_single_state_fails.
Print Assumptions C36_no_configuration_fails. Print Assumptions C36_several_states_never_fail.
Example C36_case : exists lg sc, get_fam_score lg [fc; new_cim [0;0;0]%Qc [[0;0;0];[0;0;0];[0;0;0]]%Z] 1 1 = Ok sc
  /\ get_fam_score lg [new_cim [0;0;0]%Qc [[0;0;0];[0;0;0];[0;0;0]]%Z; fc] 1 1 = Ok sc.
Proof.
  destruct log_gamma_exists as [lg Hlg].
  destruct (stats_scores lg 1 1 3 [fc; new_cim [0;0;0]%Qc [[0;0;0];[0;0;0];[0;0;0]]%Z] Hlg) as [sc H]; try lra; try lia.
  - discriminate.
  - constructor; [exact fc_stats|constructor; [|constructor]]. split; [reflexivity|]. split; [reflexivity|]. split.
    + intros [|[|[|x]]] T K; cbn in K; try (destruct x; discriminate); injection K as <-; discriminate.
    + intros [|[|[|x]]] row K; cbn in K; try (destruct x; discriminate); injection K as <-;
        (split; [reflexivity|split; [repeat constructor; lia|reflexivity]]).
  - exists lg, sc. split; [exact H|]. apply (C36_order_of_configurations_irrelevant lg 3 [fc; new_cim [0;0;0]%Qc [[0;0;0];[0;0;0];[0;0;0]]%Z]); [apply perm_swap|repeat constructor|exact H].
Qed.

(** The searches with the real score: [>] on the scores is a strict order, the scores of all parent sets are
    computable, so the general theorems C28-C34 apply. *)
Lemma score_gt_order : strict_order score_gt.
Proof.
  unfold score_gt. split.
  - intros a. destruct (Rgt_dec a a) as [K|]; [exfalso; lra|reflexivity].
  - intros a b c. destruct (Rgt_dec a b), (Rgt_dec b c), (Rgt_dec a c); intros; try reflexivity; try discriminate. exfalso; lra.
Qed.
Theorem C33_fam_scores_computable lg tau alpha s t v k : log_gamma_equation lg -> (0 < tau)%R -> (0 < alpha)%R ->
  wf_structure s -> data_ok s t -> Forall (fun q => 0 <= q)%Qc (t_times t) -> edges_list s = [] ->
  In v (nodes_labels s) -> 2 <= k -> (forall x, In x (nodes_values s) -> x = k) ->
  scores_computable (fun cims => get_fam_score lg cims tau alpha) t s v.
Proof. intros Hlg Ht Ha. exact (fam_computable lg Hlg tau alpha Ht Ha s t v k). Qed.
Theorem C28_hill_climbing_fam_score lg tau alpha t draws s known m v mp n pat es tr : search_ready s known m v ->
  hill_climbing R (fun cims => get_fam_score lg cims tau alpha) score_gt t draws s m v mp n pat = Ok (es, tr) ->
  exists sc0 sc, score_of (fun cims => get_fam_score lg cims tau alpha) t s v (edges_into v (known_parents s known v)) = Ok sc0
    /\ score_of (fun cims => get_fam_score lg cims tau alpha) t s v es = Ok sc /\ (sc0 <= sc)%R
    /\ (sc = sc0 -> forall e, In e es <-> In e (edges_into v (known_parents s known v))).
Proof.
  intros H E.
  destruct (C28_hill_climbing_never_worse R (fun cims => get_fam_score lg cims tau alpha) score_gt t draws s known m v mp n pat es tr H score_gt_order E)
    as [sc0 [sc [E0 [E1 [K _]]]]]. exists sc0, sc. split; [exact E0|]. split; [exact E1|].
  destruct K as [K|[-> K]]; [|split; [lra|auto]]. unfold score_gt in K. destruct (Rgt_dec sc sc0); [|discriminate]. split; [lra|intros; lra].
Qed.
Theorem C28_tabu_search_fam_score lg tau alpha t draws s known m v mp n pat len dur es tr : search_ready s known m v ->
  tabu_search R (fun cims => get_fam_score lg cims tau alpha) score_gt t draws s m v mp n pat len dur = Ok (es, tr) ->
  exists sc0 sc, score_of (fun cims => get_fam_score lg cims tau alpha) t s v (edges_into v (known_parents s known v)) = Ok sc0
    /\ score_of (fun cims => get_fam_score lg cims tau alpha) t s v es = Ok sc /\ (sc0 <= sc)%R
    /\ (sc = sc0 -> forall e, In e es <-> In e (edges_into v (known_parents s known v))).
Proof.
  intros H E.
  destruct (C28_tabu_search_never_worse R (fun cims => get_fam_score lg cims tau alpha) score_gt t draws s known m v mp n pat len dur es tr H score_gt_order E)
    as [sc0 [sc [E0 [E1 [K _]]]]]. exists sc0, sc. split; [exact E0|]. split; [exact E1|].
  destruct K as [K|[-> K]]; [|split; [lra|auto]]. unfold score_gt in K. destruct (Rgt_dec sc sc0); [|discriminate]. split; [lra|intros; lra].
Qed.
Print Assumptions score_gt_order. Print Assumptions C33_fam_scores_computable.
Print Assumptions C28_hill_climbing_fam_score. Print Assumptions C28_tabu_search_fam_score.
Example C33_fam_case : exists lg, log_gamma_equation lg /\ scores_computable (fun cims => get_fam_score lg cims 1 1) pt px "X".
Proof.
  destruct log_gamma_exists as [lg Hlg]. exists lg. split; [exact Hlg|].
  apply (C33_fam_scores_computable lg 1 1 px pt "X" 2); try lra; auto.
  - exact px_wf. - exact px_data. - repeat constructor; discriminate. - cbn; tauto. - cbn; intuition.
Qed.
(** hence a hill climbing with the real score returns, whatever the draws *)
Example C33_fam_run : exists lg, log_gamma_equation lg /\ forall draws n pat, exists r,
  hill_climbing R (fun cims => get_fam_score lg cims 1 1) score_gt pt draws px (repeat (repeat true 3) 3) "X" (Some 2) n pat = Ok r.
Proof.
  destruct C33_fam_case as [lg [Hlg HC]]. exists lg. split; [exact Hlg|]. intros draws n pat.
  apply (C33_hill_climbing_returns R _ score_gt pt draws px [] (repeat (repeat true 3) 3) "X" (Some 2) n pat); [|exact HC|].
  - split; [exact px_wf|]. split; [reflexivity|]. split; [reflexivity|]. split; [intros e []|split; [reflexivity|cbn; tauto]].
  - right. split; discriminate.
Qed.
