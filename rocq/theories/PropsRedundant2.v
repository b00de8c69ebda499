(** Property theorems C76: redundant variables and the score-based search. *)
From Coq Require Import Reals Lra.
From Verif Require Import Base Lib ModelStructure ModelGraph ModelCims ModelData ModelParams ModelCtpc ModelSearch ModelFamScore ModelEstimators
  SpecStructure SpecGraph SpecParams SpecCtpc SpecSearch SpecEstimators SpecRedundant
  ProofStructure ProofCtpc ProofSearch ProofSearch3 ProofEstimators2 ProofSim ProofRedundant2 ProofRedundant3 ProofRedundant4.
Open Scope nat_scope.

(** FamScore: giving a node a further parent whose state is, in the data, a function of the states of its other parents
    changes the score by nothing, whatever the log-gamma function and the hyper-parameters *)
Theorem C76_score_unchanged lg tau alpha t s known m v k p K : search_ready s known m v -> data_ok s t -> 0 < k -> (forall x, In x (nodes_values s) -> x = k) ->
  In p (nodes_labels s) -> ~ In p K -> NoDup K -> (forall l, In l K -> In l (nodes_labels s)) -> determined s t p K ->
  score_of (fun cims => get_fam_score lg cims tau alpha) t s v (edges_into v (p :: K)) = score_of (fun cims => get_fam_score lg cims tau alpha) t s v (edges_into v K).
Proof.
  intros Hok Hd Hk HV Hp Hn N HK HD.
  rewrite (score_of_pscore _ _ t s known m v Hok _ (p :: K)); [|constructor; assumption|intros l [<-|Hl]; auto|tauto].
  rewrite (score_of_pscore _ _ t s known m v Hok _ K); [|exact N|exact HK|tauto].
  apply (red_score s t k p K); auto; apply Hok.
Qed.
Print Assumptions C76_score_unchanged.

(** Without a bound on the number of parents, a variable that is in the data a function of known parents of [v] (a
    constant, if there are none) is not reported as a parent of [v], unless its edge is known too: whatever the optimizer
    and its settings, the random draws and the execution mode *)
Theorem C76_redundant_never_reported lg tau alpha est draws p known k dm pn es pr est' v q sep :
  sb_ready est known -> data_ok (sb_struct est) (sb_traj est) -> 0 < k -> (forall x, In x (nodes_values (sb_struct est)) -> x = k) -> sp_max_parents p = None ->
  sb_estimate_structure R (fun cims => get_fam_score lg cims tau alpha) score_gt est draws p dm pn = Ok (es, pr, est') ->
  In v (nodes_labels (sb_struct est)) ->
  (forall z, In z sep -> In (z, v) known) -> determined (sb_struct est) (sb_traj est) q sep -> In (q, v) es -> In (q, v) known.
Proof.
  intros Hr Hd Hk HV Hm H Hv. assert (G : forall a, score_gt a a = false) by (intros a; unfold score_gt; destruct (Rgt_dec a a) as [L|L]; [exfalso; lra|reflexivity]).
  exact (est_redundant lg tau alpha score_gt est draws p known k Hr Hd Hk HV G Hm dm pn es pr est' v q sep H Hv).
Qed.
(** Of two variables that determine each other (copies, up to renaming of states) at most one is reported, unless both are known *)
Theorem C76_one_of_two_copies lg tau alpha est draws p known k dm pn es pr est' v a b :
  sb_ready est known -> data_ok (sb_struct est) (sb_traj est) -> 0 < k -> (forall x, In x (nodes_values (sb_struct est)) -> x = k) -> sp_max_parents p = None ->
  sb_estimate_structure R (fun cims => get_fam_score lg cims tau alpha) score_gt est draws p dm pn = Ok (es, pr, est') ->
  In v (nodes_labels (sb_struct est)) -> a <> b ->
  determined (sb_struct est) (sb_traj est) a [b] -> determined (sb_struct est) (sb_traj est) b [a] -> In (a, v) es -> In (b, v) es ->
  In (a, v) known /\ In (b, v) known.
Proof.
  intros Hr Hd Hk HV Hm H Hv. assert (G : forall a, score_gt a a = false) by (intros x; unfold score_gt; destruct (Rgt_dec x x) as [L|L]; [exfalso; lra|reflexivity]).
  exact (est_copies lg tau alpha score_gt est draws p known k Hr Hd Hk HV G Hm dm pn es pr est' v a b H Hv).
Qed.
Print Assumptions C76_redundant_never_reported. Print Assumptions C76_one_of_two_copies.

(** Finding: a redundant variable that is tried before the variable it is a function of stays.  Same data, default
    hyper-parameters and search settings; the random draws decide whether {W} or {U, W} is returned, although U is a
    function of W *)
Theorem C76_found_first_stays_refuted : exists s t m v U W p draws draws',
  search_ready s [] m v /\ data_ok s t /\ (forall x, In x (nodes_values s) -> x = 3) /\ sp_max_parents p = None
  /\ determined s t U [W]
  /\ forall lg g, estimate_parents R (fun cims => get_fam_score lg cims (1/10) 1) score_gt (MkSbEst s t m g) draws v p = Ok [(U, v); (W, v)]
     /\ estimate_parents R (fun cims => get_fam_score lg cims (1/10) 1) score_gt (MkSbEst s t m g) draws' v p = Ok [(W, v)].
Proof.
  exists us, ut, umat, "X", "U", "W", uparams, (fun _ => 0), (fun _ => 1).
  split; [exact us_ready|]. split; [exact us_data|]. split; [exact us_vals|]. split; [reflexivity|]. split.
  - intros r1 r2 R1 R2 Q i Hi. cbn in Hi. injection Hi as <-. specialize (Q "W" 2 (or_introl eq_refl) eq_refl).
    repeat destruct R1 as [<-|R1]; try contradiction; repeat destruct R2 as [<-|R2]; try contradiction; cbn in *; congruence.
  - intros lg g. split; apply u_run; vm_compute; reflexivity.
Qed.
(** Finding: with a bound on the number of parents a variable that never changes can take the place of a known parent:
    here max_parents = 1, the edge Z -> X is known, C is constant, and C -> X is returned instead of Z -> X, whatever
    the log-gamma function and the positive hyper-parameters *)
Theorem C76_constant_replaces_known_parent_refuted : exists s t m v Z C p draws,
  search_ready s [(Z, v)] m v /\ data_ok s t /\ sp_max_parents p = Some 1 /\ determined s t C []
  /\ forall lg tau alpha g, (0 < tau)%R -> (0 < alpha)%R ->
     estimate_parents R (fun cims => get_fam_score lg cims tau alpha) score_gt (MkSbEst s t m g) draws v p = Ok [(C, v)].
Proof.
  exists zs, zt, zmat, "X", "Z", "C", zparams, (fun _ => 0).
  split; [exact zs_ready|]. split; [exact zs_data|]. split; [reflexivity|]. split.
  - intros r1 r2 R1 R2 _ i Hi. cbn in Hi. injection Hi as <-.
    repeat destruct R1 as [<-|R1]; try contradiction; repeat destruct R2 as [<-|R2]; try contradiction; reflexivity.
  - intros lg tau alpha g Ht Ha. apply z_run; [exact Ht|exact Ha|]. vm_compute; reflexivity.
Qed.
Print Assumptions C76_found_first_stays_refuted. Print Assumptions C76_constant_replaces_known_parent_refuted.

(** the hypotheses of C76_score_unchanged hold for U and W above; those of the estimator theorems for this estimator *)
Example C76_case : determined us ut "U" ["W"] /\ search_ready us [] umat "X"
  /\ score_of visited ut us "X" (edges_into "X" ["U";"W"]) = score_of visited ut us "X" (edges_into "X" ["W"]).
Proof.
  split; [|split; [exact us_ready|vm_compute; reflexivity]].
  intros r1 r2 R1 R2 Q i Hi. cbn in Hi. injection Hi as <-. specialize (Q "W" 2 (or_introl eq_refl) eq_refl).
  repeat destruct R1 as [<-|R1]; try contradiction; repeat destruct R2 as [<-|R2]; try contradiction; cbn in *; congruence.
Qed.
Example C76_ready : exists est, new_sb_estimator zs zt 3 [] = Ok est /\ sb_ready est [] /\ determined (sb_struct est) (sb_traj est) "C" [].
Proof.
  eexists. split; [reflexivity|]. split.
  - split; [exact zs_wf|]. split; [reflexivity|]. split; [intros e []|]. reflexivity.
  - intros r1 r2 R1 R2 _ i Hi. cbn in Hi. injection Hi as <-.
    repeat destruct R1 as [<-|R1]; try contradiction; repeat destruct R2 as [<-|R2]; try contradiction; reflexivity.
Qed.
