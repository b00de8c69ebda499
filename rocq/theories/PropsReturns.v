(** Property theorems C33, on the level of StructureScoreBasedEstimator.estimate_structure. *)
From Coq Require Import Reals Lra.
From Verif Require Import Base Lib ModelStructure ModelGraph ModelCims ModelData ModelParams ModelCtpc ModelSearch ModelFamScore ModelEstimators
  SpecStructure SpecGraph SpecParams SpecData SpecCtpc SpecSearch SpecFamScore SpecEstimators SpecInvariance SpecFloating SpecEnough
  ProofStructure ProofGraph ProofSearch ProofSearch3 ProofEstimators2 ProofInvariance ProofEnough4 PropsData PropsInvariance PropsSearch.
Close Scope R_scope. Open Scope nat_scope.

(** search parameters with which no search can get stuck *)
Definition usable_params (p : sb_params) : Prop :=
  sp_max_parents p <> Some 0 /\ (sp_optimizer p = "tabu"%string -> sp_tabu_length p <> Some 0 /\ sp_tabu_duration p <> Some 0).

Section est.
Variables (Sc : Type) (score : list cim -> result Sc) (gt : Sc -> Sc -> bool) (est : sb_estimator) (known : list edge) (p : sb_params).
Hypothesis Hr : sb_ready est known.
(** scores of the structure without its edges, as estimate_structure uses it *)
Hypothesis Hs : forall v, In v (nodes_labels (sb_struct est)) -> scores_computable score (sb_traj est) (clean_structure_edges (sb_struct est)) v.
Lemma parents_return draws v : In v (nodes_labels (sb_struct est)) ->
  sp_iterations p = 0 \/ (candidate_parents (sb_struct est) known v <> [] /\ usable_params p) ->
  exists es, estimate_parents Sc score gt (sb_cleaned est) draws v p = Ok es.
Proof.
  intros Hv HP. pose proof (sb_search_ready est known v Hr Hv) as HR. specialize (Hs v Hv). unfold estimate_parents. destruct (String.eqb (sp_optimizer p) "tabu") eqn:EO.
  - apply String.eqb_eq in EO. destruct (C33_tabu_search_returns Sc score gt (sb_traj est) draws _ known _ v (sp_max_parents p) (sp_iterations p) (sp_patience p) (sp_tabu_length p) (sp_tabu_duration p) HR Hs) as [[es tr] H].
    { destruct HP as [HP|[HP [U1 U2]]]; [left; exact HP|right]. split; [exact HP|]. split; [exact U1|exact (U2 EO)]. }
    cbn [sb_cleaned sb_struct sb_traj sb_matrix] in *. rewrite H. exists es. reflexivity.
  - destruct (C33_hill_climbing_returns Sc score gt (sb_traj est) draws _ known _ v (sp_max_parents p) (sp_iterations p) (sp_patience p) HR Hs) as [[es tr] H].
    { destruct HP as [HP|[HP [U1 U2]]]; [left; exact HP|right]. split; [exact HP|exact U1]. }
    cbn [sb_cleaned sb_struct sb_traj sb_matrix] in *. rewrite H. exists es. reflexivity.
Qed.
(** estimate_structure returns - for every sequence of random numbers, in the pool or sequentially - if every variable has a
    candidate parent (or no iteration is asked for), max_parents, tabu_length and tabu_rules_duration are not 0 and the number
    of processes is not 0 *)
Theorem C33_estimate_structure_returns draws dm pn : (dm = false -> pn <> Some 0) ->
  sp_iterations p = 0 \/ ((forall v, In v (nodes_labels (sb_struct est)) -> candidate_parents (sb_struct est) known v <> []) /\ usable_params p) ->
  exists es pr est', sb_estimate_structure Sc score gt est draws p dm pn = Ok (es, pr, est').
Proof.
  intros Hpn HP. assert (HF : forall v, In v (nodes_labels (sb_struct est)) -> exists es, estimate_parents Sc score gt (sb_cleaned est) (draws v) v p = Ok es).
  { intros v Hv. apply parents_return; [exact Hv|]. destruct HP as [HP|[HP U]]; [left; exact HP|right; split; [apply HP, Hv|exact U]]. }
  unfold sb_estimate_structure. cbn [sb_struct sb_traj sb_matrix sb_graph clean_structure_edges nodes_labels].
  set (f := fun v => estimate_parents Sc score gt _ (draws v) v p).
  assert (RM : exists ess, res_map f (nodes_labels (sb_struct est)) = Ok ess).
  { assert (HF' : forall v, In v (nodes_labels (sb_struct est)) -> exists es, f v = Ok es) by exact HF. clearbody f. clear -HF'.
    induction (nodes_labels (sb_struct est)) as [|v l IH]; [exists []; reflexivity|]. destruct (HF' v (or_introl eq_refl)) as [es E]. destruct IH as [ess IH]; [intros w Hw; apply HF'; right; exact Hw|].
    exists (es :: ess). cbn [res_map]. rewrite E. cbn [bind]. rewrite IH. reflexivity. }
  destruct RM as [ess RM].
  assert (PM : (if dm then res_map f (nodes_labels (sb_struct est)) else match pn with Some 0 => Err ValueError | _ => pool_map f (nodes_labels (sb_struct est)) end) = Ok ess).
  { destruct dm; [exact RM|]. specialize (Hpn eq_refl).
    assert (P : pool_map f (nodes_labels (sb_struct est)) = Ok ess).
    { unfold pool_map. replace (existsb _ (nodes_labels (sb_struct est))) with false; [exact RM|]. symmetry. apply not_true_is_false. intros X. apply existsb_exists in X as [v [Hv X]].
      destruct (HF v Hv) as [es E]. change (f v = Ok es) in E. rewrite E in X. discriminate. }
    destruct pn as [[|]|]; [contradiction|exact P|exact P]. }
  cbn [nodes_labels]. rewrite PM. cbn [bind]. eexists _, _, _. reflexivity.
Qed.
(** the search for the parents of one variable, as estimate_structure starts it *)
Notation search draws v := (estimate_parents Sc score gt (sb_cleaned est) (draws v) v p).
Notation call draws dm pn := (sb_estimate_structure Sc score gt est draws p dm pn).
Notation nodes := (nodes_labels (sb_struct est)).
Lemma res_map_first {A B} (f : A -> result B) l x : res_map f l = Err x <->
  exists pre a post, l = pre ++ a :: post /\ (forall b, In b pre -> exists r, f b = Ok r) /\ f a = Err x.
Proof.
  induction l as [|a r IH].
  - split; [discriminate|]. intros [[|? ?] [b [post [E _]]]]; discriminate.
  - cbn [res_map]. destruct (f a) as [y|z] eqn:E; cbn [bind].
    + destruct (res_map f r) as [ys|e] eqn:ER; cbn [bind].
      * split; [discriminate|]. intros [[|c pre] [b [post [E1 [E2 E3]]]]]; [cbn [app] in E1; injection E1 as -> E1; congruence|]. cbn [app] in E1. injection E1 as -> E1. discriminate (proj2 IH ltac:(exists pre, b, post; split; [exact E1|split; [intros d Hd; apply E2; right; exact Hd|exact E3]])).
      * split.
        -- intros H. assert (EX : e = x) by congruence. subst e. destruct (proj1 IH eq_refl) as [pre [b [post [E1 [E2 E3]]]]]. exists (a :: pre), b, post. split; [cbn; congruence|]. split; [|exact E3]. intros c [<-|Hc]; [eauto|apply E2, Hc].
        -- intros [[|c pre] [b [post [E1 [E2 E3]]]]]; [cbn [app] in E1; injection E1 as -> E1; congruence|]. cbn [app] in E1. injection E1 as -> E1. pose proof (proj2 IH ltac:(exists pre, b, post; split; [exact E1|split; [intros d Hd; apply E2; right; exact Hd|exact E3]])). congruence.
    + split; [intros H; exists [], a, r; split; [reflexivity|]; split; [intros b []|congruence]|]. intros [[|c pre] [b [post [E1 [E2 E3]]]]]; [cbn [app] in E1; injection E1 as -> E1; congruence|]. cbn [app] in E1. injection E1 as -> E1. destruct (E2 c (or_introl eq_refl)). congruence.
Qed.
(** how a call fails.  Sequentially it fails as the first search that fails (searches after it are not made); in the pool it hangs if
    any search does, and otherwise re-raises the exception of the first search that failed *)
Theorem C33_whole_call_failures draws pn x :
  (call draws true pn = Err x <-> exists pre v post, nodes = pre ++ v :: post /\ (forall u, In u pre -> exists es, search draws u = Ok es) /\ search draws v = Err x)
  /\ (pn <> Some 0 -> call draws false pn = Err x <->
        (x = Blocked /\ exists v, In v nodes /\ search draws v = Err Blocked)
        \/ ((forall v, In v nodes -> search draws v <> Err Blocked)
            /\ exists pre v post, nodes = pre ++ v :: post /\ (forall u, In u pre -> exists es, search draws u = Ok es) /\ search draws v = Err x))
  /\ call draws false (Some 0) = Err ValueError.
Proof.
  clear Hr Hs. unfold sb_estimate_structure. cbn [sb_struct sb_traj sb_matrix sb_graph clean_structure_edges nodes_labels].
  change (MkSbEst _ (sb_traj est) (sb_matrix est) (sb_graph est)) with (sb_cleaned est). set (f := fun v => search draws v).
  assert (B : forall (A C : Type) (r : result A) (g : A -> C) y, (let* a := r in Ok (g a)) = Err y <-> r = Err y).
  { intros A C [a|e] g y; cbn [bind]; split; congruence. }
  split; [|split].
  - rewrite (B _ _ (res_map f nodes)). apply (res_map_first f).
  - intros Hpn. replace (match pn with Some 0 => Err ValueError | _ => pool_map f nodes end) with (pool_map f nodes) by (destruct pn as [[|]|]; [contradiction|reflexivity|reflexivity]).
    rewrite (B _ _ (pool_map f nodes)). unfold pool_map. destruct (existsb _ nodes) eqn:E.
    + apply existsb_exists in E as [v [Hv E]]. change (search draws v) with (f v). destruct (f v) as [|[]] eqn:Fv; try discriminate. split.
      * intros H. left. split; [congruence|]. exists v. split; [exact Hv|exact Fv].
      * intros [[-> _]|[H _]]; [reflexivity|]. destruct (H v Hv Fv).
    + assert (NB : forall v, In v nodes -> f v <> Err Blocked).
      { intros v Hv Fv. assert (X : true = false) by (rewrite <- E; symmetry; apply existsb_exists; exists v; split; [exact Hv|rewrite Fv; reflexivity]). discriminate. }
      rewrite (res_map_first f). split; [intros H; right; split; [exact NB|exact H]|]. intros [[_ [v [Hv Fv]]]|[_ H]]; [destruct (NB v Hv Fv)|exact H].
  - reflexivity.
Qed.
(** in particular a variable without candidate parents (all others are known parents of it, or it is alone): the pool hangs with the
    tabu search, whatever the other parameters; with the hill climbing both modes raise IndexError *)
Theorem C33_no_candidate_blocks draws pn v : In v nodes -> candidate_parents (sb_struct est) known v = [] -> 0 < sp_iterations p ->
  sp_optimizer p = "tabu"%string -> pn <> Some 0 -> call draws false pn = Err Blocked.
Proof.
  intros Hv HC Hn HO Hpn. apply (proj1 (proj2 (C33_whole_call_failures draws pn Blocked)) Hpn). left. split; [reflexivity|]. exists v. split; [exact Hv|].
  unfold estimate_parents. rewrite HO. cbn [String.eqb Ascii.eqb Bool.eqb]. pose proof (sb_search_ready est known v Hr Hv) as HR.
  pose proof (C33_tabu_search_no_candidate_blocks Sc score gt (sb_traj est) (draws v) _ known _ v (sp_max_parents p) (sp_iterations p) (sp_patience p) (sp_tabu_length p) (sp_tabu_duration p) HR (Hs v Hv) Hn HC) as H.
  cbn [sb_cleaned sb_struct sb_traj sb_matrix] in *. rewrite H. reflexivity.
Qed.
Theorem C33_no_candidate_raises draws dm pn v : In v nodes -> candidate_parents (sb_struct est) known v = [] -> 0 < sp_iterations p ->
  sp_optimizer p <> "tabu"%string -> (dm = false -> pn <> Some 0) -> call draws dm pn = Err IndexError.
Proof.
  intros Hv HC Hn HO Hpn.
  assert (A : forall u, In u nodes -> search draws u = Err IndexError \/ exists es, search draws u = Ok es).
  { intros u Hu. pose proof (sb_search_ready est known u Hr Hu) as HR. unfold estimate_parents. apply String.eqb_neq in HO. rewrite HO.
    pose proof (C33_hill_climbing_fails_only_with_IndexError Sc score gt (sb_traj est) (draws u) (clean_structure_edges (sb_struct est)) known (sb_matrix est) u (sp_max_parents p) (sp_iterations p) (sp_patience p)) as H.
    specialize (fun x => H x HR (Hs u Hu)). cbn [sb_cleaned sb_struct sb_traj sb_matrix] in *.
    destruct (hill_climbing _ _ _ _ _ _ _ _ _ _ _) as [[es tr]|x]; [right; exists es; reflexivity|left]. destruct (H x eq_refl) as [-> _]. reflexivity. }
  assert (V : search draws v = Err IndexError).
  { unfold estimate_parents. apply String.eqb_neq in HO. rewrite HO. pose proof (sb_search_ready est known v Hr Hv) as HR.
    pose proof (C33_hill_climbing_no_candidate Sc score gt (sb_traj est) (draws v) _ known _ v (sp_max_parents p) (sp_iterations p) (sp_patience p) HR (Hs v Hv) Hn HC) as H.
    cbn [sb_cleaned sb_struct sb_traj sb_matrix] in *. rewrite H. reflexivity. }
  assert (F : exists pre w post, nodes = pre ++ w :: post /\ (forall u, In u pre -> exists es, search draws u = Ok es) /\ search draws w = Err IndexError).
  { clear -A V Hv. revert A Hv. induction nodes as [|w l IH]; intros A Hv; [destruct Hv|]. destruct (A w (or_introl eq_refl)) as [W|W].
    - exists [], w, l. split; [reflexivity|]. split; [intros u []|exact W].
    - destruct IH as [pre [a [post [E1 [E2 E3]]]]]; [intros u Hu; apply A; right; exact Hu|destruct Hv as [->|Hv]; [destruct W; congruence|exact Hv]|].
      exists (w :: pre), a, post. split; [cbn; congruence|]. split; [|exact E3]. intros u [<-|Hu]; [exact W|apply E2, Hu]. }
  destruct (C33_whole_call_failures draws pn IndexError) as [Sq [Pl _]]. destruct dm; [apply Sq, F|]. apply (Pl (Hpn eq_refl)). right. split; [|exact F].
  intros u Hu E. destruct (A u Hu) as [X|[es X]]; congruence.
Qed.
End est.
(** in particular on every legal data set whose variables have the same number (at least two) of states *)
Theorem C33_score_based_returns vars cards prior k rs s t known est lg tau alpha draws p dm pn : legal_input vars cards rs -> equal_cards cards k -> 2 <= k -> Forall clock_ok rs ->
  imports_to vars cards prior rs s t -> log_gamma_equation lg -> (0 < tau)%R -> (0 < alpha)%R -> new_sb_estimator s t (length vars) known = Ok est ->
  (dm = false -> pn <> Some 0) -> sp_iterations p = 0 \/ (usable_params p /\ forall v, In v vars -> exists a, In a vars /\ a <> v /\ ~ In (a, v) known) ->
  exists es pr est', sb_estimate_structure R (fun cims => get_fam_score lg cims tau alpha) score_gt est draws p dm pn = Ok (es, pr, est').
Proof.
  intros HL HE Hk HC HI Hlg Ht Ha HN Hpn HP. apply (imports_det vars cards prior rs s t HL) in HI as [-> ->].
  destruct (new_sb_ready _ _ known est (legal_wf vars cards prior rs HL) eq_refl HN) as [Hr [Es Et]].
  apply (C33_estimate_structure_returns R _ score_gt est known p Hr); [|exact Hpn|].
  - rewrite Es, Et. intros v Hv ps Hps. change (clean_structure_edges (struct_of vars cards prior)) with (struct_of vars cards None). change (nodes_labels _) with vars in Hps.
    assert (Hrd : exists m, search_ready (struct_of vars cards None) [] m v).
    { eexists. split; [exact (legal_wf vars cards None rs HL)|]. split; [reflexivity|]. split; [reflexivity|]. split; [intros e []|]. split; [reflexivity|exact Hv]. }
    destruct Hrd as [m HR]. exists (fam vars cards None k v tau alpha rs (nodup string_dec ps)).
    assert (HI : incl (nodup string_dec ps) vars) by (intros l Hl; apply nodup_In in Hl; apply Hps, Hl).
    rewrite (score_of_pscore R _ _ _ [] m v HR _ (nodup string_dec ps) (NoDup_nodup _ _) HI) by (intros e; rewrite !edges_into_In, nodup_In; tauto).
    apply (fam_pscore vars cards None k rs v HL HE Hk Hv lg tau alpha Hlg Ht Ha); assumption.
  - destruct HP as [HP|[U HP]]; [left; exact HP|right; split; [|exact U]]. rewrite Es. intros v Hv E. destruct (HP v Hv) as [a [A1 [A2 A3]]].
    assert (I : In a (candidate_parents (struct_of vars cards prior) known v)) by (apply (candidates_In _ known v); auto). rewrite E in I. destruct I.
Qed.
Print Assumptions C33_whole_call_failures. Print Assumptions C33_no_candidate_blocks. Print Assumptions C33_no_candidate_raises.
Print Assumptions C33_estimate_structure_returns. Print Assumptions C33_score_based_returns.
(** the data of C16 with the default search parameters: each of the two variables is a candidate parent of the other *)
Example C33_returns_case : legal_input dvars [2;2] [dr1; dr2] /\ equal_cards [2;2] 2 /\ Forall clock_ok [dr1; dr2] /\ (forall v, In v dvars -> exists a, In a dvars /\ a <> v /\ ~ In (a, v) [("Y","Y")])
  /\ (exists est, new_sb_estimator (struct_of dvars [2;2] None) (traj_of dvars [dr1; dr2]) 2 [("Y","Y")] = Ok est)
  /\ usable_params (MkSbParams None 40 None None None "tabu") /\ usable_params (MkSbParams (Some 2) 40 (Some 3) None None "hill").
Proof.
  split; [exact (proj1 legal_case)|]. split; [split; [lia|intros x [<-|[<-|[]]]; reflexivity]|]. split; [|split; [|split; [eexists; vm_compute; reflexivity|split]]].
  - repeat constructor; intros ab Hab; cbn in Hab; repeat destruct Hab as [<-|Hab]; try contradiction; cbn; discriminate.
  - intros v [<-|[<-|[]]]; [exists "Y"|exists "X"]; (split; [cbn; tauto|]; split; [discriminate|]); intros [E|[]]; discriminate.
  - split; [discriminate|]. intros _. split; discriminate.
  - split; [discriminate|]. intros E. discriminate.
Qed.
(** X is a known parent of Y, which has no other candidate; tabu_rules_duration = 0.  Sequentially the search for X raises at once; in
    the pool the search for Y never ends *)
Example C33_failure_case : exists est, new_sb_estimator (struct_of dvars [2;2] None) (traj_of dvars [dr1; dr2]) 2 [("X","Y")] = Ok est
  /\ candidate_parents (sb_struct est) [("X","Y")] "Y" = []
  /\ sb_estimate_structure Z wscore wgt est (fun _ k => k) (MkSbParams None 40 None None (Some 0) "tabu") true None = Err ZeroDivisionError
  /\ sb_estimate_structure Z wscore wgt est (fun _ k => k) (MkSbParams None 40 None None (Some 0) "tabu") false None = Err Blocked
  /\ sb_estimate_structure Z wscore wgt est (fun _ k => k) (MkSbParams None 40 None None None "hill") false None = Err IndexError.
Proof. eexists. split; [vm_compute; reflexivity|]. split; [reflexivity|]. split; [|split]; vm_compute; reflexivity. Qed.
