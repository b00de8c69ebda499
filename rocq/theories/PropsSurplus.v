(** Property theorems C99: the score when states that never occur are declared. *)
From Coq Require Import Reals Lra.
From Verif Require Import Base Lib LibQc ModelStructure ModelGraph ModelCims ModelData ModelParams ModelFamScore
  SpecStructure SpecGraph SpecComb SpecParams SpecData SpecFloating SpecInvariance SpecSearch SpecFamScore SpecSurplus
  ProofStructure ProofData ProofInvariance ProofSpare2 ProofSurplus ProofSurplus2 ProofSurplus3 PropsData PropsInvariance.
Open Scope nat_scope.

(** The same data with [k] and with [k'] >= [k] declared states.  Both scores are log marginal likelihoods of the same visits; only
    the prior weight of a destination changes from alpha / (k - 1) to alpha / (k' - 1).  Surplus states and the parent
    configurations with them contribute nothing. *)
Theorem C99_score lg tau alpha vars cards cards' prior rs k k' s t s' t' es v us : log_gamma_equation lg -> (0 < tau)%R -> (0 < alpha)%R ->
  legal_input vars cards rs -> Forall clock_ok rs -> equal_cards cards k -> equal_cards cards' k' -> length cards' = length vars -> 2 <= k -> k <= k' ->
  imports_to vars cards prior rs s t -> imports_to vars cards' prior rs s' t' ->
  edges_within vars es -> edges_within vars (match prior with None => [] | Some q => q end) -> In v vars ->
  let n := length (filter (fun l => emem (l, v) (es ++ match prior with None => [] | Some q => q end)) vars) in
  NoDup us -> (forall u, In u us <-> length u = n /\ Forall (fun d => d < k) u) ->
  exists ni pis, node_view s (es ++ edges_list s) v k ni pis (repeat k n)
   /\ score_of (fun cims => get_fam_score lg cims tau alpha) t s v es = Ok (total_loglik tau alpha k (data_histories t (length vars) ni pis k us))
   /\ score_of (fun cims => get_fam_score lg cims tau alpha) t' s' v es = Ok (total_loglik tau alpha k' (data_histories t (length vars) ni pis k us)).
Proof. exact (two_scores lg tau alpha vars cards cards' prior rs k k' s t s' t' es v us). Qed.
Print Assumptions C99_score.

(** Hence every score only drops, and the score of every node that changes its state at least once does. *)
Theorem C99_score_drops lg tau alpha vars cards cards' prior rs k k' s t s' t' es v sc sc' : log_gamma_equation lg -> (0 < tau)%R -> (0 < alpha)%R ->
  legal_input vars cards rs -> Forall clock_ok rs -> equal_cards cards k -> equal_cards cards' k' -> length cards' = length vars -> 2 <= k -> k < k' ->
  imports_to vars cards prior rs s t -> imports_to vars cards' prior rs s' t' ->
  edges_within vars es -> edges_within vars (match prior with None => [] | Some q => q end) -> In v vars ->
  score_of (fun cims => get_fam_score lg cims tau alpha) t s v es = Ok sc -> score_of (fun cims => get_fam_score lg cims tau alpha) t' s' v es = Ok sc' ->
  (sc' <= sc)%R
  /\ forall ni r ab x y, structure_get_node_indx s v = Ok ni -> In r rs -> In ab (steps r) ->
       nth_error (snd (fst ab)) ni = Some (Z.of_nat x) -> nth_error (snd (snd ab)) ni = Some (Z.of_nat y) -> x <> y -> (sc' < sc)%R.
Proof.
  intros Hlg Ht Ha HL HT HE HE' L H2 Hk I I' He Hp Hv S1 S2.
  set (n := length (filter (fun l => emem (l, v) (es ++ match prior with None => [] | Some q => q end)) vars)).
  set (us := ProofComb.le_enum (repeat k n)).
  assert (Hu : forall u, In u us <-> length u = n /\ Forall (fun d => d < k) u) by (intros u; unfold us; rewrite ProofComb.le_enum_ok; apply ok_repeat).
  destruct (two_scores lg tau alpha vars cards cards' prior rs k k' s t s' t' es v us Hlg Ht Ha HL HT HE HE' L H2 ltac:(lia) I I' He Hp Hv (ProofFamScore2.le_enum_NoDup _) Hu) as [ni [pis [V [E1 E2]]]].
  rewrite E1 in S1. injection S1 as <-. rewrite E2 in S2. injection S2 as <-. split; [apply total_le; [exact Ha|exact H2|lia]|].
  intros ni0 r ab x y Hn Hr Hab Hx Hy N. apply total_lt; try assumption. destruct (imports_det vars cards prior rs s t HL I) as [-> ->].
  pose proof V as [_ [V2 [V3 V4]]]. rewrite Hn in V2. injection V2 as ->.
  apply (change_is_transition vars cards prior rs k (es ++ edges_list (struct_of vars cards prior)) v ni pis (repeat k n)); try assumption.
  - intros u U1 U2. apply Hu. split; [|exact U2]. rewrite U1. apply Forall2_length in V3. rewrite <- V3. reflexivity.
  - exists r, ab, x, y. auto.
Qed.
Print Assumptions C99_score_drops.

(** How far it can drop: by at most ln((k' - 1)/(k - 1)) for every change of the node in the observations, whatever the parent set and
    the hyperparameters. *)
Theorem C99_drop_is_bounded lg tau alpha vars cards cards' prior rs k k' s t s' t' es v sc sc' ni : log_gamma_equation lg -> (0 < tau)%R -> (0 < alpha)%R ->
  legal_input vars cards rs -> Forall clock_ok rs -> equal_cards cards k -> equal_cards cards' k' -> length cards' = length vars -> 2 <= k -> k <= k' ->
  imports_to vars cards prior rs s t -> imports_to vars cards' prior rs s' t' ->
  edges_within vars es -> edges_within vars (match prior with None => [] | Some q => q end) -> In v vars ->
  score_of (fun cims => get_fam_score lg cims tau alpha) t s v es = Ok sc -> score_of (fun cims => get_fam_score lg cims tau alpha) t' s' v es = Ok sc' ->
  structure_get_node_indx s v = Ok ni ->
  (sc - sc' <= INR (length (filter (changed ni) (flat_map steps rs))) * ln ((INR k' - 1) / (INR k - 1)))%R.
Proof.
  intros Hlg Ht Ha HL HT HE HE' L H2 Hk I I' He Hp Hv S1 S2 Hn.
  set (n := length (filter (fun l => emem (l, v) (es ++ match prior with None => [] | Some q => q end)) vars)).
  set (us := ProofComb.le_enum (repeat k n)).
  assert (Hu : forall u, In u us <-> length u = n /\ Forall (fun d => d < k) u) by (intros u; unfold us; rewrite ProofComb.le_enum_ok; apply ok_repeat).
  destruct (two_scores lg tau alpha vars cards cards' prior rs k k' s t s' t' es v us Hlg Ht Ha HL HT HE HE' L H2 Hk I I' He Hp Hv (ProofFamScore2.le_enum_NoDup _) Hu) as [ni0 [pis [V [E1 E2]]]].
  rewrite E1 in S1. injection S1 as <-. rewrite E2 in S2. injection S2 as <-.
  destruct (imports_det vars cards prior rs s t HL I) as [-> ->]. pose proof V as [_ [V2 [V3 V4]]]. rewrite Hn in V2. injection V2 as <-.
  pose proof (total_drop tau alpha k k' (data_histories (traj_of vars rs) (length vars) ni pis k us) Ha H2 Hk) as D.
  assert (C : transitions (data_histories (traj_of vars rs) (length vars) ni pis k us) <= length (filter (changed ni) (flat_map steps rs))).
  { apply (changes_of_data vars cards rs); [exact HL|apply ProofFamScore2.le_enum_NoDup| |].
    - intros u U. apply Hu in U as [U _]. rewrite U. apply Forall2_length in V3. rewrite <- V3. reflexivity.
    - apply (struct_of_indx vars cards prior v ni Hn). }
  apply le_INR in C. assert (INR 2 <= INR k)%R by (apply le_INR; lia). assert (INR k <= INR k')%R by (apply le_INR; lia). cbn [INR] in H.
  assert (G : (0 <= ln ((INR k' - 1) / (INR k - 1)))%R).
  { rewrite <- ln_1. assert (Y : (1 <= (INR k' - 1) / (INR k - 1))%R).
    { apply (Rmult_le_reg_r (INR k - 1)); [lra|]. unfold Rdiv. rewrite Rmult_assoc, Rinv_l by lra. lra. }
    destruct Y as [Y|Y]; [apply Rlt_le, ln_increasing; lra|rewrite <- Y; apply Rle_refl]. }
  apply (Rmult_le_compat_r _ _ _ G) in C. lra.
Qed.
Print Assumptions C99_drop_is_bounded.

(** Hence which of two parent sets of a node scores better can only change if their scores are that close: a parent set that is
    better by more than the bound, under either declaration, is better under the other. *)
Theorem C99_clear_winners_stay lg tau alpha vars cards cards' prior rs k k' s t s' t' es1 es2 v sc1 sc1' sc2 sc2' ni : log_gamma_equation lg -> (0 < tau)%R -> (0 < alpha)%R ->
  legal_input vars cards rs -> Forall clock_ok rs -> equal_cards cards k -> equal_cards cards' k' -> length cards' = length vars -> 2 <= k -> k <= k' ->
  imports_to vars cards prior rs s t -> imports_to vars cards' prior rs s' t' ->
  edges_within vars es1 -> edges_within vars es2 -> edges_within vars (match prior with None => [] | Some q => q end) -> In v vars ->
  score_of (fun cims => get_fam_score lg cims tau alpha) t s v es1 = Ok sc1 -> score_of (fun cims => get_fam_score lg cims tau alpha) t' s' v es1 = Ok sc1' ->
  score_of (fun cims => get_fam_score lg cims tau alpha) t s v es2 = Ok sc2 -> score_of (fun cims => get_fam_score lg cims tau alpha) t' s' v es2 = Ok sc2' ->
  structure_get_node_indx s v = Ok ni ->
  let bound := (INR (length (filter (changed ni) (flat_map steps rs))) * ln ((INR k' - 1) / (INR k - 1)))%R in
  ((sc1 - sc2 > bound -> sc1' > sc2') /\ (sc1' - sc2' > bound -> sc1 > sc2))%R.
Proof.
  intros Hlg Ht Ha HL HT HE HE' L H2 Hk I I' He1 He2 Hp Hv A1 B1 A2 B2 Hn bound.
  pose proof (C99_drop_is_bounded lg tau alpha vars cards cards' prior rs k k' s t s' t' es1 v sc1 sc1' ni Hlg Ht Ha HL HT HE HE' L H2 Hk I I' He1 Hp Hv A1 B1 Hn) as D1.
  pose proof (C99_drop_is_bounded lg tau alpha vars cards cards' prior rs k k' s t s' t' es2 v sc2 sc2' ni Hlg Ht Ha HL HT HE HE' L H2 Hk I I' He2 Hp Hv A2 B2 Hn) as D2.
  assert (M : forall es sc sc', edges_within vars es -> score_of (fun cims => get_fam_score lg cims tau alpha) t s v es = Ok sc ->
     score_of (fun cims => get_fam_score lg cims tau alpha) t' s' v es = Ok sc' -> (sc' <= sc)%R).
  { intros es sc sc' He S1 S2. destruct (C99_score lg tau alpha vars cards cards' prior rs k k' s t s' t' es v
      (ProofComb.le_enum (repeat k (length (filter (fun l => emem (l, v) (es ++ match prior with None => [] | Some q => q end)) vars))))
      Hlg Ht Ha HL HT HE HE' L H2 Hk I I' He Hp Hv (ProofFamScore2.le_enum_NoDup _)) as [ni0 [pis [_ [E1 E2]]]].
    - intros u. rewrite ProofComb.le_enum_ok. apply ok_repeat.
    - rewrite E1 in S1. injection S1 as <-. rewrite E2 in S2. injection S2 as <-. apply total_le; assumption. }
  pose proof (M es1 sc1 sc1' He1 A1 B1). pose proof (M es2 sc2 sc2' He2 A2 B2). fold bound in D1, D2. split; intros G; lra.
Qed.
Print Assumptions C99_clear_winners_stay.

(** the hypotheses can be met: binary data declared with three states, and a change of X in them *)
Example C99_case : legal_input dvars [2;2] [dr1; dr2] /\ Forall clock_ok [dr1; dr2] /\ equal_cards [2;2] 2 /\ equal_cards [3;3] 3
  /\ imports_to dvars [2;2] None [dr1; dr2] (struct_of dvars [2;2] None) (traj_of dvars [dr1; dr2])
  /\ imports_to dvars [3;3] None [dr1; dr2] (struct_of dvars [3;3] None) (traj_of dvars [dr1; dr2])
  /\ edges_within dvars [("Y","X")] /\ In "X" dvars
  /\ exists r ab x y, In r [dr1; dr2] /\ In ab (steps r) /\ nth_error (snd (fst ab)) 0 = Some (Z.of_nat x) /\ nth_error (snd (snd ab)) 0 = Some (Z.of_nat y) /\ x <> y.
Proof.
  assert (E3 : equal_cards [3;3] 3) by (split; [lia|cbn; intuition]).
  assert (L3 : legal_input dvars [3;3] [dr1; dr2]) by (apply (legal_more dvars [2;2] [3;3] [dr1; dr2] 2 3); [apply legal_case|apply legal_case|exact E3|reflexivity|lia]).
  split; [apply legal_case|]. split; [repeat constructor; intros ab H; cbn in H; repeat destruct H as [<-|H]; try contradiction; cbn; discriminate|].
  split; [apply legal_case|]. split; [exact E3|]. split; [apply imports_exists, legal_case|]. split; [apply imports_exists, L3|].
  split; [intros e [<-|[]]; cbn; tauto|]. split; [cbn; auto|].
  exists dr1. eexists. exists 0, 1. split; [left; reflexivity|]. split; [left; reflexivity|]. split; [reflexivity|]. split; [reflexivity|lia].
Qed.
