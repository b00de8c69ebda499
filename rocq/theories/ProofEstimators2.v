(** Proofs for C39: estimate_structure of the score-based estimator. *)
From Verif Require Import Base Lib ModelStructure ModelGraph ModelCims ModelData ModelParams ModelCtpc ModelSearch ModelEstimators
  SpecStructure SpecGraph SpecCtpc SpecSearch SpecEstimators
  ProofStructure ProofGraph ProofCtpc ProofCtpc7 ProofSearch2 ProofSearch3 ProofEstimators.

(** ** precision and recall *)
Lemma difference_In a b x : In x (edge_difference a b) <-> In x a /\ ~ In x b.
Proof. unfold edge_difference. rewrite filter_In, negb_true_iff, emem_false. tauto. Qed.
Lemma split_length (f : edge -> bool) l : length (filter f l) + length (filter (fun e => negb (f e)) l) = length l.
Proof. induction l as [|x l IH]; simpl; [reflexivity|]. destruct (f x); simpl; lia. Qed.
Lemma enumerates_length {A} (a b : list A) P : enumerates a P -> enumerates b P -> length a = length b.
Proof. intros [A1 A2] [B1 B2]. apply Permutation_length, NoDup_Permutation; [exact A1|exact B1|]. intros x. rewrite A2, B2. tauto. Qed.

Lemma precision_recall_spec true_edges found T F TP : 
  enumerates T (fun e => In e true_edges) -> enumerates F (fun e => In e found) -> enumerates TP (fun e => In e true_edges /\ In e found) ->
  NoDup true_edges -> NoDup found ->
  precision_recall true_edges found =
    if (length F =? 0) || (length T =? 0) then PrintedError ZeroDivisionError
    else PrintedScores (Qc_of_Z (Z.of_nat (length TP)) / Qc_of_Z (Z.of_nat (length F)))%Qc
                       (Qc_of_Z (Z.of_nat (length TP)) / Qc_of_Z (Z.of_nat (length T)))%Qc.
Proof.
  intros HT HF HTP N1 N2.
  assert (ET : length T = length true_edges) by (apply (enumerates_length T true_edges (fun e => In e true_edges)); [exact HT|split; [exact N1|tauto]]).
  assert (EF : length F = length found) by (apply (enumerates_length F found (fun e => In e found)); [exact HF|split; [exact N2|tauto]]).
  assert (E1 : length TP = length (filter (fun e => emem e found) true_edges)).
  { apply (enumerates_length _ _ _ HTP). split; [apply NoDup_filter, N1|]. intros x. rewrite filter_In, emem_In. tauto. }
  assert (E2 : length TP = length (filter (fun e => emem e true_edges) found)).
  { apply (enumerates_length _ _ _ HTP). split; [apply NoDup_filter, N2|]. intros x. rewrite filter_In, emem_In. tauto. }
  pose proof (split_length (fun e => emem e found) true_edges) as S1. pose proof (split_length (fun e => emem e true_edges) found) as S2.
  rewrite <- E1 in S1. rewrite <- E2 in S2. rewrite ET, EF. unfold precision_recall, edge_difference.
  clear E1 E2. cbv zeta. revert S1 S2.
  generalize (length (filter (fun e => negb (emem e found)) true_edges)) as mi. generalize (length (filter (fun e => negb (emem e true_edges)) found)) as fa. intros fa mi S1 S2.
  replace (length true_edges - mi) with (length TP) by lia. rewrite S1, S2. unfold py_div.
  destruct (length found =? 0); cbn [orb bind]; [reflexivity|]. destruct (length true_edges =? 0); reflexivity.
Qed.

Section est.
Variables (Sc : Type) (score : list cim -> result Sc) (gt : Sc -> Sc -> bool).
Variables (est : sb_estimator) (draws : label -> nat -> nat) (p : sb_params).
Definition sb_cleaned : sb_estimator := MkSbEst (clean_structure_edges (sb_struct est)) (sb_traj est) (sb_matrix est) (sb_graph est).
Let nodes := nodes_labels (sb_struct est).
Let f := fun v => estimate_parents Sc score gt sb_cleaned (draws v) v p.

Lemma pool_map_ok ns (g : label -> result (list edge)) ess : pool_map g ns = Ok ess <-> res_map g ns = Ok ess.
Proof.
  unfold pool_map. destruct (existsb _ ns) eqn:E; [|tauto]. split; [discriminate|]. intros H. exfalso.
  apply existsb_exists in E as [v [Hv Hb]]. apply res_map_ok in H. apply In_nth_error in Hv as [i Hi].
  destruct (Forall2_nth_error _ _ _ H i v Hi) as [b [_ Hb']]. rewrite Hb' in Hb. discriminate.
Qed.

Lemma sb_char dm pn es pr est' : sb_estimate_structure Sc score gt est draws p dm pn = Ok (es, pr, est') ->
  exists ess, res_map f nodes = Ok ess /\ es = edge_set_of (concat ess)
    /\ pr = precision_recall (edge_set_of (edges_list (sb_struct est))) es
    /\ est' = MkSbEst (sb_struct sb_cleaned) (sb_traj est) (sb_matrix est) (g_add_edges_from empty_digraph es).
Proof.
  unfold sb_estimate_structure. fold sb_cleaned. intros H. apply bind_ok in H as [ess [H E]]. injection E as <- <- <-.
  exists ess. split; [|repeat split]. change (nodes_labels (sb_struct sb_cleaned)) with nodes in H. fold f in H. destruct dm; [exact H|].
  destruct pn as [[|k]|]; [discriminate| |]; apply pool_map_ok in H; exact H.
Qed.
Lemma sb_modes ess : (forall pn, pn <> Some 0 -> res_map f nodes = Ok ess ->
   exists r, sb_estimate_structure Sc score gt est draws p true pn = Ok r /\ sb_estimate_structure Sc score gt est draws p false pn = Ok r).
Proof.
  intros pn Hp H. unfold sb_estimate_structure. fold sb_cleaned. change (nodes_labels (sb_struct sb_cleaned)) with nodes.
  fold f. rewrite H. cbn [bind]. eexists. split; [reflexivity|].
  destruct pn as [[|k]|]; [congruence| |]; rewrite (proj2 (pool_map_ok nodes f ess) H); reflexivity.
Qed.
Lemma sb_pool_eq pn r : sb_estimate_structure Sc score gt est draws p false pn = Ok r -> sb_estimate_structure Sc score gt est draws p true pn = Ok r.
Proof.
  intros H. destruct r as [[es pr] est']. pose proof H as H'. apply sb_char in H' as [ess [H1 _]].
  assert (Hp : pn <> Some 0) by (intros ->; discriminate).
  destruct (sb_modes ess pn Hp H1) as [r [R1 R2]]. congruence.
Qed.
Lemma sb_seq_eq pn r : pn <> Some 0 -> sb_estimate_structure Sc score gt est draws p true pn = Ok r -> sb_estimate_structure Sc score gt est draws p false pn = Ok r.
Proof.
  intros Hp H. destruct r as [[es pr] est']. pose proof H as H'. apply sb_char in H' as [ess [H1 _]].
  destruct (sb_modes ess pn Hp H1) as [r [R1 R2]]. congruence.
Qed.

Lemma sb_union dm pn es pr est' : sb_estimate_structure Sc score gt est draws p dm pn = Ok (es, pr, est') ->
  NoDup es
  /\ (forall v, In v nodes -> exists esv, f v = Ok esv /\ forall e, In e esv -> In e es)
  /\ (forall e, In e es -> exists v esv, In v nodes /\ f v = Ok esv /\ In e esv)
  /\ (forall e, In e (g_edges_view (sb_graph est')) <-> In e es)
  /\ sb_struct est' = clean_structure_edges (sb_struct est) /\ sb_traj est' = sb_traj est /\ sb_matrix est' = sb_matrix est.
Proof.
  intros H. apply sb_char in H as [ess [H1 [-> [_ ->]]]]. destruct (edge_set_spec (concat ess)) as [S1 S2].
  apply res_map_ok in H1. split; [exact S1|]. split; [|split; [|split; [|repeat split]]].
  - intros v Hv. apply In_nth_error in Hv as [i Hi]. destruct (Forall2_nth_error _ _ _ H1 i v Hi) as [esv [E1 E2]].
    exists esv. split; [exact E2|]. intros e He. apply S2, in_concat. exists esv. split; [eapply nth_error_In, E1|exact He].
  - intros e He. apply S2, in_concat in He as [esv [E1 E2]]. apply In_nth_error in E1 as [i Hi].
    destruct (Forall2_nth_error_r _ _ _ H1 i esv Hi) as [v [V1 V2]]. exists v, esv. split; [eapply nth_error_In, V1|auto].
  - intros e. cbn [sb_graph]. apply built_view.
Qed.

Lemma sb_precision dm pn es pr est' T TP : sb_estimate_structure Sc score gt est draws p dm pn = Ok (es, pr, est') ->
  enumerates T (fun e => In e (edges_list (sb_struct est))) ->
  enumerates TP (fun e => In e (edges_list (sb_struct est)) /\ In e es) ->
  pr = if (length es =? 0) || (length T =? 0) then PrintedError ZeroDivisionError
       else PrintedScores (Qc_of_Z (Z.of_nat (length TP)) / Qc_of_Z (Z.of_nat (length es)))%Qc
                          (Qc_of_Z (Z.of_nat (length TP)) / Qc_of_Z (Z.of_nat (length T)))%Qc.
Proof.
  intros H HT HTP. apply sb_char in H as [ess [H1 [E1 [-> _]]]]. 
  destruct (edge_set_spec (concat ess)) as [S1 S2]. rewrite <- E1 in S1, S2. destruct (edge_set_spec (edges_list (sb_struct est))) as [R1 R2].
  apply precision_recall_spec; [|split; [exact S1|tauto]| |exact R1|exact S1].
  - destruct HT as [K1 K2]. split; [exact K1|]. intros x. rewrite K2, R2. tauto.
  - destruct HTP as [K1 K2]. split; [exact K1|]. intros x. rewrite K2, R2. tauto.
Qed.

Lemma sb_search_ready known v : sb_ready est known -> In v nodes -> search_ready (sb_struct sb_cleaned) known (sb_matrix est) v.
Proof.
  intros [H1 [H2 [H3 H4]]] Hv. split; [exact H1|]. split; [exact H2|]. split; [reflexivity|]. split; [exact H3|]. split; [exact H4|exact Hv].
Qed.
Lemma f_outcome v esv : f v = Ok esv ->
  (exists tr, tabu_search Sc score gt (sb_traj est) (draws v) (sb_struct sb_cleaned) (sb_matrix est) v (sp_max_parents p) (sp_iterations p) (sp_patience p) (sp_tabu_length p) (sp_tabu_duration p) = Ok (esv, tr))
  \/ (exists tr, hill_climbing Sc score gt (sb_traj est) (draws v) (sb_struct sb_cleaned) (sb_matrix est) v (sp_max_parents p) (sp_iterations p) (sp_patience p) = Ok (esv, tr)).
Proof.
  unfold f, estimate_parents. cbn [sb_cleaned sb_struct sb_traj sb_matrix]. destruct (String.eqb (sp_optimizer p) "tabu"); intros H; apply bind_ok in H as [[es tr] [H E]]; injection E as <-; eauto.
Qed.

(** the per-node theorems lifted to the whole structure *)
Section ready.
Variable known : list edge.
Hypothesis Hr : sb_ready est known.
Lemma f_shape v esv : In v nodes -> f v = Ok esv ->
  NoDup esv /\ forall a b, In (a, b) esv -> b = v /\ In a nodes /\ (a <> v \/ In (v, v) known).
Proof.
  intros Hv H. pose proof (sb_search_ready known v Hr Hv) as HR. destruct (f_outcome v esv H) as [[tr E]|[tr E]].
  - exact (concl_shape _ _ _ _ _ _ _ _ HR _ _ _ esv _ (proj1 (tabu_outcome _ _ _ _ _ _ _ _ _ HR _ _ _ _ _ _ _ E))).
  - exact (concl_shape _ _ _ _ _ _ _ _ HR _ _ _ esv _ (hill_outcome _ _ _ _ _ _ _ _ _ HR _ _ _ _ _ E)).
Qed.
Lemma f_max v esv k : In v nodes -> f v = Ok esv -> sp_max_parents p = Some k -> 0 < k -> length (known_parents (sb_struct est) known v) <= k -> length esv <= k.
Proof.
  intros Hv H Hm Hk Hl. pose proof (sb_search_ready known v Hr Hv) as HR. destruct (f_outcome v esv H) as [[tr E]|[tr E]].
  - exact (concl_max _ _ _ _ _ _ _ _ HR _ _ _ esv _ (proj1 (tabu_outcome _ _ _ _ _ _ _ _ _ HR _ _ _ _ _ _ _ E)) k Hm Hk Hl).
  - exact (concl_max _ _ _ _ _ _ _ _ HR _ _ _ esv _ (hill_outcome _ _ _ _ _ _ _ _ _ HR _ _ _ _ _ E) k Hm Hk Hl).
Qed.
Lemma f_known v esv a : In v nodes -> f v = Ok esv -> sp_max_parents p = None -> In (a, v) known -> In (a, v) esv.
Proof.
  intros Hv H Hm Ha. pose proof (sb_search_ready known v Hr Hv) as HR. destruct (f_outcome v esv H) as [[tr E]|[tr E]].
  - exact (concl_known _ _ _ _ _ _ _ _ HR _ _ _ esv _ (proj1 (tabu_outcome _ _ _ _ _ _ _ _ _ HR _ _ _ _ _ _ _ E)) a Hm Ha).
  - exact (concl_known _ _ _ _ _ _ _ _ HR _ _ _ esv _ (hill_outcome _ _ _ _ _ _ _ _ _ HR _ _ _ _ _ E) a Hm Ha).
Qed.

Lemma sb_parents dm pn es pr est' v : sb_estimate_structure Sc score gt est draws p dm pn = Ok (es, pr, est') -> In v nodes ->
  exists esv, f v = Ok esv /\ NoDup esv /\ forall a, In (a, v) es <-> In (a, v) esv.
Proof.
  intros H Hv. apply sb_union in H as [_ [H1 [H2 _]]]. destruct (H1 v Hv) as [esv [E1 E2]]. exists esv. split; [exact E1|]. split; [apply (f_shape v esv Hv E1)|].
  intros a. split; [|apply E2]. intros Ha. destruct (H2 _ Ha) as [w [esw [W1 [W2 W3]]]]. destruct (f_shape w esw W1 W2) as [_ K].
  destruct (K a v W3) as [-> _]. congruence.
Qed.
Lemma sb_shape dm pn es pr est' : sb_estimate_structure Sc score gt est draws p dm pn = Ok (es, pr, est') ->
  forall a b, In (a, b) es -> In a nodes /\ In b nodes /\ (a <> b \/ In (b, b) known).
Proof.
  intros H a b Hab. apply sb_union in H as [_ [_ [H2 _]]]. destruct (H2 _ Hab) as [w [esw [W1 [W2 W3]]]].
  destruct (f_shape w esw W1 W2) as [_ K]. destruct (K a b W3) as [-> [K1 K2]]. auto.
Qed.
Lemma sb_max dm pn es pr est' k v : sb_estimate_structure Sc score gt est draws p dm pn = Ok (es, pr, est') -> In v nodes ->
  sp_max_parents p = Some k -> 0 < k -> length (known_parents (sb_struct est) known v) <= k -> length (edges_to es v) <= k.
Proof.
  intros H Hv Hm Hk Hl. destruct (sb_parents dm pn es pr est' v H Hv) as [esv [E1 [E2 E3]]].
  apply Nat.le_trans with (length esv); [|exact (f_max v esv k Hv E1 Hm Hk Hl)].
  apply NoDup_incl_length; [apply NoDup_filter; apply sb_union in H; apply H|].
  intros [a b] Hin. apply filter_In in Hin as [Hin Hb]. cbn [snd] in Hb. apply String.eqb_eq in Hb. subst b. apply E3, Hin.
Qed.
Lemma sb_known dm pn es pr est' a b : sb_estimate_structure Sc score gt est draws p dm pn = Ok (es, pr, est') ->
  sp_max_parents p = None -> In (a, b) known -> In (a, b) es.
Proof.
  intros H Hm Hab. assert (Hb : In b nodes) by (apply (proj1 (proj2 (proj2 Hr)) (a, b) Hab)).
  destruct (sb_parents dm pn es pr est' b H Hb) as [esv [E1 [E2 E3]]]. apply E3. exact (f_known b esv a Hb E1 Hm Hab).
Qed.
End ready.
End est.

(** a second call sees no true edges any more *)
Lemma sb_second Sc score gt est draws p dm pn es pr est' draws2 p2 dm2 pn2 es2 pr2 est2 :
  sb_estimate_structure Sc score gt est draws p dm pn = Ok (es, pr, est') ->
  sb_estimate_structure Sc score gt est' draws2 p2 dm2 pn2 = Ok (es2, pr2, est2) -> pr2 = PrintedError ZeroDivisionError.
Proof.
  intros H H2. apply sb_char in H as [ess [_ [_ [_ ->]]]].
  pose proof (sb_precision _ _ _ _ _ _ _ _ _ _ _ [] [] H2) as K. cbn [sb_struct sb_cleaned edges_list clean_structure_edges] in K.
  rewrite K; [|split; [constructor|tauto]|split; [constructor|simpl; tauto]]. cbn [length Nat.eqb]. rewrite orb_true_r. reflexivity.
Qed.
Lemma new_sb_ready s t known est : wf_structure s -> nodes_indexes s = seq 0 (length (nodes_labels s)) ->
  new_sb_estimator s t (length (nodes_labels s)) known = Ok est -> sb_ready est known /\ sb_struct est = s /\ sb_traj est = t.
Proof.
  intros Hw Hi H. unfold new_sb_estimator in H. apply bind_ok in H as [m [Hm H]]. injection H as <-.
  split; [|split; reflexivity]. split; [exact Hw|]. split; [exact Hi|]. split; [|exact Hm].
  assert (HI : forall i, In i (nodes_indexes s) -> i < length (nodes_labels s)) by (intros i; rewrite Hi, in_seq; lia).
  assert (HN : NoDup (nodes_indexes s)) by (rewrite Hi; apply seq_NoDup).
  pose proof (proj2 (new_estimator_spec s t (length (nodes_labels s)) known 0%Qc (fun _ _ _ => true) Hw HN HI)) as K.
  unfold new_cb_estimator in K. rewrite Hm in K. cbn [bind] in K.
  destruct (new_estimator_ok s t (length (nodes_labels s)) known 0%Qc (fun _ _ _ => true) (MkCbEst (MkEnv s t 0%Qc (fun _ _ _ => true)) (length (nodes_labels s)) (MkState m ModelCache.empty_cache) (build_complete_graph (nodes_labels s))) Hw HN HI) as [_ [_ [_ [KK _]]]].
  - unfold new_cb_estimator. rewrite Hm. reflexivity.
  - exact KK.
Qed.
