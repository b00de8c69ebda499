(** Property theorems C80: the choice and the order of the columns of the data. *)
From Coq Require Import Reals.
From Verif Require Import Base Lib ModelStructure ModelGraph ModelCims ModelData ModelParams ModelCache ModelCtpc ModelSearch ModelEstimators ModelFamScore ModelIndep
  SpecStructure SpecGraph SpecComb SpecParams SpecData SpecCtpc SpecSearch SpecEstimators SpecInvariance SpecFloating SpecFamScore SpecIndep SpecUnit SpecColumns
  ProofGraph ProofComb ProofParams2 ProofData ProofData3 ProofInvariance ProofEstimators2 ProofSearch ProofCtpc ProofCtpc5 ProofCtpc7 ProofCoding2
  ProofColumns ProofColumns2 ProofColumns3 ProofColumns4 ProofColumns5 PropsData PropsInvariance PropsIndep.
From Verif Require ProofRedundant2.
Open Scope nat_scope.

Section data.
Variables (vars : list label) (cards : list nat) (prior : option (list edge)) (rs : list raw) (sg : list nat).
Hypothesis HL : legal_input vars cards rs.
Hypothesis HS : selection sg (length vars).
Notation prior_edges := (match prior with None => [] | Some es => es end).

(** import_data(header_column): the named columns, in the order in which they are named; whatever else the frames contain
    plays no part *)
Theorem C80_header :
  legal_input (pick sg vars) (pick sg cards) (picked sg rs)
  /\ (exists s t, imports_header (pick sg vars) vars (pick sg cards) prior rs s t)
  /\ forall cards' s t, imports_header (pick sg vars) vars cards' prior rs s t <-> imports_to (pick sg vars) cards' prior (picked sg rs) s t.
Proof.
  pose proof (legal_picked sg vars cards HS rs HL) as HL'. split; [exact HL'|]. split.
  - do 2 eexists. apply (header_chain sg vars cards HS rs _ _ _ _ HL). apply imports_exists, HL'.
  - intros cards' s t. apply (header_chain sg vars cards HS rs _ _ _ _ HL).
Qed.

(** The parameters of a node: the same CIM for every joint state of its parents, and the same FamScore *)
Theorem C80_parameters lg tau alpha s s' t t' es v c ni pis ps :
  imports_to vars cards prior rs s t -> imports_to (pick sg vars) (pick sg cards) prior (picked sg rs) s' t' ->
  edges_within (pick sg vars) es -> edges_within (pick sg vars) prior_edges -> In v (pick sg vars) ->
  node_view s (es ++ edges_list s) v c ni pis ps -> 0 < c -> compat c ps ->
  exists g g' soc soc' ni' pis' ps', node_view s' (es ++ edges_list s') v c ni' pis' ps'
   /\ ng_fast_init (fresh_graph s es) v = Ok g /\ ng_fast_init (fresh_graph s' es) v = Ok g'
   /\ compute_parameters_for_node t g v = Ok soc /\ compute_parameters_for_node t' g' v = Ok soc'
   /\ Permutation (parents_of s' (es ++ edges_list s') v) (parents_of s (es ++ edges_list s) v)
   /\ length (so_actual_cims soc) = nat_prod ps /\ length (so_actual_cims soc') = nat_prod ps
   /\ (forall state : label -> nat, config_ok ps (map state (parents_of s (es ++ edges_list s) v)) ->
         exists cm, nth_error (so_actual_cims soc) (config_rank ps (map state (parents_of s (es ++ edges_list s) v))) = Some cm
                 /\ nth_error (so_actual_cims soc') (config_rank ps' (map state (parents_of s' (es ++ edges_list s') v))) = Some cm)
   /\ get_fam_score lg (so_actual_cims soc') tau alpha = get_fam_score lg (so_actual_cims soc) tau alpha.
Proof.
  intros H H' A1 A2 Hv V Hc Hcp. pose proof (legal_picked sg vars cards HS rs HL) as HL'.
  apply (imports_det vars cards prior rs s t HL) in H as [-> ->]. apply (imports_det _ _ prior _ s' t' HL') in H' as [-> ->].
  destruct (columns_params sg vars cards prior rs HS HL es v c ni pis ps A1 A2 Hv V Hc Hcp)
    as [g [g' [soc [soc' [ni' [pis' [ps' [B1 [B2 [B3 [B4 [B5 [B6 [B7 [B8 [B9 [B10 B11]]]]]]]]]]]]]]]]].
  exists g, g', soc, soc', ni', pis', ps'. split; [exact B1|]. split; [exact B2|]. split; [exact B3|]. split; [exact B4|]. split; [exact B5|].
  split; [exact B6|]. split; [exact B7|]. split; [exact B8|]. split; [exact B9|].
  apply (ProofRedundant2.full_perm lg c); [apply Permutation_sym, B10|exact B11].
Qed.

(** Every single independence test *)
Theorem C80_single_test P s t s' t' k known thr est est' :
  equal_cards cards k ->
  imports_to vars cards prior rs s t -> imports_to (pick sg vars) (pick sg cards) prior (picked sg rs) s' t' ->
  new_cb_estimator s t (length vars) known thr (the_tests P) = Ok est ->
  new_cb_estimator s' t' (length (pick sg vars)) known thr (the_tests P) = Ok est' ->
  forall v p sep, test_ok s' v p sep ->
    exists b, forall b', (test_answers (cb_e est) (cb_tot est) (st_matrix (cb_st est)) v p sep b' <-> b' = b)
      /\ (test_answers (cb_e est') (cb_tot est') (st_matrix (cb_st est')) v p sep b' <-> b' = b).
Proof.
  intros HE H H' HN HN' v p sep Ht'. pose proof (legal_picked sg vars cards HS rs HL) as HL'.
  apply (imports_det vars cards prior rs s t HL) in H as [-> ->]. apply (imports_det _ _ prior _ s' t' HL') in H' as [-> ->].
  assert (G : forall vs cs xs est0, legal_input vs cs xs -> new_cb_estimator (struct_of vs cs prior) (traj_of vs xs) (length vs) known thr (the_tests P) = Ok est0 ->
     cb_e est0 = MkEnv (struct_of vs cs prior) (traj_of vs xs) thr (the_tests P) /\ cb_tot est0 = length vs
     /\ forall a b, In a vs -> In b vs -> exists r, mat_get (st_matrix (cb_st est0)) (idx_of (struct_of vs cs prior) a) (idx_of (struct_of vs cs prior) b) = Ok r).
  { intros vs cs xs est0 HLx HNx. pose proof (legal_wf vs cs prior xs HLx) as Hwf.
    assert (N1 : NoDup (nodes_indexes (struct_of vs cs prior))) by (cbn [struct_of nodes_indexes]; apply seq_NoDup).
    assert (N2 : forall i, In i (nodes_indexes (struct_of vs cs prior)) -> i < length vs) by (cbn [struct_of nodes_indexes]; intros i Hi; apply in_seq in Hi; lia).
    destruct (new_estimator_ok _ _ _ _ _ _ _ Hwf N1 N2 HNx) as [_ [_ [_ [_ HM]]]].
    split; [|split].
    - unfold new_cb_estimator in HNx. destruct (build_removable_edges_matrix _ _ _); [|discriminate]. cbn [bind] in HNx. injection HNx as <-. reflexivity.
    - unfold new_cb_estimator in HNx. destruct (build_removable_edges_matrix _ _ _); [|discriminate]. cbn [bind] in HNx. injection HNx as <-. reflexivity.
    - intros a b Ha Hb. destruct (wf_lookup _ a Hwf Ha) as [_ [_ [_ [_ [Ea _]]]]]. destruct (wf_lookup _ b Hwf Hb) as [_ [_ [_ [_ [Eb _]]]]]. eexists. exact (HM a b _ _ Ha Hb Ea Eb). }
  destruct (G vars cards rs est HL HN) as [F1 [F2 F3]]. destruct (G _ _ _ est' HL' HN') as [F1' [F2' F3']]. clear G HN HN'.
  rewrite F1, F2, F1', F2'.
  destruct (verdict_columns sg vars cards prior rs HS HL P thr k HE v p sep Ht') as [b [mk [mk' [E1 E2]]]]. exists b.
  pose proof (test_kept sg vars cards prior v p sep Ht') as Ht. pose proof Ht as [Hv [Hp _]]. pose proof Ht' as [Hv' [Hp' _]].
  assert (Ek : forall vs cs xs, legal_input vs cs xs -> equal_cards cs k -> In v vs -> val_of (struct_of vs cs prior) v = k).
  { intros vs cs xs HLx [_ HU] Hx. apply HU. exact (nth_error_In _ _ (idx_card vs cs prior v (legal_wf vs cs prior xs HLx) Hx)). }
  assert (A1 : test_answers (MkEnv (struct_of vars cards prior) (traj_of vars rs) thr (the_tests P)) (length vars) (st_matrix (cb_st est)) v p sep b).
  { eapply verdict_answers; [exact (legal_wf vars cards prior rs HL)|exact Hv|exact Ht|apply F3; assumption|]. cbn [e_struct]. rewrite (Ek vars cards rs HL HE Hv). exact E1. }
  assert (A2 : test_answers (MkEnv (struct_of (pick sg vars) (pick sg cards) prior) (traj_of (pick sg vars) (picked sg rs)) thr (the_tests P)) (length (pick sg vars)) (st_matrix (cb_st est')) v p sep b).
  { eapply verdict_answers; [exact (legal_wf _ _ prior _ HL')|exact Hv'|exact Ht'|apply F3'; assumption|]. cbn [e_struct]. rewrite (Ek _ _ _ HL' (equal' sg cards k HE) Hv'). exact E2. }
  assert (D : forall e n m b1 b2, test_answers e n m v p sep b1 -> test_answers e n m v p sep b2 -> b2 = b1).
  { intros e n m b1 b2 [cs [i [j [st1 [X1 [X2 [X3 X4]]]]]]] [cs' [i' [j' [st2 [Y1 [Y2 [Y3 Y4]]]]]]]. congruence. }
  intros b'. split; (split; [intros X|intros ->; assumption]); [exact (D _ _ _ _ _ A1 X)|exact (D _ _ _ _ _ A2 X)].
Qed.

(** Score-based estimation with the columns in another order: the same answers are possible *)
Theorem C80_score_based lg tau alpha k s t s' t' known est est' p dm pn : Permutation sg (seq 0 (length vars)) -> equal_cards cards k ->
  imports_to vars cards prior rs s t -> imports_to (pick sg vars) (pick sg cards) prior (picked sg rs) s' t' ->
  new_sb_estimator s t (length vars) known = Ok est -> new_sb_estimator s' t' (length (pick sg vars)) known = Ok est' ->
  let run := sb_estimate_structure R (fun cims => get_fam_score lg cims tau alpha) score_gt in
  (forall draws es pr est1, run est draws p dm pn = Ok (es, pr, est1) ->
     exists draws' es' pr' est1', run est' draws' p dm pn = Ok (es', pr', est1') /\ forall e, In e es <-> In e es')
  /\ (forall draws es pr est1, run est' draws p dm pn = Ok (es, pr, est1) ->
     exists draws' es' pr' est1', run est draws' p dm pn = Ok (es', pr', est1') /\ forall e, In e es <-> In e es').
Proof.
  intros HP HE H H' HN HN' run. pose proof (legal_picked sg vars cards HS rs HL) as HL'.
  apply (imports_det vars cards prior rs s t HL) in H as [-> ->]. apply (imports_det _ _ prior _ s' t' HL') in H' as [-> ->].
  pose proof (new_sb_ready _ _ known est (legal_wf vars cards prior rs HL) eq_refl HN) as [HR _].
  pose proof (new_sb_ready _ _ known est' (legal_wf _ _ prior _ HL') eq_refl HN') as [HR' _].
  pose proof (same_labels sg vars HS HP) as SS.
  unfold new_sb_estimator in *. destruct (build_removable_edges_matrix (struct_of vars cards prior) (length vars) known) as [m|x]; [|discriminate].
  destruct (build_removable_edges_matrix (struct_of (pick sg vars) (pick sg cards) prior) _ known) as [m'|x]; [|discriminate].
  cbn [bind] in *. injection HN as <-. injection HN' as <-.
  assert (PE : forall v K, In v (pick sg vars) -> (forall l, In l K -> In l (pick sg vars)) -> _)
    by (intros v K Hv HK; exact (pscore_columns sg vars cards prior rs k HS HL HE lg tau alpha v K Hv HK)).
  split; intros draws es pr est1 H.
  - refine (sb_other _ _ _ _ _ _ _ known _ _ _ _ draws p dm pn es pr est1 _ HR HR' _ H).
    + apply same_set_sym, SS.
    + intros v K Hv HK. symmetry. apply PE; [apply SS, Hv|]. intros l Hl. apply SS, HK, Hl.
  - refine (sb_other _ _ _ _ _ _ _ known _ _ _ _ draws p dm pn es pr est1 _ HR' HR _ H).
    + exact SS.
    + intros v K Hv HK. apply PE; assumption.
Qed.
End data.
Print Assumptions C80_header. Print Assumptions C80_parameters. Print Assumptions C80_single_test. Print Assumptions C80_score_based.

(** naming all the columns in their order is the same as naming none *)
Theorem C80_own_header vars cards prior rs cards' s t : legal_input vars cards rs ->
  (imports_header vars vars cards' prior rs s t <-> imports_to vars cards' prior rs s t).
Proof.
  intros HL. assert (HS : selection (seq 0 (length vars)) (length vars)).
  { destruct HL as [_ [HV _]]. split; [destruct vars; [contradiction|discriminate]|]. split; [apply seq_NoDup|]. apply Forall_forall. intros i Hi. apply in_seq in Hi. lia. }
  destruct (same_rows _ vars cards rs HL eq_refl) as [E1 [E2 E3]].
  pose proof (header_chain _ vars cards HS rs cards' prior s t HL) as K. rewrite E1, E3 in K. exact K.
Qed.
(** a name that is not a column, or no name at all *)
Theorem C80_unknown_column h x vars v prior rs : In x h -> x <> "Time" -> ~ In x vars -> rs <> [] ->
  sample_import_data (new_sample_importer (map (frame_of vars) rs) v prior) (Some h) = Err KeyError.
Proof.
  intros Hx H1 H2 H3. unfold sample_import_data. cbn [bind]. unfold compute_row_delta_in_all_samples_frames. cbn [with_sorter im_sorter im_samples new_sample_importer].
  destruct h as [|h0 h1] eqn:Eh; [contradiction|]. rewrite <- Eh in *. destruct rs as [|r rs']; [contradiction|]. cbn [map res_map].
  assert (E : compute_row_delta_single_samples_frame (frame_of vars r) h (shifted_names h) = Err KeyError).
  { unfold compute_row_delta_single_samples_frame, frame_of. cbn [fr_cols].
    match goal with |- context [select_cols ?cs _] => set (cs0 := cs) end.
    assert (N : assoc_col cs0 x = None).
    { subst cs0. cbn [assoc_col]. destruct (String.eqb_spec "Time" x) as [E|_]; [congruence|].
      assert (X : forall l n, ~ In x l -> assoc_col (mapi_from n (fun i v0 => (v0, map (fun o => option_map Qc_of_Z (nth_error (snd o) i)) r)) l) x = None).
      { clear. induction l as [|a l IH]; intros n Hn; [reflexivity|]. cbn [mapi_from assoc_col]. destruct (String.eqb_spec a x) as [->|_]; [exfalso; apply Hn; left; reflexivity|].
        apply IH. intros K. apply Hn. right. exact K. }
      apply X, H2. }
    assert (E : select_cols cs0 h = Err KeyError).
    { clear - N Hx. unfold select_cols. induction h as [|a h IH]; [contradiction|]. cbn [res_map]. destruct Hx as [->|Hx].
      - rewrite N. reflexivity.
      - destruct (assoc_col cs0 a) as [q|]; [|reflexivity]. cbn [bind]. rewrite (IH Hx). reflexivity. }
    rewrite E. reflexivity. }
  rewrite E. reflexivity.
Qed.
Theorem C80_empty_header vars v prior rs : sample_import_data (new_sample_importer (map (frame_of vars) rs) v prior) (Some []) = Err RuntimeError.
Proof. reflexivity. Qed.
Print Assumptions C80_own_header. Print Assumptions C80_unknown_column. Print Assumptions C80_empty_header.

(** C43: the rows the estimators count *)
Theorem C43_number_of_rows vars cards prior rs s t : legal_input vars cards rs -> imports_to vars cards prior rs s t ->
  traj_size t = nat_sum (map (fun r => length r - 1) rs).
Proof.
  intros HL H. apply (imports_det vars cards prior rs s t HL) in H as [-> ->]. unfold traj_size, traj_of. cbn [t_rows]. unfold raw_rows. clear.
  rewrite map_length. induction rs as [|r rs IH]; [reflexivity|]. cbn [flat_map map]. rewrite app_length, IH, steps_length. reflexivity.
Qed.
Print Assumptions C43_number_of_rows.

(** a concrete case: the two columns exchanged, and only the second *)
Example C80_case : selection [1;0] 2 /\ Permutation [1;0] (seq 0 2) /\ selection [1] 2 /\ legal_input dvars [2;2] [dr1; dr2] /\ equal_cards [2;2] 2
  /\ pick [1;0] dvars = ["Y";"X"] /\ pick [1] dvars = ["Y"]
  /\ exists s t s' t' est est' est1 est1', imports_to dvars [2;2] None [dr1; dr2] s t /\ imports_to (pick [1;0] dvars) (pick [1;0] [2;2]) None (picked [1;0] [dr1; dr2]) s' t'
       /\ t' <> t /\ traj_size t = 4
       /\ new_sb_estimator s t 2 [] = Ok est /\ new_sb_estimator s' t' 2 [] = Ok est'
       /\ new_cb_estimator s t 2 [] (Q2Qc 25) (the_tests pex) = Ok est1 /\ new_cb_estimator s' t' 2 [] (Q2Qc 25) (the_tests pex) = Ok est1'
       /\ test_ok s' "X" "Y" [] /\ node_view s ([("Y","X")] ++ edges_list s) "X" 2 0 [1] [2].
Proof.
  assert (HS : selection [1;0] 2) by (split; [discriminate|]; split; [repeat constructor; cbn; intuition discriminate|repeat constructor]).
  split; [exact HS|]. split; [apply perm_swap|]. split. { split; [discriminate|]. split; [repeat constructor; cbn; tauto|repeat constructor]. }
  split; [apply legal_case|]. split; [apply legal_case|]. split; [reflexivity|]. split; [reflexivity|].
  exists (struct_of dvars [2;2] None), (traj_of dvars [dr1; dr2]), (struct_of (pick [1;0] dvars) (pick [1;0] [2;2]) None), (traj_of (pick [1;0] dvars) (picked [1;0] [dr1; dr2])).
  do 4 eexists. split; [apply imports_exists, legal_case|]. split; [apply imports_exists; apply (legal_picked [1;0] dvars [2;2] HS); apply legal_case|].
  split. { intros E. apply (f_equal t_rows) in E. vm_compute in E. discriminate. }
  split; [reflexivity|]. split; [reflexivity|]. split; [reflexivity|]. split; [reflexivity|]. split; [reflexivity|].
  split. { split; [right; left; reflexivity|]. split; [left; reflexivity|]. split; [|intros q []]. repeat constructor; cbn; intuition discriminate. }
  split; [reflexivity|]. split; [reflexivity|]. split; repeat constructor.
Qed.
