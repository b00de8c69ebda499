(** Property theorems C66, C67, C68: files, the full cycle, conservation of the observed transitions. *)
From Verif Require Import Base Lib LibQc ModelStructure ModelGraph ModelCims ModelData ModelParams ModelGenerator ModelSample ModelExport ModelDocument
  SpecStructure SpecGraph SpecComb SpecParams SpecData SpecGenerator SpecSample SpecExport SpecInvariance SpecDocument SpecConserve
  ProofData ProofData2 ProofData3 ProofComb ProofSample4 ProofExport3 ProofInvariance ProofDocument ProofConserve ProofConserve2 PropsData PropsGenerator PropsSample PropsExport PropsInvariance.
Open Scope nat_scope.

(** ** C66 *)
(** What is exported is what is imported: the file gives the learner the same structure and the same trajectory as
    handing the DataFrames to SampleImporter, and the generator the same variables, edges and CIMs. *)
Theorem C66_round_trip vars cards E cs rs cj : legal_input vars cards rs -> Forall (fun r => r <> []) rs ->
  cims_to_json (combine vars cards) E cs = Ok cj ->
  exists doc im j s t, out_document (exporter_for vars cards E cs rs) = Ok doc /\ reimport doc = Ok (im, Some j)
    /\ imports_to vars cards (Some E) rs s t /\ learning_data im s t
    /\ nodes_labels s = vars /\ nodes_values s = cards /\ edges_list s = E
    /\ read_cims j = Ok cj /\ trajgen_of_importer (im, Some j) = load_trajgen (combine vars cards) E cj.
Proof.
  intros HL Hne HC. destruct (doc_import vars cards E cs rs cj HL Hne HC) as [doc [im [D1 [D2 [D3 [D4 [D5 D6]]]]]]].
  exists doc, im, (cims_json cj), (struct_of vars cards (Some E)), (traj_of vars rs).
  split; [exact D1|]. split; [exact D2|]. split; [apply imports_exists, HL|]. split; [exact D6|]. do 3 (split; [reflexivity|]).
  split; [apply read_cims_roundtrip|]. unfold trajgen_of_importer. cbn [fst snd]. rewrite D3, D4, read_cims_roundtrip. cbn [bind]. f_equal.
  pose proof HL as [_ [_ [Hc _]]]. unfold variables_frame, v_names, v_values. cbn [v_rows]. clear -Hc. revert cards Hc. generalize 0.
  induction vars as [|v vars IH]; intros n [|c cards] H; try discriminate; [reflexivity|]. cbn [length seq combine map fst snd]. f_equal. apply IH. injection H as H. exact H.
Qed.
Print Assumptions C66_round_trip.
(** import_sampled_cims returns, for every variable and in order, the matrices NetworkGenerator made *)
Theorem C66_sampled_cims labels vals u lo hi E cs tg rs doc :
  sampled_from_generator labels vals u lo hi E cs tg -> Forall no_equals labels -> E <> [] ->
  out_document (exporter_for labels vals E cs rs) = Ok doc ->
  import_sampled_cims (read_json_file doc) 0 "dyn.cims" = Ok (map (fun vs => (fst vs, so_actual_cims (snd vs))) cs).
Proof.
  intros P NE HE HD. pose proof P as [N [L _]].
  assert (HV : map fst (combine labels vals) = labels).
  { clear -L. revert vals L. induction labels as [|l ls IH]; intros [|c vals] L; try discriminate; [reflexivity|]. cbn. f_equal. apply IH. injection L as L. exact L. }
  destruct (reload_general _ _ _ _ _ _ _ _ (combine labels vals) P NE HV HE) as [cj [cs' [J1 [J2 [J3 _]]]]].
  rewrite exporter_for_eq in HD. unfold out_document in HD. cbn [ex_variables ex_str ex_cims ex_trajectories] in HD. rewrite J1 in HD. cbn [bind] in HD. injection HD as <-.
  assert (LC : load_cims cj [] = Ok cs').
  { unfold load_trajgen in J2. destruct E as [|e E']; [contradiction|]. cbn [bind] in J2. destruct (load_cims cj []) as [x|]; [|discriminate]. injection J2 as J2. f_equal. exact J2. }
  assert (NC : NoDup (map fst cj)) by (unfold cims_to_json in J1; apply (export_loop_NoDup _ _ _ _ _ J1); constructor).
  erewrite (sampled_cims_entries cj cs'); [|reflexivity|exact LC|exact NC]. f_equal. clear -J3.
  induction J3 as [|[a x] [b y] l l' [H1 [H2 _]] H IH]; [reflexivity|]. cbn [map fst snd] in *. rewrite IH. congruence.
Qed.
Print Assumptions C66_sampled_cims.
(** the element [indx] of the file is what is read; a file may hold the object without the outer array *)
Theorem C66_index ds indx d sl stl vl tk cl : py_get ds indx = Ok d ->
  json_document_import (JArr ds) sl stl vl tk cl indx = json_document_import (JArr [d]) sl stl vl tk cl 0
  /\ ((forall l, d <> JArr l) -> json_document_import (JArr ds) sl stl vl tk cl indx = json_document_import d sl stl vl tk cl 0).
Proof.
  intro H. split; [apply import_at, H|]. intro HD. rewrite (import_at ds indx d) by exact H. apply import_single, HD.
Qed.
Theorem C66_index_out_of_range ds indx e sl stl vl tk cl : py_get ds indx = Err e -> json_document_import (JArr ds) sl stl vl tk cl indx = Err e.
Proof. intro H. unfold json_document_import, get_key. cbn [read_json_file]. rewrite H. reflexivity. Qed.
(** an object without the key of the trajectories *)
Theorem C66_missing_samples d sl stl vl tk cl : ~ In sl (map fst d) -> json_document_import (JObj d) sl stl vl tk cl 0 = Err KeyError.
Proof.
  intro H. unfold json_document_import, get_key. cbn [read_json_file py_get]. unfold py_get. cbn.
  assert (K : dict_get d sl = Err KeyError); [|rewrite K; reflexivity].
  clear -H. induction d as [|[k v] d IH]; [reflexivity|]. cbn [dict_get]. destruct (String.eqb_spec k sl) as [E|E]; [exfalso; apply H; left; exact E|].
  apply IH. intro K. apply H. right. exact K.
Qed.
Print Assumptions C66_index. Print Assumptions C66_index_out_of_range. Print Assumptions C66_missing_samples.
(** findings: files without trajectories, or with a trajectory without rows, are written but cannot be read *)
Theorem C66_no_trajectories_refuted vars cards E cs doc : out_document (exporter_for vars cards E cs []) = Ok doc -> reimport doc = Err IndexError.
Proof. exact (no_trajectories_import vars cards E cs doc). Qed.
Theorem C66_empty_first_trajectory_refuted vars cards E cs rs doc : good_header vars ->
  out_document (exporter_for vars cards E cs ([] :: rs)) = Ok doc -> reimport doc = Err ValueError.
Proof. intro Hh. apply first_empty_import. apply (NoDup_app_l ("Time" :: vars) (shifted_names vars)), Hh. Qed.
Theorem C66_empty_trajectory_refuted vars cards E cs r rs doc : good_header vars -> vars <> [] -> length cards = length vars -> Forall (raw_ok cards) (r :: rs) ->
  r <> [] -> In [] rs -> out_document (exporter_for vars cards E cs (r :: rs)) = Ok doc -> reimport doc = Err IndexError.
Proof.
  intros Hh Hv Hc Hok Hr Hi. apply later_empty_import; try assumption. intros q o Hq Ho. rewrite Forall_forall in Hok. destruct (Hok q Hq) as [_ K]. rewrite <- Hc. apply K, Ho.
Qed.
Print Assumptions C66_no_trajectories_refuted. Print Assumptions C66_empty_first_trajectory_refuted. Print Assumptions C66_empty_trajectory_refuted.

(** ** C44: a time column with another name than "Time", announced as time_key, makes the import raise *)
Theorem C44_other_time_key_raises doc sl stl vl tk cl indx js fs vars : get_key (read_json_file doc) indx sl = Ok js -> json_samples js = Ok fs -> fs <> [] ->
  tk <> "Time" -> vars <> [] -> NoDup (tk :: vars ++ shifted_names vars) -> ~ In "Time" vars -> ~ In "Time" (shifted_names vars) ->
  (forall f, In f fs -> exists n c0 rest, f = MkFrame (map Z.of_nat (seq 0 n)) ((tk, c0) :: rest)
      /\ length c0 = n /\ Forall (fun nc => length (snd nc) = n) rest /\ map fst rest = vars) ->
  json_document_import doc sl stl vl tk cl indx = Err KeyError.
Proof.
  intros H1 H2 A1 A2 A3 A4 A5 A6 A7. destruct (json_time_key tk fs vars A1 A2 A3 A4 A5 A6 A7) as [f0 [so [B1 [B2 B3]]]].
  unfold json_document_import. rewrite H1. cbn [bind]. rewrite H2. cbn [bind]. rewrite B1. cbn [bind]. rewrite B2. cbn [bind]. rewrite B3. reflexivity.
Qed.
Print Assumptions C44_other_time_key_raises.
Example C44_case_time : json_document_import (JObj [("samples", JArr [JArr [JObj [("t", JNum 0); ("X", JNum 0)]; JObj [("t", JNum 1); ("X", JNum 1)]]])])
   "samples" "dyn.str" "variables" "t" None 0 = Err KeyError.
Proof. reflexivity. Qed.

(** ** C68 *)
(** Whatever the parents asked for, the estimated CIMs of a variable count every observed change of that variable exactly
    once - on the diagonal and, again, off the diagonal - and their residence times add up to the observed time. *)
Theorem C68_every_change_counted_once vars cards prior rs s t es v c ni pis ps : legal_input vars cards rs ->
  imports_to vars cards prior rs s t -> edges_within vars es -> edges_within vars (edges_list s) ->
  node_view s (es ++ edges_list s) v c ni pis ps -> 0 < c -> compat c ps ->
  exists g soc, ng_fast_init (fresh_graph s es) v = Ok g /\ compute_parameters_for_node t g v = Ok soc
    /\ Zsum (map diagonal_counts (so_actual_cims soc)) = observed_changes rs ni
    /\ Zsum (map jump_counts (so_actual_cims soc)) = observed_changes rs ni
    /\ Qcsum (map total_time (so_actual_cims soc)) = Qcsum (map duration rs).
Proof.
  intros HL H He Hp V Hc Hcp. apply (imports_det vars cards prior rs s t HL) in H as [-> ->].
  destruct (raw_params vars cards prior rs es v c ni pis ps HL He Hp V Hc Hcp) as [g [G1 G2]].
  pose proof (legal_step_rows vars cards prior rs _ v c ni pis ps HL V) as R.
  eexists g, _. split; [exact G1|]. split; [exact G2|]. cbn [so_actual_cims]. rewrite !map_map.
  assert (D : Zsum (map (fun u => diagonal_counts (raw_cim rs ni pis c u)) (le_enum ps)) = observed_changes rs ni).
  { rewrite <- (jumps_counted_once rs ni pis c ps); [|intros r ab H1 H2; apply (R r ab H1 H2)..]. apply Zsum_ext. intros u _. apply raw_cim_diagonal. }
  split; [exact D|]. split; [rewrite <- D; apply Zsum_ext; intros u _; apply raw_cim_jumps|].
  rewrite <- (dwell_conserved rs ni pis c ps); [|intros r ab H1 H2; apply (R r ab H1 H2)]. reflexivity.
Qed.
Print Assumptions C68_every_change_counted_once.

(** ** C67 *)
(** Generate a network, sample it, save network and trajectories, read the file back: the generator is the same, and the
    learner gets a legal data set with the original labels, cardinalities and edges. *)
Theorem C67_full_cycle labels vals u lo hi E cs tg rs :
  sampled_from_generator labels vals u lo hi E cs tg -> sampling_net tg vals -> generated_by tg rs -> (exists r, In r rs /\ 2 <= length r) ->
  good_header labels -> Forall no_equals labels -> E <> [] -> Forall (fun c => c <= 10) vals ->
  exists doc im j s t, out_document (exporter_for labels vals E cs rs) = Ok doc /\ reimport doc = Ok (im, Some j)
    /\ trajgen_of_importer (im, Some j) = Ok tg
    /\ legal_input labels vals rs /\ imports_to labels vals (Some E) rs s t /\ learning_data im s t /\ data_ok s t
    /\ nodes_labels s = labels /\ nodes_values s = vals /\ edges_list s = E.
Proof.
  intros P SN G H2 Hh NE HE Hc. pose proof P as [N [L _]].
  assert (SH : Forall (trajectory_shape vals) rs).
  { apply Forall_forall. intros r Hr. destruct (G r Hr) as [fuel [g [t_end [max_tr [R S]]]]].
    destruct (C49_trajectory_shape tg vals g t_end max_tr fuel SN R) as [X|[rows [X Y]]]; rewrite S in X; [discriminate|]. injection X as <-. exact Y. }
  assert (HL : legal_input labels vals rs).
  { split; [exact Hh|]. split; [|split; [exact L|split; [|exact H2]]].
    - destruct (pipeline_facts _ _ _ _ _ _ _ _ P) as [_ [_ [F1 _]]]. destruct SN as [_ [SN _]]. rewrite F1 in SN. exact SN.
    - eapply Forall_impl; [|exact SH]. intros r. apply shape_raw_ok. }
  assert (Hne : Forall (fun r => r <> []) rs).
  { eapply Forall_impl; [|exact SH]. intros r [done [lst [-> _]]] K. destruct done; discriminate. }
  assert (HV : map fst (combine labels vals) = labels).
  { clear -L. revert vals L. induction labels as [|l ls IH]; intros [|c vals] L; try discriminate; [reflexivity|]. cbn. f_equal. apply IH. injection L as L. exact L. }
  destruct (C55_reload_is_exact _ _ _ _ _ _ _ _ (combine labels vals) P NE HV HE Hc) as [cj [J1 J2]].
  destruct (C66_round_trip labels vals E cs rs cj HL Hne J1) as [doc [im [j [s [t [D1 [D2 [D3 [D4 [D5 [D6 [D7 [D8 D9]]]]]]]]]]]]].
  exists doc, im, j, s, t. split; [exact D1|]. split; [exact D2|]. split; [congruence|]. split; [exact HL|]. split; [exact D3|]. split; [exact D4|].
  split; [|auto]. apply (imports_det labels vals (Some E) rs s t HL) in D3 as [-> ->]. apply legal_data, HL.
Qed.
Print Assumptions C67_full_cycle.
(** finding: the final transition of every generated trajectory never reaches the learner.  In rows with [n] transitions
    (n+1 rows) the changes the learner counts, all variables together, are n-1 per trajectory. *)
Theorem C67_last_transition_lost tg cards rs : sampling_net tg cards -> generated_by tg rs ->
  Zsum (map (fun i => observed_changes rs i) (seq 0 (length cards))) = Zsum (map (fun r => Z.of_nat (length r - 2)) rs).
Proof.
  intros SN G. apply shape_all_changes. apply Forall_forall. intros r Hr. destruct (G r Hr) as [fuel [g [t_end [max_tr [R S]]]]].
  destruct (C49_trajectory_shape tg cards g t_end max_tr fuel SN R) as [X|[rows [X Y]]]; rewrite S in X; [discriminate|]. injection X as <-. exact Y.
Qed.
Print Assumptions C67_last_transition_lost.

(** a concrete cycle: A -> C <- B, two trajectories with 3 and 2 transitions *)
Definition net_rows (n : Z) : raw := match ctbn_sample 10 (net_tg 2) (const_rng 1%Qc) (-(1))%Qc n with Ok r => r | Err _ => [] end.
Lemma net_rows_ok n : length (net_rows n) <> 0 -> ctbn_sample 10 (net_tg 2) (const_rng 1%Qc) (-(1))%Qc n = Ok (net_rows n).
Proof. unfold net_rows. destruct (ctbn_sample _ _ _ _ _); [reflexivity|]. intro H. exfalso. apply H. reflexivity. Qed.
Lemma net_rows_3 : length (net_rows 3) = 4. Proof. vm_compute. reflexivity. Qed.
Lemma net_rows_2 : length (net_rows 2) = 3. Proof. vm_compute. reflexivity. Qed.
Example C67_case :
  sampled_from_generator ["A";"B";"C"] [2;2;2] half_draws 1%Qc (Q2Qc 2) (net_E 2) (net_cs 2) (net_tg 2)
  /\ sampling_net (net_tg 2) [2;2;2] /\ generated_by (net_tg 2) [net_rows 3; net_rows 2] /\ (exists r, In r [net_rows 3; net_rows 2] /\ 2 <= length r)
  /\ good_header ["A";"B";"C"] /\ Forall no_equals ["A";"B";"C"] /\ net_E 2 <> [] /\ Forall (fun c => c <= 10) [2;2;2]
  /\ map (@length _) [net_rows 3; net_rows 2] = [4; 3]
  /\ Zsum (map (fun i => observed_changes [net_rows 3; net_rows 2] i) (seq 0 3)) = 3%Z.
Proof.
  assert (G : generated_by (net_tg 2) [net_rows 3; net_rows 2]).
  { intros r [<-|[<-|[]]]; exists 10, (const_rng 1%Qc), (-(1))%Qc; [exists 3%Z|exists 2%Z]; (split; [apply const_rng_ok; discriminate|]);
      apply net_rows_ok; [rewrite net_rows_3|rewrite net_rows_2]; discriminate. }
  split; [apply net_generated; left; reflexivity|]. split; [exact net2_ok|]. split; [exact G|].
  split; [exists (net_rows 3); split; [left; reflexivity|rewrite net_rows_3; lia]|].
  split; [unfold good_header; cbn; repeat constructor; cbn; intuition discriminate|].
  split; [repeat constructor; unfold no_equals; cbn; intuition discriminate|]. split; [vm_compute; discriminate|]. split; [repeat constructor; lia|].
  split; [cbn [map]; rewrite net_rows_3, net_rows_2; reflexivity|].
  pose proof (C67_last_transition_lost (net_tg 2) [2;2;2] _ net2_ok G) as H. cbn [length] in H. rewrite H. cbn [map]. rewrite net_rows_3, net_rows_2. reflexivity.
Qed.
(** X changes twice, Y once; the last observation of the first trajectory is the marker *)
Example C68_case : legal_input dvars [2;2] [dr1; dr2] /\ (exists s t, imports_to dvars [2;2] None [dr1; dr2] s t
    /\ node_view s ([("Y","X")] ++ edges_list s) "X" 2 0 [1] [2])
  /\ observed_changes [dr1; dr2] 0 = 2%Z /\ observed_changes [dr1; dr2] 1 = 1%Z /\ Qcsum (map duration [dr1; dr2]) = Q2Qc (13#4).
Proof.
  split; [apply legal_case|]. split; [destruct different_data as [s [t [_ [H1 [_ [_ [_ H2]]]]]]]; exists s, t; auto|].
  split; [reflexivity|]. split; [reflexivity|]. apply Qc_is_canon. vm_compute. reflexivity.
Qed.
Example C66_case : forall rs, rs = [] \/ rs = [[]; net_rows 2] \/ rs = [net_rows 2; []] ->
  exists doc, out_document (exporter_for ["A";"B";"C"] [2;2;2] (net_E 2) (net_cs 2) rs) = Ok doc.
Proof.
  intros rs _. rewrite exporter_for_eq. unfold out_document. cbn [ex_variables ex_str ex_cims].
  destruct C67_case as [P [_ [_ [_ [_ [NE [HE [Hc _]]]]]]]].
  destruct (C55_reload_is_exact _ _ _ _ _ _ _ _ (combine ["A";"B";"C"] [2;2;2]) P NE eq_refl HE Hc) as [cj [J1 _]]. rewrite J1. cbn [bind].
  eexists. reflexivity.
Qed.
