(** The JSON document written by the exporter and read by the importer (C66). *)
From Verif Require Import Base Lib LibQc ModelStructure ModelGraph ModelCims ModelData ModelGenerator ModelSample ModelExport ModelDocument
  SpecStructure SpecGraph SpecComb SpecParams SpecData SpecGenerator SpecSample SpecExport SpecInvariance SpecDocument
  ProofStructure ProofGraph ProofParams3 ProofGenerator2 ProofSample4 ProofData ProofData2 ProofData3 ProofExport ProofExport2 ProofExport3 ProofInvariance.
Open Scope nat_scope.

Lemma res_map_map {A B C} (f : B -> result C) (g : A -> B) l : res_map f (map g l) = res_map (fun a => f (g a)) l.
Proof. induction l as [|a l IH]; [reflexivity|]. cbn [map res_map]. rewrite IH. reflexivity. Qed.
Lemma columns_same (rs : list (list (string * json))) ks : rs <> [] -> NoDup ks -> (forall r, In r rs -> map fst r = ks) -> json_columns rs = ks.
Proof.
  intros Hr N H. destruct rs as [|r rs]; [congruence|]. unfold json_columns. cbn [flat_map]. rewrite fold_left_app.
  rewrite (H r (or_introl eq_refl)). rewrite (fold_cols_new ks []) by exact N. cbn [app].
  apply fold_cols_known. intros k Hk. apply in_flat_map in Hk as [r' [H1 H2]]. rewrite (H r' (or_intror H1)) in H2. exact H2.
Qed.
Lemma as_records_map {A} (f : A -> list (string * json)) l : as_records (map (fun a => JObj (f a)) l) = Ok (map f l).
Proof. induction l as [|a l IH]; [reflexivity|]. cbn [map as_records]. rewrite IH. reflexivity. Qed.

(** a frame with rows numbered from 0 and full, distinct columns *)
Definition plain_frame (f : frame) : Prop :=
  fr_index f = map Z.of_nat (seq 0 (length (fr_index f))) /\ NoDup (map fst (fr_cols f))
  /\ forall nc, In nc (fr_cols f) -> length (snd nc) = length (fr_index f).
Lemma json_frame_roundtrip f : plain_frame f -> fr_index f <> [] -> json_frame (frame_records f) = Ok f.
Proof.
  intros [H1 [H2 H3]] Hne. unfold json_frame, frame_records, json_records. rewrite as_records_map. cbn [bind].
  set (rs := map _ (seq 0 (length (fr_index f)))).
  assert (Hrs : rs <> []) by (unfold rs; destruct (fr_index f); [congruence|discriminate]).
  rewrite (columns_same rs (map fst (fr_cols f)) Hrs H2).
  2:{ intros r Hr. unfold rs in Hr. apply in_map_iff in Hr as [i [<- _]]. rewrite map_map. reflexivity. }
  assert (Hlen : length rs = length (fr_index f)) by (unfold rs; rewrite map_length, seq_length; reflexivity).
  assert (E : res_map (fun k => let* c := res_map (fun r => number_cell r k) rs in Ok (k, c)) (map fst (fr_cols f)) = Ok (fr_cols f)).
  { apply res_map_ok. apply Forall2_from_nth; [rewrite map_length; reflexivity|]. intros j k nc Hk Hnc. rewrite map_nth_error_iff, Hnc in Hk. injection Hk as <-.
    destruct nc as [k col]. cbn [fst]. pose proof (nth_error_In _ _ Hnc) as Hin. pose proof (H3 _ Hin) as HL. cbn [snd] in HL.
    assert (X : res_map (fun r => number_cell r k) rs = Ok col); [|rewrite X; reflexivity].
    apply res_map_ok. apply Forall2_from_nth; [lia|]. intros i r c Hr Hc. unfold rs in Hr. rewrite map_nth_error_iff in Hr.
    rewrite nth_seq_lt in Hr by (rewrite <- HL; apply nth_error_Some; congruence). cbn [option_map] in Hr. injection Hr as <-.
    unfold number_cell. match goal with |- context [dict_get ?d k] => assert (D : dict_get d k = Ok (json_cell c)) end.
    { apply dict_get_nth; [rewrite map_map; exact H2|]. apply in_map_iff. exists (k, col). split; [|exact Hin]. cbn [fst snd]. rewrite Hc. reflexivity. }
    rewrite D. destruct c; reflexivity. }
  rewrite E. cbn [bind]. rewrite Hlen, <- H1. destruct f; reflexivity.
Qed.
Lemma frame_of_plain vars r : NoDup ("Time" :: vars) -> plain_frame (frame_of vars r).
Proof.
  intros N. unfold plain_frame, frame_of. cbn [fr_index fr_cols]. rewrite map_length, seq_length. split; [reflexivity|]. split.
  - cbn [map fst]. rewrite mapi_combine, map_map. cbn [fst].
    assert (E : map (fun x : nat * label => snd x) (combine (seq 0 (length vars)) vars) = vars); [|rewrite E; exact N].
    generalize 0. clear. induction vars as [|v vars IH]; intros n; [reflexivity|]. cbn [length seq combine map snd]. f_equal. apply IH.
  - intros nc [<-|H]; [cbn [snd]; apply map_length|]. apply In_nth_error in H as [j Hj]. rewrite nth_error_mapi in Hj.
    destruct (nth_error vars j); [|discriminate]. injection Hj as <-. cbn [snd]. apply map_length.
Qed.

Lemma json_edges_roundtrip es : json_edges (edge_records es) = Ok es.
Proof.
  unfold json_edges, edge_records, json_records. rewrite as_records_map. cbn [bind]. destruct es as [|e es]; [reflexivity|].
  rewrite (columns_same _ ["From"; "To"]).
  - cbn zeta. assert (E : forall l : list edge, res_map (fun r => let* x := string_at r "From" in let* y := string_at r "To" in Ok (x, y))
       (map (fun e => [("From", JStr (fst e)); ("To", JStr (snd e))]) l) = Ok l).
    { induction l as [|[a b] l IH]; [reflexivity|]. cbn [map res_map]. rewrite IH. reflexivity. }
    apply E.
  - discriminate.
  - repeat constructor; cbn; intuition discriminate.
  - intros r Hr. apply in_map_iff in Hr as [x [<- _]]. reflexivity.
Qed.
Lemma Qc_trunc_nat n : Z.to_nat (Qc_trunc (Qc_nat n)) = n.
Proof. unfold Qc_nat. rewrite Qc_trunc_Z. apply Nat2Z.id. Qed.
Lemma json_variables_roundtrip vs : json_variables (variable_records vs) = Ok (MkVframe (mapi (fun i v => (i, fst v, snd v)) vs)).
Proof.
  unfold json_variables, variable_records, json_records. rewrite as_records_map. cbn [bind]. destruct vs as [|e es]; [reflexivity|].
  rewrite (columns_same _ ["Name"; "Value"]).
  - assert (E : forall l : list (label * nat), res_map (fun r => let* x := string_at r "Name" in let* y := count_at r "Value" in Ok (x, y))
       (map (fun e => [("Name", JStr (fst e)); ("Value", JNum (Qc_nat (snd e)))]) l) = Ok l).
    { induction l as [|[a b] l IH]; [reflexivity|]. cbn [map res_map]. rewrite IH. cbn [fst snd]. pose proof (Qc_trunc_nat b) as Q. revert Q. generalize (Qc_nat b). intros q Q.
      change (count_at [("Name", JStr a); ("Value", JNum q)] "Value") with (@Ok nat (Z.to_nat (Qc_trunc q))). rewrite Q. reflexivity. }
    rewrite E. reflexivity.
  - discriminate.
  - repeat constructor; cbn; intuition discriminate.
  - intros r Hr. apply in_map_iff in Hr as [x [<- _]]. reflexivity.
Qed.
Lemma read_cims_roundtrip cs : read_cims (cims_json cs) = Ok cs.
Proof.
  unfold read_cims, cims_json. rewrite <- (map_id cs) at 2. rewrite res_map_map. apply res_map_pure. intros [v e] _. cbn [snd fst].
  assert (E : res_map (fun kr : string * json => let* m := cim_records (snd kr) in Ok (fst kr, m))
     (map (fun kr => (fst kr, JArr (map record_json (snd kr)))) e) = Ok e).
  { rewrite <- (map_id e) at 2. rewrite res_map_map. apply res_map_pure. intros [k rs] _. cbn [fst snd]. unfold cim_records, json_records.
    unfold record_json. rewrite as_records_map. cbn [bind].
    assert (X : res_map (res_map number_at) (map (fun r : list (string * Qc) => map (fun kv => (fst kv, JNum (snd kv))) r) rs) = Ok rs).
    { rewrite <- (map_id rs) at 2. rewrite res_map_map. apply res_map_pure. intros r _. rewrite <- (map_id r) at 2. rewrite res_map_map. apply res_map_pure.
      intros [a q] _. reflexivity. }
    match goal with |- context [res_map (res_map number_at) ?l] => replace (res_map (res_map number_at) l) with (@Ok (list (list (string * Qc))) rs) by (symmetry; exact X) end.
    reflexivity. }
  rewrite E. reflexivity.
Qed.

(** ** the whole file *)
Lemma get_key_last (d : list (string * json)) k : get_key [JObj d] 0 k = dict_get d k.
Proof. reflexivity. Qed.
Lemma exporter_for_eq vars cards E cs rs : exporter_for vars cards E cs rs = MkExporter (combine vars cards) E cs (map (frame_of vars) rs).
Proof.
  unfold exporter_for, new_exporter.
  assert (G : forall fs acc, fold_left add_trajectory fs (MkExporter (combine vars cards) E cs acc) = MkExporter (combine vars cards) E cs (acc ++ fs)).
  { induction fs as [|f fs IH]; intros acc; [cbn [fold_left]; rewrite app_nil_r; reflexivity|]. cbn [fold_left].
    unfold add_trajectory at 2. cbn [ex_variables ex_str ex_cims ex_trajectories]. rewrite IH, <- app_assoc. reflexivity. }
  apply (G _ []).
Qed.
Lemma variables_frame_eq vars cards : MkVframe (mapi (fun i v => (i, fst v, snd v)) (combine vars cards)) = variables_frame vars (firstn (length vars) cards).
Proof.
  unfold variables_frame. f_equal. rewrite mapi_combine. generalize 0. revert cards. induction vars as [|v vars IH]; intros [|c cards] n; try reflexivity.
  cbn [combine length seq map fst snd firstn]. f_equal. apply IH.
Qed.
Lemma learning_data_ext im im' s t : im_concat im = im_concat im' -> im_variables im = im_variables im' -> im_structure im = im_structure im' ->
  im_sorter im = im_sorter im' -> learning_data im s t -> learning_data im' s t.
Proof.
  intros E1 E2 E3 E4 [sp [sp1 [sp2 [H1 [H2 [H3 [H4 H5]]]]]]].
  unfold new_sample_path in H1. rewrite E1, E2 in H1. destruct (im_variables im') as [v|] eqn:EV; [|discriminate].
  assert (Esp : sp = MkSamplePath im None None None /\ new_sample_path im' = Ok (MkSamplePath im' None None None)).
  { unfold new_sample_path. rewrite EV. destruct (im_concat im') as [| |f|n]; try discriminate; destruct (vframe_empty v); try discriminate.
    - injection H1 as <-. auto.
    - destruct (frame_empty f); [discriminate|]. injection H1 as <-. auto.
    - destruct n; [discriminate|]. injection H1 as <-. auto. }
  destruct Esp as [-> Esp]. clear H1. unfold sp_build_trajectories in H2. cbn [sp_importer sp_structure sp_total] in H2. rewrite E1, E4 in H2.
  destruct (im_concat im') as [| |f|n] eqn:EC; try discriminate.
  destruct (build_list_of_samples_array f) as [ta|] eqn:ET; [|discriminate]. cbn [bind] in H2.
  destruct (im_sorter im') as [so|] eqn:ES; [|discriminate]. injection H2 as <-.
  unfold sp_build_structure in H3. cbn [sp_importer sp_trajectories] in H3. unfold clear_concatenated_frame in H3. rewrite E1 in H3. cbn [im_variables im_sorter im_structure] in H3.
  rewrite E2, E3, E4 in H3. destruct (list_eqb String.eqb so (v_names v)) eqn:EL; [|discriminate]. cbn [negb] in H3. injection H3 as <-.
  cbn [sp_structure sp_trajectories] in H4, H5. injection H4 as <-. injection H5 as <-.
  eexists _, _, _. split; [exact Esp|]. split.
  { unfold sp_build_trajectories. cbn [sp_importer sp_structure sp_total]. rewrite EC, ET, ES. cbn [bind]. reflexivity. }
  split.
  { unfold sp_build_structure. cbn [sp_importer sp_trajectories]. unfold clear_concatenated_frame. rewrite EC. cbn [im_variables im_sorter im_structure]. rewrite EV, ES, EL. cbn [negb]. reflexivity. }
  cbn [sp_structure sp_trajectories]. split; reflexivity.
Qed.

Lemma doc_import vars cards E cs rs cj : legal_input vars cards rs -> Forall (fun r => r <> []) rs ->
  cims_to_json (combine vars cards) E cs = Ok cj ->
  exists doc im, out_document (exporter_for vars cards E cs rs) = Ok doc /\ reimport doc = Ok (im, Some (cims_json cj))
    /\ im_variables im = Some (variables_frame vars cards) /\ im_structure im = Some E /\ im_sorter im = Some vars
    /\ learning_data im (struct_of vars cards (Some E)) (traj_of vars rs).
Proof.
  intros HL Hne HC. pose proof HL as [Hh [Hv [Hc [_ [r0 [Hr0 _]]]]]].
  assert (HN : NoDup ("Time" :: vars)) by (apply (NoDup_app_l ("Time" :: vars) (shifted_names vars)), Hh).
  rewrite exporter_for_eq. unfold out_document. cbn [ex_variables ex_str ex_cims ex_trajectories]. rewrite HC. cbn [bind].
  destruct (imports_exists vars cards (Some E) rs HL) as [im0 [sp [sp1 [sp2 [I1 I2]]]]].
  assert (HF : json_samples (JArr (map frame_records (map (frame_of vars) rs))) = Ok (map (frame_of vars) rs)).
  { unfold json_samples. rewrite !res_map_map. apply res_map_pure. intros r Hr. apply json_frame_roundtrip; [apply frame_of_plain, HN|].
    rewrite Forall_forall in Hne. specialize (Hne r Hr). unfold frame_of. cbn [fr_index]. destruct r; [contradiction|discriminate]. }
  destruct rs as [|r1 rs1] eqn:Ers; [destruct Hr0|]. rewrite <- Ers in *.
  assert (E0 : nth_res (map (frame_of vars) rs) 0 = Ok (frame_of vars r1)) by (rewrite Ers; reflexivity).
  assert (ES : ModelData.col_names (frame_of vars r1) = "Time" :: vars).
  { unfold ModelData.col_names, frame_of. cbn [fr_cols map fst]. f_equal. rewrite mapi_combine, map_map. cbn [fst].
    generalize 0. clear. induction vars as [|v vars IH]; intros n; [reflexivity|]. cbn [length seq combine map snd]. f_equal. apply IH. }
  unfold sample_import_data in I1. cbn [new_sample_importer im_samples] in I1. rewrite E0 in I1. cbn [bind] in I1. unfold sample_build_sorter in I1.
  rewrite ES in I1. cbn [bind with_sorter im_samples im_concat im_variables im_structure im_sorter new_sample_importer] in I1.
  unfold with_sorter in I1. cbn [im_samples im_concat im_variables im_structure] in I1.
  unfold compute_row_delta_in_all_samples_frames in I1. cbn [im_sorter im_samples im_variables im_structure] in I1.
  destruct vars as [|v1 vs1] eqn:Ev; [contradiction|]. rewrite <- Ev in *. cbn zeta in I1.
  destruct (res_map (fun f => compute_row_delta_single_samples_frame f vars (shifted_names vars)) (map (frame_of vars) rs)) as [procs|] eqn:EP; [|discriminate].
  cbn [bind] in I1. destruct (concat_select procs ("Time" :: vars ++ shifted_names vars)) as [cf|] eqn:EC; [|discriminate]. cbn [bind] in I1. injection I1 as <-.
  eexists _, (MkImporter (map empty_frame_like (map (frame_of vars) rs)) (CFrame cf) (Some (variables_frame vars cards)) (Some E) (Some vars)).
  split; [reflexivity|]. split.
  { unfold reimport, json_document_import. cbn [read_json_file]. rewrite !get_key_last.
    set (d := [("dyn.str", _); _; _; _]).
    assert (D1 : dict_get d "samples" = Ok (JArr (map frame_records (map (frame_of vars) rs)))) by reflexivity.
    assert (D2 : dict_get d "dyn.str" = Ok (edge_records E)) by reflexivity.
    assert (D3 : dict_get d "variables" = Ok (variable_records (combine vars cards))) by reflexivity.
    assert (D4 : dict_get d "dyn.cims" = Ok (cims_json cj)) by reflexivity.
    rewrite D1, D2, D3, D4. clearbody d. cbn [bind]. rewrite HF. cbn [bind]. rewrite E0. cbn [bind].
    unfold json_build_sorter. rewrite ES. cbn [py_remove]. change (String.eqb "Time" "Time") with true. cbn iota. cbn [bind].
    unfold compute_row_delta_in_all_samples_frames. cbn [im_sorter]. rewrite Ev, <- Ev. cbn zeta. rewrite EP. cbn [bind]. rewrite EC. cbn [bind im_concat].
    rewrite json_edges_roundtrip. cbn [bind]. rewrite json_variables_roundtrip. cbn [bind]. rewrite variables_frame_eq, <- Hc, firstn_all. reflexivity. }
  cbn [im_variables im_structure im_sorter]. do 3 (split; [reflexivity|]).
  eapply learning_data_ext; [| | | |exists sp, sp1, sp2; exact I2]; reflexivity.
Qed.

(** ** reading the CIMs *)
Lemma load_cims_entries l : forall acc cs', load_cims l acc = Ok cs' -> NoDup (map fst acc ++ map fst l) ->
  exists sos, res_map load_combs (map snd l) = Ok sos /\ cs' = acc ++ combine (map fst l) sos.
Proof.
  induction l as [|[v e] l IH]; intros acc cs' H N; cbn [load_cims] in H.
  - injection H as <-. exists []. split; [reflexivity|]. cbn. symmetry. apply app_nil_r.
  - apply bind_ok in H as [so [H1 H2]]. cbn [map fst snd res_map]. rewrite H1. cbn [bind].
    assert (D : dict_set acc v so = acc ++ [(v, so)]).
    { apply dict_set_fresh. intro K. cbn [map fst] in N. apply NoDup_remove_2 in N. apply N, in_app_iff. left. exact K. }
    rewrite D in H2. apply IH in H2.
    + destruct H2 as [sos [-> ->]]. cbn [bind]. exists (so :: sos). split; [reflexivity|]. cbn [combine]. rewrite <- app_assoc. reflexivity.
    + rewrite map_app. cbn [map fst]. rewrite <- app_assoc. exact N.
Qed.
Lemma sampled_cims_entries cs cs' raw indx k : get_key raw indx k = Ok (cims_json cs) -> load_cims cs [] = Ok cs' -> NoDup (map fst cs) ->
  import_sampled_cims raw indx k = Ok (map (fun vs => (fst vs, so_actual_cims (snd vs))) cs').
Proof.
  intros K H N. unfold import_sampled_cims. rewrite K. cbn [bind]. rewrite read_cims_roundtrip. cbn [bind].
  destruct (load_cims_entries cs [] cs' H N) as [sos [H1 ->]]. clear H N K. cbn [app]. revert sos H1.
  induction cs as [|[v e] cs IH]; intros sos H1; cbn [map snd res_map] in *; [injection H1 as <-; reflexivity|].
  apply bind_ok in H1 as [so [H1 H2]]. apply bind_ok in H2 as [sos' [H2 H3]]. injection H3 as <-.
  unfold load_combs in H1. apply bind_ok in H1 as [ms [H1 H4]]. injection H4 as <-. cbn [snd fst]. rewrite H1. cbn [bind].
  rewrite (IH _ H2). reflexivity.
Qed.
Lemma export_loop_NoDup str cims : forall ls acc cj, export_loop str cims ls acc = Ok cj -> NoDup (map fst acc) -> NoDup (map fst cj).
Proof.
  induction ls as [|l ls IH]; intros acc cj H N; cbn [export_loop] in H; [injection H as <-; exact N|].
  apply bind_ok in H as [so [_ H]]. apply bind_ok in H as [e [_ H]]. apply (IH _ _ H). rewrite dict_set_keys.
  destruct (lmem l (map fst acc)) eqn:K; [exact N|]. apply NoDup_snoc; [exact N|]. apply lmem_false, K.
Qed.

(** ** choosing an element, empty files *)
Lemma import_at ds i d sl stl vl tk cl : py_get ds i = Ok d ->
  json_document_import (JArr ds) sl stl vl tk cl i = json_document_import (JArr [d]) sl stl vl tk cl 0.
Proof. intro H. unfold json_document_import. cbn [read_json_file]. unfold get_key. rewrite H. reflexivity. Qed.
Lemma import_single d sl stl vl tk cl : (forall l, d <> JArr l) ->
  json_document_import (JArr [d]) sl stl vl tk cl 0 = json_document_import d sl stl vl tk cl 0.
Proof. intro H. destruct d; try reflexivity. exfalso. exact (H _ eq_refl). Qed.

Lemma json_frame_empty vars : json_frame (frame_records (frame_of vars [])) = Ok (MkFrame [] []).
Proof. reflexivity. Qed.

Lemma shape_raw_ok cards rows : trajectory_shape cards rows -> raw_ok cards rows.
Proof.
  intros [done [lst [-> [H1 [H2 _]]]]].
  assert (L : length (snd lst) = length cards) by (rewrite H1; apply map_length).
  assert (NEG : Forall2 (fun z c => (z < Z.of_nat c)%Z) (snd lst) cards).
  { rewrite H1. clear. induction cards; constructor; [lia|assumption]. }
  assert (W : forall a b, Forall2 (fun x c => (0 <= x < Z.of_nat c)%Z) a b -> Forall2 (fun z c => (z < Z.of_nat c)%Z) a b).
  { intros a b H. induction H; constructor; [lia|assumption]. }
  split.
  - intros [a b] Hab. cbn [fst snd]. unfold steps in Hab. clear L H1. revert Hab. induction done as [|d done IH]; [intros []|].
    cbn [app tl]. destruct done as [|d' done].
    + cbn. intros [E|[]]. injection E as <- <-. split; [apply H2; left; reflexivity|exact NEG].
    + cbn [app combine]. intros [E|H].
      * injection E as <- <-. split; [apply H2; left; reflexivity|apply W, H2; right; left; reflexivity].
      * apply IH; [intros r Hr; apply H2; right; exact Hr|exact H].
  - intros o Ho. apply in_app_iff in Ho as [Ho|[<-|[]]]; [|exact L]. eapply Forall2_length; exact (H2 o Ho).
Qed.

(** ** files without data *)
Lemma dict_samples (a b c d : json) : dict_get [("dyn.str", a); ("variables", b); ("dyn.cims", c); ("samples", d)] "samples" = Ok d.
Proof. reflexivity. Qed.
Lemma reimport_samples a b c d : reimport (JArr [JObj [("dyn.str", a); ("variables", b); ("dyn.cims", c); ("samples", d)]]) =
  let* fs := json_samples d in
  let* f0 := nth_res fs 0 in
  let* sorter := json_build_sorter "Time" f0 in
  let* im := compute_row_delta_in_all_samples_frames (MkImporter fs CEmptyList None None (Some sorter)) fs in
  let* es := json_edges a in
  let* v := json_variables b in
  Ok (MkImporter (map empty_frame_like fs) (im_concat im) (Some v) (Some es) (Some sorter), Some c).
Proof. reflexivity. Qed.
Lemma no_trajectories_import vars cards E cs doc : out_document (exporter_for vars cards E cs []) = Ok doc -> reimport doc = Err IndexError.
Proof.
  rewrite exporter_for_eq. unfold out_document. cbn [ex_variables ex_str ex_cims ex_trajectories]. intros H. apply bind_ok in H as [cj [_ H]]. injection H as <-.
  rewrite reimport_samples. reflexivity.
Qed.
Lemma json_samples_map vars rs : NoDup ("Time" :: vars) -> json_samples (JArr (map frame_records (map (frame_of vars) rs)))
  = Ok (map (fun r => match r with [] => MkFrame [] [] | _ => frame_of vars r end) rs).
Proof.
  intro N. unfold json_samples. rewrite !res_map_map. apply res_map_pure. intros [|o r] _; [apply json_frame_empty|].
  apply json_frame_roundtrip; [apply frame_of_plain, N|]. discriminate.
Qed.
Lemma header_of vars r : ModelData.col_names (frame_of vars r) = "Time" :: vars.
Proof.
  unfold ModelData.col_names, frame_of. cbn [fr_cols map fst]. f_equal. rewrite mapi_combine, map_map. cbn [fst].
  generalize 0. clear. induction vars as [|v vars IH]; intros n; [reflexivity|]. cbn [length seq combine map snd]. f_equal. apply IH.
Qed.
Lemma first_empty_import vars cards E cs rs doc : NoDup ("Time" :: vars) ->
  out_document (exporter_for vars cards E cs ([] :: rs)) = Ok doc -> reimport doc = Err ValueError.
Proof.
  intros HN. remember ([] :: rs) as rs0 eqn:E0. rewrite exporter_for_eq. unfold out_document. cbn [ex_variables ex_str ex_cims ex_trajectories]. intros H. apply bind_ok in H as [cj [_ H]]. injection H as <-.
  rewrite reimport_samples, json_samples_map by exact HN. rewrite E0. reflexivity.
Qed.
Lemma later_empty_import vars cards E cs r rs doc : good_header vars -> vars <> [] -> r <> [] -> In [] rs ->
  (forall q o, In q (r :: rs) -> In o q -> length (snd o) = length vars) ->
  out_document (exporter_for vars cards E cs (r :: rs)) = Ok doc -> reimport doc = Err IndexError.
Proof.
  intros Hh Hv Hr Hi Hlen. assert (HN : NoDup ("Time" :: vars)) by (apply (NoDup_app_l ("Time" :: vars) (shifted_names vars)), Hh).
  remember (r :: rs) as rs0 eqn:Ers. rewrite exporter_for_eq. unfold out_document. cbn [ex_variables ex_str ex_cims ex_trajectories]. intros H. apply bind_ok in H as [cj [_ H]]. injection H as <-.
  rewrite reimport_samples, json_samples_map by exact HN. cbn [bind]. rewrite Ers.
  set (F := fun r0 : raw => match r0 with [] => MkFrame [] [] | _ => frame_of vars r0 end).
  assert (F0 : F [] = MkFrame [] []) by reflexivity. assert (F1 : forall o a, F (o :: a) = frame_of vars (o :: a)) by reflexivity. clearbody F.
  assert (E0 : nth_res (map F (r :: rs)) 0 = Ok (frame_of vars r)) by (destruct r; [contradiction|rewrite <- F1; reflexivity]). rewrite E0. cbn [bind].
  unfold json_build_sorter. rewrite header_of. cbn [py_remove]. change (String.eqb "Time" "Time") with true. cbn iota. cbn [bind].
  unfold compute_row_delta_in_all_samples_frames. cbn [im_sorter]. destruct vars as [|v vars'] eqn:Ev; [congruence|]. rewrite <- Ev in *. cbn zeta.
  assert (K : res_map (fun f => compute_row_delta_single_samples_frame f vars (shifted_names vars)) (map F (r :: rs)) = Err IndexError).
  { rewrite Ers in Hlen. assert (G : forall l, incl l (r :: rs) -> In [] l -> res_map (fun f => compute_row_delta_single_samples_frame f vars (shifted_names vars)) (map F l) = Err IndexError).
    { induction l as [|a l IH]; intros Hin Hj; [destruct Hj|]. rewrite map_cons. cbn [res_map].
      destruct a as [|o' a]; [rewrite F0; reflexivity|]. destruct Hj as [Hj|Hj]; [discriminate|]. rewrite IH; [|intros x Hx; apply Hin; right; exact Hx|exact Hj].
      destruct (row_delta vars _ _ (frame_of_raw vars (o' :: a) HN (fun o Ho => Hlen _ o (Hin _ (or_introl eq_refl)) Ho)) Hh) as [x [Hx _]].
      rewrite F1, Hx. reflexivity. }
    apply G; [intros x Hx; exact Hx|]. right. exact Hi. }
  rewrite K. reflexivity.
Qed.
