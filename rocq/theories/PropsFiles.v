(** Property theorems C78, C79: the text of the files, interrupted writing. *)
From Coq Require Import Ascii.
From Verif Require Import Base Lib LibQc ModelStructure ModelGraph ModelCims ModelData ModelParams ModelGenerator ModelSample ModelExport ModelDocument ModelEstimators ModelFiles
  SpecStructure SpecGraph SpecComb SpecParams SpecData SpecGenerator SpecSample SpecExport SpecInvariance SpecEstimators SpecDocument SpecFiles
  ProofGraph ProofData ProofDocument ProofExport ProofFiles ProofFiles2 PropsGenerator PropsSample PropsDocument PropsEstimators.
Open Scope nat_scope.

(** ** C78 *)
(** The reader accepts exactly the JSON texts, whatever their layout, and raises ValueError on everything else. *)
Theorem C78_reader nf s : (forall j, json_loads nf s = Ok j <-> json_text nf j s) /\ ((forall j, ~ json_text nf j s) -> json_loads nf s = Err ValueError).
Proof.
  split; [intro j; apply loads_iff|]. intro H. destruct (loads_error nf s) as [[j K]|K]; [|exact K]. exfalso. apply (H j). apply loads_sound, K.
Qed.
(** What is dumped is read back, character escapes included; the text is one line of printable ASCII. *)
Theorem C78_dump_load nf j : printable nf j ->
  json_text nf j (dump_text nf j) /\ json_loads nf (dump_text nf j) = Ok j /\ Forall (fun c => 32 <= code c <= 126) (dump_text nf j).
Proof.
  intro P. split; [|split; [apply dump_loads, P|apply dump_shown, P]]. exists [], (dump_text nf j), []. rewrite app_nil_r. repeat split; try constructor. apply dump_value, P.
Qed.
(** Two documents with the same text are the same document. *)
Theorem C78_no_confusion nf j j' : printable nf j -> printable nf j' -> dump_text nf j = dump_text nf j' -> j = j'.
Proof. intros P P' E. pose proof (dump_loads nf j P) as H. rewrite E, (dump_loads nf j' P') in H. congruence. Qed.
(** A path without a file, or with a text that is not JSON, makes the importer raise; nothing is made up. *)
Theorem C78_unreadable_file nf fs path sl stl vl tk cl indx :
  (fs path = None -> json_importer nf fs path sl stl vl tk cl indx = Err FileNotFoundError)
  /\ (forall t, fs path = Some t -> (forall j, ~ json_text nf j t) -> json_importer nf fs path sl stl vl tk cl indx = Err ValueError).
Proof.
  unfold json_importer, read_file. split; [intros ->; reflexivity|]. intros t -> H. destruct (loads_error nf t) as [[j K]|K]; [destruct (H j); apply loads_sound, K|].
  rewrite K. reflexivity.
Qed.
Print Assumptions C78_unreadable_file. Print Assumptions C78_reader. Print Assumptions C78_dump_load. Print Assumptions C78_no_confusion.

(** The file that out_file leaves: an importer given its path gets the document that was built, and so (C66) the learner gets
    what it gets from the DataFrames, the generator what was exported.  Other files are as before. *)
Theorem C78_exported_file nf cwd ex name fs d : out_document ex = Ok d ->
  Forall (fun f => NoDup (map fst (fr_cols f))) (ex_trajectories ex) -> (forall q, In q (json_numbers d) -> faithful nf q) ->
  exists st, fst (out_file nf cwd ex name fs) = Ok tt /\ last (snd (out_file nf cwd ex name fs)) fs = st
    /\ read_file nf st (cwd ++ "/" ++ name) = Ok d
    /\ (forall sl stl vl tk cl indx, json_importer nf st (cwd ++ "/" ++ name) sl stl vl tk cl indx = json_document_import d sl stl vl tk cl indx)
    /\ (forall p, p <> (cwd ++ "/" ++ name)%string -> st p = fs p).
Proof.
  intros HD HF HN. assert (P : printable nf d) by (apply printable_iff; [apply (document_distinct ex d HD HF)|exact HN]). unfold out_file. rewrite HD. cbn [fst snd]. rewrite write_states_last.
  eexists. split; [reflexivity|]. split; [reflexivity|].
  assert (R : read_file nf (put_file fs (cwd ++ "/" ++ name) (dump_text nf d)) (cwd ++ "/" ++ name) = Ok d) by (unfold read_file; rewrite put_same; apply dump_loads, P).
  split; [exact R|]. split; [intros; unfold json_importer; rewrite R; reflexivity|]. intros p Hp. apply put_other, Hp.
Qed.
Theorem C78_file_round_trip nf cwd name fs vars cards E cs rs cj d : legal_input vars cards rs -> Forall (fun r => r <> []) rs ->
  cims_to_json (combine vars cards) E cs = Ok cj ->
  out_document (exporter_for vars cards E cs rs) = Ok d -> (forall q, In q (json_numbers d) -> faithful nf q) ->
  exists im j s t, json_importer nf (last (snd (out_file nf cwd (exporter_for vars cards E cs rs) name fs)) fs) (cwd ++ "/" ++ name)
                     "samples" "dyn.str" "variables" "Time" (Some "dyn.cims") 0 = Ok (im, Some j)
    /\ imports_to vars cards (Some E) rs s t /\ learning_data im s t
    /\ read_cims j = Ok cj /\ trajgen_of_importer (im, Some j) = load_trajgen (combine vars cards) E cj.
Proof.
  intros HL Hne HC HD HN. destruct (C66_round_trip vars cards E cs rs cj HL Hne HC) as [doc [im [j [s [t [D1 [D2 [D3 [D4 [_ [_ [_ [D8 D9]]]]]]]]]]]]].
  rewrite HD in D1. injection D1 as <-. exists im, j, s, t.
  assert (HF : Forall (fun f => NoDup (map fst (fr_cols f))) (ex_trajectories (exporter_for vars cards E cs rs))).
  { rewrite exporter_for_eq. cbn [ex_trajectories]. apply Forall_map_all. intros r _. apply frame_of_plain. destruct HL as [Hh _].
    unfold good_header in Hh. change (NoDup (("Time" :: vars) ++ shifted_names vars)) in Hh. apply (NoDup_app_l _ _ Hh). }
  destruct (C78_exported_file nf cwd (exporter_for vars cards E cs rs) name fs d HD HF HN) as [st [_ [<- [_ [R _]]]]]. rewrite R. auto.
Qed.
(** save_results: the file holds the estimated graph *)
Theorem C78_saved_structure nf g path fs : dinv g ->
  exists st j d, fst (save_results_file nf g path fs) = Ok tt /\ last (snd (save_results_file nf g path fs)) fs = st
    /\ read_file nf st path = Ok j /\ read_node_link j = Some d /\ same_digraph (read_back d) g /\ (forall p, p <> path -> st p = fs p).
Proof.
  intro D. unfold save_results_file. cbn [fst snd]. rewrite write_states_last. eexists _, (node_link_json (save_results g)), (save_results g). split; [reflexivity|]. split; [reflexivity|].
  split; [unfold read_file; rewrite put_same; apply dump_loads, node_link_printable|]. split; [apply read_node_link_ok|]. split; [apply C41_read_back, D|]. intros p Hp. apply put_other, Hp.
Qed.
Print Assumptions C78_exported_file. Print Assumptions C78_file_round_trip. Print Assumptions C78_saved_structure.

(** ** C79 *)
(** An unfinished text is never taken for a document. *)
Theorem C79_cut_text nf j t p : structured j -> value_text nf j t -> cut_short p t -> json_loads nf p = Err ValueError.
Proof. intros S V. apply (cut_rejected nf j t p V). destruct j; try contradiction; exact I. Qed.
(** An exporter whose document cannot be built raises before it touches a file. *)
Theorem C79_exception_first nf cwd ex name fs e : out_document ex = Err e -> out_file nf cwd ex name fs = (Err e, [fs]).
Proof. intro H. unfold out_file. rewrite H. reflexivity. Qed.
(** Interrupting a write, at any point: other files are untouched; the file itself is as before, or unreadable (ValueError),
    or complete.  No third document is ever read. *)
Theorem C79_interrupted_write nf cwd op fs p d st : op_target cwd op = Some (p, d) -> printable nf d ->
  In st (snd (op_run nf cwd op fs)) ->
  (forall q, q <> p -> st q = fs q)
  /\ (read_file nf st p = read_file nf fs p \/ read_file nf st p = Err ValueError \/ read_file nf st p = Ok d).
Proof.
  intros T P H. pose proof (target_structured cwd op p d T) as S. rewrite op_run_states, T in H. apply write_states_in in H as [H|[k [Hk H]]]; subst st; [auto|].
  split; [intros q Hq; apply put_other, Hq|]. right. unfold read_file. rewrite put_same, (read_prefix nf d k P S Hk). destruct (Nat.eqb _ _); auto.
Qed.
(** Whole histories: whatever was written before and wherever the program stops, all the operations before the last one are
    complete - each file holds the last document written to it, or what it held at the start - except for the one file being
    written, which is unreadable or holds the new document. *)
Theorem C79_histories nf cwd ops fs st : (forall op p d, In op ops -> op_target cwd op = Some (p, d) -> printable nf d) ->
  In st (history_states nf cwd ops fs) ->
  exists done rest, ops = done ++ rest
    /\ forall p, (st p = fs p /\ last_document cwd done p = None)
              \/ (exists d, last_document cwd done p = Some d /\ read_file nf st p = Ok d)
              \/ (exists op rest' d, rest = op :: rest' /\ op_target cwd op = Some (p, d) /\ (read_file nf st p = Ok d \/ read_file nf st p = Err ValueError)).
Proof.
  intros HP H. destruct (history_char nf cwd ops fs st H) as [done [rest [E K]]]. exists done, rest. split; [exact E|].
  assert (LD : forall ds p d, (forall op, In op ds -> In op ops) -> last_document cwd ds p = Some d -> printable nf d).
  { induction ds as [|op ds IH]; intros p d HI HD; cbn [last_document] in HD; [discriminate|]. destruct (last_document cwd ds p) as [x|] eqn:L.
    - injection HD as <-. apply (IH p x); [intros; apply HI; right; assumption|exact L].
    - destruct (op_target cwd op) as [[q x]|] eqn:T; [|discriminate]. destruct (String.eqb q p); [|discriminate]. injection HD as <-. apply (HP op q x); [apply HI; left; reflexivity|exact T]. }
  assert (C : forall p, st p = completed nf cwd done fs p -> (st p = fs p /\ last_document cwd done p = None) \/ (exists d, last_document cwd done p = Some d /\ read_file nf st p = Ok d)).
  { intros p Hp. unfold completed in Hp. destruct (last_document cwd done p) as [d|] eqn:L; [right|left; auto]. exists d. split; [reflexivity|]. unfold read_file. rewrite Hp.
    apply dump_loads, (LD done p d); [intros op Ho; rewrite E; apply in_or_app; auto|exact L]. }
  intro p. destruct K as [K|[op [rest' [q [d [k [R [T [Hk [Hq Ho]]]]]]]]]]; [destruct (C p (K p)); auto|].
  destruct (String.string_dec p q) as [->|N]; [|destruct (C p (Ho p N)); auto]. right. right. exists op, rest', d. split; [exact R|]. split; [exact T|]. unfold read_file. rewrite Hq.
  rewrite read_prefix; [|apply (HP op q d); [rewrite E, R; apply in_or_app; right; left; reflexivity|exact T]|apply (target_structured cwd op q d T)|exact Hk]. destruct (Nat.eqb _ _); auto.
Qed.
(** finding: writing is not atomic.  Whatever the file held, there is a point at which it is neither the old nor the new one. *)
Theorem C79_not_atomic_refuted nf cwd op fs p d : op_target cwd op = Some (p, d) ->
  exists st, In st (snd (op_run nf cwd op fs)) /\ read_file nf st p = Err ValueError.
Proof.
  intro T. rewrite op_run_states, T. exists (put_file fs p []). split; [|unfold read_file; rewrite put_same; reflexivity]. right. left. reflexivity.
Qed.
Print Assumptions C79_cut_text. Print Assumptions C79_exception_first. Print Assumptions C79_interrupted_write. Print Assumptions C79_histories. Print Assumptions C79_not_atomic_refuted.

(** ** concrete files *)
(** a number format: decimal notation with up to 17 decimals, read exactly *)
Definition z_text (z : Z) : list ascii := (if (z <? 0)%Z then chars "-" else []) ++ chars (DecimalString.NilZero.string_of_uint (N.to_uint (Z.to_N (Z.abs z)))).
Fixpoint decimal_text (fuel : nat) (q : Qc) (e : nat) : list ascii :=
  let x := this q in
  match fuel with
  | 0 => []
  | S f => if Pos.eqb (Qden x) 1 then z_text (Qnum x) ++ (if e =? 0 then [] else chars "e-" ++ chars (str_nat e))
           else decimal_text f (Q2Qc 10 * q)%Qc (S e)
  end.
Definition digits_value (ds : list ascii) : Z := fold_left (fun a c => (10 * a + Z.of_nat (code c - 48))%Z) ds 0%Z.
Definition decimal_value (t : list ascii) : option Qc :=
  let (sg, t1) := scan_sign t in
  let (i, t2) := span_digits t1 in
  let (f, t3) := scan_frac t2 in
  let m := digits_value (i ++ tl f) in
  let m := match sg with [] => m | _ => (- m)%Z end in
  let x := match t3 with
           | _ :: c :: r => if Ascii.eqb c "-" then (- digits_value r)%Z else digits_value (if Ascii.eqb c "+" then r else c :: r)
           | _ => 0%Z
           end in
  let e := (x - Z.of_nat (length (tl f)))%Z in
  Some (if (0 <=? e)%Z then Q2Qc (inject_Z (m * 10 ^ e)) else Q2Qc (m # Z.to_pos (10 ^ (- e)))).
Definition decimals := MkNumberFormat (fun q => decimal_text 18 q 0) decimal_value.
Definition faithful_b (q : Qc) : bool :=
  match scan_number (nf_text decimals q) with
  | Some (_, []) => match nf_value decimals (nf_text decimals q) with Some q' => Qc_eq_bool q' q | None => false end
  | _ => false
  end.
Lemma faithful_by q : faithful_b q = true -> faithful decimals q.
Proof.
  unfold faithful_b. destruct (scan_number _) as [[t [|]]|] eqn:S; try discriminate. apply scan_number_sound in S as [E T]. rewrite app_nil_r in E. rewrite <- E in T.
  destruct (nf_value decimals _) as [q'|] eqn:V; [|discriminate]. intro H. apply Qc_eq_bool_correct in H. subst q'. split; assumption.
Qed.
Definition odd_label : string := string_of_list_ascii (map ascii_of_nat [34; 65; 10; 233; 92]).
Definition odd_json : json := JObj [(odd_label, JArr [JNum (Q2Qc (-5 # 4)); JNull; JBool true; JNum 0%Qc]); ("X", JObj [])].
Example C78_case_text : printable decimals odd_json
  /\ string_of_list_ascii (tl (tl (dump_text decimals odd_json)))
     = (String backslash (String quote "A\n\u00e9\\") ++ String quote ": [-125e-2, null, true, 0], " ++ String quote "X" ++ String quote ": {}}")%string
  /\ json_loads decimals (dump_text decimals odd_json) = Ok odd_json.
Proof.
  assert (P : printable decimals odd_json).
  { constructor; [cbn; repeat constructor; cbn; intuition discriminate|]. repeat constructor; cbn [snd]; apply faithful_by; vm_compute; reflexivity. }
  split; [exact P|]. split; [vm_compute; reflexivity|apply C78_dump_load, P].
Qed.
(** a text with another layout, escapes in another form, and a repeated key *)
Definition loose_text : list ascii :=
  chars " { " ++ [quote] ++ chars "k" ++ [quote] ++ chars " :[1 ,2.50e+1,]" .
Example C78_case_layout :
  json_loads decimals (map ascii_of_nat [32;123;10;34;107;34;32;58;91;93;44;34;92;117;48;48;54;98;34;58;91;32;49;46;53;48;69;43;49;9;93;125;13]) = Ok (JObj [("k", JArr [JNum (Q2Qc 15)])])
  /\ json_loads decimals loose_text = Err ValueError.
Proof.
  split; [|vm_compute; reflexivity].
  assert (E : forall q, Qc_eq_bool q (Q2Qc 15) = true -> @Ok json (JObj [("k", JArr [JNum q])]) = Ok (JObj [("k", JArr [JNum (Q2Qc 15)])])).
  { intros q H. apply Qc_eq_bool_correct in H. rewrite H. reflexivity. }
  match goal with |- ?x = _ => let y := eval vm_compute in x in change x with y end. apply E. vm_compute. reflexivity.
Qed.
(** the file of the network of C67 (A -> C <- B) with two trajectories, and a program that saves it twice *)
Definition net_doc : result json := out_document (exporter_for ["A";"B";"C"] [2;2;2] (net_E 2) (net_cs 2) [net_rows 3; net_rows 2]).
Definition numbers_ok (r : result json) : bool := match r with Ok d => forallb faithful_b (json_numbers d) | Err _ => false end.
Lemma net_numbers : numbers_ok net_doc = true.
Proof. vm_compute. reflexivity. Qed.
Example C78_case_file : exists d, net_doc = Ok d /\ (forall q, In q (json_numbers d) -> faithful decimals q) /\ printable decimals d /\ 40 < length (json_numbers d)
  /\ legal_input ["A";"B";"C"] [2;2;2] [net_rows 3; net_rows 2] /\ Forall (fun r => r <> []) [net_rows 3; net_rows 2]
  /\ exists cj, cims_to_json (combine ["A";"B";"C"] [2;2;2]) (net_E 2) (net_cs 2) = Ok cj.
Proof.
  pose proof net_numbers as H. destruct net_doc as [d|] eqn:D; [|discriminate]. exists d. split; [reflexivity|].
  assert (F : forall q, In q (json_numbers d) -> faithful decimals q).
  { intros q Hq. apply faithful_by. cbn [numbers_ok] in H. rewrite forallb_forall in H. apply H, Hq. }
  split; [exact F|]. destruct C67_case as [P [SN [G [H2 [Hh [NE [HE [Hc _]]]]]]]].
  assert (HF : Forall (fun f => NoDup (map fst (fr_cols f))) (ex_trajectories (exporter_for ["A";"B";"C"] [2;2;2] (net_E 2) (net_cs 2) [net_rows 3; net_rows 2]))).
  { rewrite exporter_for_eq. cbn [ex_trajectories]. apply Forall_map_all. intros r _. apply frame_of_plain. apply (NoDup_app_l ["Time";"A";"B";"C"] (shifted_names ["A";"B";"C"])), Hh. }
  split; [apply printable_iff; [apply (document_distinct _ d D HF)|exact F]|].
  split; [assert (X : 40 <? length (match net_doc with Ok d => json_numbers d | Err _ => [] end) = true) by (vm_compute; reflexivity); rewrite D in X; apply Nat.ltb_lt, X|].
  destruct (C67_full_cycle _ _ _ _ _ _ _ _ _ P SN G H2 Hh NE HE Hc) as [doc [im [j [s [t [_ [_ [_ [HL _]]]]]]]]]. split; [exact HL|].
  assert (NN : forall r : raw, length r <> 0 -> r <> []) by (intros r Hr E; apply Hr; rewrite E; reflexivity).
  split; [apply Forall_cons; [apply NN; rewrite net_rows_3; discriminate|apply Forall_cons; [apply NN; rewrite net_rows_2; discriminate|apply Forall_nil]]|].
  unfold net_doc, out_document in D. rewrite exporter_for_eq in D. cbn [ex_variables ex_str ex_cims] in D. apply bind_ok in D as [cj [D _]]. exists cj. exact D.
Qed.
Definition twice : list file_op := [OpOutFile (exporter_for ["A";"B";"C"] [2;2;2] (net_E 2) (net_cs 2) [net_rows 3; net_rows 2]) "net.json";
  OpSaveResults (g_add_edges_from empty_digraph [("A","C")]) "/tmp/res.json";
  OpOutFile (exporter_for ["A";"B";"C"] [2;2;2] (net_E 2) (net_cs 2) [net_rows 2]) "net.json"].
(** the hypotheses of the theorem on histories hold, and interrupting the third operation really loses the first file *)
Definition twice_numbers : bool := numbers_ok (out_document (exporter_for ["A";"B";"C"] [2;2;2] (net_E 2) (net_cs 2) [net_rows 2])).
Lemma twice_numbers_ok : twice_numbers = true.
Proof. vm_compute. reflexivity. Qed.
Example C79_case : (forall op p d, In op twice -> op_target "/home" op = Some (p, d) -> printable decimals d)
  /\ (forall op, In op twice -> op_target "/home" op <> None)
  /\ exists st d, In st (history_states decimals "/home" twice (fun _ => None)) /\ read_file decimals st "/home/net.json" = Err ValueError
       /\ last_document "/home" (firstn 2 twice) "/home/net.json" = Some d /\ read_file decimals st "/tmp/res.json" = Ok (node_link_json (MkNodeLink ["A";"C"] [("A","C")])).
Proof.
  destruct C78_case_file as [d1 [D1 [_ [P1 _]]]]. unfold net_doc in D1.
  pose proof twice_numbers_ok as N2. unfold twice_numbers in N2. destruct (out_document (exporter_for ["A";"B";"C"] [2;2;2] (net_E 2) (net_cs 2) [net_rows 2])) as [d2|] eqn:D2; [|discriminate].
  assert (P2 : printable decimals d2).
  { apply printable_iff.
    - apply (document_distinct _ d2 D2). rewrite exporter_for_eq. cbn [ex_trajectories]. apply Forall_map_all. intros r _. apply frame_of_plain.
      destruct C67_case as [_ [_ [_ [_ [Hh _]]]]]. apply (NoDup_app_l ["Time";"A";"B";"C"] (shifted_names ["A";"B";"C"])), Hh.
    - intros q Hq. apply faithful_by. cbn [numbers_ok] in N2. rewrite forallb_forall in N2. apply N2, Hq. }
  assert (TG : map (op_target "/home") twice = [Some ("/home/net.json", d1); Some ("/tmp/res.json", node_link_json (MkNodeLink ["A";"C"] [("A","C")])); Some ("/home/net.json", d2)]).
  { unfold twice. cbn [map op_target]. rewrite D1, D2. reflexivity. }
  assert (TG' : forall op, In op twice -> In (op_target "/home" op) [Some ("/home/net.json", d1); Some ("/tmp/res.json", node_link_json (MkNodeLink ["A";"C"] [("A","C")])); Some ("/home/net.json", d2)]).
  { intros op Ho. rewrite <- TG. apply in_map, Ho. }
  split; [|split].
  - intros op p d Ho T. apply TG' in Ho. rewrite T in Ho. destruct Ho as [E|[E|[E|[]]]]; injection E as <- <-; [exact P1|apply node_link_printable|exact P2].
  - intros op Ho T. apply TG' in Ho. rewrite T in Ho. destruct Ho as [E|[E|[E|[]]]]; discriminate.
  - pose (fs1 := put_file (fun _ => None) "/home/net.json" (dump_text decimals d1)). pose (fs2 := put_file fs1 "/tmp/res.json" (dump_text decimals (node_link_json (MkNodeLink ["A";"C"] [("A","C")])))).
    pose (st := put_file fs2 "/home/net.json" []). exists st, d1.
    destruct twice as [|o1 [|o2 [|o3 [|]]]] eqn:TW; try discriminate TW. cbn [map] in TG. injection TG as T1 T2 T3.
    split; [|split; [|split]].
    + cbn [history_states]. apply in_or_app. right. apply in_or_app. right. apply in_or_app. left. rewrite (op_run_states decimals "/home" o3), T3.
      rewrite (op_run_states decimals "/home" o1), T1, write_states_last. fold fs1. rewrite (op_run_states decimals "/home" o2), T2, write_states_last. fold fs2. right. left. reflexivity.
    + reflexivity.
    + cbn [firstn last_document]. rewrite T1, T2. reflexivity.
    + unfold read_file, st, fs2. rewrite put_other by discriminate. rewrite put_same. apply dump_loads, node_link_printable.
Qed.
