(** Property theorems C28-C34. *)
From Verif Require Import Base ModelStructure ModelGraph ModelCims ModelData ModelParams ModelCtpc ModelSearch
  SpecStructure SpecGraph SpecParams SpecCtpc SpecSearch ProofSearch2 ProofSearch3 PropsParams.

(** Example estimator: px/pt of PropsParams, known edge Y -> X; the score prefers unbalanced counts. *)
Definition sknown := [("Y","X")].
Definition smat := [[true;true;true];[false;true;true];[true;true;true]].
Definition dsum (c : cim) : Z := Zsum (map Zsum (c_trans c)).
Definition wscore (cs : list cim) : result Z := Ok (Zsum (map (fun c => (dsum c * dsum c)%Z) cs)).
Definition wgt (a b : Z) := (b <? a)%Z.
Example wgt_order : strict_order wgt.
Proof. split; intros; unfold wgt in *; [apply Z.ltb_irrefl|]. apply Z.ltb_lt in H, H0. apply Z.ltb_lt. lia. Qed.
Example sready : search_ready px sknown smat "X".
Proof.
  split; [exact px_wf|]. split; [reflexivity|]. split; [reflexivity|]. split; [|split; [reflexivity|cbn; tauto]].
  intros e [<-|[]]. cbn; tauto.
Qed.
Example scomputable : scores_computable wscore pt px "X".
Proof.
  apply (uniform_computable wscore pt px "X" 2); [exact px_wf|exact px_data|reflexivity|cbn; tauto|lia|cbn; intuition|].
  intros cims. eexists. reflexivity.
Qed.

Section props.
Variables (Sc : Type) (score : list cim -> result Sc) (gt : Sc -> Sc -> bool) (t : trajectory) (draws : nat -> nat).
Variables (s : structure) (known : list edge) (m : list (list bool)) (v : label).
Variables (mp : option nat) (n : nat) (pat len dur : option nat).
Notation hill := (hill_climbing Sc score gt t draws s m v mp n pat).
Notation tabu := (tabu_search Sc score gt t draws s m v mp n pat len dur).

(** C28 *)
Theorem C28_hill_climbing_never_worse es tr : search_ready s known m v -> strict_order gt -> hill = Ok (es, tr) ->
  exists sc0 sc, score_of score t s v (edges_into v (known_parents s known v)) = Ok sc0 /\ score_of score t s v es = Ok sc
  /\ (gt sc sc0 = true \/ (sc = sc0 /\ forall e, In e es <-> In e (edges_into v (known_parents s known v))))
  /\ improving gt sc0 tr sc /\ Forall (fun e => score_of score t s v (sl_edges e) = Ok (sl_score e)) tr.
Proof. intros H HG E. exact (concl_improves Sc score gt t s known v mp n pat es tr (hill_outcome Sc score gt t draws s known m v H mp n pat es tr E) HG). Qed.
Theorem C28_tabu_search_never_worse es tr : search_ready s known m v -> strict_order gt -> tabu = Ok (es, tr) ->
  exists sc0 sc, score_of score t s v (edges_into v (known_parents s known v)) = Ok sc0 /\ score_of score t s v es = Ok sc
  /\ (gt sc sc0 = true \/ (sc = sc0 /\ forall e, In e es <-> In e (edges_into v (known_parents s known v))))
  /\ improving gt sc0 (map fst tr) sc /\ Forall (fun e => score_of score t s v (sl_edges e) = Ok (sl_score e)) (map fst tr).
Proof. intros H HG E. exact (concl_improves Sc score gt t s known v mp n pat es _ (proj1 (tabu_outcome Sc score gt t draws s known m v H mp n pat len dur es tr E)) HG). Qed.
Theorem C28_hill_climbing_moves es tr : search_ready s known m v -> hill = Ok (es, tr) ->
  exists R, NoDup R /\ search_path v (candidate_parents s known v) mp (known_parents s known v) tr R
    /\ NoDup es /\ forall e, In e es <-> In e (edges_into v R).
Proof. intros H E. exact (concl_path Sc score gt t s known m v H mp n pat es tr (hill_outcome Sc score gt t draws s known m v H mp n pat es tr E)). Qed.
Theorem C28_tabu_search_moves es tr : search_ready s known m v -> tabu = Ok (es, tr) ->
  exists R, NoDup R /\ search_path v (candidate_parents s known v) mp (known_parents s known v) (map fst tr) R
    /\ NoDup es /\ forall e, In e es <-> In e (edges_into v R).
Proof. intros H E. exact (concl_path Sc score gt t s known m v H mp n pat es _ (proj1 (tabu_outcome Sc score gt t draws s known m v H mp n pat len dur es tr E))). Qed.

(** C29 *)
Theorem C29_hill_climbing_max_parents k es tr : search_ready s known m v -> mp = Some k -> 0 < k ->
  length (known_parents s known v) <= k -> hill = Ok (es, tr) -> length es <= k.
Proof. intros H Hm Hk HL E. exact (concl_max Sc score gt t s known m v H mp n pat es tr (hill_outcome Sc score gt t draws s known m v H mp n pat es tr E) k Hm Hk HL). Qed.
Theorem C29_tabu_search_max_parents k es tr : search_ready s known m v -> mp = Some k -> 0 < k ->
  length (known_parents s known v) <= k -> tabu = Ok (es, tr) -> length es <= k.
Proof. intros H Hm Hk HL E. exact (concl_max Sc score gt t s known m v H mp n pat es _ (proj1 (tabu_outcome Sc score gt t draws s known m v H mp n pat len dur es tr E)) k Hm Hk HL). Qed.

(** C30 *)
Theorem C30_hill_climbing_keeps_known_edges a es tr : search_ready s known m v -> mp = None -> hill = Ok (es, tr) ->
  In (a, v) known -> In (a, v) es.
Proof. intros H Hm E. exact (concl_known Sc score gt t s known m v H mp n pat es tr (hill_outcome Sc score gt t draws s known m v H mp n pat es tr E) a Hm). Qed.
Theorem C30_tabu_search_keeps_known_edges a es tr : search_ready s known m v -> mp = None -> tabu = Ok (es, tr) ->
  In (a, v) known -> In (a, v) es.
Proof. intros H Hm E. exact (concl_known Sc score gt t s known m v H mp n pat es _ (proj1 (tabu_outcome Sc score gt t draws s known m v H mp n pat len dur es tr E)) a Hm). Qed.

(** C31 *)
Theorem C31_hill_climbing_edges es tr : search_ready s known m v -> hill = Ok (es, tr) ->
  NoDup es /\ forall a b, In (a, b) es -> b = v /\ In a (nodes_labels s) /\ (a <> v \/ In (v, v) known).
Proof. intros H E. exact (concl_shape Sc score gt t s known m v H mp n pat es tr (hill_outcome Sc score gt t draws s known m v H mp n pat es tr E)). Qed.
Theorem C31_tabu_search_edges es tr : search_ready s known m v -> tabu = Ok (es, tr) ->
  NoDup es /\ forall a b, In (a, b) es -> b = v /\ In a (nodes_labels s) /\ (a <> v \/ In (v, v) known).
Proof. intros H E. exact (concl_shape Sc score gt t s known m v H mp n pat es _ (proj1 (tabu_outcome Sc score gt t draws s known m v H mp n pat len dur es tr E))). Qed.

(** C32 *)
Theorem C32_hill_climbing_stops es tr : search_ready s known m v -> hill = Ok (es, tr) -> stops_as_documented n pat tr.
Proof. intros H E. exact (concl_stops Sc score gt t s known v mp n pat es tr (hill_outcome Sc score gt t draws s known m v H mp n pat es tr E)). Qed.
Theorem C32_tabu_search_stops es tr : search_ready s known m v -> tabu = Ok (es, tr) -> stops_as_documented n pat (map fst tr).
Proof. intros H E. exact (concl_stops Sc score gt t s known v mp n pat es _ (proj1 (tabu_outcome Sc score gt t draws s known m v H mp n pat len dur es tr E))). Qed.

(** C33 *)
Theorem C33_hill_climbing_returns : search_ready s known m v -> scores_computable score t s v ->
  (n = 0 \/ (candidate_parents s known v <> [] /\ mp <> Some 0)) -> exists r, hill = Ok r.
Proof.
  intros H HC K. destruct hill as [r|x] eqn:E; [eauto|]. exfalso.
  destruct (hill_errors Sc score gt t draws s known m v H mp n pat x HC E) as [_ [Hn Hx]]. destruct K as [->|[K1 K2]]; [inversion Hn|tauto].
Qed.
Theorem C33_hill_climbing_fails_only_with_IndexError x : search_ready s known m v -> scores_computable score t s v ->
  hill = Err x -> x = IndexError /\ 0 < n /\ (candidate_parents s known v = [] \/ mp = Some 0).
Proof. intros H HC E. exact (hill_errors Sc score gt t draws s known m v H mp n pat x HC E). Qed.
Theorem C33_hill_climbing_no_candidate : search_ready s known m v -> scores_computable score t s v ->
  0 < n -> candidate_parents s known v = [] -> hill = Err IndexError.
Proof. intros H HC. exact (hill_no_candidates Sc score gt t draws s known m v H mp n pat HC). Qed.
Theorem C33_hill_climbing_max_parents_zero : search_ready s known m v -> scores_computable score t s v ->
  0 < n -> candidate_parents s known v <> [] -> known_parents s known v = [] -> mp = Some 0 -> hill = Err IndexError.
Proof. intros H HC Hn Hc Hk ->. exact (hill_no_room Sc score gt t draws s known m v H n pat HC Hn Hc Hk). Qed.
Theorem C33_tabu_search_returns : search_ready s known m v -> scores_computable score t s v ->
  (n = 0 \/ (candidate_parents s known v <> [] /\ mp <> Some 0 /\ len <> Some 0 /\ dur <> Some 0)) -> exists r, tabu = Ok r.
Proof.
  intros H HC K. destruct tabu as [r|x] eqn:E; [eauto|]. exfalso.
  destruct (tabu_errors Sc score gt t draws s known m v H mp n pat len dur x HC E) as [Hn Hx]. destruct K as [->|[K1 [K2 [K3 K4]]]]; [inversion Hn|tauto].
Qed.
Theorem C33_tabu_search_failures x : search_ready s known m v -> scores_computable score t s v -> tabu = Err x ->
  0 < n /\ ((x = IndexError /\ mp = Some 0) \/ (x = Blocked /\ (candidate_parents s known v = [] \/ len = Some 0))
            \/ (x = ZeroDivisionError /\ dur = Some 0)).
Proof. intros H HC E. exact (tabu_errors Sc score gt t draws s known m v H mp n pat len dur x HC E). Qed.
Theorem C33_tabu_search_no_candidate_blocks : search_ready s known m v -> scores_computable score t s v ->
  0 < n -> candidate_parents s known v = [] -> tabu = Err Blocked.
Proof. intros H HC. exact (tabu_no_candidates Sc score gt t draws s known m v H mp n pat len dur HC). Qed.
Theorem C33_tabu_search_length_zero_blocks : search_ready s known m v -> scores_computable score t s v ->
  0 < n -> candidate_parents s known v <> [] -> mp <> Some 0 -> len = Some 0 -> tabu = Err Blocked.
Proof. intros H HC Hn Hc Hm ->. exact (tabu_length_zero Sc score gt t draws s known m v H mp n pat dur HC Hn Hc Hm). Qed.
Theorem C33_tabu_search_duration_zero : search_ready s known m v -> scores_computable score t s v ->
  0 < n -> candidate_parents s known v <> [] -> mp <> Some 0 -> len <> Some 0 -> dur = Some 0 -> tabu = Err ZeroDivisionError.
Proof. intros H HC Hn Hc Hm Hl ->. exact (tabu_duration_zero Sc score gt t draws s known m v H mp n pat len HC Hn Hc Hm Hl). Qed.
Theorem C33_tabu_search_max_parents_zero : search_ready s known m v -> scores_computable score t s v ->
  0 < n -> candidate_parents s known v <> [] -> known_parents s known v = [] -> mp = Some 0 -> tabu = Err IndexError.
Proof. intros H HC Hn Hc Hk ->. exact (tabu_no_room Sc score gt t draws s known m v H n pat len dur HC Hn Hc Hk). Qed.
(** the scores are computable on every legal data set whose variables have the same cardinality *)
Theorem C33_scores_computable k : wf_structure s -> data_ok s t -> edges_list s = [] -> In v (nodes_labels s) -> 0 < k ->
  (forall x, In x (nodes_values s) -> x = k) -> (forall cims, exists sc, score cims = Ok sc) -> scores_computable score t s v.
Proof. exact (uniform_computable score t s v k). Qed.

(** C34 *)
Theorem C34_tabu_list es tr : search_ready s known m v -> tabu = Ok (es, tr) ->
  Forall (tabu_entry_ok (candidate_parents s known v) (opt_default len (length (candidate_parents s known v)))) tr.
Proof. intros H E. exact (proj2 (tabu_outcome Sc score gt t draws s known m v H mp n pat len dur es tr E)). Qed.
Theorem C34_no_KeyError : search_ready s known m v -> scores_computable score t s v -> tabu <> Err KeyError.
Proof.
  intros H HC E. destruct (tabu_errors Sc score gt t draws s known m v H mp n pat len dur _ HC E) as [_ K]. intuition discriminate.
Qed.
End props.
Print Assumptions C28_hill_climbing_never_worse. Print Assumptions C28_tabu_search_never_worse.
Print Assumptions C28_hill_climbing_moves. Print Assumptions C28_tabu_search_moves.
Print Assumptions C29_hill_climbing_max_parents. Print Assumptions C29_tabu_search_max_parents.
Print Assumptions C30_hill_climbing_keeps_known_edges. Print Assumptions C30_tabu_search_keeps_known_edges.
Print Assumptions C31_hill_climbing_edges. Print Assumptions C31_tabu_search_edges.
Print Assumptions C32_hill_climbing_stops. Print Assumptions C32_tabu_search_stops.
Print Assumptions C33_hill_climbing_returns. Print Assumptions C33_hill_climbing_fails_only_with_IndexError.
Print Assumptions C33_hill_climbing_no_candidate. Print Assumptions C33_hill_climbing_max_parents_zero.
Print Assumptions C33_tabu_search_returns. Print Assumptions C33_tabu_search_failures.
Print Assumptions C33_tabu_search_no_candidate_blocks. Print Assumptions C33_tabu_search_length_zero_blocks.
Print Assumptions C33_tabu_search_duration_zero. Print Assumptions C33_tabu_search_max_parents_zero.
Print Assumptions C33_scores_computable.
Print Assumptions C34_tabu_list. Print Assumptions C34_no_KeyError.

(** C30: with max_parents set, the known edge Y -> X is evicted *)
Theorem C30_known_edge_evicted : exists tr,
  search_ready px sknown smat "X" /\ strict_order wgt
  /\ hill_climbing Z wscore wgt pt (fun k => k) px smat "X" (Some 1) 3 None = Ok ([("Z","X")], tr)
  /\ ~ In ("Y","X") [("Z","X")].
Proof.
  eexists. split; [exact sready|]. split; [exact wgt_order|]. split; [vm_compute; reflexivity|]. intros [K|[]]. discriminate.
Qed.
Theorem C30_known_edge_evicted_tabu : exists tr,
  tabu_search Z wscore wgt pt (fun k => k) px smat "X" (Some 1) 3 None None None = Ok ([("Z","X")], tr)
  /\ In ("Y","X") sknown.
Proof. eexists. split; [vm_compute; reflexivity|left; reflexivity]. Qed.
Print Assumptions C30_known_edge_evicted. Print Assumptions C30_known_edge_evicted_tabu.

(** concrete runs *)
Example C28_case : exists tr,
  hill_climbing Z wscore wgt pt (fun k => k) px (repeat (repeat true 3) 3) "X" (Some 2) 5 None = Ok ([], tr) /\ length tr = 5
  /\ search_ready px [] (repeat (repeat true 3) 3) "X" /\ candidate_parents px [] "X" = ["Y";"Z"].
Proof.
  eexists. split; [vm_compute; reflexivity|]. split; [reflexivity|]. split; [|reflexivity].
  split; [exact px_wf|]. split; [reflexivity|]. split; [reflexivity|]. split; [intros e []|split; [reflexivity|cbn; tauto]].
Qed.
(** a search that improves: with the opposite order Y is added *)
Definition wlt (a b : Z) := (a <? b)%Z.
Example C28_case_improves : exists tr,
  tabu_search Z wscore wlt pt (fun k => k) px (repeat (repeat true 3) 3) "X" None 5 (Some 3) (Some 1) (Some 2) = Ok ([("Y","X")], tr)
  /\ map sl_accepted (map fst tr) = [true; false; false; false; false]
  /\ map (fun x => fst (snd x)) tr = [[]; ["Y"]; []; ["Y"]; []]
  /\ map sl_candidate (map fst tr) = ["Y"; "Z"; "Y"; "Z"; "Y"].
Proof. eexists. split; [vm_compute; reflexivity|]. vm_compute. repeat split. Qed.
Example C32_case : exists es tr,
  hill_climbing Z wscore wgt pt (fun k => k) px smat "X" None 40 (Some 2) = Ok (es, tr) /\ length tr = 3
  /\ trailing_rejections tr = 3.
Proof. do 2 eexists. split; [vm_compute; reflexivity|]. split; reflexivity. Qed.
(** C33: max_parents = 0 with a known parent can go both ways *)
Example C33_max_parents_zero_case :
  hill_climbing Z wscore wlt pt (fun k => k) px smat "X" (Some 0) 1 None
    = Ok ([("Y","X")], [MkStep "Z" [("Z","X")] 16%Z false])
  /\ candidate_parents px sknown "X" = ["Z"] /\ known_parents px sknown "X" = ["Y"].
Proof. split; [vm_compute; reflexivity|]. split; reflexivity. Qed.
