(** Property theorems C86: the tests a constraint-based search performs, and how many there are. *)
From Verif Require Import Base Lib ModelStructure ModelGraph ModelCims ModelData ModelParams ModelCache ModelCtpc
  SpecStructure SpecGraph SpecComb SpecParams SpecData SpecCtpc SpecCost
  ProofStructure ProofGraph ProofCache ProofCtpc ProofCtpc2 ProofCost ProofCost2 PropsParams.

(** Keeping a log changes nothing: the search returns what it returns without *)
Theorem C86_watching e tot st v :
  optimize_structure e tot st v = let* (es, (st1, _)) := watch e tot st v in Ok (es, MkState (st_matrix st1) empty_cache).
Proof. exact (watching e tot st v). Qed.
Print Assumptions C86_watching.

Section search.
Variables (e : cb_env) (tot : nat) (v : label) (st st' : cb_state) (es : list edge) (log : list asked).
Hypothesis Hwf : wf_structure (e_struct e).
Hypothesis Hv : In v (nodes_labels (e_struct e)).
Hypothesis HW : watch e tot st v = Ok (es, (st', log)).

(** The questions are about distinct other variables, and no question is asked twice *)
Theorem C86_questions : 
  (forall t, In t log -> test_ok (e_struct e) v (about t) (given t))
  /\ forall i j t t', nth_error log i = Some t -> nth_error log j = Some t' -> about t = about t' -> same_set (given t) (given t') -> i = j.
Proof.
  destruct (watch_facts e tot v Hwf Hv st st' es log HW) as [[T1 _] [P _]]. assert (N0 := m0_NoDup e v Hwf). split.
  - intros t Ht. destruct (P t Ht) as [A [B C]]. apply others_In in A as [A1 A2]. split; [exact Hv|]. split; [exact A1|]. split.
    + constructor; [|constructor; [exact C|exact (sublist_NoDup _ _ B N0)]]. intros [K|K]; [congruence|]. apply (sublist_In _ _ _ B), others_In in K. tauto.
    + intros q Hq. apply (sublist_In _ _ _ B), others_In in Hq. tauto.
  - intros i j t t' Hi Hj Ea Es. apply (proj1 (NoDup_nth_error _) T1).
    + rewrite map_length. apply nth_error_Some. congruence.
    + rewrite !nth_error_map, Hi, Hj. cbn [option_map]. unfold key. rewrite Ea. do 2 f_equal.
      destruct (P t (nth_error_In _ _ Hi)) as [_ [B _]]. destruct (P t' (nth_error_In _ _ Hj)) as [_ [B' _]]. exact (sub_ext _ _ _ N0 B B' Es).
Qed.
(** Protected variables (the known edges, and those for which an earlier test gave up) are not tested *)
Theorem C86_protected_untested t : In t log -> mat_get (st_matrix st) (idx_of (e_struct e) (about t)) (idx_of (e_struct e) v) = Ok true.
Proof. exact (watch_allowed e tot v Hwf Hv st st' es log HW t). Qed.
(** Small separating sets come first *)
Theorem C86_small_first i j t t' : nth_error log i = Some t -> nth_error log j = Some t' -> i < j -> length (given t) <= length (given t').
Proof.
  destruct (watch_facts e tot v Hwf Hv st st' es log HW) as [[_ [T2 _]] _]. intros Hi Hj L. destruct (nth_error_split log i Hi) as [l1 [l2 [E1 E2]]]. apply (T2 l1 t l2 E1).
  rewrite E1, nth_error_app2 in Hj by lia. replace (j - length l1) with (S (j - length l1 - 1)) in Hj by lia. cbn [nth_error] in Hj. exact (nth_error_In _ _ Hj).
Qed.
(** A variable that was found separated is not mentioned in any later test *)
Theorem C86_separated_gone i j t t' : nth_error log i = Some t -> nth_error log j = Some t' -> i < j -> separated t = true ->
  about t' <> about t /\ ~ In (about t) (given t').
Proof.
  destruct (watch_facts e tot v Hwf Hv st st' es log HW) as [[_ [_ T3]] _]. intros Hi Hj L Hs. destruct (nth_error_split log i Hi) as [l1 [l2 [E1 E2]]].
  assert (K : ~ ProofCost.mentions t' (about t)).
  { apply (T3 l1 t l2 E1 Hs). rewrite E1, nth_error_app2 in Hj by lia. replace (j - length l1) with (S (j - length l1 - 1)) in Hj by lia. cbn [nth_error] in Hj. exact (nth_error_In _ _ Hj). }
  split; [intros E; apply K; left; congruence|intros E; apply K; right; exact E].
Qed.
(** The parents returned are the variables that no test separated *)
Theorem C86_parents : (forall a b, In (a, b) es -> b = v) /\ forall p, In (p, v) es <-> In p (others (e_struct e) v) /\ ~ found_separated log p.
Proof.
  split; [|exact (parents_found e tot v Hwf Hv st st' es log HW)]. destruct (watch_facts e tot v Hwf Hv st st' es log HW) as [_ [_ [HE _]]]. intros a b H. apply HE in H. tauto.
Qed.
(** A parent that is not protected when the search ends has been tested against every set of the other parents *)
Theorem C86_parents_tested p sep : In (p, v) es -> mat_get (st_matrix st') (idx_of (e_struct e) p) (idx_of (e_struct e) v) = Ok true ->
  NoDup sep -> (forall q, In q sep -> In (q, v) es /\ q <> p) -> exists t, In t log /\ about t = p /\ same_set (given t) sep /\ separated t = false.
Proof.
  destruct (watch_facts e tot v Hwf Hv st st' es log HW) as [_ [_ [HE HC]]]. intros Hp Hm Hn Hs. set (u := filter (open_in log) (others (e_struct e) v)) in *.
  destruct (subset_list sep u Hn) as [q [Q1 [Q2 _]]]; [intros x Hx; apply Hs in Hx as [Hx _]; apply HE in Hx; tauto|apply NoDup_filter', (m0_NoDup e v Hwf)|].
  exists (MkAsked p q false). split; [|split; [reflexivity|split; [exact Q2|reflexivity]]]. apply HC; [apply HE in Hp; tauto|exact Hm|exact Q1|]. intros K. apply Q2, Hs in K. tauto.
Qed.

(** The number of tests: with m other variables at most m 2^(m-1) *)
Theorem C86_at_most : let m := length (nodes_labels (e_struct e)) - 1 in length log <= m * 2 ^ (m - 1).
Proof. intros m. unfold m. rewrite <- (others_count (e_struct e) v Hwf Hv). exact (count_all e tot v Hwf Hv st st' es log HW). Qed.
(** The tests with sets of [b] variables or more: k 2^(k-1), where k variables were left by the smaller tests *)
Theorem C86_after_small_tests b kept :
  (forall p, In p (others (e_struct e) v) -> ~ (exists t, In t log /\ about t = p /\ separated t = true /\ length (given t) < b) -> In p kept) ->
  length (filter (fun t => b <=? length (given t)) log) <= length kept * 2 ^ (length kept - 1).
Proof. exact (count_after e tot v Hwf Hv st st' es log HW b kept). Qed.
(** In particular, when the unconditional tests leave k of the m variables: at most m + k 2^(k-1) tests *)
Theorem C86_sparse kept :
  (forall p, In p (others (e_struct e) v) -> ~ In (MkAsked p [] true) log -> In p kept) ->
  length log <= length (nodes_labels (e_struct e)) - 1 + length kept * 2 ^ (length kept - 1).
Proof. rewrite <- (others_count (e_struct e) v Hwf Hv). exact (count_sparse e tot v Hwf Hv st st' es log HW kept). Qed.
(** k parents found, not protected: at least k 2^(k-1) tests *)
Theorem C86_at_least ps : NoDup ps ->
  (forall p, In p ps -> In (p, v) es /\ mat_get (st_matrix st') (idx_of (e_struct e) p) (idx_of (e_struct e) v) = Ok true) ->
  length ps * 2 ^ (length ps - 1) <= length log.
Proof. exact (count_at_least e tot v Hwf Hv st st' es log HW ps). Qed.
(** All m other variables found to be parents, none protected: exactly m 2^(m-1) tests *)
Theorem C86_worst_case : 
  (forall p, In p (nodes_labels (e_struct e)) -> p <> v -> In (p, v) es /\ mat_get (st_matrix st') (idx_of (e_struct e) p) (idx_of (e_struct e) v) = Ok true) ->
  let m := length (nodes_labels (e_struct e)) - 1 in length log = m * 2 ^ (m - 1).
Proof.
  intros H m. apply Nat.le_antisymm; [exact C86_at_most|]. unfold m. rewrite <- (others_count (e_struct e) v Hwf Hv). apply C86_at_least; [apply (m0_NoDup e v Hwf)|].
  intros p Hp. apply others_In in Hp as [H1 H2]. exact (H p H1 H2).
Qed.
End search.
Print Assumptions C86_questions.
Print Assumptions C86_protected_untested.
Print Assumptions C86_small_first.
Print Assumptions C86_separated_gone.
Print Assumptions C86_parents.
Print Assumptions C86_parents_tested.
Print Assumptions C86_at_most.
Print Assumptions C86_after_small_tests.
Print Assumptions C86_sparse.
Print Assumptions C86_at_least.
Print Assumptions C86_worst_case.

(** Parameters are estimated once for each set of parents that occurs in a test, so at most 2^m times: what is in the cache
    when the search of a node ends (every estimation puts its result there, and it was empty when the search began) *)
Theorem C86_estimations e tot v m es st' log : wf_structure (e_struct e) -> In v (nodes_labels (e_struct e)) ->
  watch e tot (MkState m empty_cache) v = Ok (es, (st', log)) ->
  let sets := c_keys (st_cache st') in
  (forall i j a b, nth_error sets i = Some a -> nth_error sets j = Some b -> same_set a b -> i = j)
  /\ (forall a, (exists b, In b sets /\ same_set a b) <-> exists t, In t log /\ (same_set a (given t) \/ same_set a (about t :: given t)))
  /\ length sets <= 2 ^ (length (nodes_labels (e_struct e)) - 1).
Proof.
  intros Hwf Hv H sets. destruct (estimated_keys e tot v m es st' log Hwf H) as [A [B C]]. cbn [fst snd] in *. split; [exact A|]. split; [exact C|].
  rewrite <- (others_count (e_struct e) v Hwf Hv). exact (distinct_count sets (others (e_struct e) v) (m0_NoDup e v Hwf) A B).
Qed.
Print Assumptions C86_estimations.

(** A whole call of estimate_structure on n variables, sequential or not: at most n (n-1) 2^(n-2) tests *)
Theorem C86_run est sq es est' : wf_structure (e_struct (cb_e est)) -> cb_estimate_structure est sq = Ok (es, est') ->
  let n := length (nodes_labels (e_struct (cb_e est))) in
  exists logs, tests_of est sq = Ok logs /\ length logs = n /\ length (concat logs) <= n * (n - 1) * 2 ^ (n - 2).
Proof. exact (estimate_count est sq es est'). Qed.
Print Assumptions C86_run.

(** Three binary variables: tests that never separate (the worst case), and tests that always do *)
Definition ctp (b : bool) := MkEnv px pt 1%Qc (fun _ _ _ => b).
Definition all_true := MkState (repeat (repeat true 3) 3) (@empty_cache (set_of_cims cim)).
Example cost_wf : wf_structure (e_struct (ctp true)) /\ In "X" (nodes_labels (e_struct (ctp true))).
Proof. split; [exact px_wf|left; reflexivity]. Qed.
Example cost_worst : exists es st', watch (ctp false) 3 all_true "X" = Ok (es, (st', [MkAsked "Y" [] false; MkAsked "Z" [] false; MkAsked "Y" ["Z"] false; MkAsked "Z" ["Y"] false]))
  /\ es = [("Y","X");("Z","X")] /\ length (c_keys (st_cache st')) = 4
  /\ (forall p, In p (nodes_labels px) -> p <> "X" -> In (p, "X") es /\ mat_get (st_matrix st') (idx_of px p) (idx_of px "X") = Ok true).
Proof.
  do 2 eexists. split; [vm_compute; reflexivity|]. split; [reflexivity|]. split; [reflexivity|]. intros p [<-|[<-|[<-|[]]]] H; [congruence|split; [left; reflexivity|reflexivity]|split; [right; left; reflexivity|reflexivity]].
Qed.
Example cost_best : exists st', watch (ctp true) 3 all_true "X" = Ok ([], (st', [MkAsked "Y" [] true; MkAsked "Z" [] true])).
Proof. eexists. vm_compute. reflexivity. Qed.
Example cost_run : exists es est' logs, cb_estimate_structure (MkCbEst (ctp false) 3 all_true empty_digraph) true = Ok (es, est')
  /\ tests_of (MkCbEst (ctp false) 3 all_true empty_digraph) true = Ok logs /\ length (concat logs) = 12.
Proof. do 3 eexists. split; [vm_compute; reflexivity|]. split; vm_compute; reflexivity. Qed.
