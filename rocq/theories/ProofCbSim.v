(** Two constraint-based estimators whose single tests give the same verdicts find the same edges. *)
From Verif Require Import Base Lib LibQc ModelStructure ModelGraph ModelCims ModelData ModelParams ModelCache ModelCtpc
  SpecStructure SpecGraph SpecComb SpecParams SpecData SpecCtpc SpecInvariance
  ProofStructure ProofGraph ProofComb ProofParams ProofParams2 ProofParams3
  ProofCtpc ProofCtpc2 ProofCtpc3 ProofCtpc4 ProofCtpc5 ProofCtpc6 ProofCtpc7 ProofInvariance.

(** the cardinality handed to the tests is the node's *)
Section cs.
Context {St : Type}.
Variables (s : structure) (v : label) (gm : St -> list (list bool)) (ct : St -> label -> list label -> nat -> nat -> nat -> result (bool * St)) (cs : nat).
Definition fixed_cs : St -> label -> list label -> nat -> nat -> nat -> result (bool * St) := fun a p ps _ i j => ct a p ps cs i j.
Lemma try_cs p sets i j : forall a, try_sets fixed_cs a p sets cs i j = try_sets ct a p sets cs i j.
Proof.
  induction sets as [|S sets IH]; intros a; [reflexivity|]. cbn [try_sets]. change (fixed_cs a p S cs i j) with (ct a p S cs i j).
  destruct (ct a p S cs i j) as [[b a']|x]; cbn [bind]; [|reflexivity]. destruct b; [reflexivity|apply IH].
Qed.
Lemma inner_cs b : forall fuel idx u g a, inner_loop s v gm fixed_cs fuel b cs idx u g a = inner_loop s v gm ct fuel b cs idx u g a.
Proof.
  induction fuel as [|f IH]; intros idx u g a; [reflexivity|]. cbn [inner_loop]. destruct (idx <? length u); [|reflexivity].
  destruct (nth_res u idx) as [p|x]; cbn [bind]; [|reflexivity]. destruct (structure_get_node_indx s p) as [i|x]; cbn [bind]; [|reflexivity].
  destruct (structure_get_node_indx s v) as [j|x]; cbn [bind]; [|reflexivity]. destruct (mat_get (gm a) i j) as [rm|x]; cbn [bind]; [|reflexivity].
  destruct rm; cbn [bind].
  - destruct (generate_possible_sub_sets_of_size u b p) as [sets|x]; cbn [bind]; [|reflexivity]. rewrite try_cs.
    destruct (try_sets ct a p sets cs i j) as [[r a']|x]; cbn [bind]; [|reflexivity]. destruct r; [|apply IH].
    destruct (py_remove String.eqb p u) as [u'|x]; cbn [bind]; [|reflexivity]. apply IH.
  - apply IH.
Qed.
Lemma outer_cs n : forall fuel b u g a, outer_loop s v gm fixed_cs fuel n b cs u g a = outer_loop s v gm ct fuel n b cs u g a.
Proof.
  induction fuel as [|f IH]; intros b u g a; [reflexivity|]. cbn [outer_loop]. destruct (b <? length u); [|reflexivity]. rewrite inner_cs.
  destruct (inner_loop s v gm ct n b cs 0 u g a) as [[[u' g'] a']|x]; cbn [bind]; [|reflexivity]. apply IH.
Qed.
Lemma optimize_cs a : structure_get_states_number s v = Ok cs -> optimize_with s v gm fixed_cs a = optimize_with s v gm ct a.
Proof. intros E. unfold optimize_with. rewrite E. cbn [bind]. rewrite outer_cs. reflexivity. Qed.
End cs.

Section cb.
Variables (s : structure) (t t' : trajectory) (tot : nat) (thr thr' : Qc) (tests tests' : nat -> cim -> cim -> bool).
Hypothesis Hwf : wf_structure s.
Let e := MkEnv s t thr tests.
Let e' := MkEnv s t' thr' tests'.
Hypothesis HP : forall v p K, test_ok s v p K -> verdict e tot v p K (val_of s v) = verdict e' tot v p K (val_of s v).

Lemma optimize_sim v m : In v (nodes_labels s) ->
  optimize_structure e tot (MkState m empty_cache) v = optimize_structure e' tot (MkState m empty_cache) v.
Proof.
  intros Hv. rewrite !optimize_ideal by assumption. f_equal. cbn [e e' e_struct].
  destruct (wf_lookup s v Hwf Hv) as [_ [_ [_ [_ [_ Ec]]]]].
  match goal with |- optimize_with s v ?gm ?c1 m = optimize_with s v _ ?c2 m =>
    rewrite <- (optimize_cs s v gm c1 (val_of s v) m Ec), <- (optimize_cs s v gm c2 (val_of s v) m Ec) end.
  match goal with |- optimize_with s v ?gm ?c1 m = optimize_with s v _ ?c2 m =>
    pose proof (optimize_rel s v gm gm c1 c2 eq Hwf Hv) as H end.
  specialize (H (fun a b p E _ => f_equal (fun m => mat_get m (idx_of s p) (idx_of s v)) E)).
  match type of H with ?A -> _ => assert (X : A) end.
  { intros a b p ps cs <- Ht Hr. unfold fixed_cs.
    assert (EI : ideal_test e tot v a p ps (val_of s v) (idx_of s p) (idx_of s v) = ideal_test e' tot v a p ps (val_of s v) (idx_of s p) (idx_of s v)).
    { rewrite !ideal_verdict. rewrite HP by exact Ht. reflexivity. }
    fold e e'. rewrite <- EI. split.
    - unfold same_result. destruct (ideal_test _ _ _ _ _ _ _ _ _) as [[b1 m1]|y]; auto.
    - intros r a' K. exact (ideal_get e tot v a p ps (val_of s v) r a' _ K Hr). }
  specialize (H X m m eq_refl). unfold same_result in H.
  match goal with |- ?A = ?B => destruct A as [[es1 m1]|x1], B as [[es2 m2]|x2] end; try contradiction; [|congruence].
  destruct H as [-> ->]. reflexivity.
Qed.
Lemma sequential_sim ns : (forall v, In v ns -> In v (nodes_labels s)) -> forall m,
  sequential_run e tot (MkState m empty_cache) ns = sequential_run e' tot (MkState m empty_cache) ns.
Proof.
  induction ns as [|v ns IH]; intros Hns m; [reflexivity|]. cbn [sequential_run]. rewrite <- (optimize_sim v m (Hns v (or_introl eq_refl))).
  destruct (optimize_structure e tot (MkState m empty_cache) v) as [[es st]|x] eqn:E; cbn [bind]; [|reflexivity].
  destruct (optimize_cleared s t tot thr tests m v es st E) as [m' ->]. rewrite IH by (intros; apply Hns; right; assumption). reflexivity.
Qed.
Lemma pool_sim ns : (forall v, In v ns -> In v (nodes_labels s)) -> forall m,
  pool_run e tot (MkState m empty_cache) ns = pool_run e' tot (MkState m empty_cache) ns.
Proof.
  intros Hns m.
  assert (K : forall f f' : label -> result (list edge), (forall v, In v ns -> f v = f' v) -> res_map f ns = res_map f' ns).
  { clear. induction ns as [|v ns IH]; intros f f' Hf; [reflexivity|]. cbn [res_map]. rewrite (Hf v) by (left; reflexivity).
    rewrite (IH f f') by (intros; apply Hf; right; assumption). reflexivity. }
  unfold pool_run.
  rewrite (K (fun n => let* (es, _) := optimize_structure e tot (MkState m empty_cache) n in Ok es)
             (fun n => let* (es, _) := optimize_structure e' tot (MkState m empty_cache) n in Ok es)); [reflexivity|].
  intros v Hv. rewrite (optimize_sim v m (Hns v Hv)). reflexivity.
Qed.
End cb.

Lemma cb_sim s t t' tot m thr thr' tests tests' g mode : wf_structure s ->
  (forall v p K, test_ok s v p K -> verdict (MkEnv s t thr tests) tot v p K (val_of s v) = verdict (MkEnv s t' thr' tests') tot v p K (val_of s v)) ->
  same_edges (cb_estimate_structure (MkCbEst (MkEnv s t thr tests) tot (MkState m empty_cache) g) mode)
             (cb_estimate_structure (MkCbEst (MkEnv s t' thr' tests') tot (MkState m empty_cache) g) mode).
Proof.
  intros Hwf HP. unfold cb_estimate_structure. cbn [cb_e cb_tot cb_st e_struct e_traj e_threshold e_tests].
  set (s0 := clean_structure_edges s).
  assert (Hwf0 : wf_structure s0) by exact Hwf.
  assert (HP0 : forall v p K, test_ok s0 v p K -> verdict (MkEnv s0 t thr tests) tot v p K (val_of s0 v) = verdict (MkEnv s0 t' thr' tests') tot v p K (val_of s0 v)).
  { intros v p K Ht. exact (HP v p K Ht). }
  assert (E : (if mode then sequential_run (MkEnv s0 t thr tests) tot (MkState m empty_cache) (nodes_labels s0)
               else pool_run (MkEnv s0 t thr tests) tot (MkState m empty_cache) (nodes_labels s0))
            = (if mode then sequential_run (MkEnv s0 t' thr' tests') tot (MkState m empty_cache) (nodes_labels s0)
               else pool_run (MkEnv s0 t' thr' tests') tot (MkState m empty_cache) (nodes_labels s0))).
  { destruct mode; [apply sequential_sim|apply pool_sim]; auto. }
  rewrite E. clear E. unfold same_edges. destruct (if mode then _ else _) as [[ess st1]|x]; cbn [bind]; reflexivity.
Qed.
