(** Property theorem C62: exact recovery by the constraint-based estimator. *)
From Verif Require Import Base ModelStructure ModelGraph ModelCims ModelData ModelParams ModelCache ModelCtpc
  SpecStructure SpecGraph SpecComb SpecParams SpecCtpc SpecRecover ProofRecover PropsParams PropsCtpc.

Theorem C62_one_variable est v pa es st' : estimator_ok est -> In v (nodes_labels (e_struct (cb_e est))) -> faithful est v pa ->
  optimize_structure (cb_e est) (cb_tot est) (cb_st est) v = Ok (es, st') ->
  (forall p, In p pa -> In (p, v) es)
  /\ (forall q, In (q, v) es -> ~ In q pa ->
        ~ removable est q v \/ exists sep, test_ok (e_struct (cb_e est)) v q sep /\ gives_up est v q sep)
  /\ ((forall q, In q (others (e_struct (cb_e est)) v) -> ~ In q pa ->
          removable est q v /\ forall sep, test_ok (e_struct (cb_e est)) v q sep -> ~ gives_up est v q sep) ->
      forall a b, In (a, b) es <-> In a pa /\ b = v).
Proof. exact (fun H Hv => recovered est H v Hv pa es st'). Qed.
Theorem C62_exact_recovery est mp es est' (pa : label -> list label) : estimator_ok est ->
  cb_estimate_structure est mp = Ok (es, est') ->
  (forall v, In v (nodes_labels (e_struct (cb_e est))) -> faithful est v (pa v)) ->
  (forall v q, In v (nodes_labels (e_struct (cb_e est))) -> In q (others (e_struct (cb_e est)) v) -> ~ In q (pa v) ->
     removable est q v /\ forall sep, test_ok (e_struct (cb_e est)) v q sep -> ~ gives_up est v q sep) ->
  forall a b, In (a, b) es <-> In b (nodes_labels (e_struct (cb_e est))) /\ In a (pa b).
Proof. exact (exact_recovery est mp es est' pa). Qed.
Theorem C62_binary_variables s t tot known thr tests est mp es est' (pa : label -> list label) :
  wf_structure s -> NoDup (nodes_indexes s) -> (forall i, In i (nodes_indexes s) -> i < tot) ->
  (forall x, In x (nodes_values s) -> x <= 2) ->
  new_cb_estimator s t tot known thr tests = Ok est -> cb_estimate_structure est mp = Ok (es, est') ->
  (forall v, In v (nodes_labels s) -> faithful est v (pa v)) ->
  (forall a b, In (a, b) known -> In a (pa b)) ->
  forall a b, In (a, b) es <-> In b (nodes_labels s) /\ In a (pa b).
Proof. exact (exact_recovery_binary s t tot known thr tests est mp es est' pa). Qed.
Print Assumptions C62_one_variable. Print Assumptions C62_exact_recovery. Print Assumptions C62_binary_variables.

Definition cpa (v : label) : list label := if String.eqb v "X" then ["Y"] else [].
Lemma sublist2 (A : Type) (x y : A) l : sublist l [x; y] -> l = [] \/ l = [x] \/ l = [y] \/ l = [x; y].
Proof.
  intros H. inversion H as [|a l1 l2 H1|a l1 l2 H1]; subst; inversion H1 as [|b l3 l4 H2|b l3 l4 H2]; subst;
  inversion H2; subst; auto.
Qed.
Example C62_case : new_cb_estimator px pt 3 [] (Q2Qc (1#4)) ctests = Ok cest
  /\ (forall x, In x (nodes_values px) -> x <= 2) /\ (forall v, In v (nodes_labels px) -> faithful cest v (cpa v))
  /\ exists es est', cb_estimate_structure cest true = Ok (es, est') /\ es = [("Y","X")].
Proof.
  split; [reflexivity|]. split; [cbn; intuition lia|]. split.
  - intros v [<-|[<-|[<-|[]]]]; (split; [vm_compute; repeat (apply sub_keep || apply sub_skip || apply sub_nil)|]); split.
    all: try (intros p sep [<-|[]] Hs Hn; change (others _ _) with ["Y";"Z"] in Hs; apply sublist2 in Hs;
         destruct Hs as [->|[->|[->| ->]]]; try (exfalso; apply Hn; cbn; tauto);
         intros [cs [i [j [st' [A [B [C D]]]]]]]; vm_compute in A, B, C; injection A as <-; injection B as <-; injection C as <-;
         vm_compute in D; discriminate).
    all: try (intros p sep Hp; exfalso; exact Hp).
    all: intros q Hq Hn; vm_compute in Hq; repeat destruct Hq as [<-|Hq]; try contradiction; try (exfalso; apply Hn; cbn; tauto).
    all: do 4 eexists; split; [reflexivity|]; split; [reflexivity|]; split; [reflexivity|]; vm_compute; reflexivity.
  - do 2 eexists. split; [vm_compute; reflexivity|reflexivity].
Qed.
