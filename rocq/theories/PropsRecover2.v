(** Property theorem C62, stated on the data: exact recovery of a network of binary variables. *)
From Coq Require Import Reals.
From Verif Require Import Base Lib ModelStructure ModelGraph ModelCims ModelData ModelParams ModelCache ModelCtpc ModelFamScore ModelIndep
  SpecStructure SpecGraph SpecComb SpecParams SpecCtpc SpecRecover SpecFamScore SpecIndep SpecRecover2 ProofCtpc6 ProofRecover2 PropsIndep PropsRecover.
Open Scope nat_scope.

(** If in the data no true parent of a variable is separated from it by any set of other variables, and every other
    variable is separated from it by the set of its true parents, the estimation succeeds and returns the true arcs. *)
Theorem C62_on_the_data P s t known thr est mp (pa : label -> list label) :
  quantiles_ok P -> wf_structure s -> NoDup (nodes_indexes s) -> (forall i, In i (nodes_indexes s) -> i < total_variables_number s) ->
  (forall x, In x (nodes_values s) -> x = 2) -> data_ok s t -> Forall (fun q => 0 <= q)%Qc (t_times t) ->
  new_cb_estimator s t (total_variables_number s) known thr (the_tests P) = Ok est ->
  (forall v, In v (nodes_labels s) -> sublist (pa v) (others s v)) ->
  (forall v p sep, In v (nodes_labels s) -> In p (pa v) -> sublist sep (others s v) -> ~ In p sep -> ~ separated P s t v p sep) ->
  (forall v q, In v (nodes_labels s) -> In q (others s v) -> ~ In q (pa v) -> separated P s t v q (pa v)) ->
  (forall a b, In (a, b) known -> In a (pa b)) ->
  exists es est', cb_estimate_structure est mp = Ok (es, est')
    /\ forall a b, In (a, b) es <-> In b (nodes_labels s) /\ In a (pa b).
Proof. intros. eapply recovery_on_data; eassumption. Qed.
Print Assumptions C62_on_the_data.

(** one test, for binary variables: the outcome is the comparison of exit rates, the chi-square step never decides *)
Theorem C62_one_test_on_the_data P s t known thr est v q sep :
  quantiles_ok P -> wf_structure s -> NoDup (nodes_indexes s) -> (forall i, In i (nodes_indexes s) -> i < total_variables_number s) ->
  (forall x, In x (nodes_values s) -> x = 2) -> data_ok s t -> Forall (fun q => 0 <= q)%Qc (t_times t) ->
  new_cb_estimator s t (total_variables_number s) known thr (the_tests P) = Ok est -> test_ok s v q sep ->
  test_answers (cb_e est) (cb_tot est) (st_matrix (cb_st est)) v q sep true <-> separated P s t v q sep.
Proof. intros. eapply answers_iff; eassumption. Qed.
Print Assumptions C62_one_test_on_the_data.

(** a concrete data set: Y leaves state 0 once while X is 0 and once while X is 1, X leaves each state at most once *)
Definition rs := MkStructure ["X";"Y"] [0;1] [2;2] [] 2.
Definition rt := MkTrajectory [1; 1; 1; 1]%Qc [[0;0;-1;1]; [0;1;-1;0]; [0;0;1;-1]; [1;0;-1;1]]%Z 4 3.
Definition rpa (v : label) : list label := if String.eqb v "Y" then ["X"] else [].
Example rs_wf : wf_structure rs.
Proof. repeat split; repeat constructor; cbn; intuition discriminate. Qed.
Example rs_data : data_ok rs rt.
Proof.
  repeat split; try reflexivity.
  all: cbn in H; unfold structure_get_node_indx, structure_get_states_number in *; cbn in H0, H1;
    repeat (destruct (String.eqb l _) in *; [cbn in *; injection H0 as <-; injection H1 as <-|]); try discriminate;
    repeat destruct H as [<-|H]; try contradiction; cbn; try lia.
  all: first [exists 0; split; [reflexivity|lia] | exists 1; split; [reflexivity|lia]
    | eexists; split; [reflexivity|lia]].
Qed.
Lemma sublist1 (A : Type) (x : A) l : sublist l [x] -> l = [] \/ l = [x].
Proof. intros H. inversion H as [|a l1 l2 H1|a l1 l2 H1]; subst; inversion H1; subst; auto. Qed.
Example C62_case_data : exists est, new_cb_estimator rs rt 2 [] (Q2Qc (1#4)) (the_tests pex) = Ok est
  /\ exists es est', cb_estimate_structure est true = Ok (es, est') /\ forall a b, In (a, b) es <-> a = "X" /\ b = "Y".
Proof.
  destruct (new_cb_estimator rs rt 2 [] (Q2Qc (1#4)) (the_tests pex)) as [est|x] eqn:EN; [|cbv -[the_tests] in EN; discriminate EN].
  exists est. split; [reflexivity|].
  edestruct (C62_on_the_data pex rs rt [] (Q2Qc (1#4)) est true rpa) as [es [est' [E H]]].
  10: { intros v p sep Hv Hp Hs Hn. destruct Hv as [<-|[<-|[]]]; [destruct Hp|]. destruct Hp as [<-|[]].
       change (others rs "Y") with ["X"] in Hs. apply sublist1 in Hs as [->| ->]; [|exfalso; apply Hn; left; reflexivity].
       intros K. unfold separated in K. cbn zeta in K.
       specialize (K 1 [] [0] (fun _ => 0) eq_refl).
       assert (C1 : columns_of rs (filter (fun l => lmem l []) (nodes_labels rs)) []) by (vm_compute; constructor).
       assert (C2 : columns_of rs (filter (fun l => lmem l ["X"]) (nodes_labels rs)) [0]) by (repeat constructor).
       specialize (K C1 C2 (fun _ => Nat.lt_0_2) 0 Nat.lt_0_2). unfold rates_agree in K.
       replace (exits _ 0) with 2%Z in K by (vm_compute; reflexivity).
       replace (exits (data_cim rt _ 1 [0] 2 _) 0) with 1%Z in K by (vm_compute; reflexivity).
       destruct K as [K|[K|[[K _]|[_ [K _]]]]]; lia. }
  10: { intros v q Hv Hq Hn. destruct Hv as [<-|[<-|[]]]; vm_compute in Hq; destruct Hq as [<-|[]]; [|exfalso; apply Hn; left; reflexivity].
       intros ni spc lpc a A1 A2 A3 A4 x Hx. injection A1 as <-.
       apply (columns_idx rs _ _ rs_wf) in A2. apply (columns_idx rs _ _ rs_wf) in A3. vm_compute in A2, A3. subst spc lpc.
       change (filter (fun l => lmem l (rpa "X")) (nodes_labels rs)) with (@nil label).
       change (filter (fun l => lmem l ("Y" :: rpa "X")) (nodes_labels rs)) with ["Y"]. cbn [map].
       specialize (A4 "Y"). destruct (a "Y") as [|[|b]]; [| |lia]; destruct x as [|[|x]]; try lia.
       - right. right. left. split; vm_compute; reflexivity.
       - left. vm_compute. reflexivity.
       - right. left. vm_compute. reflexivity.
       - left. vm_compute. reflexivity. }
  - exact pex_quantiles.
  - exact rs_wf.
  - repeat constructor; cbn; intuition discriminate.
  - cbn. intuition lia.
  - cbn. intuition lia.
  - exact rs_data.
  - repeat constructor; discriminate.
  - exact EN.
  - intros v [<-|[<-|[]]]; vm_compute; repeat (apply sub_keep || apply sub_skip || apply sub_nil).
  - intros a b [].
  - exists es, est'. split; [exact E|]. intros a b. rewrite H. unfold rpa. split.
    + intros [[<-|[<-|[]]] K]; cbn in K; [destruct K|]. destruct K as [<-|[]]. split; reflexivity.
    + intros [-> ->]. split; [right; left; reflexivity|left; reflexivity].
Qed.
