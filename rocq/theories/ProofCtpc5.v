(** Errors of the search, agreement with the flushed search, estimator-level results. *)
From Verif Require Import Base Lib ModelStructure ModelGraph ModelCims ModelData ModelParams ModelCache ModelCtpc
  SpecStructure SpecGraph SpecComb SpecParams SpecCtpc
  ProofStructure ProofGraph ProofComb ProofIndex ProofParams3 ProofCache ProofCtpc ProofCtpc2 ProofCtpc3 ProofCtpc4.

(** ** Which errors the pieces of a test can raise *)
Section avoid.
Variable x : exn.
Hypothesis Hx : x = OutOfFuel \/ x = UnboundLocalError.
Definition av {A} (r : result A) : Prop := r <> Err x.
Lemma av_ok {A} (a : A) : av (Ok a). Proof. unfold av; discriminate. Qed.
Lemma av_bind {A B} (r : result A) (f : A -> result B) : av r -> (forall a, av (f a)) -> av (bind r f).
Proof. unfold av. intros H1 H2. destruct r; cbn [bind]; [apply H2|]. intros K; injection K as ->. apply H1; reflexivity. Qed.
Lemma av_err {A} y : y <> OutOfFuel -> y <> UnboundLocalError -> av (@Err A y).
Proof. unfold av. intros H1 H2 K. injection K as ->. destruct Hx; congruence. Qed.
Lemma av_res_map {A B} (f : A -> result B) l : (forall a, av (f a)) -> av (res_map f l).
Proof.
  intros H. induction l as [|a l IH]; cbn [res_map]; [apply av_ok|]. apply av_bind; [apply H|]. intros b. apply av_bind; [exact IH|]. intros; apply av_ok.
Qed.
Lemma av_nth {A} (l : list A) i : av (nth_res l i).
Proof. unfold nth_res. destruct (nth_error l i); [apply av_ok|apply av_err; discriminate]. Qed.
Lemma av_py_index l ls : av (py_index l ls).
Proof. destruct (py_index l ls) eqn:E; [apply av_ok|]. apply py_index_err in E as [-> _]. apply av_err; discriminate. Qed.
Lemma av_indx s l : av (structure_get_node_indx s l).
Proof. apply av_bind; [apply av_py_index|intros; apply av_nth]. Qed.
Lemma av_states s l : av (structure_get_states_number s l).
Proof. apply av_bind; [apply av_py_index|intros; apply av_nth]. Qed.
Lemma av_mat_get m i j : av (mat_get m i j).
Proof. apply av_bind; [apply av_nth|intros; apply av_nth]. Qed.
Lemma av_mat_set m i j b : av (mat_set m i j b).
Proof. apply av_bind; [apply av_nth|]. intros r. destruct (j <? length r); [apply av_ok|apply av_err; discriminate]. Qed.
Lemma av_opt {A} (o : option A) : av (opt_get o).
Proof. destruct o; [apply av_ok|apply av_err; discriminate]. Qed.
Lemma av_reshape {A} c (l : list A) : av (reshape_rows c l).
Proof. unfold reshape_rows. destruct (_ || _); [apply av_err; discriminate|apply av_ok]. Qed.
Lemma av_broadcast {A} k (l : list A) : av (broadcast_rows k l).
Proof. unfold broadcast_rows. destruct (_ =? k); [apply av_ok|]. destruct l as [|a [|]]; try apply av_ok; apply av_err; discriminate. Qed.
Lemma av_attr d n : av (g_attr d n).
Proof. unfold g_attr. destruct (assoc_node _ n) as [[]|]; try apply av_ok; apply av_err; discriminate. Qed.
Lemma av_params t g n : av (compute_parameters_for_node t g n).
Proof.
  unfold compute_parameters_for_node.
  repeat first [apply av_ok | apply av_opt | apply av_attr | (apply av_bind; [|intros])].
  - unfold compute_state_res_time_for_node. destruct (Z.eqb _ _); [apply av_err; discriminate|]. apply av_bind; [apply av_res_map; intros; apply av_res_map; intros; apply av_nth|].
    intros. apply av_bind; [|intros; apply av_bind; [apply av_reshape|intros; apply av_broadcast]].
    unfold bincount_weights. destruct (existsb _ _); [apply av_err; discriminate|]. destruct (negb _); [apply av_err; discriminate|apply av_ok].
  - assert (AM : forall A c (l : list A), av (reshape_mats c l)).
    { intros. unfold reshape_mats. apply av_bind; [apply av_reshape|]. intros. apply av_res_map. intros. apply av_reshape. }
    unfold compute_state_transitions_for_a_node. destruct (Z.eqb _ _); [apply av_err; discriminate|].
    apply av_bind; [apply av_res_map; intros; apply av_nth|]. intros.
    apply av_bind; [apply av_res_map; intros; apply av_res_map; intros; apply av_nth|]. intros.
    apply av_bind; [unfold bincount; destruct (existsb _ _); [apply av_err; discriminate|apply av_ok]|]. intros.
    apply av_bind; [apply AM|]. intros. apply av_bind; [apply av_broadcast|]. intros. apply av_bind; [apply av_reshape|]. intros. apply AM.
Qed.
Lemma av_filter {C} (so : set_of_cims C) m c : av (filter_cims_with_mask so m c).
Proof. unfold filter_cims_with_mask. destruct (_ <=? 1); [apply av_ok|]. apply av_res_map. intros; apply av_nth. Qed.
Lemma av_thumb s cs p S : av (thumb_of s cs p S).
Proof. unfold thumb_of. destruct (2 <? cs); [|apply av_ok]. apply av_bind; [apply av_states|intros; apply av_ok]. Qed.
Lemma av_test_cims e cs c1 th i j l : forall st, av (test_cims e st cs c1 l th i j).
Proof.
  induction l as [|c2 l IH]; intros st; cbn [test_cims]; [apply av_ok|]. apply av_bind.
  - unfold independence_test. destruct (_ && _); [|apply av_ok]. apply av_bind; [apply av_mat_set|intros; apply av_ok].
  - intros [b st']. destruct b; [apply IH|apply av_ok].
Qed.
Lemma av_test_configs e cs so2 flt th i j l : forall st, av (test_configs e st cs l so2 flt th i j).
Proof.
  induction l as [|[c1 pc] l IH]; intros st; cbn [test_configs]; [apply av_ok|]. apply av_bind; [apply av_filter|]. intros cc.
  apply av_bind; [apply av_test_cims|]. intros [b st']. destruct b; [apply IH|apply av_ok].
Qed.
Lemma av_ideal e tot v m p S cs i j : av (ideal_test e tot v m p S cs i j).
Proof.
  unfold ideal_test. apply av_bind; [apply av_params|]. intros. apply av_bind; [apply av_params|]. intros. apply av_bind; [apply av_thumb|]. intros th.
  pose proof (av_test_configs e cs a (filter_of (e_struct e) p S) th i j (combine (so_actual_cims a0) (so_p_combs a0)) (MkState m empty_cache)) as H.
  destruct (test_configs _ _ _ _ _ _ _ _ _) as [[b st]|y]; cbn [no_cache]; [apply av_ok|]. unfold av in *. congruence.
Qed.
End avoid.

(** ** Propagation of errors through the search *)
Section err.
Context {St : Type}.
Variables (s : structure) (v : label) (gm : St -> list (list bool))
  (ct : St -> label -> list label -> nat -> nat -> nat -> result (bool * St)) (x : exn) (I : St -> Prop).
Hypothesis Hwf : wf_structure s.
Hypothesis Hv : In v (nodes_labels s).
Hypothesis Hx : x <> OutOfFuel.
Hypothesis Hget : forall st p, I st -> In p (nodes_labels s) -> mat_get (gm st) (idx_of s p) (idx_of s v) <> Err x.
Hypothesis Hct : forall st p ps, I st -> test_ok s v p ps ->
  ct st p ps (val_of s v) (idx_of s p) (idx_of s v) <> Err x
  /\ forall b st', ct st p ps (val_of s v) (idx_of s p) (idx_of s v) = Ok (b, st') -> I st'.

Lemma try_sets_err p sets : forall st, I st -> (forall S, In S sets -> test_ok s v p S) ->
  try_sets ct st p sets (val_of s v) (idx_of s p) (idx_of s v) <> Err x
  /\ forall b st', try_sets ct st p sets (val_of s v) (idx_of s p) (idx_of s v) = Ok (b, st') -> I st'.
Proof.
  induction sets as [|S sets IH]; intros st Hi Hs; cbn [try_sets]; [split; [discriminate|intros b st' H; congruence]|].
  destruct (Hct st p S Hi (Hs S (or_introl eq_refl))) as [H1 H2].
  destruct (ct st p S (val_of s v) (idx_of s p) (idx_of s v)) as [[b st1]|y]; cbn [bind]; [|split; [congruence|discriminate]].
  specialize (H2 b st1 eq_refl). destruct b; [split; [discriminate|intros b st' H; congruence]|]. apply IH; [exact H2|]. intros S' HS. apply Hs. right; exact HS.
Qed.
Lemma inner_err b : forall fuel idx u g st, I st -> NoDup u -> incl u (others s v) ->
  inner_loop s v gm ct fuel b (val_of s v) idx u g st <> Err x
  /\ forall u' g' st', inner_loop s v gm ct fuel b (val_of s v) idx u g st = Ok (u', g', st') -> I st' /\ NoDup u' /\ incl u' (others s v).
Proof.
  induction fuel as [|fuel IH]; intros idx u g st HI Hu Hi; [split; [cbn; congruence|discriminate]|]. cbn [inner_loop].
  destruct (Nat.ltb_spec idx (length u)) as [Hlt|Hge]; [|split; [discriminate|intros u' g' x' H; injection H as <- <- <-; auto]].
  destruct (nth_res_lt u idx Hlt) as [p Hp]. rewrite Hp. cbn [bind]. apply nth_res_ok in Hp.
  assert (Hpu : In p u) by (eapply nth_error_In, Hp).
  assert (Hpl : In p (nodes_labels s)) by (apply Hi, others_In in Hpu; tauto).
  destruct (wf_lookup s p Hwf Hpl) as [_ [_ [_ [_ [Ei _]]]]]. rewrite Ei. cbn [bind].
  destruct (wf_lookup s v Hwf Hv) as [_ [_ [_ [_ [Ej _]]]]]. rewrite Ej. cbn [bind].
  pose proof (Hget st p HI Hpl) as HG. destruct (mat_get (gm st) (idx_of s p) (idx_of s v)) as [rm|z] eqn:EM; cbn [bind]; [|split; [congruence|discriminate]].
  destruct rm; cbn [bind]; [|apply IH; assumption].
  destruct (proj1 (subsets_spec u b p Hu) Hpu) as [L [EL [_ HL]]]. rewrite EL. cbn [bind].
  assert (HT : forall S, In S L -> test_ok s v p S).
  { intros S HS. apply HL in HS as [S1 [S2 S3]]. split; [exact Hv|]. split; [exact Hpl|]. apply Hi, others_In in Hpu. split.
    - constructor; [|constructor; [exact S2|eapply sublist_NoDup; eassumption]]. intros [K|K]; [tauto|].
      apply (sublist_In _ _ _ S1), Hi, others_In in K. tauto.
    - intros q K. apply (sublist_In _ _ _ S1), Hi, others_In in K. tauto. }
  destruct (try_sets_err p L st HI HT) as [T1 T2].
  destruct (try_sets ct st p L (val_of s v) (idx_of s p) (idx_of s v)) as [[r1 st']|z1]; cbn [bind]; [|split; [congruence|discriminate]].
  specialize (T2 r1 st' eq_refl). destruct r1; [|apply IH; assumption].
  rewrite (py_remove_filter p u Hu Hpu). cbn [bind]. apply IH; [exact T2|apply NoDup_filter', Hu|].
  intros q Hq. apply filter_In in Hq as [Hq _]. apply Hi, Hq.
Qed.
Lemma outer_err n : forall fuel b u g st, I st -> NoDup u -> incl u (others s v) ->
  outer_loop s v gm ct fuel n b (val_of s v) u g st <> Err x
  /\ forall u' g' st', outer_loop s v gm ct fuel n b (val_of s v) u g st = Ok (u', g', st') -> I st'.
Proof.
  induction fuel as [|fuel IH]; intros b u g st HI Hu Hi; [split; [cbn; congruence|discriminate]|]. cbn [outer_loop].
  destruct (Nat.ltb_spec b (length u)); [|split; [discriminate|intros u' g' st' K; congruence]].
  destruct (inner_err b n 0 u g st HI Hu Hi) as [H1 H2].
  destruct (inner_loop s v gm ct n b (val_of s v) 0 u g st) as [[[u1 g1] x1]|z1]; cbn [bind]; [|split; [congruence|discriminate]].
  destruct (H2 _ _ _ eq_refl) as [K1 [K2 K3]]. apply IH; assumption.
Qed.
Lemma optimize_err st : I st -> optimize_with s v gm ct st <> Err x
  /\ forall es st', optimize_with s v gm ct st = Ok (es, st') -> I st'.
Proof.
  intros HI. unfold optimize_with. destruct (wf_lookup s v Hwf Hv) as [_ [_ [_ [_ [_ Ec]]]]]. rewrite Ec. cbn [bind].
  fold (others s v). set (n := S (length (others s v))). set (g0 := fold_left _ (others s v) (new_netgraph s)).
  destruct (outer_err n n 0 (others s v) g0 st HI (NoDup_filter' _ _ (proj1 Hwf)) (fun q Hq => Hq)) as [H1 H2].
  destruct (outer_loop s v gm ct n n 0 (val_of s v) (others s v) g0 st) as [[[u1 g1] x1]|z1]; cbn [bind]; [|split; [congruence|discriminate]].
  split; [discriminate|]. intros es st' K. injection K as <- <-. apply (H2 _ _ _ eq_refl).
Qed.
End err.

(** ** More fuel changes nothing *)
Section fuel.
Context {St : Type}.
Variables (s : structure) (v : label) (gm : St -> list (list bool))
  (ct : St -> label -> list label -> nat -> nat -> nat -> result (bool * St)).
Lemma inner_fuel b cs : forall fuel idx u g st, inner_loop s v gm ct fuel b cs idx u g st <> Err OutOfFuel ->
  forall fuel', fuel <= fuel' -> inner_loop s v gm ct fuel' b cs idx u g st = inner_loop s v gm ct fuel b cs idx u g st.
Proof.
  induction fuel as [|fuel IH]; intros idx u g st H fuel' Hf; [contradiction H; reflexivity|]. destruct fuel' as [|fuel']; [lia|].
  cbn [inner_loop] in *. destruct (idx <? length u); [|reflexivity].
  destruct (nth_res u idx) as [p|]; cbn [bind] in *; [|reflexivity].
  destruct (structure_get_node_indx s p) as [i|]; cbn [bind] in *; [|reflexivity].
  destruct (structure_get_node_indx s v) as [j|]; cbn [bind] in *; [|reflexivity].
  destruct (mat_get (gm st) i j) as [rm|]; cbn [bind] in *; [|reflexivity].
  destruct (if rm then _ else _) as [[removed st1]|]; cbn [bind] in *; [|reflexivity].
  destruct removed; [|apply IH; [exact H|lia]].
  destruct (py_remove String.eqb p u) as [u'|]; cbn [bind] in *; [|reflexivity]. apply IH; [exact H|lia].
Qed.
Lemma outer_fuel cs : forall fuel n b u g st, outer_loop s v gm ct fuel n b cs u g st <> Err OutOfFuel ->
  forall fuel' n', fuel <= fuel' -> n <= n' -> outer_loop s v gm ct fuel' n' b cs u g st = outer_loop s v gm ct fuel n b cs u g st.
Proof.
  induction fuel as [|fuel IH]; intros n b u g st H fuel' n' Hf Hn; [contradiction H; reflexivity|]. destruct fuel' as [|fuel']; [lia|].
  cbn [outer_loop] in *. destruct (b <? length u); [|reflexivity].
  assert (E : inner_loop s v gm ct n' b cs 0 u g st = inner_loop s v gm ct n b cs 0 u g st).
  { apply inner_fuel; [|exact Hn]. intros K. rewrite K in H. apply H. reflexivity. }
  rewrite E. destruct (inner_loop s v gm ct n b cs 0 u g st) as [[[u1 g1] x1]|z1]; cbn [bind] in *; [|reflexivity].
  apply IH; [exact H|lia|exact Hn].
Qed.
End fuel.

(** ** The optimizer of an estimator *)
Section est.
Variables (e : cb_env) (tot : nat).
Let s := e_struct e.
Hypothesis Hwf : wf_structure s.
Let cti v := fun m p ps cs i j => ideal_test e tot v m p ps cs i j.
Let idm := fun m : list (list bool) => m.

Lemma complete_test_fuel st p c ps cs i j : complete_test e st p c ps cs tot i j <> Err OutOfFuel.
Proof.
  set (H := or_introl eq_refl : OutOfFuel = OutOfFuel \/ OutOfFuel = UnboundLocalError).
  assert (AF : forall ch k, av OutOfFuel (@cache_find (set_of_cims cim) ch k)).
  { intros ch k. unfold cache_find. destruct (set_index k (c_keys ch)) eqn:E.
    - apply av_bind; [apply av_nth, H|]. intros; apply av_ok.
    - apply set_index_err in E as ->. apply av_ok. }
  assert (AI : forall g n, av OutOfFuel (ng_fast_init g n)).
  { intros g n. unfold ng_fast_init. apply av_bind.
    - unfold ng_get_ordered_by_indx_set_of_parents, ng_get_parents_by_id, g_predecessors, ng_get_node_indx, ng_get_states_number, enum_dict.
      apply av_bind; [destruct (g_has_node _ n); [apply av_ok|apply av_err; [exact H|discriminate|discriminate]]|]. intros.
      apply av_bind.
      { apply av_res_map. intros. apply av_bind; [|intros; apply av_ok].
        assert (AE : forall l k acc, av OutOfFuel acc -> av OutOfFuel (enum_dict_from k l a0 acc)).
        { induction l as [|y l IH]; intros k acc Ha; cbn [enum_dict_from]; [exact Ha|]. apply IH. destruct (String.eqb _ _); [apply av_ok|exact Ha]. }
        apply AE. apply av_err; [exact H|discriminate|discriminate]. }
      intros. apply av_bind; [apply av_res_map; intros; apply av_bind; [apply av_attr, H|intros; apply av_ok]|]. intros.
      apply av_bind; [apply av_res_map; intros; apply av_bind; [apply av_attr, H|intros; apply av_ok]|]. intros. apply av_ok.
    - intros pinfo. unfold ng_get_node_indx, ng_get_states_number.
      destruct pinfo as [[? ?] ?]. repeat first [apply av_ok | apply av_attr, H | (apply av_bind; [|intros])]. }
  unfold complete_test. apply av_bind; [apply AF|]. intros f2. apply av_bind.
  { destruct f2; [apply av_ok|]. apply av_bind; [apply AI|]. intros. apply av_bind; [apply av_params, H|]. intros; apply av_ok. }
  intros [[so2 g2] ch2]. apply av_bind; [apply AF|]. intros f1. apply av_bind.
  { destruct f1; [apply av_ok|]. apply av_bind; [destruct g2; [apply av_ok|unfold av; discriminate]|]. intros g. apply av_bind.
    - unfold ng_remove_node, g_remove_node, structure_remove_node. apply av_bind; [destruct (g_has_node _ _); [apply av_ok|apply av_err; [exact H|discriminate|discriminate]]|]. intros.
      apply av_bind; [|intros; apply av_ok]. apply av_bind; [apply av_py_index, H|]. intros. unfold np_delete.
      apply av_bind; [destruct (_ <? _); [apply av_ok|apply av_err; [exact H|discriminate|discriminate]]|]. intros.
      apply av_bind; [destruct (_ <? _); [apply av_ok|apply av_err; [exact H|discriminate|discriminate]]|]. intros. apply av_ok.
    - intros. apply av_bind; [apply AI|]. intros. apply av_bind; [apply av_params, H|]. intros; apply av_ok. }
  intros [so1 ch1]. apply av_bind; [apply (av_thumb OutOfFuel H s cs p ps)|]. intros. apply av_test_configs, H.
Qed.

Lemma optimize_terminates st v : optimize_structure e tot st v <> Err OutOfFuel.
Proof.
  unfold optimize_structure. pose proof (optimize_nf (e_struct e) v st_matrix (fun st p ps cs i j => complete_test e st p v ps cs tot i j)
    (fun st p ps cs i j => complete_test_fuel st p v ps cs i j) st) as H.
  destruct (optimize_with _ _ _ _ st) as [[es st']|y]; cbn [bind]; [discriminate|congruence].
Qed.

Section node.
Variable v : label.
Hypothesis Hv : In v (nodes_labels s).

Lemma ideal_no_unbound m : optimize_with s v idm (cti v) m <> Err UnboundLocalError.
Proof.
  apply (optimize_err s v idm (cti v) UnboundLocalError (fun _ => True) Hwf Hv ltac:(discriminate)).
  - intros st p _ _. apply (av_mat_get UnboundLocalError (or_intror eq_refl)).
  - intros st p ps _ _. split; [apply (av_ideal UnboundLocalError (or_intror eq_refl))|auto].
  - exact Logic.I.
Qed.
Lemma optimize_no_unbound m : optimize_structure e tot (MkState m empty_cache) v <> Err UnboundLocalError.
Proof.
  rewrite optimize_ideal by assumption. pose proof (ideal_no_unbound m) as H. fold s. unfold cti, idm in H.
  destruct (optimize_with s v _ _ m) as [[es m']|y]; cbn [with_empty]; [discriminate|congruence].
Qed.

Lemma complete_test_empty m p S cs i j : test_ok s v p S -> complete_test e (MkState m empty_cache) p v S cs tot i j
  = with_cache (cache_after e tot v p S empty_cache) (ideal_test e tot v m p S cs i j).
Proof. intros Ht. rewrite complete_test_spec by (assumption || apply valid_empty). reflexivity. Qed.

Lemma ideal_get m p S cs b m' j : ideal_test e tot v m p S cs (idx_of s p) j = Ok (b, m') ->
  (exists r, mat_get m (idx_of s p) j = Ok r) -> exists r, mat_get m' (idx_of s p) j = Ok r.
Proof.
  intros H [r Hr]. rewrite ideal_verdict in H. apply apply_mark_get in H as [_ H]. destruct (H (idx_of s p) j) as [K|[_ [_ K]]]; [rewrite K|]; eauto.
Qed.

Lemma flushed_eq m ch : optimize_structure_flushed e tot (MkState m ch) v = with_empty (optimize_with s v idm (cti v) m).
Proof.
  unfold optimize_structure_flushed. fold s.
  pose proof (optimize_rel s v st_matrix idm (fun st p ps cs i j => complete_test e (MkState (st_matrix st) empty_cache) p v ps cs tot i j) (cti v)
    (fun st m => st_matrix st = m) Hwf Hv) as H.
  specialize (H (fun a b p E _ => f_equal (fun m => mat_get m (idx_of s p) (idx_of s v)) E)).
  specialize (H ltac:(intros a b p ps cs <- Ht Hr; rewrite complete_test_empty by exact Ht; unfold cti;
    destruct (ideal_test e tot v (st_matrix a) p ps cs (idx_of s p) (idx_of s v)) as [[b1 m1]|y] eqn:EI; cbn [with_cache same_result];
    [split; [split; reflexivity|]; intros r a' K; injection K as <- <-; cbn [st_matrix]; apply (ideal_get _ _ _ _ _ _ _ EI Hr)|split; [reflexivity|discriminate]])).
  specialize (H (MkState m ch) m eq_refl).
  destruct (optimize_with s v st_matrix _ (MkState m ch)) as [[es st]|y], (optimize_with s v idm (cti v) m) as [[es' m']|y']; cbn [bind same_result with_empty] in *; try contradiction.
  - destruct H as [<- <-]. reflexivity.
  - congruence.
Qed.
Lemma optimize_flushed m : optimize_structure e tot (MkState m empty_cache) v = optimize_structure_flushed e tot (MkState m empty_cache) v.
Proof. rewrite flushed_eq, optimize_ideal by assumption. reflexivity. Qed.

(** the answers of a test on an estimator with an empty cache *)
Lemma verdict_answers m p S b mk : test_ok s v p S -> (exists r, mat_get m (idx_of s p) (idx_of s v) = Ok r) ->
  verdict e tot v p S (val_of s v) = Ok (b, mk) -> test_answers e tot m v p S b.
Proof.
  intros Ht [r Hr] H. destruct (wf_lookup s p Hwf (proj1 (proj2 Ht))) as [_ [_ [_ [_ [Ei _]]]]].
  destruct (wf_lookup s v Hwf Hv) as [_ [_ [_ [_ [Ej Ec]]]]].
  destruct (mat_set_ok m _ _ false r Hr) as [m1 Em]. unfold test_answers.
  assert (E : exists m', ideal_test e tot v m p S (val_of s v) (idx_of s p) (idx_of s v) = Ok (b, m')).
  { rewrite ideal_verdict, H. unfold apply_mark. cbn [bind]. destruct mk; [rewrite Em; cbn [bind]|]; eauto. }
  destruct E as [m' E]. exists (val_of s v), (idx_of s p), (idx_of s v). eexists. split; [exact Ec|]. split; [exact Ei|]. split; [exact Ej|].
  rewrite complete_test_empty, E by exact Ht. reflexivity.
Qed.
End node.
End est.
