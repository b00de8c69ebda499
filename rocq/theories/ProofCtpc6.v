(** Estimator-level theorems of the constraint-based search (C19-C26). *)
From Verif Require Import Base Lib ModelStructure ModelGraph ModelCims ModelData ModelParams ModelCache ModelCtpc
  SpecStructure SpecGraph SpecComb SpecParams SpecCtpc
  ProofStructure ProofGraph ProofComb ProofIndex ProofParams3 ProofCache ProofCtpc ProofCtpc2 ProofCtpc3 ProofCtpc4 ProofCtpc5.

(** ** C19 *)
Lemma columns_idx s ls cols : wf_structure s -> columns_of s ls cols -> cols = map (idx_of s) ls.
Proof.
  intros Hwf H. induction H as [|l i ls cols H1 H2 IH]; [reflexivity|]. cbn [map]. rewrite <- IH. f_equal.
  unfold idx_of. rewrite H1. reflexivity.
Qed.
Lemma idx_of_ok s l i : structure_get_node_indx s l = Ok i -> idx_of s l = i.
Proof. intros H. unfold idx_of. rewrite H. reflexivity. Qed.

Lemma test_meaning e tot k c p sep m i j b0 ni spc lpc :
  wf_structure (e_struct e) -> data_ok (e_struct e) (e_traj e) -> total_variables_number (e_struct e) = tot ->
  0 < k -> (forall x, In x (nodes_values (e_struct e)) -> x = k) -> test_ok (e_struct e) c p sep ->
  mat_get m i j = Ok b0 ->
  structure_get_node_indx (e_struct e) c = Ok ni ->
  columns_of (e_struct e) (filter (fun l => lmem l sep) (nodes_labels (e_struct e))) spc ->
  columns_of (e_struct e) (filter (fun l => lmem l (p :: sep)) (nodes_labels (e_struct e))) lpc ->
  exists b st', complete_test e (MkState m empty_cache) p c sep k tot i j = Ok (b, st')
   /\ (b = true <-> forall a : label -> nat, (forall x, a x < k) ->
        pair_accepts e tot k ni (filter (fun l => lmem l sep) (nodes_labels (e_struct e)))
          (filter (fun l => lmem l (p :: sep)) (nodes_labels (e_struct e))) spc lpc a).
Proof.
  intros Hwf Hd Htot Hk Hval Ht Hm Hni Hs Hl.
  destruct (verdict_meaning e tot k c p sep Hwf Hd Htot Hk Hval Ht) as [b [mk [E1 E2]]].
  apply columns_idx in Hs, Hl; try assumption. apply idx_of_ok in Hni. subst ni spc lpc.
  rewrite (complete_test_empty e tot Hwf c m p sep k i j Ht), ideal_verdict, E1. unfold apply_mark. cbn [bind].
  destruct (mat_set_ok m i j false b0 Hm) as [m1 Em]. exists b.
  destruct mk; [rewrite Em|]; cbn [bind with_cache]; eexists; (split; [reflexivity|exact E2]).
Qed.

(** ** Well-formed estimators *)
Section estimator.
Variable est : cb_estimator.
Let e := cb_e est.
Let s := e_struct e.
Let tot := cb_tot est.
Let m := st_matrix (cb_st est).
Hypothesis Hok : estimator_ok est.
Lemma Hwf : wf_structure s. Proof. exact (proj1 Hok). Qed.
Lemma Hnd : NoDup (nodes_indexes s). Proof. exact (proj1 (proj2 Hok)). Qed.
Lemma est_idx l : In l (nodes_labels s) -> idx_of s l < tot.
Proof.
  intros Hl. destruct (wf_lookup s l Hwf Hl) as [i [_ [K _]]]. apply (proj1 (proj2 (proj2 Hok))). eapply nth_error_In, K.
Qed.
Lemma est_dims : dims tot m.
Proof. pose proof Hok as [_ [_ [_ [H1 [H2 _]]]]]. split; assumption. Qed.
Lemma est_state : cb_st est = MkState m empty_cache.
Proof. pose proof (proj2 (proj2 (proj2 (proj2 (proj2 Hok))))) as H. unfold m. rewrite <- H. clear. destruct (cb_st est). reflexivity. Qed.

Lemma apply_mark_dims i j m0 r b m' : dims tot m0 -> i < tot -> j < tot -> apply_mark i j m0 r = Ok (b, m') -> dims tot m'.
Proof.
  intros D Hi Hj H. unfold apply_mark in H. apply bind_ok in H as [[b1 mk] [_ H]]. destruct mk; [|congruence].
  destruct (mat_set_spec tot m0 i j false D Hi Hj) as [m1 [E [D1 _]]]. rewrite E in H. cbn [bind] in H. congruence.
Qed.
Lemma ideal_dims v m0 p S cs b m' : In v (nodes_labels s) -> In p (nodes_labels s) -> dims tot m0 ->
  ideal_test e tot v m0 p S cs (idx_of s p) (idx_of s v) = Ok (b, m') -> dims tot m'.
Proof.
  intros Hv Hp D H. rewrite ideal_verdict in H. eapply apply_mark_dims; [exact D| | |exact H]; apply est_idx; assumption.
Qed.
Lemma optimize_dims v m0 es st' : In v (nodes_labels s) -> dims tot m0 -> optimize_structure e tot (MkState m0 empty_cache) v = Ok (es, st') ->
  dims tot (st_matrix st').
Proof.
  intros Hv D H. rewrite (optimize_ideal e tot v Hwf Hv) in H.
  destruct (optimize_with (e_struct e) v _ _ m0) as [[es1 m1]|y] eqn:EO; cbn [with_empty] in H; [|discriminate]. injection H as <- <-. cbn [st_matrix].
  refine (proj2 (optimize_err s v _ _ UnboundLocalError (dims tot) Hwf Hv _ _ _ m0 D) _ _ EO).
  - discriminate.
  - intros m2 p _ _ K. apply mat_get_err in K. discriminate.
  - intros m2 p ps D2 Ht. split; [apply (av_ideal UnboundLocalError (or_intror eq_refl))|].
    intros b m3 K. exact (ideal_dims v _ p ps _ b m3 Hv (proj1 (proj2 Ht)) D2 K).
Qed.

Lemma get_ok m0 p v : dims tot m0 -> In p (nodes_labels s) -> In v (nodes_labels s) -> exists b, mat_get m0 (idx_of s p) (idx_of s v) = Ok b.
Proof. intros D Hp Hv. apply (mat_get_ok tot m0 _ _ D); apply est_idx; assumption. Qed.

Lemma optimize_total k v m0 : uniform_data est k -> In v (nodes_labels s) -> dims tot m0 ->
  exists es m', optimize_structure e tot (MkState m0 empty_cache) v = Ok (es, MkState m' empty_cache) /\ dims tot m'.
Proof.
  intros [Hk [Hval [Htot Hd]]] Hv D.
  assert (NE : forall x, optimize_structure e tot (MkState m0 empty_cache) v <> Err x).
  { intros x. destruct (exn_eqb x OutOfFuel) eqn:Ex.
    - assert (x = OutOfFuel) by (destruct x; cbn in Ex; congruence). subst x. apply optimize_terminates.
    - assert (Hx : x <> OutOfFuel) by (intros ->; discriminate).
      rewrite (optimize_ideal e tot v Hwf Hv). destruct (optimize_err s v (fun m => m) (fun m p ps cs i j => ideal_test e tot v m p ps cs i j) x (dims tot) Hwf Hv Hx) with (st := m0) as [H1 _].
      + intros m1 p D1 Hp K. destruct (get_ok m1 p v D1 Hp Hv) as [b E]. congruence.
      + intros m1 p ps D1 Ht. split; [|intros b m3 K; exact (ideal_dims v _ p ps _ b m3 Hv (proj1 (proj2 Ht)) D1 K)].
        unfold s. rewrite (val_k e k Hwf Hval v Hv). fold s. destruct (verdict_meaning e tot k v p ps Hwf Hd Htot Hk Hval Ht) as [b [mk [E _]]].
        rewrite ideal_verdict, E. unfold apply_mark. cbn [bind]. destruct (get_ok m1 p v D1 (proj1 (proj2 Ht)) Hv) as [b0 Eb].
        destruct (mat_set_ok m1 _ _ false b0 Eb) as [m2 Em]. destruct mk; [rewrite Em|]; cbn [bind]; discriminate.
      + exact D.
      + fold s. destruct (optimize_with s v _ _ m0) as [[es m']|y]; cbn [with_empty]; [discriminate|congruence]. }
  destruct (optimize_structure e tot (MkState m0 empty_cache) v) as [[es st']|x] eqn:E; [|contradiction (NE x); reflexivity].
  pose proof (optimize_dims v m0 es st' Hv D E) as D'.
  unfold optimize_structure in E. apply bind_ok in E as [[es1 st1] [_ E]]. injection E as <- <-. cbn [st_matrix cache_clear] in *. eauto.
Qed.

(** ** C20 *)
Lemma optimize_safe v : In v (nodes_labels s) ->
  optimize_structure e tot (cb_st est) v = optimize_structure_flushed e tot (cb_st est) v
  /\ optimize_structure e tot (cb_st est) v <> Err UnboundLocalError
  /\ (forall es st', optimize_structure e tot (cb_st est) v = Ok (es, st') -> st_cache st' = empty_cache)
  /\ (forall k, uniform_data est k -> exists es st', optimize_structure e tot (cb_st est) v = Ok (es, st')).
Proof.
  intros Hv. rewrite est_state. split; [apply optimize_flushed; [exact Hwf|exact Hv]|]. split; [apply optimize_no_unbound; [exact Hwf|exact Hv]|]. split.
  - intros es st' H. unfold optimize_structure in H. apply bind_ok in H as [[es1 st1] [_ H]]. injection H as <- <-. reflexivity.
  - intros k Hu. destruct (optimize_total k v m Hu Hv est_dims) as [es [m' [E _]]]. eauto.
Qed.

(** ** C22 *)
Lemma test_ok_of v u q S : In v (nodes_labels s) -> sublist u (others s v) -> In q (others s v) -> sublist S u -> ~ In q S -> test_ok s v q S.
Proof.
  intros Hv Hu Hq HS Hn. pose proof (sublist_trans _ _ _ HS Hu) as HS'. apply others_In in Hq as [Q1 Q2].
  split; [exact Hv|]. split; [exact Q1|]. split.
  - constructor; [|constructor; [exact Hn|]].
    + intros [K|K]; [congruence|]. apply (sublist_In _ _ _ HS'), others_In in K. tauto.
    + eapply sublist_NoDup; [exact HS'|]. apply NoDup_filter', Hwf.
  - intros x Hx. apply (sublist_In _ _ _ HS'), others_In in Hx. tauto.
Qed.
Lemma optimize_justified v es st' : In v (nodes_labels s) -> optimize_structure e tot (cb_st est) v = Ok (es, st') ->
  NoDup es /\ exists kept, sublist kept (others s v) /\ (forall a b, In (a, b) es <-> In a kept /\ b = v)
  /\ (forall q, In q (others s v) -> ~ In q kept ->
        exists sep, sublist sep (others s v) /\ ~ In q sep /\ test_answers e tot m v q sep true)
  /\ (forall q i j, In q kept -> structure_get_node_indx s q = Ok i -> structure_get_node_indx s v = Ok j ->
        mat_get (st_matrix st') i j = Ok true ->
        forall sep, sublist sep kept -> ~ In q sep -> test_answers e tot m v q sep false).
Proof.
  intros Hv H. rewrite est_state, (optimize_ideal e tot v Hwf Hv) in H.
  destruct (optimize_with (e_struct e) v _ _ m) as [[es1 m1]|y] eqn:EO; cbn [with_empty] in H; [|discriminate]. injection H as <- <-. cbn [st_matrix].
  destruct (optimize_char e tot v Hwf Hv m _ _ EO) as [u [U1 [U2 [U3 [U4 [U5 [U6 U7]]]]]]]. fold s in U1, U3, U4, U5, U6, U7.
  split; [exact U2|]. exists u. split; [exact U1|]. split; [exact U3|]. split.
  - intros q Hq Hn. destruct (U5 q Hq Hn) as [S [mk [S1 [S2 S3]]]]. exists S. split; [exact S1|]. split; [exact S2|].
    eapply (verdict_answers e tot Hwf v Hv); [|apply get_ok; [apply est_dims|apply others_In in Hq; tauto|exact Hv]|exact S3].
    eapply (test_ok_of v (others s v)); try eassumption. apply sublist_refl.
  - intros q i j Hq Hi Hj Hr sep HS Hn. apply idx_of_ok in Hi, Hj. subst i j. destruct (U7 q Hq Hr sep HS Hn) as [mk V].
    assert (Hq' : In q (others s v)) by (eapply sublist_In; eassumption).
    eapply (verdict_answers e tot Hwf v Hv); [|apply get_ok; [apply est_dims|apply others_In in Hq'; tauto|exact Hv]|exact V].
    eapply test_ok_of; eassumption.
Qed.

(** ** C25: columns are isolated *)
Lemma optimize_column v m1 m2 : In v (nodes_labels s) ->
  (forall i, mat_get m1 i (idx_of s v) = mat_get m2 i (idx_of s v)) ->
  match optimize_structure e tot (MkState m1 empty_cache) v, optimize_structure e tot (MkState m2 empty_cache) v with
  | Ok (es1, _), Ok (es2, _) => es1 = es2
  | Err x, Err y => x = y
  | _, _ => False
  end.
Proof.
  intros Hv HR. rewrite !(optimize_ideal e tot v Hwf Hv). fold s.
  set (idm := fun m : list (list bool) => m). set (cti := fun m p ps cs i j => ideal_test e tot v m p ps cs i j).
  pose proof (optimize_rel s v idm idm cti cti (fun a b => forall i, mat_get a i (idx_of s v) = mat_get b i (idx_of s v)) Hwf Hv) as H.
  specialize (H (fun a b p E _ => E (idx_of s p))).
  assert (HC : forall a b p ps cs, (forall i, mat_get a i (idx_of s v) = mat_get b i (idx_of s v)) -> test_ok s v p ps ->
     (exists r, mat_get (idm a) (idx_of s p) (idx_of s v) = Ok r) ->
     same_result (fun a b => forall i, mat_get a i (idx_of s v) = mat_get b i (idx_of s v)) (cti a p ps cs (idx_of s p) (idx_of s v)) (cti b p ps cs (idx_of s p) (idx_of s v))
     /\ (forall r a', cti a p ps cs (idx_of s p) (idx_of s v) = Ok (r, a') -> exists r', mat_get (idm a') (idx_of s p) (idx_of s v) = Ok r')).
  { intros a b p ps cs E Ht [r Hr]. unfold idm in Hr. split.
    - unfold cti. rewrite !ideal_verdict. destruct (verdict e tot v p ps cs) as [[b1 mk]|y]; cbn [apply_mark bind]; [|reflexivity].
      unfold apply_mark. cbn [bind]. destruct mk; [|split; [reflexivity|exact E]].
      destruct (mat_set_ok a _ _ false r Hr) as [a1 Ea]. rewrite Ea. rewrite E in Hr. destruct (mat_set_ok b _ _ false r Hr) as [b2 Eb]. rewrite Eb. cbn [bind same_result].
      split; [reflexivity|]. apply mat_set_get in Ea as [_ Ea], Eb as [_ Eb]. intros i. rewrite Ea, Eb. destruct (_ && _); [reflexivity|apply E].
    - intros r' a' H'. apply (ideal_get e tot v a p ps cs r' a' (idx_of s v) H'). eauto. }
  specialize (H HC m1 m2 HR).
  destruct (optimize_with s v idm cti m1) as [[es1 x1]|y1], (optimize_with s v idm cti m2) as [[es2 x2]|y2]; cbn [same_result with_empty] in *; tauto.
Qed.
Lemma optimize_cols v m0 es st' : In v (nodes_labels s) -> optimize_structure e tot (MkState m0 empty_cache) v = Ok (es, st') ->
  st_cache st' = empty_cache /\ col_marks (idx_of s v) m0 (st_matrix st').
Proof.
  intros Hv H. rewrite (optimize_ideal e tot v Hwf Hv) in H.
  destruct (optimize_with (e_struct e) v _ _ m0) as [[es1 m1]|y] eqn:EO; cbn [with_empty] in H; [|discriminate]. injection H as <- <-. cbn [st_matrix st_cache].
  destruct (optimize_char e tot v Hwf Hv m0 _ _ EO) as [u [_ [_ [_ [U4 _]]]]]. split; [reflexivity|exact U4].
Qed.

Lemma sequential_pool ns : NoDup ns -> (forall v, In v ns -> In v (nodes_labels s)) ->
  forall m0, (forall v, In v ns -> forall i, mat_get m0 i (idx_of s v) = mat_get m i (idx_of s v)) ->
  match sequential_run e tot (MkState m0 empty_cache) ns, pool_run e tot (MkState m empty_cache) ns with
  | Ok (ess1, st1), Ok (ess2, _) => ess1 = ess2 /\ st_cache st1 = empty_cache /\ marks_grow m0 (st_matrix st1)
  | Err x, Err y => x = y
  | _, _ => False
  end.
Proof.
  unfold pool_run. induction ns as [|v ns IH]; intros Hnd' Hin m0 Hm; cbn [sequential_run res_map bind].
  - split; [reflexivity|]. split; [reflexivity|]. cbn [st_matrix]. split; [reflexivity|]. intros i j b Hb. exists b. auto.
  - apply NoDup_cons_iff in Hnd' as [Hv0 Hnd'].
    assert (Hv : In v (nodes_labels s)) by (apply Hin; left; reflexivity).
    pose proof (optimize_column v m0 m Hv (Hm v (or_introl eq_refl))) as HC.
    destruct (optimize_structure e tot (MkState m0 empty_cache) v) as [[es st1]|x] eqn:E1, (optimize_structure e tot (MkState m empty_cache) v) as [[es2 st2]|y] eqn:E2;
      try contradiction; cbn [bind]; [|exact HC]. subst es2.
    destruct (optimize_cols v m0 es st1 Hv E1) as [C1 C2]. destruct st1 as [m1 ch1]. cbn [st_cache st_matrix] in C1, C2. subst ch1.
    assert (Hm1 : forall w, In w ns -> forall i, mat_get m1 i (idx_of s w) = mat_get m i (idx_of s w)).
    { intros w Hw i. rewrite <- (Hm w (or_intror Hw)). destruct C2 as [_ C2]. destruct (C2 i (idx_of s w)) as [K|[K _]]; [exact K|].
      exfalso. apply Hv0. rewrite <- (idx_inj s w v Hwf Hnd (Hin w (or_intror Hw)) Hv K). exact Hw. }
    specialize (IH Hnd' (fun w Hw => Hin w (or_intror Hw)) m1 Hm1).
    destruct (sequential_run e tot (MkState m1 empty_cache) ns) as [[ess1 st1']|x], (res_map _ ns) as [ess2|y]; cbn [bind] in *; try contradiction; [|exact IH].
    destruct IH as [-> [I1 I2]]. split; [reflexivity|]. split; [exact I1|].
    destruct C2 as [L2 C2]. destruct I2 as [L1 I2]. split; [congruence|]. intros i j b Hb.
    assert (Hb1 : exists b1, mat_get m1 i j = Ok b1 /\ (b1 = true -> b = true)).
    { destruct (C2 i j) as [K|[_ [_ K]]]; [exists b; split; [congruence|auto]|exists false; split; [exact K|discriminate]]. }
    destruct Hb1 as [b1 [B1 B2]]. destruct (I2 i j b1 B1) as [b2 [B3 B4]]. exists b2. split; [exact B3|auto].
Qed.
Lemma pool_ok ns : (forall v, In v ns -> In v (nodes_labels s)) -> forall ess st', pool_run e tot (cb_st est) ns = Ok (ess, st') ->
  st' = cb_st est /\ Forall2 (fun v es => exists st1, optimize_structure e tot (cb_st est) v = Ok (es, st1)) ns ess.
Proof.
  intros Hin ess st' H. unfold pool_run in H. apply bind_ok in H as [ess1 [H1 H]]. injection H as <- <-. split; [reflexivity|].
  apply res_map_ok in H1. clear Hin. induction H1 as [|v es ns ess1 H1 H2 IH]; constructor; [|exact IH].
  apply bind_ok in H1 as [[es1 st1] [H1 E]]. injection E as <-. eauto.
Qed.
End estimator.
