(** Proofs for C72: redundant variables. *)
From Verif Require Import Base Lib ModelStructure ModelGraph ModelCims ModelData ModelParams ModelCache ModelCtpc
  SpecStructure SpecGraph SpecComb SpecParams SpecCtpc SpecRecover SpecRedundant
  ProofStructure ProofGraph ProofComb ProofIndex ProofParams3 ProofCache ProofCtpc ProofCtpc2 ProofCtpc3 ProofCtpc4 ProofCtpc5 ProofCtpc6 ProofCtpc7 ProofRecover.

Lemma shows_iff s row a ls cols : columns_of s ls cols ->
  (row_shows row cols (map a ls) = true <-> forall l i, In l ls -> structure_get_node_indx s l = Ok i -> nth_error row i = Some (Z.of_nat (a l))).
Proof.
  intros H. unfold row_shows. induction H as [|l c ls cols H1 H2 IH]; cbn [map combine forallb fst snd].
  - split; [intros _ l i []|reflexivity].
  - rewrite andb_true_iff, IH. clear IH. split.
    + intros [A B] l' i [<-|Hl] E; [|apply (B l' i Hl E)]. rewrite H1 in E. injection E as <-. destruct (nth_error row c) as [z|]; [|discriminate].
      apply Z.eqb_eq in A. congruence.
    + intros K. split.
      * rewrite (K l c (or_introl eq_refl) H1). apply Z.eqb_refl.
      * intros l' i Hl. apply K. right; exact Hl.
Qed.
Lemma data_cim_ext t tot ni k pis u pis' u' : (forall row, In row (t_rows t) -> row_shows row pis u = row_shows row pis' u') ->
  data_cim t tot ni pis k u = data_cim t tot ni pis' k u'.
Proof.
  intros H. unfold data_cim. f_equal. f_equal.
  - unfold exact_times. apply map_ext. intro x. unfold dwell_time. f_equal. f_equal. apply filter_ext_In. intros [q row] Hin.
    apply in_combine_r in Hin. unfold row_shows in *. cbn [snd combine forallb fst]. rewrite (H row Hin). reflexivity.
  - unfold exact_counts. assert (J : forall x x', jumps t tot ni pis u x x' = jumps t tot ni pis' u' x x').
    { intros x x'. unfold jumps, row_count. f_equal. f_equal. apply filter_ext_In. intros row Hin. unfold row_shows in *. cbn [combine forallb fst snd]. rewrite (H row Hin). reflexivity. }
    apply map_ext. intro x. apply map_ext. intro x'. destruct (x' =? x); [|apply J]. f_equal. apply map_ext. intro y. destruct (y =? x); [reflexivity|apply J].
Qed.
Lemma nth_map_seq' {A} (f : nat -> A) d k x : x < k -> nth x (map f (seq 0 k)) d = f x.
Proof. intro H. apply nth_error_nth. rewrite map_nth_error_iff, nth_seq_lt by exact H. reflexivity. Qed.
Lemma data_cim_zero t tot ni k pis u x : (forall row, In row (t_rows t) -> row_shows row pis u = false) -> x < k ->
  nth x (nth x (c_trans (data_cim t tot ni pis k u)) []) 0%Z = 0%Z.
Proof.
  intros H Hx. unfold data_cim. cbn [compute_cim_coefficients new_cim c_trans]. unfold exact_counts.
  rewrite !(nth_map_seq' _ _ k x) by exact Hx. rewrite Nat.eqb_refl.
  assert (J : forall y, jumps t tot ni pis u x y = 0%Z).
  { intro y. unfold jumps, row_count. rewrite (filter_ext_In _ (fun _ => false)).
    - clear. induction (t_rows t); [reflexivity|exact IHl].
    - intros row Hin. unfold row_shows in *. cbn [combine forallb fst snd]. rewrite (H row Hin). rewrite !andb_false_r. reflexivity. }
  induction (seq 0 k) as [|y l IH]; [reflexivity|]. cbn [map Zsum fold_right] in *. unfold Zsum in *. cbn [fold_right]. rewrite IH, J. destruct (y =? x); reflexivity.
Qed.
(** a redundant variable passes the test *)
Lemma redundant_accepted e tot k c p sep m i j b0 ni :
  wf_structure (e_struct e) -> data_ok (e_struct e) (e_traj e) -> total_variables_number (e_struct e) = tot ->
  0 < k -> (forall x, In x (nodes_values (e_struct e)) -> x = k) -> test_ok (e_struct e) c p sep ->
  mat_get m i j = Ok b0 -> structure_get_node_indx (e_struct e) c = Ok ni ->
  tolerant e tot k -> data_suffice e tot k ni sep -> determined (e_struct e) (e_traj e) p sep ->
  exists st', complete_test e (MkState m empty_cache) p c sep k tot i j = Ok (true, st').
Proof.
  intros Hwf Hd Htot Hk HV Ht Hm Hni HT HS HD. set (s := e_struct e) in *.
  assert (CO : forall f, columns_of s (filter f (nodes_labels s)) (map (idx_of s) (filter f (nodes_labels s)))).
  { intro f. unfold columns_of. assert (A : forall l, In l (filter f (nodes_labels s)) -> structure_get_node_indx s l = Ok (idx_of s l)).
    { intros l Hl. apply filter_In in Hl as [Hl _]. destruct (wf_lookup s l Hwf Hl) as [_ [_ [_ [_ [Q _]]]]]. exact Q. }
    induction (filter f (nodes_labels s)) as [|l r IH]; cbn [map]; constructor; [apply A; left; reflexivity|apply IH; intros l' Hl'; apply A; right; exact Hl']. }
  set (sp := filter (fun l => lmem l sep) (nodes_labels s)). set (lp := filter (fun l => lmem l (p :: sep)) (nodes_labels s)).
  destruct (test_meaning e tot k c p sep m i j b0 ni (map (idx_of s) sp) (map (idx_of s) lp) Hwf Hd Htot Hk HV Ht Hm Hni (CO _) (CO _)) as [b [st' [E K]]].
  exists st'. rewrite E. f_equal. f_equal. apply K. intros a Ha. fold s sp lp. unfold pair_accepts.
  split; [apply HS, CO|]. destruct (HT ni (map (idx_of s) sp) (map a sp)) as [T1 T2]. cbn zeta in T1, T2.
  assert (CS : columns_of s sp (map (idx_of s) sp)) by apply CO. assert (CL : columns_of s lp (map (idx_of s) lp)) by apply CO.
  destruct (existsb (fun row => row_shows row (map (idx_of s) lp) (map a lp)) (t_rows (e_traj e))) eqn:EX.
  - apply existsb_exists in EX as [r0 [R0 S0]]. rewrite (data_cim_ext (e_traj e) tot ni k (map (idx_of s) lp) (map a lp) (map (idx_of s) sp) (map a sp)); [exact T1|].
    intros row R. apply eq_true_iff_eq. rewrite (shows_iff s row a sp _ CS), (shows_iff s row a lp _ CL).
    pose proof (proj1 (shows_iff s r0 a lp _ CL) S0) as S1. split; intros Q l i0 Hl El.
    + apply Q; [|exact El]. apply filter_In in Hl as [Hl Hm']. apply filter_In. split; [exact Hl|]. apply lmem_In. right. apply lmem_In, Hm'.
    + apply filter_In in Hl as [Hl Hm']. apply lmem_In in Hm' as [<-|Hm']; [|apply Q; [apply filter_In; split; [exact Hl|apply lmem_In, Hm']|exact El]].
      rewrite (HD row r0 R R0) with (i := i0); [apply S1; [apply filter_In; split; [exact Hl|apply lmem_In; left; reflexivity]|exact El]| |exact El].
      intros z iz Hz Ez. destruct Ht as [_ [_ [_ Ht]]]. assert (Hzl : In z (nodes_labels s)) by (apply Ht, Hz).
      rewrite (Q z iz); [symmetry; apply S1; [|exact Ez]| |exact Ez]; apply filter_In; (split; [exact Hzl|]); apply lmem_In; [right; exact Hz|exact Hz].
  - apply T2. intros x Hx. apply data_cim_zero; [|exact Hx]. intros row R. apply not_true_is_false. intro Q.
    apply not_true_iff_false in EX. apply EX. apply existsb_exists. exists row. auto.
Qed.

Section one.
Variable est : cb_estimator.
Let e := cb_e est.
Let s := e_struct e.
Let tot := cb_tot est.
Hypothesis Hok : estimator_ok est.
Variables (v q : label) (sep : list label) (k : nat).
Hypothesis Hv : In v (nodes_labels s).
Hypothesis Hq : ~ In q sep.
Hypothesis Hu : uniform_data est k.
Hypothesis HT : tolerant e tot k.
Hypothesis HS : forall ni, structure_get_node_indx s v = Ok ni -> data_suffice e tot k ni sep.
Hypothesis HD : determined s (e_traj e) q sep.

Lemma redundant_dropped es st' : optimize_structure e tot (cb_st est) v = Ok (es, st') ->
  (forall z, In z sep -> In (z, v) es) -> In (q, v) es ->
  ~ removable est q v \/ exists sep', test_ok s v q sep' /\ gives_up est v q sep'.
Proof.
  intros H Hsep Hqe. pose proof (Hwf est Hok) as W. pose proof (Hnd est Hok) as ND. destruct (optimize_justified est Hok v es st' Hv H) as [_ [kept [K1 [K2 [K3 K4]]]]].
  fold e s tot in K1, K2, K3, K4.
  apply K2 in Hqe as [Hqk _]. assert (Ho : In q (others s v)) by (eapply sublist_In; eassumption).
  pose proof (proj1 (others_In _ _ _) Ho) as [Hql Hqv].
  destruct (wf_lookup s q W Hql) as [_ [_ [_ [_ [Eq _]]]]]. destruct (wf_lookup s v W Hv) as [iv [_ [_ [Ev3 [Ev Ec]]]]].
  destruct (mat_get (st_matrix (cb_st est)) (idx_of s q) (idx_of s v)) as [[]|x] eqn:E0.
  2,3: left; intros K; specialize (K _ _ Eq Ev); congruence.
  assert (R : removable est q v) by (intros i j Hi Hj; fold e s in Hi, Hj |- *; congruence).
  destruct (stays_removable est Hok v Hv q es st' Hql R H) as [K|K]; [|right; exact K]. exfalso.
  set (sep' := filter (fun l => lmem l sep) kept).
  assert (SL : sublist sep' kept). { unfold sep'. clear. induction kept as [|x l IH]; cbn [filter]; [constructor|]. destruct (lmem x sep); constructor; exact IH. }
  assert (SM : forall z, In z sep' <-> In z sep).
  { intro z. unfold sep'. rewrite filter_In, lmem_In. split; [tauto|]. intro Hz. split; [|exact Hz]. apply (proj1 (K2 z v) (Hsep z Hz)). }
  assert (Hn : ~ In q sep') by (rewrite SM; exact Hq).
  destruct (K4 q _ _ Hqk Eq Ev K sep' SL Hn) as [cs [i [j [s1 [A1 [A2 [A3 A4]]]]]]].
  destruct Hu as [U1 [U2 [U3 U4]]]. fold e in U2, U3, U4, A1, A2, A3. fold s in U2, U3, U4, A1, A2, A3. fold tot in U3.
  assert (cs = k). { rewrite Ec in A1. injection A1 as <-. apply U2. eapply nth_error_In, Ev3. }
  subst cs. rewrite Eq in A2. injection A2 as <-. rewrite Ev in A3. injection A3 as <-.
  assert (TO : test_ok s v q sep').
  { split; [exact Hv|]. split; [exact Hql|]. split.
    - assert (NK : NoDup kept) by (eapply sublist_NoDup; [exact K1|apply NoDup_filter'; apply W]).
      constructor; [|constructor; [exact Hn|apply NoDup_filter'; exact NK]]. intros [E|E]; [congruence|].
      apply (sublist_In _ _ _ SL) in E. apply (sublist_In _ _ _ K1) in E. apply others_In in E. tauto.
    - intros z Hz. apply (sublist_In _ _ _ SL) in Hz. apply (sublist_In _ _ _ K1) in Hz. apply others_In in Hz. tauto. }
  assert (FE : filter (fun l => lmem l sep') (nodes_labels s) = filter (fun l => lmem l sep) (nodes_labels s)).
  { apply filter_ext_In. intros l _. apply eq_true_iff_eq. rewrite !lmem_In. apply SM. }
  destruct (redundant_accepted e tot k v q sep' (st_matrix (cb_st est)) _ _ _ (idx_of s v) W U4 U3 U1 U2 TO E0 Ev HT) as [s2 E2].
  - unfold data_suffice. fold s. rewrite FE. exact (HS _ Ev).
  - intros r1 r2 R1 R2 Q. apply (HD r1 r2 R1 R2). intros z i Hz. apply Q. apply SM, Hz.
  - fold e tot in A4. rewrite A4 in E2. discriminate.
Qed.
End one.

Lemma redundant_estimate est mp es est' v q sep k : estimator_ok est -> uniform_data est k -> tolerant (cb_e est) (cb_tot est) k ->
  (forall ni, structure_get_node_indx (e_struct (cb_e est)) v = Ok ni -> data_suffice (cb_e est) (cb_tot est) k ni sep) ->
  determined (e_struct (cb_e est)) (e_traj (cb_e est)) q sep -> ~ In q sep ->
  cb_estimate_structure est mp = Ok (es, est') -> (forall z, In z sep -> In (z, v) es) -> In (q, v) es ->
  ~ removable est q v \/ exists sep', test_ok (e_struct (cb_e est)) v q sep' /\ gives_up est v q sep'.
Proof.
  intros Hok Hu HT HS HD Hq H Hz Hqe. destruct (estimate_char est Hok mp es est' H) as [_ [H2 [H3 _]]].
  destruct (H3 q v Hqe) as [_ [Hv _]]. destruct (H2 v Hv) as [esv [stv [Ho [He _]]]].
  destruct (redundant_dropped (cleaned_est est) (cleaned_ok est Hok) v q sep k Hv Hq Hu HT HS HD esv stv Ho) as [K|[sep' [K1 K2]]].
  - intros z Hs. apply He, Hz, Hs.
  - apply He, Hqe.
  - left. exact K.
  - right. exists sep'. split; [exact K1|apply gives_up_cleaned, K2].
Qed.
Lemma suffice_binary e tot k ni sep : k <= 2 -> data_suffice e tot k ni sep.
Proof. intros H cols u _ K. lia. Qed.
Lemma redundant_binary s t tot known thr tests est mp es est' v q sep k :
  wf_structure s -> NoDup (nodes_indexes s) -> (forall i, In i (nodes_indexes s) -> i < tot) ->
  total_variables_number s = tot -> data_ok s t -> 0 < k <= 2 -> (forall x, In x (nodes_values s) -> x = k) ->
  new_cb_estimator s t tot known thr tests = Ok est -> tolerant (cb_e est) tot k ->
  determined s t q sep -> ~ In q sep ->
  cb_estimate_structure est mp = Ok (es, est') -> (forall z, In z sep -> In (z, v) es) -> In (q, v) es -> In (q, v) known.
Proof.
  intros Hwf Hn Hi Htot Hd Hk HV Hnew HT HD Hq H Hz Hqe.
  destruct (new_estimator_ok s t tot known thr tests est Hwf Hn Hi Hnew) as [Hok [He [Ht [_ HG]]]].
  assert (E : e_struct (cb_e est) = s) by (rewrite He; reflexivity).
  assert (ET : e_traj (cb_e est) = t) by (rewrite He; reflexivity).
  assert (Hu : uniform_data est k). { unfold uniform_data. rewrite E, ET, Ht. split; [lia|]. split; [exact HV|]. split; assumption. }
  destruct (estimate_char est Hok mp es est' H) as [_ [_ [H3 _]]]. destruct (H3 q v Hqe) as [Hql [Hv _]]. change (nodes_labels (e_struct (cleaned est))) with (nodes_labels (e_struct (cb_e est))) in Hql, Hv.
  destruct (emem (q, v) known) eqn:EM; [apply emem_In, EM|exfalso].
  assert (Rm : removable est q v).
  { intros i j Ei Ej. rewrite E in Ei, Ej. pose proof Hql as A. pose proof Hv as B. rewrite E in A, B. rewrite (HG q v i j A B Ei Ej), EM. reflexivity. }
  destruct (redundant_estimate est mp es est' v q sep k Hok Hu) as [K|[sep' [K1 K2]]]; try assumption.
  - rewrite Ht. exact HT.
  - intros ni _. apply suffice_binary. lia.
  - rewrite E, ET. exact HD.
  - exact (K Rm).
  - apply (binary_never_gives_up est Hok v q sep' K1 Rm); [|exact K2].
    destruct (wf_lookup _ v (proj1 Hok) Hv) as [i [_ [_ [Q _]]]]. rewrite E in Q |- *. rewrite (HV _ (nth_error_In _ _ Q)). lia.
Qed.
