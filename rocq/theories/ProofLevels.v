(** The significance levels. *)
From Coq Require Import Reals Lra.
From Verif Require Import Base Lib ModelStructure ModelGraph ModelCims ModelData ModelParams ModelCache ModelCtpc ModelFamScore ModelIndep
  SpecStructure SpecGraph SpecComb SpecParams SpecCtpc SpecRecover SpecFamScore SpecIndep SpecLevels
  ProofStructure ProofGraph ProofComb ProofParams ProofCtpc ProofCtpc2 ProofCtpc4 ProofCtpc5 ProofCtpc6 ProofCtpc7 ProofCache ProofRecover ProofIndep ProofIndep2.
Open Scope nat_scope.

Lemma accepts_lower P P' n c1 c2 x : quantiles_ok P -> quantiles_ok P' -> lower_levels P P' -> 2 <= n -> state_accepts P n c1 c2 x -> state_accepts P' n c1 c2 x.
Proof.
  intros [Q1 [_ [Q3 [_ [[A1 A2] [B1 B2]]]]]] [_ [_ [_ [_ [[A3 A4] [B3 B4]]]]]] [L1 [L2 [L3 [L4 [L5 L6]]]]] Hn [K|[K|[K1 K2]]]; [left; exact K|right; left; exact K|]. right; right. split.
  - destruct K1 as [K1|[E1 [E2 [C D]]]]; [left; exact K1|]. right. split; [exact E1|]. split; [exact E2|]. split.
    + intros l Hl. rewrite L1 in Hl. destruct (Q1 (exp_alpha P / 2)%R (exits c1 x) (exits c2 x)) as [q [Eq _]]; [lra|lia|lia|].
      specialize (C q Eq). assert (l <= q)%R; [|lra]. apply (L5 (exp_alpha P' / 2)%R (exp_alpha P / 2)%R (exits c1 x) (exits c2 x)); auto; lra.
    + intros h Hh. rewrite L1 in Hh. destruct (Q1 (1 - exp_alpha P / 2)%R (exits c1 x) (exits c2 x)) as [q [Eq _]]; [lra|lia|lia|].
      specialize (D q Eq). assert (q <= h)%R; [|lra]. apply (L5 (1 - exp_alpha P / 2)%R (1 - exp_alpha P' / 2)%R (exits c1 x) (exits c2 x)); auto; lra.
  - destruct K2 as [K2|K2]; [left; exact K2|]. right. intros q Hq. rewrite L2 in Hq. destruct (Q3 (1 - chi_alpha P)%R (n - 1)) as [q0 [E0 _]]; [lra|lia|].
    specialize (K2 q0 E0). assert (q0 <= q)%R; [|lra]. apply (L6 (1 - chi_alpha P)%R (1 - chi_alpha P')%R (n - 1)); auto; lra.
Qed.
Lemma accepts_one P' c1 c2 x : x < 1 -> computed_cim 1 c1 -> state_accepts P' 1 c1 c2 x.
Proof.
  intros Hx [[_ [L [_ S1]]] _]. left. assert (x = 0) by lia. subst x. unfold exits, jumps_of.
  destruct (c_trans c1) as [|row l] eqn:E; [discriminate|]. destruct (S1 0 row eq_refl) as [R1 [_ R2]]. cbn in R2. cbn [nth]. apply nth_error_nth. exact R2.
Qed.
Lemma the_tests_lower P P' n c1 c2 : quantiles_ok P -> quantiles_ok P' -> lower_levels P P' -> computed_cim n c1 -> computed_cim n c2 ->
  the_tests P n c1 c2 = true -> the_tests P' n c1 c2 = true.
Proof.
  intros HQ HQ' HL C1 C2. rewrite !the_tests_iff by assumption. intros H x Hx. destruct n as [|[|n]]; [lia|apply accepts_one; assumption|].
  apply (accepts_lower P P'); auto. lia.
Qed.

Section one.
Variables (P P' : test_params) (s : structure) (t : trajectory) (tot k : nat) (thr : Qc).
Hypothesis HQ : quantiles_ok P.
Hypothesis HQ' : quantiles_ok P'.
Hypothesis HL : lower_levels P P'.
Hypothesis Hwf : wf_structure s.
Hypothesis Hd : data_ok s t.
Hypothesis HT : Forall (fun q => 0 <= q)%Qc (t_times t).
Hypothesis Htot : total_variables_number s = tot.
Hypothesis Hk : 0 < k.
Hypothesis HV : forall x, In x (nodes_values s) -> x = k.
Let e Q := MkEnv s t thr (the_tests Q).

Lemma test_lower m m' c p sep sep' i j : test_ok s c p sep -> test_ok s c p sep' -> (forall z, In z sep <-> In z sep') -> structure_get_node_indx s p = Ok i -> structure_get_node_indx s c = Ok j ->
  (exists b, mat_get m i j = Ok b) -> (exists b, mat_get m' i j = Ok b) ->
  test_answers (e P) tot m c p sep true -> test_answers (e P') tot m' c p sep' true.
Proof.
  intros Ht Ht' SM Hi Hj [b0 Hm] [b1 Hm'] [cs [i' [j' [st' [A1 [A2 [A3 A4]]]]]]]. change (e_struct (e P)) with s in A1, A2, A3.
  rewrite Hi in A2. injection A2 as <-. rewrite Hj in A3. injection A3 as <-.
  assert (cs = k). { pose proof Ht as [Hv _]. destruct (wf_lookup s c Hwf Hv) as [iv [_ [_ [Vv [_ Ec]]]]]. rewrite Ec in A1. injection A1 as <-. apply HV. eapply nth_error_In, Vv. }
  subst cs.
  assert (CO : forall f, columns_of s (filter f (nodes_labels s)) (map (idx_of s) (filter f (nodes_labels s)))).
  { intro f. unfold columns_of. assert (A : forall l, In l (filter f (nodes_labels s)) -> structure_get_node_indx s l = Ok (idx_of s l)).
    { intros l Hl. apply filter_In in Hl as [Hl _]. destruct (wf_lookup s l Hwf Hl) as [_ [_ [_ [_ [Q _]]]]]. exact Q. }
    induction (filter f (nodes_labels s)) as [|l r IH]; cbn [map]; constructor; [apply A; left; reflexivity|apply IH; intros l' Hl'; apply A; right; exact Hl']. }
  destruct (test_meaning (e P) tot k c p sep m i j b0 j _ _ Hwf Hd Htot Hk HV Ht Hm Hj (CO _) (CO _)) as [b [st1 [E1 K1]]].
  destruct (test_meaning (e P') tot k c p sep' m' i j b1 j _ _ Hwf Hd Htot Hk HV Ht' Hm' Hj (CO _) (CO _)) as [b' [st2 [E2 K2]]].
  assert (F1 : filter (fun l => lmem l sep') (nodes_labels s) = filter (fun l => lmem l sep) (nodes_labels s)).
  { apply filter_ext. intros l. apply eq_true_iff_eq. rewrite !lmem_In. symmetry. apply SM. }
  assert (F2 : filter (fun l => lmem l (p :: sep')) (nodes_labels s) = filter (fun l => lmem l (p :: sep)) (nodes_labels s)).
  { apply filter_ext. intros l. apply eq_true_iff_eq. rewrite !lmem_In. cbn [In]. rewrite (SM l). reflexivity. }
  change (e_struct (e P')) with s in K2. rewrite F1, F2 in K2.
  exists k, i, j, st2. split; [exact A1|]. split; [exact Hi|]. split; [exact Hj|]. rewrite E2. f_equal. f_equal. apply K2. intros a Ha.
  rewrite A4 in E1. injection E1 as <- _. destruct (proj1 K1 eq_refl a Ha) as [B1 B2]. split; [exact B1|].
  cbn [e_tests e e_traj] in B2 |- *. revert B2. apply the_tests_lower; try assumption; apply exact_cim_computed; exact HT.
Qed.
End one.

(** an accepted variable is dropped, if the separating set is part of the answer *)
Section drop.
Variable est : cb_estimator.
Let e := cb_e est.
Let s := e_struct e.
Let tot := cb_tot est.
Hypothesis Hok : estimator_ok est.
Variables (v q : label) (sep : list label).
Hypothesis Hv : In v (nodes_labels s).
Hypothesis Hq : ~ In q sep.

Lemma accepted_dropped es st' : 
  (forall sep', (forall z, In z sep' <-> In z sep) -> test_ok s v q sep' -> ~ test_answers e tot (st_matrix (cb_st est)) v q sep' false) ->
  optimize_structure e tot (cb_st est) v = Ok (es, st') ->
  (forall z, In z sep -> In (z, v) es) -> In (q, v) es ->
  ~ removable est q v \/ exists sep', test_ok s v q sep' /\ gives_up est v q sep'.
Proof.
  intros HA H Hsep Hqe. pose proof (Hwf est Hok) as W. pose proof (Hnd est Hok) as ND. destruct (optimize_justified est Hok v es st' Hv H) as [_ [kept [K1 [K2 [K3 K4]]]]].
  fold e s tot in K1, K2, K3, K4.
  apply K2 in Hqe as [Hqk _]. assert (Ho : In q (others s v)) by (eapply sublist_In; eassumption).
  pose proof (proj1 (others_In _ _ _) Ho) as [Hql Hqv].
  destruct (wf_lookup s q W Hql) as [_ [_ [_ [_ [Eq _]]]]]. destruct (wf_lookup s v W Hv) as [iv [_ [_ [Ev3 [Ev Ec]]]]].
  destruct (mat_get (st_matrix (cb_st est)) (idx_of s q) (idx_of s v)) as [[]|x] eqn:E0.
  2,3: left; intros K; specialize (K _ _ Eq Ev); congruence.
  assert (R : removable est q v) by (intros i j Hi Hj; fold e s in Hi, Hj |- *; congruence).
  destruct (stays_removable est Hok v Hv q es st' Hql R H) as [K|K]; [|right; exact K]. exfalso.
  set (sep' := filter (fun l => lmem l sep) kept).
  assert (SL : sublist sep' kept). { unfold sep'. clear. induction kept as [|x l IH]; cbn [filter]; [constructor|]. destruct (lmem x sep); constructor; exact IH. }
  assert (SM : forall z, In z sep' <-> In z sep).
  { intro z. unfold sep'. rewrite filter_In, lmem_In. split; [tauto|]. intro Hz. split; [|exact Hz]. apply (proj1 (K2 z v) (Hsep z Hz)). }
  assert (Hn : ~ In q sep') by (rewrite SM; exact Hq).
  apply (HA sep' SM); [|exact (K4 q _ _ Hqk Eq Ev K sep' SL Hn)].
  split; [exact Hv|]. split; [exact Hql|]. split.
  - assert (NK : NoDup kept) by (eapply sublist_NoDup; [exact K1|apply NoDup_filter'; apply W]).
    constructor; [|constructor; [exact Hn|apply NoDup_filter'; exact NK]]. intros [E|E]; [congruence|].
    apply (sublist_In _ _ _ SL) in E. apply (sublist_In _ _ _ K1) in E. apply others_In in E. tauto.
  - intros z Hz. apply (sublist_In _ _ _ SL) in Hz. apply (sublist_In _ _ _ K1) in Hz. apply others_In in Hz. tauto.
Qed.
End drop.

(** binary variables *)
Lemma accepted_estimate s t tot known thr tests est mp es est' v q sep :
  wf_structure s -> NoDup (nodes_indexes s) -> (forall i, In i (nodes_indexes s) -> i < tot) ->
  (forall x, In x (nodes_values s) -> x <= 2) ->
  new_cb_estimator s t tot known thr tests = Ok est -> ~ In q sep ->
  (forall sep', (forall z, In z sep' <-> In z sep) -> test_ok s v q sep' -> ~ test_answers (cb_e est) tot (st_matrix (cb_st est)) v q sep' false) ->
  cb_estimate_structure est mp = Ok (es, est') -> (forall z, In z sep -> In (z, v) es) -> In (q, v) es -> In (q, v) known.
Proof.
  intros Hwf Hn Hi HV Hnew Hq HA H Hz Hqe.
  destruct (new_estimator_ok s t tot known thr tests est Hwf Hn Hi Hnew) as [Hok [He [Ht [_ HG]]]].
  assert (E : e_struct (cb_e est) = s) by (rewrite He; reflexivity).
  destruct (estimate_char est Hok mp es est' H) as [_ [H2 [H3 _]]]. destruct (H3 q v Hqe) as [Hql [Hv _]].
  destruct (H2 v Hv) as [esv [stv [Ho [He' _]]]].
  change (nodes_labels (e_struct (cleaned est))) with (nodes_labels (e_struct (cb_e est))) in Hql, Hv.
  destruct (emem (q, v) known) eqn:EM; [apply emem_In, EM|exfalso].
  assert (Rm : removable est q v).
  { intros i j Ei Ej. rewrite E in Ei, Ej. pose proof Hql as A. pose proof Hv as B. rewrite E in A, B. rewrite (HG q v i j A B Ei Ej), EM. reflexivity. }
  destruct (accepted_dropped (cleaned_est est) (cleaned_ok est Hok) v q sep Hv Hq esv stv) as [K|[sep' [K1 K2]]].
  - intros sep' SM TO [cs [i [j [st1 [A1 [A2 [A3 A4]]]]]]]. cbn [cleaned_est cb_e cb_tot cb_st] in A1, A2, A3, A4. rewrite complete_test_cleaned in A4.
    apply (HA sep' SM); [rewrite <- E; exact TO|]. exists cs, i, j, st1. rewrite <- Ht. auto.
  - exact Ho.
  - intros z Hs. apply He', Hz, Hs.
  - apply He', Hqe.
  - exact (K Rm).
  - apply gives_up_cleaned in K2. apply (binary_never_gives_up est Hok v q sep' K1 Rm); [|exact K2].
    destruct (wf_lookup _ v (proj1 Hok) Hv) as [i [_ [_ [Q _]]]]. rewrite E in Q |- *. exact (HV _ (nth_error_In _ _ Q)).
Qed.

Section levels.
Variables (P P' : test_params) (s : structure) (t : trajectory) (tot k : nat) (known : list edge) (thr : Qc).
Hypothesis HQ : quantiles_ok P.
Hypothesis HQ' : quantiles_ok P'.
Hypothesis HL : lower_levels P P'.
Hypothesis Hwf : wf_structure s.
Hypothesis Hni : NoDup (nodes_indexes s).
Hypothesis Hii : forall i, In i (nodes_indexes s) -> i < tot.
Hypothesis Hd : data_ok s t.
Hypothesis HT : Forall (fun q => 0 <= q)%Qc (t_times t).
Hypothesis Htot : total_variables_number s = tot.
Hypothesis Hk : 0 < k <= 2.
Hypothesis HV : forall x, In x (nodes_values s) -> x = k.
Variables (est est1 : cb_estimator) (mp mp' : bool) (es es' : list edge) (est' est1' : cb_estimator).
Hypothesis H1 : new_cb_estimator s t tot known thr (the_tests P) = Ok est.
Hypothesis H2 : new_cb_estimator s t tot known thr (the_tests P') = Ok est1.
Hypothesis R1 : cb_estimate_structure est mp = Ok (es, est').
Hypothesis R2 : cb_estimate_structure est1 mp' = Ok (es', est1').

Lemma lower_drops v q sep : test_ok s v q sep -> test_answers (cb_e est) tot (st_matrix (cb_st est)) v q sep true ->
  (forall z, In z sep -> In (z, v) es') -> In (q, v) es' -> In (q, v) known.
Proof.
  intros Ht HA. pose proof Ht as [Hv [Hq [ND Hs]]].
  destruct (new_estimator_ok s t tot known thr _ est Hwf Hni Hii H1) as [_ [He [_ [_ HG]]]].
  destruct (new_estimator_ok s t tot known thr _ est1 Hwf Hni Hii H2) as [_ [He1 [_ [_ HG1]]]].
  apply (accepted_estimate s t tot known thr (the_tests P') est1 mp' es' est1' v q sep Hwf Hni Hii); try assumption.
  - intros x Hx. rewrite (HV x Hx). lia.
  - inversion ND as [|? ? _ ND']. inversion ND'. assumption.
  - intros sep' SM Ht' HF. destruct (wf_lookup s q Hwf Hq) as [_ [_ [_ [_ [Eq _]]]]]. destruct (wf_lookup s v Hwf Hv) as [_ [_ [_ [_ [Ev Ec]]]]].
    assert (TA : test_answers (cb_e est1) tot (st_matrix (cb_st est1)) v q sep' true).
    { rewrite He1. rewrite He in HA. apply (test_lower P P' s t tot k thr HQ HQ' HL Hwf Hd HT Htot) with (m := st_matrix (cb_st est)) (sep := sep) (i := idx_of s q) (j := idx_of s v); try assumption; try lia.
      - intros z. symmetry. apply SM.
      - eexists. exact (HG q v _ _ Hq Hv Eq Ev).
      - eexists. exact (HG1 q v _ _ Hq Hv Eq Ev). }
    destruct TA as [cs [i [j [st' [A1 [A2 [A3 A4]]]]]]]. destruct HF as [cs2 [i2 [j2 [st2 [B1 [B2 [B3 B4]]]]]]]. congruence.
Qed.
Lemma lower_adds v q : In (q, v) es' -> In (q, v) es
  \/ exists sep z, test_ok s v q sep /\ test_answers (cb_e est) tot (st_matrix (cb_st est)) v q sep true /\ In z sep /\ ~ In (z, v) es'.
Proof.
  intros H. destruct (in_dec (fun a b => edge_dec a b) (q, v) es) as [E|E]; [left; exact E|right].
  destruct (new_estimator_ok s t tot known thr _ est Hwf Hni Hii H1) as [Hok [He [Ht [_ HG]]]].
  destruct (new_estimator_ok s t tot known thr _ est1 Hwf Hni Hii H2) as [Hok1 [He1 _]].
  assert (Es : e_struct (cb_e est) = s) by (rewrite He; reflexivity).
  assert (Es1 : e_struct (cb_e est1) = s) by (rewrite He1; reflexivity).
  destruct (estimate_char est1 Hok1 mp' es' est1' R2) as [_ [_ [W _]]]. destruct (W q v H) as [Hql [Hv Hqv]]. rewrite Es1 in Hql, Hv. clear W.
  destruct (estimate_char est Hok mp es est' R1) as [_ [W _]]. destruct (W v) as [esv [stv [Ho [He' _]]]]; [rewrite Es; exact Hv|]. clear W.
  destruct (optimize_justified (cleaned_est est) (cleaned_ok est Hok) v esv stv) as [_ [kept [K1 [K2 [K3 _]]]]]; [change (In v (nodes_labels (e_struct (cb_e est)))); rewrite Es; exact Hv|exact Ho|].
  change (others (e_struct (cb_e (cleaned_est est))) v) with (others (e_struct (cb_e est)) v) in K1, K3. rewrite Es in K1, K3.
  destruct (K3 q) as [sep [S1 [S2 [cs [i [j [st1 [A1 [A2 [A3 A4]]]]]]]]]].
  { apply others_In. auto. } { intros Hk'. apply E, He', K2. auto. }
  cbn [cleaned_est cb_e cb_tot cb_st] in A1, A2, A3, A4. rewrite complete_test_cleaned in A4.
  assert (TO : test_ok s v q sep).
  { split; [exact Hv|]. split; [exact Hql|]. split.
    - constructor; [|constructor; [exact S2|]].
      + intros [F|F]; [congruence|]. apply (sublist_In _ _ _ S1) in F. apply others_In in F. tauto.
      + eapply sublist_NoDup; [exact S1|apply NoDup_filter'; apply Hwf].
    - intros z Hz. apply (sublist_In _ _ _ S1) in Hz. apply others_In in Hz. tauto. }
  assert (TA : test_answers (cb_e est) tot (st_matrix (cb_st est)) v q sep true) by (exists cs, i, j, st1; rewrite Es, <- Ht; rewrite <- Es; auto).
  destruct (forallb (fun z => emem (z, v) es') sep) eqn:EF.
  - exfalso. rewrite forallb_forall in EF. apply E. apply (known_edges_kept s t tot known thr (the_tests P) est mp es est'); try assumption.
    apply (lower_drops v q sep TO TA); [|exact H]. intros z Hz. apply emem_In, EF, Hz.
  - assert (EX : exists z, In z sep /\ emem (z, v) es' = false).
    { clear - EF. induction sep as [|z l IH]; [discriminate|]. cbn [forallb] in EF. apply andb_false_iff in EF as [EF|EF].
      - exists z. split; [left; reflexivity|exact EF].
      - destruct (IH EF) as [y [Hy K]]. exists y. split; [right; exact Hy|exact K]. }
    destruct EX as [z [Hz EZ]]. exists sep, z. split; [exact TO|]. split; [exact TA|]. split; [exact Hz|]. intros F. apply emem_In in F. congruence.
Qed.
Lemma two_variables : length (nodes_labels s) <= 2 -> incl es' es.
Proof.
  intros HN [q v] H. destruct (lower_adds v q H) as [K|[sep [z [[Hv [Hq [ND Hs]]] [_ [Hz _]]]]]]; [exact K|exfalso].
  assert (X : NoDup [v; q; z]).
  { inversion ND as [|? ? A B]. inversion B as [|? ? C D]. constructor; [intros [F|[F|[]]]; subst; cbn in *; tauto|]. constructor; [intros [F|[]]; subst; tauto|]. constructor; [intros []|constructor]. }
  pose proof (NoDup_incl_length X (l' := nodes_labels s)) as Y. cbn [length] in Y. assert (incl [v; q; z] (nodes_labels s)); [|specialize (Y H0); lia].
  intros l [<-|[<-|[<-|[]]]]; [exact Hv|exact Hq|apply Hs, Hz].
Qed.
End levels.
