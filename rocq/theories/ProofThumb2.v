(** The threshold of the sample-size rule of thumb: whole estimates (C94). *)
From Coq Require Import Reals.
From Verif Require Import Base Lib LibQc ModelStructure ModelGraph ModelCims ModelData ModelParams ModelCache ModelCtpc
  SpecStructure SpecGraph SpecComb SpecParams SpecData SpecCtpc SpecRecover SpecInvariance SpecConserve SpecAlgorithm SpecHistory
  ProofStructure ProofGraph ProofComb ProofParams ProofParams2 ProofParams3 ProofCache
  ProofCtpc ProofCtpc2 ProofCtpc3 ProofCtpc4 ProofCtpc5 ProofCtpc6 ProofCtpc7 ProofAlgorithm ProofAlgorithm2 ProofAlgorithm3
  ProofHistory ProofHistory2 ProofHistory3 ProofRecover ProofInvariance ProofLevels ProofFew3 ProofFew4 ProofCoding3 ProofThumb.
Close Scope R_scope. Open Scope nat_scope.

(** the algorithm depends on the answers about unprotected candidates only *)
Section ext.
Variables (ask ask' : label -> list label -> bool * bool) (U pr0 : list label).
Hypothesis HA : forall p S, In p U -> lmem p pr0 = false -> NoDup (p :: S) -> incl S U -> ask p S = ask' p S.
Lemma try_same p seps : In p U -> lmem p pr0 = false -> (forall S, In S seps -> NoDup (p :: S) /\ incl S U) -> try_all ask p seps = try_all ask' p seps.
Proof.
  intros Hp H0. induction seps as [|S seps IH]; intros HS; [reflexivity|]. cbn [try_all]. destruct (HS S (or_introl eq_refl)) as [A B]. rewrite (HA p S Hp H0 A B).
  rewrite IH by (intros; apply HS; right; assumption). reflexivity.
Qed.
Lemma round_same b : forall post pre pr, incl (pre ++ post) U -> NoDup (pre ++ post) -> incl pr0 pr ->
  one_round ask b pr pre post = one_round ask' b pr pre post /\ incl pr0 (snd (one_round ask b pr pre post)).
Proof.
  induction post as [|p post IH]; intros pre pr HU HN HP; cbn [one_round snd]; [split; [reflexivity|exact HP]|].
  assert (Hp : In p U) by (apply HU, in_app_iff; right; left; reflexivity).
  assert (K : incl (pre ++ post) U) by (intros x Hx; apply HU; apply in_app_iff in Hx; apply in_app_iff; destruct Hx; [left|right; right]; assumption).
  assert (K' : incl ((pre ++ [p]) ++ post) U) by (rewrite <- app_assoc; exact HU).
  assert (N' : NoDup ((pre ++ [p]) ++ post)) by (rewrite <- app_assoc; exact HN).
  pose proof (NoDup_remove_1 _ _ _ HN) as N1. pose proof (NoDup_remove_2 _ _ _ HN) as N2.
  destruct (lmem p pr) eqn:EP; [apply IH; assumption|].
  assert (E0 : lmem p pr0 = false) by (destruct (lmem p pr0) eqn:F; [apply lmem_In, HP, lmem_In in F; congruence|reflexivity]).
  rewrite (try_same p _ Hp E0).
  2:{ intros S HS. apply combinations_sub in HS. split; [constructor; [intros Q; apply N2, (sublist_In _ _ _ HS Q)|exact (sublist_NoDup _ _ HS N1)]|intros x Hx; apply K, (sublist_In _ _ _ HS Hx)]. }
  set (an := try_all ask' p _). assert (P' : incl pr0 (if snd an then p :: pr else pr)) by (destruct (snd an); [apply incl_tl, HP|exact HP]).
  destruct (fst an); apply IH; assumption.
Qed.
Lemma rounds_same : forall f b u pr, NoDup u -> incl u U -> incl pr0 pr -> rounds ask f b pr u = rounds ask' f b pr u.
Proof.
  induction f as [|f IH]; intros b u pr HN HU HP; [reflexivity|]. cbn [rounds]. destruct (b <? length u); [|reflexivity].
  destruct (round_same b u [] pr HU HN HP) as [E1 E2]. destruct (round_sub ask b u [] pr HN) as [A [B _]]. cbn [app] in B. rewrite <- E1.
  destruct (one_round ask b pr [] u) as [kept p1]. cbn [fst snd] in *. apply IH; [exact A|intros x Hx; apply HU, B, Hx|exact E2].
Qed.
End ext.

Section data.
Variables (s : structure) (t : trajectory) (tot k : nat) (known : list edge) (thr thr' : Qc) (tests : nat -> cim -> cim -> bool) (est est1 : cb_estimator).
Hypothesis Hwf : wf_structure s.
Hypothesis Hnd : NoDup (nodes_indexes s).
Hypothesis Hlt : forall i, In i (nodes_indexes s) -> i < tot.
Hypothesis Htot : total_variables_number s = tot.
Hypothesis Hd : data_ok s t.
Hypothesis Hk : 0 < k.
Hypothesis HU : forall x, In x (nodes_values s) -> x = k.
Hypothesis HN : new_cb_estimator s t tot known thr tests = Ok est.
Hypothesis HN1 : new_cb_estimator s t tot known thr' tests = Ok est1.
Hypothesis HT : (thr <= thr')%Qc.
Let e := MkEnv s t thr tests.
Let e1 := MkEnv s t thr' tests.
Notation ask := (the_ask e tot). Notation ask1 := (the_ask e1 tot).
Notation answers := (fun v p sep b => test_answers (cb_e est) (cb_tot est) (st_matrix (cb_st est)) v p sep b).
Notation answers1 := (fun v p sep b => test_answers (cb_e est1) (cb_tot est1) (st_matrix (cb_st est1)) v p sep b).

Lemma th_env : cb_e est = e /\ cb_tot est = tot /\ cb_e est1 = e1 /\ cb_tot est1 = tot.
Proof.
  destruct (new_estimator_ok s t tot known thr tests est Hwf Hnd Hlt HN) as [_ [A [B _]]].
  destruct (new_estimator_ok s t tot known thr' tests est1 Hwf Hnd Hlt HN1) as [_ [C [D _]]]. auto.
Qed.
Lemma th_faithful v p sep : test_ok s v p sep -> (forall b, answers v p sep b <-> b = fst (ask v k p sep)) /\ (~ In (p, v) known -> (gives_up est v p sep <-> snd (ask v k p sep) = true)).
Proof.
  intros Ht. destruct (ask_faithful s t tot k known thr tests est Hwf Hnd Hlt Htot Hd Hk HU HN v p sep Ht) as [A B]. destruct th_env as [E1 [E2 _]]. rewrite E1, E2. split; [exact A|exact B].
Qed.
Lemma th_faithful1 v p sep : test_ok s v p sep -> (forall b, answers1 v p sep b <-> b = fst (ask1 v k p sep)) /\ (~ In (p, v) known -> (gives_up est1 v p sep <-> snd (ask1 v k p sep) = true)).
Proof.
  intros Ht. destruct (ask_faithful s t tot k known thr' tests est1 Hwf Hnd Hlt Htot Hd Hk HU HN1 v p sep Ht) as [A B]. destruct th_env as [_ [_ [E1 E2]]]. rewrite E1, E2. split; [exact A|exact B].
Qed.
Lemma th_raise v p sep : test_ok s v p sep -> ask1 v k p sep = ask v k p sep \/ ask1 v k p sep = (false, true).
Proof.
  intros Ht. pose proof (ask_verdict s t tot k thr tests Hwf Htot Hd Hk HU v p sep Ht) as E. fold e in E. destruct (ask v k p sep) as [b mk] eqn:EA.
  unfold the_ask. destruct (verdict_raise s t thr thr' tests k HT tot v p sep b mk E) as [F|F]; unfold e1; rewrite F; auto.
Qed.
(** one test *)
Lemma th_test v p sep : test_ok s v p sep ->
  ((forall b, answers1 v p sep b <-> answers v p sep b) /\ (~ In (p, v) known -> (gives_up est1 v p sep <-> gives_up est v p sep)))
  \/ (answers1 v p sep false /\ (~ In (p, v) known -> gives_up est1 v p sep)).
Proof.
  intros Ht. destruct (th_faithful v p sep Ht) as [A B]. destruct (th_faithful1 v p sep Ht) as [A1 B1]. destruct (th_raise v p sep Ht) as [E|E].
  - left. split; [intros b; rewrite A1, A, E; tauto|intros Hn; rewrite (B1 Hn), (B Hn), E; tauto].
  - right. split; [apply A1; rewrite E; reflexivity|intros Hn; apply (B1 Hn); rewrite E; reflexivity].
Qed.
Lemma th_accepts v p sep : test_ok s v p sep -> answers1 v p sep true -> answers v p sep true.
Proof.
  intros Ht H. destruct (th_faithful v p sep Ht) as [A _]. destruct (th_faithful1 v p sep Ht) as [A1 _]. apply A1 in H. apply A.
  destruct (th_raise v p sep Ht) as [E|E]; rewrite E in H; [exact H|discriminate].
Qed.
Lemma th_gives_up v p sep : test_ok s v p sep -> ~ In (p, v) known -> gives_up est v p sep -> gives_up est1 v p sep.
Proof.
  intros Ht Hn H. destruct (th_faithful v p sep Ht) as [_ B]. destruct (th_faithful1 v p sep Ht) as [_ B1]. apply (B Hn) in H. apply (B1 Hn).
  destruct (th_raise v p sep Ht) as [E|E]; rewrite E; [exact H|reflexivity].
Qed.

Variables (mp mp1 : bool) (es es1 : list edge) (est' est1' : cb_estimator).
Hypothesis R0 : cb_estimate_structure est mp = Ok (es, est').
Hypothesis R1 : cb_estimate_structure est1 mp1 = Ok (es1, est1').

Lemma others_test v p sep : In v (nodes_labels s) -> In p (others s v) -> NoDup (p :: sep) -> incl sep (others s v) -> test_ok s v p sep.
Proof.
  intros Hv A1 A2 A3. apply others_In in A1 as [B1 B2]. split; [exact Hv|]. split; [exact B1|]. split.
  - constructor; [|exact A2]. intros [Q|Q]; [congruence|]. apply A3, others_In in Q. tauto.
  - intros q Hq. apply A3, others_In in Hq. tauto.
Qed.
(** if nothing gives up under the higher threshold, the lower one gives the same edges *)
Lemma th_same : (forall v p sep, test_ok s v p sep -> ~ In (p, v) known -> ~ gives_up est1 v p sep) -> forall a v, In (a, v) es <-> In (a, v) es1.
Proof.
  intros HQ a v.
  destruct (new_estimator_ok s t tot known thr tests est Hwf Hnd Hlt HN) as [Hok [Ee _]]. destruct (new_estimator_ok s t tot known thr' tests est1 Hwf Hnd Hlt HN1) as [Hok1 [Ee1 _]].
  assert (X : In v (nodes_labels s) -> (In (a, v) es <-> In (a, v) es1)).
  { intros Hv. rewrite (estimate_alg s t tot k known thr tests est Hwf Hnd Hlt Htot Hd Hk HU HN mp es est' v R0 Hv).
    rewrite (estimate_alg s t tot k known thr' tests est1 Hwf Hnd Hlt Htot Hd Hk HU HN1 mp1 es1 est1' v R1 Hv). unfold ctpc_parents. fold e e1.
    rewrite (rounds_same (ask v k) (ask1 v k) (others s v) (protected_of s known v)); [tauto| |apply NoDup_filter', Hwf|apply incl_refl|apply incl_refl].
    intros p S Hp E0 N I. pose proof (others_test v p S Hv Hp N I) as Ht.
    assert (Hnk : ~ In (p, v) known).
    { intros F. apply (Bool.eq_true_false_abs _ (proj2 (lmem_In p (protected_of s known v)) (proj2 (filter_In _ _ _) (conj Hp (proj2 (emem_In _ _) F)))) E0). }
    destruct (th_raise v p S Ht) as [E|E]; [symmetry; exact E|]. exfalso. destruct (th_faithful1 v p S Ht) as [_ B1].
    apply (HQ v p S Ht Hnk), (B1 Hnk). rewrite E. reflexivity. }
  split; intros H.
  - apply X; [|exact H]. destruct (estimate_char est Hok mp es est' R0) as [_ [_ [W _]]]. destruct (W a v H) as [_ [Hv _]]. rewrite Ee in Hv. exact Hv.
  - apply X; [|exact H]. destruct (estimate_char est1 Hok1 mp1 es1 est1' R1) as [_ [_ [W _]]]. destruct (W a v H) as [_ [Hv _]]. rewrite Ee1 in Hv. exact Hv.
Qed.
(** an edge lost by raising the threshold *)
Lemma th_lost q v : In (q, v) es -> ~ In (q, v) es1 ->
  exists sep, test_ok s v q sep /\ answers v q sep true /\ answers1 v q sep true
    /\ ((exists z, In z sep /\ ~ In (z, v) es) \/ (exists sep', test_ok s v q sep' /\ gives_up est v q sep' /\ gives_up est1 v q sep')).
Proof.
  intros H Hn1. destruct th_env as [E1 [E2 [E3 E4]]].
  destruct (new_estimator_ok s t tot known thr tests est Hwf Hnd Hlt HN) as [Hok [Ee [Et [_ HG]]]]. destruct (new_estimator_ok s t tot known thr' tests est1 Hwf Hnd Hlt HN1) as [Hok1 [Ee1 [Et1 _]]].
  assert (Es : e_struct (cb_e est) = s) by (rewrite Ee; reflexivity). assert (Es1 : e_struct (cb_e est1) = s) by (rewrite Ee1; reflexivity).
  destruct (estimate_char est Hok mp es est' R0) as [_ [H2 [H3 _]]]. destruct (H3 q v H) as [Hql [Hv Hqv]]. pose proof Hql as Hql'. pose proof Hv as Hv'. rewrite Es in Hql', Hv'.
  assert (Hnk : ~ In (q, v) known) by (intros F; apply Hn1; exact (known_edges_kept s t tot known thr' tests est1 mp1 es1 est1' q v Hwf Hnd Hlt HN1 R1 F Hqv)).
  (* what separated it under the higher threshold *)
  assert (SP : exists sep, test_ok s v q sep /\ answers1 v q sep true).
  { destruct (estimate_char est1 Hok1 mp1 es1 est1' R1) as [_ [W _]]. destruct (W v) as [esv [stv [Ho [He' _]]]]; [rewrite Es1; exact Hv'|].
    destruct (optimize_justified (cleaned_est est1) (cleaned_ok est1 Hok1) v esv stv) as [_ [kept [K1 [K2 [K3 _]]]]]; [change (In v (nodes_labels (e_struct (cb_e est1)))); rewrite Es1; exact Hv'|exact Ho|].
    change (others (e_struct (cb_e (cleaned_est est1))) v) with (others (e_struct (cb_e est1)) v) in K1, K3. rewrite Es1 in K1, K3.
    assert (Hqo : In q (others s v)) by (apply others_In; split; [exact Hql'|exact Hqv]).
    destruct (K3 q Hqo) as [sep [S1 [S2 TA]]].
    - intros F. apply Hn1, He', K2. auto.
    - exists sep. split.
      + apply others_test; [exact Hv'|exact Hqo| |intros x; apply (sublist_In _ _ _ S1)]. constructor; [exact S2|]. apply (sublist_NoDup _ _ S1), NoDup_filter', Hwf.
      + apply (test_answers_cleaned est1). exact TA. }
  destruct SP as [sep [Ht TA1]]. pose proof (th_accepts v q sep Ht TA1) as TA. exists sep. split; [exact Ht|]. split; [exact TA|]. split; [exact TA1|].
  destruct (forallb (fun z => emem (z, v) es) sep) eqn:EF.
  2:{ left. clear - EF. induction sep as [|z l IH]; [discriminate|]. cbn [forallb] in EF. apply andb_false_iff in EF as [EF|EF].
      - exists z. split; [left; reflexivity|]. intros F. apply emem_In in F. congruence.
      - destruct (IH EF) as [y [Hy K]]. exists y. split; [right; exact Hy|exact K]. }
  right. rewrite forallb_forall in EF.
  assert (Rm : removable est q v).
  { intros i j Ei Ej. rewrite Es in Ei, Ej. rewrite (HG q v i j Hql' Hv' Ei Ej). apply emem_false in Hnk. rewrite Hnk. reflexivity. }
  destruct (H2 v Hv) as [esv [stv [Ho [He' _]]]].
  destruct (accepted_dropped (cleaned_est est) (cleaned_ok est Hok) v q sep Hv) with (es := esv) (st' := stv) as [K|[sep' [K1 K2]]].
  - destruct Ht as [_ [_ [ND _]]]. inversion ND as [|? ? _ ND']. inversion ND'. assumption.
  - intros sep' SM TO TF. apply (test_answers_cleaned est) in TF.
    assert (Ht' : test_ok s v q sep') by (rewrite <- Es; exact TO).
    destruct (th_faithful v q sep' Ht') as [A' _]. destruct (th_faithful v q sep Ht) as [A _]. apply A in TA.
    assert (TF' : answers v q sep' false) by exact TF. apply A' in TF'.
    assert (EQ : ask v k q sep' = ask v k q sep) by (unfold the_ask; rewrite (verdict_sets e tot v q sep' sep k SM); reflexivity). rewrite EQ in TF'. congruence.
  - exact Ho.
  - intros z Hz. apply He'. apply emem_In, EF, Hz.
  - apply He', H.
  - destruct (K Rm).
  - apply gives_up_cleaned in K2. assert (Ht' : test_ok s v q sep') by (rewrite <- Es; exact K1). exists sep'. split; [exact Ht'|]. split; [exact K2|]. exact (th_gives_up v q sep' Ht' Hnk K2).
Qed.
Lemma th_two : length (nodes_labels s) <= 2 -> incl es es1.
Proof.
  intros H2 [q v] H. destruct (in_dec edge_dec (q, v) es1) as [E|E]; [exact E|exfalso].
  assert (SP : forall sep, test_ok s v q sep -> sep = []).
  { intros [|z sep] [Hv [Hq [ND Hs]]]; [reflexivity|exfalso]. assert (I : incl [v; q; z] (nodes_labels s)) by (intros x [<-|[<-|[<-|[]]]]; [exact Hv|exact Hq|apply Hs; left; reflexivity]).
    assert (N3 : NoDup [v; q; z]).
    { inversion ND as [|? ? A B]. inversion B as [|? ? C D]. constructor; [intros [F|[F|[]]]; apply A; [left|right; left]; congruence|]. constructor; [intros [F|[]]; apply C; left; congruence|]. constructor; [intros []|constructor]. }
    pose proof (NoDup_incl_length N3 I) as L. cbn [length] in L. lia. }
  destruct (th_lost q v H E) as [sep [Ht [TA [TA1 [[z [Hz _]]|[sep' [Ht' [G G1]]]]]]]]; rewrite (SP sep Ht) in *; [destruct Hz|].
  rewrite (SP sep' Ht') in *. destruct G as [cs [i [j [st' [A1 [A2 [A3 [A4 _]]]]]]]]. destruct TA as [cs2 [i2 [j2 [st2 [B1 [B2 [B3 B4]]]]]]]. congruence.
Qed.
End data.
