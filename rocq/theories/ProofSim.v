(** Score-based search: two runs whose scores are ordered alike take the same decisions. *)
From Verif Require Import Base Lib ModelStructure ModelGraph ModelCims ModelData ModelParams ModelCache ModelCtpc ModelSearch ModelEstimators
  SpecStructure SpecGraph SpecParams SpecCtpc SpecSearch SpecEstimators ProofStructure ProofGraph ProofParams ProofCtpc ProofCtpc2
  ProofSearch ProofSearch2 ProofSearch3 ProofEstimators2 ProofInvariance SpecUnit.

Section sim.
Variables (Sc Sc' : Type) (score : list cim -> result Sc) (score' : list cim -> result Sc') (gt : Sc -> Sc -> bool) (gt' : Sc' -> Sc' -> bool).
Variables (t t' : trajectory) (draws : nat -> nat) (s : structure) (v : label).
Variable rel : Sc -> Sc' -> Prop.
Hypothesis Hgt : forall a b a' b', rel a a' -> rel b b' -> gt a b = gt' a' b'.
Hypothesis Hwf : wf_structure s.
Hypothesis Hed : edges_list s = [].
Hypothesis Hv : In v (nodes_labels s).
Hypothesis HP : forall K, (forall l, In l K -> In l (nodes_labels s)) ->
  related rel (pscore Sc score t s v K) (pscore Sc' score' t' s v K).

Lemma score_sim g P : rep0 s v g P ->
  related (fun r r' => rel (fst r) (fst r') /\ snd r = snd r') (get_score_from_graph Sc score t g v) (get_score_from_graph Sc' score' t' g v).
Proof.
  intros R. destruct (rep_init t s v Hwf Hed Hv g P R) as [g1 [E1 [R1 F1]]]. destruct (rep_init t' s v Hwf Hed Hv g P R) as [g2 [E2 [R2 F2]]].
  assert (g2 = g1) by congruence. subst g2. unfold get_score_from_graph. rewrite E1. cbn [bind]. rewrite F1, F2.
  specialize (HP P (proj1 (proj2 (proj2 (proj2 R))))). unfold pscore, related in *.
  destruct (set_params s t _ v P) as [so|x], (set_params s t' _ v P) as [so'|x']; cbn [bind] in *; auto.
  - destruct (score _), (score' _); cbn [bind fst snd] in *; auto.
  - destruct (score _); cbn [bind] in *; auto; contradiction.
  - destruct (score' _); cbn [bind] in *; auto; contradiction.
Qed.
Variables (cands : list label) (mp pat : option nat).
Hypothesis Hcands : forall c, In c cands -> In c (nodes_labels s).

Lemma step_sim g P k c g1 added ev k1 best : rep s v g P -> In c (nodes_labels s) -> propose draws v mp g k c = Ok (g1, added, ev, k1) ->
  related (fun r r' => rel (fst r) (fst r') /\ snd r = snd r') (get_score_from_graph Sc score t g1 v) (get_score_from_graph Sc' score' t' g1 v)
  /\ forall sc g2, get_score_from_graph Sc score t g1 v = Ok (sc, g2) ->
       exists P', rep s v (if gt sc best then g2 else undo v g2 c added ev) P'.
Proof.
  intros R Hc Ep. pose proof (propose_spec draws s v Hv mp g P k c R Hc) as HS. rewrite Ep in HS. destruct HS as [Q [RQ _]].
  split; [exact (score_sim g1 Q (proj2 RQ))|]. intros sc g2 E.
  pose proof (iteration_spec Sc score gt t draws s v Hwf Hed Hv mp g P best k c g1 added ev k1 R Hc Ep) as HI. rewrite E in HI.
  cbn zeta in HI. destruct HI as [P' [R' _]]. exists P'. exact R'.
Qed.

Lemma hill_sim n : forall g P best best' c k, rep s v g P -> rel best best' ->
  related (fun r r' => fst r = fst r') (hill_loop Sc score gt t draws n v cands mp pat g best c k) (hill_loop Sc' score' gt' t' draws n v cands mp pat g best' c k).
Proof.
  induction n as [|n IH]; intros g P best best' c k R HR; [reflexivity|]. cbn [hill_loop].
  destruct (rand_choice draws k cands) as [cand|x] eqn:Ec; cbn [bind]; [|reflexivity]. apply choice_In in Ec.
  destruct (propose draws v mp g (S k) cand) as [[[[g1 added] ev] k1]|x] eqn:Ep; cbn [bind]; [|reflexivity].
  destruct (step_sim g P (S k) cand g1 added ev k1 best R (Hcands _ Ec) Ep) as [E1 E2].
  destruct (get_score_from_graph Sc score t g1 v) as [[sc g2]|x] eqn:Es, (get_score_from_graph Sc' score' t' g1 v) as [[sc' g2']|x'] eqn:Es'; try contradiction; cbn [bind]; [|exact E1].
  destruct E1 as [A B]. cbn [fst snd] in A, B. subst g2'. destruct (E2 sc g2 eq_refl) as [P' R']. rewrite <- (Hgt _ _ _ _ A HR).
  destruct (out_of_patience pat _); [reflexivity|].
  assert (HB : rel (if gt sc best then sc else best) (if gt sc best then sc' else best')) by (destruct (gt sc best); assumption).
  specialize (IH _ P' _ _ (if gt sc best then 0 else S c) k1 R' HB).
  destruct (hill_loop Sc score gt t draws n v cands mp pat _ _ _ k1) as [[h1 tr1]|y], (hill_loop Sc' score' gt' t' draws n v cands mp pat _ _ _ k1) as [[h2 tr2]|y'];
    try contradiction; cbn [bind related fst] in *; assumption.
Qed.
Lemma tabu_sim len dur n : forall g P best best' c k q ts tc, rep s v g P -> rel best best' -> tinv cands q ts -> length q <= len ->
  related (fun r r' => fst r = fst r') (tabu_loop Sc score gt t draws n v cands mp pat len dur g best c k q ts tc)
     (tabu_loop Sc' score' gt' t' draws n v cands mp pat len dur g best' c k q ts tc).
Proof.
  induction n as [|n IH]; intros g P best best' c k q ts tc R HR T HL; [reflexivity|]. cbn [tabu_loop].
  pose proof (tabu_pick_spec draws s cands Hcands len q ts k T) as HK.
  destruct (tabu_pick draws cands q ts k) as [[[[cand q1] s1] k0]|x]; cbn [bind]; [|reflexivity].
  destruct HK as [Hc1 [Hc2 [T1 [HA HB]]]].
  assert (L1 : length q1 <= len).
  { destruct (Forall_Exists_dec (fun y => In y q) (fun y => in_dec string_dec y q) cands) as [HF|HE].
    - rewrite Forall_forall in HF. rewrite (HB HF) in HL. simpl in HL. lia.
    - apply Exists_exists in HE as [y [K1 K2]]. destruct HA as [_ ->]; [exists y; auto|exact HL]. }
  destruct (propose draws v mp g k0 cand) as [[[[g1 added] ev] k1]|x] eqn:Ep; cbn [bind]; [|reflexivity].
  destruct (step_sim g P k0 cand g1 added ev k1 best R (Hcands _ Hc1) Ep) as [E1 E2].
  destruct (get_score_from_graph Sc score t g1 v) as [[sc g2]|x] eqn:Es, (get_score_from_graph Sc' score' t' g1 v) as [[sc' g2']|x'] eqn:Es'; try contradiction; cbn [bind]; [|exact E1].
  destruct E1 as [A B]. cbn [fst snd] in A, B. subst g2'. destruct (E2 sc g2 eq_refl) as [P' R']. rewrite <- (Hgt _ _ _ _ A HR).
  pose proof (tabu_update_spec draws cands len dur cand q1 s1 tc T1 Hc2 Hc1 L1) as HU.
  destruct (tabu_update len dur cand q1 s1 tc) as [[[q2 s2] tc2]|x]; cbn [bind]; [|reflexivity]. destruct HU as [T2 [L2 _]].
  destruct (out_of_patience pat _); [reflexivity|].
  assert (HB' : rel (if gt sc best then sc else best) (if gt sc best then sc' else best')) by (destruct (gt sc best); assumption).
  specialize (IH _ P' _ _ (if gt sc best then 0 else S c) k1 q2 s2 tc2 R' HB' T2 L2).
  destruct (tabu_loop Sc score gt t draws n v cands mp pat len dur _ _ _ k1 q2 s2 tc2) as [[h1 tr1]|y], (tabu_loop Sc' score' gt' t' draws n v cands mp pat len dur _ _ _ k1 q2 s2 tc2) as [[h2 tr2]|y'];
    try contradiction; cbn [bind related fst] in *; assumption.
Qed.
End sim.

Lemma sb_sim_search Sc Sc' score score' gt gt' s t t' (rel : Sc -> Sc' -> Prop) known m v draws p : search_ready s known m v ->
  (forall a b a' b', rel a a' -> rel b b' -> gt a b = gt' a' b') ->
  (forall K, (forall l, In l K -> In l (nodes_labels s)) -> related rel (pscore Sc score t s v K) (pscore Sc' score' t' s v K)) ->
  forall g, estimate_parents Sc score gt (MkSbEst s t m g) draws v p = estimate_parents Sc' score' gt' (MkSbEst s t' m g) draws v p.
Proof.
  intros Hok Hgt HP g. unfold estimate_parents. cbn [sb_struct sb_traj sb_matrix].
  destruct (start_spec s known m v Hok) as [g0 [P [ES [R HK]]]].
  pose proof Hok as [Hwf [_ [Hed [_ [_ Hv]]]]].
  assert (Hc : forall c, In c (candidate_parents s known v) -> In c (nodes_labels s)) by (intros c K; unfold candidate_parents in K; apply filter_In in K; tauto).
  assert (E : related (fun r r' => rel (fst r) (fst r') /\ snd r = snd r') (get_score_from_graph Sc score t g0 v) (get_score_from_graph Sc' score' t' g0 v)) by (eapply score_sim; eassumption).
  destruct (rep_init t s v Hwf Hed Hv g0 P R) as [g1 [E1 [R1 F1]]].
  destruct (String.eqb (sp_optimizer p) "tabu").
  - unfold tabu_search. rewrite ES. cbn [bind]. rewrite (cands_set s known m v Hok).
    destruct (get_score_from_graph Sc score t g0 v) as [[sc g1']|x] eqn:Eb, (get_score_from_graph Sc' score' t' g0 v) as [[sc' g1'']|x'] eqn:Eb'; try contradiction; cbn [bind]; [|f_equal; exact E].
    destruct E as [A B]. cbn [fst snd] in A, B. subst g1''.
    assert (g1' = g1) as -> by (unfold get_score_from_graph in Eb; rewrite E1 in Eb; cbn [bind] in Eb;
      apply bind_ok in Eb as [so [_ Eb]]; apply bind_ok in Eb as [sc0 [_ Eb]]; congruence).
    match goal with |- context [tabu_loop Sc _ _ _ _ ?n v ?cs ?mp ?pat ?len ?dur] =>
      pose proof (tabu_sim Sc Sc' score score' gt gt' t t' draws s v rel Hgt Hwf Hed Hv HP cs mp pat Hc len dur n g1 P sc sc' 0 0 [] [] 0 R1 A) as K end.
    match type of K with ?a -> ?b -> _ => assert (a) as K1 by (split; [constructor|split; [intros x; simpl; tauto|intros y []]]); assert b as K2 by (simpl; lia) end.
    specialize (K K1 K2). match type of K with related _ ?a ?b => destruct a as [[h tr]|x], b as [[h' tr']|x'] end; try contradiction; cbn [bind related fst] in *; congruence.
  - unfold hill_climbing. rewrite ES. cbn [bind].
    destruct (get_score_from_graph Sc score t g0 v) as [[sc g1']|x] eqn:Eb, (get_score_from_graph Sc' score' t' g0 v) as [[sc' g1'']|x'] eqn:Eb'; try contradiction; cbn [bind]; [|f_equal; exact E].
    destruct E as [A B]. cbn [fst snd] in A, B. subst g1''.
    assert (g1' = g1) as -> by (unfold get_score_from_graph in Eb; rewrite E1 in Eb; cbn [bind] in Eb;
      apply bind_ok in Eb as [so [_ Eb]]; apply bind_ok in Eb as [sc0 [_ Eb]]; congruence).
    match goal with |- context [hill_loop Sc _ _ _ _ ?n v ?cs ?mp ?pat] =>
      pose proof (hill_sim Sc Sc' score score' gt gt' t t' draws s v rel Hgt Hwf Hed Hv HP cs mp pat Hc n g1 P sc sc' 0 0 R1 A) as K end.
    match type of K with related _ ?a ?b => destruct a as [[h tr]|x], b as [[h' tr']|x'] end; try contradiction; cbn [bind related fst] in *; congruence.
Qed.

Lemma sb_sim Sc Sc' score score' gt gt' s t t' (rel : label -> Sc -> Sc' -> Prop) known m g draws p dm pn : sb_ready (MkSbEst s t m g) known ->
  (forall v a b a' b', rel v a a' -> rel v b b' -> gt a b = gt' a' b') ->
  (forall v K, In v (nodes_labels s) -> (forall l, In l K -> In l (nodes_labels s)) -> related (rel v) (pscore Sc score t s v K) (pscore Sc' score' t' s v K)) ->
  same_sb_outcome (sb_estimate_structure Sc score gt (MkSbEst s t m g) draws p dm pn) (sb_estimate_structure Sc' score' gt' (MkSbEst s t' m g) draws p dm pn).
Proof.
  intros Hr Hgt HP. unfold sb_estimate_structure. cbn [sb_struct sb_traj sb_matrix sb_graph].
  set (s0 := clean_structure_edges s).
  assert (E : forall v, In v (nodes_labels s0) -> estimate_parents Sc score gt (MkSbEst s0 t m g) (draws v) v p = estimate_parents Sc' score' gt' (MkSbEst s0 t' m g) (draws v) v p).
  { intros v Hv. apply (sb_sim_search Sc Sc' score score' gt gt' s0 t t' (rel v) known m v).
    - exact (sb_search_ready (MkSbEst s t m g) known v Hr Hv).
    - apply Hgt.
    - intros K HK. exact (HP v K Hv HK). }
  assert (EM : forall (h h' : label -> result (list edge)) l, (forall v, In v l -> h v = h' v) -> res_map h l = res_map h' l).
  { clear. induction l as [|v l IH]; intros Hl; [reflexivity|]. cbn [res_map]. rewrite (Hl v) by (left; reflexivity). rewrite IH by (intros; apply Hl; right; assumption). reflexivity. }
  assert (EB : forall (h h' : label -> bool) l, (forall v, In v l -> h v = h' v) -> existsb h l = existsb h' l).
  { clear. induction l as [|v l IH]; intros Hl; [reflexivity|]. cbn [existsb]. rewrite (Hl v) by (left; reflexivity). rewrite IH by (intros; apply Hl; right; assumption). reflexivity. }
  unfold pool_map.
  rewrite (EM (fun v => estimate_parents Sc score gt (MkSbEst s0 t m g) (draws v) v p) (fun v => estimate_parents Sc' score' gt' (MkSbEst s0 t' m g) (draws v) v p)) by exact E.
  rewrite (EB (fun v => match estimate_parents Sc score gt (MkSbEst s0 t m g) (draws v) v p with Err Blocked => true | _ => false end)
              (fun v => match estimate_parents Sc' score' gt' (MkSbEst s0 t' m g) (draws v) v p with Err Blocked => true | _ => false end))
    by (intros v Hv; rewrite (E v Hv); reflexivity).
  clear E EM EB. unfold same_sb_outcome.
  match goal with |- context [bind ?X _] => destruct X as [ess|x] end; cbn [bind]; auto.
Qed.
