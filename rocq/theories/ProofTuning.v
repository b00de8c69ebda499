(** Lemmas for C91. *)
From Verif Require Import Base Lib ModelStructure ModelGraph ModelCims ModelData ModelParams ModelCtpc ModelSearch
  SpecStructure SpecGraph SpecCtpc SpecSearch SpecTuning ProofStructure ProofGraph ProofSearch ProofSearch2 ProofSearch3.

Lemma improving_det {Sc} (gt : Sc -> Sc -> bool) b tr c : improving gt b tr c -> forall rest d, improving gt b (tr ++ rest) d -> improving gt c rest d.
Proof.
  induction 1 as [b|b e tr c A G H IH|b e tr c A G H IH]; intros rest d X; cbn [app] in X; [exact X| |]; inversion X; subst; try congruence; apply IH; assumption.
Qed.
Lemma bind_ext' {A B} (r : result A) (f h : A -> result B) : (forall a, f a = h a) -> bind r f = bind r h.
Proof. intros H. destruct r; cbn [bind]; auto. Qed.
Lemma patient_ok a b c : at_least_as_patient a b -> out_of_patience b c = true -> out_of_patience a c = true.
Proof. destruct a as [x|], b as [y|]; cbn; try discriminate; try tauto. intros H X. apply Nat.ltb_lt in X. apply Nat.ltb_lt. lia. Qed.

Section loops.
Variables (Sc : Type) (score : list cim -> result Sc) (gt : Sc -> Sc -> bool) (t : trajectory) (draws : nat -> nat).
Variables (v : label) (cands : list label).
Notation hloop := (hill_loop Sc score gt t draws).
Notation tloop := (tabu_loop Sc score gt t draws).
(** more iterations and more patience *)
Lemma hill_more mp a b : at_least_as_patient a b -> forall n n' g best c k g' tr', n <= n' -> hloop n' v cands mp b g best c k = Ok (g', tr') ->
  exists g1 tr1, hloop n v cands mp a g best c k = Ok (g1, tr1) /\ exists more, tr' = tr1 ++ more /\ (more = [] -> g' = g1).
Proof.
  intros HP.
  assert (Z : forall n' g best c k g', hloop n' v cands mp b g best c k = Ok (g', []) -> g' = g).
  { intros n' g best c k g' H. destruct n' as [|n']; cbn [hill_loop] in H; [congruence|].
    apply bind_ok in H as [cand [_ H]]. apply bind_ok in H as [[[[g1 added] ev] k1] [_ H]]. apply bind_ok in H as [[sc g2] [_ H]].
    destruct (out_of_patience _ _); [congruence|]. apply bind_ok in H as [[g4 tr4] [_ E]]. congruence. }
  induction n as [|n IH]; intros n' g best c k g' tr' Hn H.
  - exists g, []. split; [reflexivity|]. exists tr'. split; [reflexivity|]. intros ->. exact (Z _ _ _ _ _ _ H).
  - destruct n' as [|n']; [lia|]. cbn [hill_loop] in *. apply bind_ok in H as [cand [Ec H]]. apply bind_ok in H as [[[[g1 added] ev] k1] [Ep H]]. apply bind_ok in H as [[sc g2] [Es H]].
    rewrite Ec. cbn [bind]. rewrite Ep. cbn [bind]. rewrite Es. cbn [bind].
    destruct (out_of_patience b _) eqn:Eb.
    + rewrite (patient_ok a b _ HP Eb). injection H as <- <-. eexists _, _. split; [reflexivity|]. exists []. split; reflexivity.
    + apply bind_ok in H as [[g4 tr4] [H E]]. injection E as <- <-. destruct (out_of_patience a _) eqn:Ea.
      * eexists _, _. split; [reflexivity|]. exists tr4. split; [reflexivity|]. intros ->. exact (Z _ _ _ _ _ _ H).
      * destruct (IH n' _ _ _ _ _ _ ltac:(lia) H) as [g5 [tr5 [E5 [more [E1 E2]]]]]. rewrite E5. cbn [bind]. eexists _, _. split; [reflexivity|]. exists more. split; [cbn; congruence|exact E2].
Qed.
Lemma tabu_more mp a b len dur : at_least_as_patient a b -> forall n n' g best c k q ts tc g' tr', n <= n' -> tloop n' v cands mp b len dur g best c k q ts tc = Ok (g', tr') ->
  exists g1 tr1, tloop n v cands mp a len dur g best c k q ts tc = Ok (g1, tr1) /\ exists more, tr' = tr1 ++ more /\ (more = [] -> g' = g1).
Proof.
  intros HP.
  assert (Z : forall n' g best c k q ts tc g', tloop n' v cands mp b len dur g best c k q ts tc = Ok (g', []) -> g' = g).
  { intros n' g best c k q ts tc g' H. destruct n' as [|n']; cbn [tabu_loop] in H; [congruence|].
    apply bind_ok in H as [[[[cand q1] s1] k0] [_ H]]. apply bind_ok in H as [[[[g1 added] ev] k1] [_ H]]. apply bind_ok in H as [[sc g2] [_ H]]. apply bind_ok in H as [[[q2 s2] tc2] [_ H]].
    destruct (out_of_patience _ _); [congruence|]. apply bind_ok in H as [[g4 tr4] [_ E]]. congruence. }
  induction n as [|n IH]; intros n' g best c k q ts tc g' tr' Hn H.
  - exists g, []. split; [reflexivity|]. exists tr'. split; [reflexivity|]. intros ->. exact (Z _ _ _ _ _ _ _ _ _ H).
  - destruct n' as [|n']; [lia|]. cbn [tabu_loop] in *. apply bind_ok in H as [[[[cand q1] s1] k0] [Ec H]]. apply bind_ok in H as [[[[g1 added] ev] k1] [Ep H]]. apply bind_ok in H as [[sc g2] [Es H]]. apply bind_ok in H as [[[q2 s2] tc2] [Eu H]].
    rewrite Ec. cbn [bind]. rewrite Ep. cbn [bind]. rewrite Es. cbn [bind]. rewrite Eu. cbn [bind].
    destruct (out_of_patience b _) eqn:Eb.
    + rewrite (patient_ok a b _ HP Eb). injection H as <- <-. eexists _, _. split; [reflexivity|]. exists []. split; reflexivity.
    + apply bind_ok in H as [[g4 tr4] [H E]]. injection E as <- <-. destruct (out_of_patience a _) eqn:Ea.
      * eexists _, _. split; [reflexivity|]. exists tr4. split; [reflexivity|]. intros ->. exact (Z _ _ _ _ _ _ _ _ _ H).
      * destruct (IH n' _ _ _ _ _ _ _ _ _ ltac:(lia) H) as [g5 [tr5 [E5 [more [E1 E2]]]]]. rewrite E5. cbn [bind]. eexists _, _. split; [reflexivity|]. exists more. split; [cbn; congruence|exact E2].
Qed.
(** patience that cannot run out *)
Lemma hill_patience mp p : forall n g best c k, c + n <= p -> hloop n v cands mp (Some p) g best c k = hloop n v cands mp None g best c k.
Proof.
  induction n as [|n IH]; intros g best c k Hp; [reflexivity|]. cbn [hill_loop]. apply bind_ext'; intros cand. apply bind_ext'; intros [[[g1 added] ev] k1]. apply bind_ext'; intros [sc g2].
  replace (out_of_patience (Some p) _) with false by (symmetry; cbn [out_of_patience]; apply Nat.ltb_ge; destruct (gt sc best); lia). cbn [out_of_patience].
  rewrite IH by (destruct (gt sc best); lia). reflexivity.
Qed.
Lemma tabu_patience mp p len dur : forall n g best c k q ts tc, c + n <= p ->
  tloop n v cands mp (Some p) len dur g best c k q ts tc = tloop n v cands mp None len dur g best c k q ts tc.
Proof.
  induction n as [|n IH]; intros g best c k q ts tc Hp; [reflexivity|]. cbn [tabu_loop]. apply bind_ext'; intros [[[cand q1] s1] k0]. apply bind_ext'; intros [[[g1 added] ev] k1]. apply bind_ext'; intros [sc g2].
  apply bind_ext'; intros [[q2 s2] tc2].
  replace (out_of_patience (Some p) _) with false by (symmetry; cbn [out_of_patience]; apply Nat.ltb_ge; destruct (gt sc best); lia). cbn [out_of_patience].
  rewrite IH by (destruct (gt sc best); lia). reflexivity.
Qed.
End loops.

Section limits.
Variables (Sc : Type) (score : list cim -> result Sc) (gt : Sc -> Sc -> bool) (t : trajectory) (draws : nat -> nat).
Variables (s : structure) (v : label).
Hypothesis Hwf : wf_structure s.
Hypothesis Hed : edges_list s = [].
Hypothesis Hv : In v (nodes_labels s).
Variables (cands known : list label).
Hypothesis Hcands : forall c, In c cands -> In c (nodes_labels s).
Variable k : nat.
(** every parent set met is made of known parents and candidates, so a limit [k] which is not below their number never matters *)
Hypothesis Hk : length known + length cands <= k.
Notation inside P := (forall x, In x P -> In x known \/ In x cands).
Notation rp := (rep s v).
Lemma room_enough P c : NoDup P -> inside P -> In c cands -> ~ In c P -> length P < k.
Proof.
  intros N I C NC. assert (L : length (c :: P) <= length (known ++ cands)).
  { apply NoDup_incl_length; [constructor; assumption|]. intros x [<-|Hx]; apply in_app_iff; [right; exact C|destruct (I x Hx); tauto]. }
  rewrite app_length in L. cbn [length] in L. lia.
Qed.
Lemma propose_limit g P j c : rp g P -> inside P -> In c cands -> propose draws v (Some k) g j c = propose draws v None g j c.
Proof.
  intros Rg I C. unfold propose. rewrite (rep_has_edge s v g P c (proj2 Rg)). destruct (lmem c P) eqn:Ec; [reflexivity|]. apply lmem_false in Ec.
  destruct (rep_parents s v Hv g P Rg) as [ps [E [N [S L]]]]. rewrite E. cbn [bind].
  assert (X : length P < k) by (apply (room_enough P c); [apply Rg|exact I|exact C|exact Ec]). replace (k <=? length ps) with false by (symmetry; apply Nat.leb_gt; lia). reflexivity.
Qed.
Lemma inside_next P c Q : inside P -> In c cands -> neighbour None P c Q -> inside Q.
Proof.
  intros I C [[_ H]|[[_ [_ H]]|[_ [X _]]]] x Hx; [apply I; apply H in Hx; tauto| |destruct X; exact Logic.I]. apply H in Hx as [Hx| ->]; [apply I, Hx|right; exact C].
Qed.
Lemma hill_limit pat : forall n g P best c j, rp g P -> inside P ->
  hill_loop Sc score gt t draws n v cands (Some k) pat g best c j = hill_loop Sc score gt t draws n v cands None pat g best c j.
Proof.
  induction n as [|n IH]; intros g P best c j Rg I; [reflexivity|]. cbn [hill_loop].
  destruct (rand_choice draws j cands) as [cand|x] eqn:Ec; cbn [bind]; [|reflexivity]. apply choice_In in Ec.
  rewrite (propose_limit g P (S j) cand Rg I Ec). destruct (propose draws v None g (S j) cand) as [[[[g1 added] ev] k1]|x] eqn:Ep; cbn [bind]; [|reflexivity].
  pose proof (iteration_spec Sc score gt t draws s v Hwf Hed Hv None g P best (S j) cand g1 added ev k1 Rg (Hcands _ Ec) Ep) as HI.
  destruct (get_score_from_graph Sc score t g1 v) as [[sc g2]|x]; cbn [bind]; [|reflexivity]. cbn zeta in HI. destruct HI as [P' [R' [Q [HN [_ [_ [_ [_ [_ [_ [_ HS]]]]]]]]]]].
  cbn [sl_candidate sl_accepted] in HN, HS. destruct (out_of_patience pat _); [reflexivity|]. rewrite (IH _ P' _ _ _ R'); [reflexivity|].
  intros x Hx. apply HS in Hx. destruct (gt sc best); [apply (inside_next P cand Q I Ec HN), Hx|apply I, Hx].
Qed.
Lemma queue_short q ts c : tinv cands q ts -> In c cands -> ~ In c q -> length q < length cands.
Proof.
  intros [N [_ I]] C NC. assert (L : length (c :: q) <= length cands) by (apply NoDup_incl_length; [constructor; assumption|intros x [<-|Hx]; [exact C|apply I, Hx]]). cbn [length] in L. lia.
Qed.
(** neither the limit of parents nor a tabu list that is long enough for all candidates matters *)
Lemma tabu_limit mp mp' pat len len' dur : (mp = mp' \/ mp = Some k /\ mp' = None) ->
  (len = len' \/ length cands <= len /\ length cands <= len') ->
  forall n g P best c j q ts tc, rp g P -> (mp' = None -> inside P) -> tinv cands q ts -> length q <= len ->
  tabu_loop Sc score gt t draws n v cands mp pat len dur g best c j q ts tc = tabu_loop Sc score gt t draws n v cands mp' pat len' dur g best c j q ts tc.
Proof.
  intros HM HLn. induction n as [|n IH]; intros g P best c j q ts tc Rg I T HQ; [reflexivity|]. cbn [tabu_loop].
  pose proof (tabu_pick_spec draws s cands Hcands len q ts j T) as HK.
  destruct (tabu_pick draws cands q ts j) as [[[[cand q1] s1] k0]|x] eqn:Ec; cbn [bind]; [|reflexivity]. destruct HK as [Hc1 [Hc2 [T1 [HA HB]]]].
  assert (EP : propose draws v mp g k0 cand = propose draws v mp' g k0 cand).
  { destruct HM as [->|[-> ->]]; [reflexivity|]. apply (propose_limit g P k0 cand Rg (I eq_refl) Hc1). }
  rewrite EP. destruct (propose draws v mp' g k0 cand) as [[[[g1 added] ev] k1]|x] eqn:Ep; cbn [bind]; [|reflexivity].
  pose proof (iteration_spec Sc score gt t draws s v Hwf Hed Hv mp' g P best k0 cand g1 added ev k1 Rg (Hcands _ Hc1) Ep) as HI.
  destruct (get_score_from_graph Sc score t g1 v) as [[sc g2]|x]; cbn [bind]; [|reflexivity]. cbn zeta in HI. destruct HI as [P' [R' [Q [HN [_ [_ [_ [_ [_ [_ [_ HS]]]]]]]]]]].
  cbn [sl_candidate sl_accepted] in HN, HS.
  assert (L1 : length q1 <= len).
  { destruct (Forall_Exists_dec (fun y => In y q) (fun y => in_dec string_dec y q) cands) as [HF|HE].
    - rewrite Forall_forall in HF. rewrite (HB HF) in HQ. simpl in HQ. lia.
    - apply Exists_exists in HE as [y [K1 K2]]. destruct HA as [_ ->]; [exists y; auto|exact HQ]. }
  pose proof (queue_short q1 s1 cand T1 Hc1 Hc2) as QS.
  assert (EU : tabu_update len dur cand q1 s1 tc = tabu_update len' dur cand q1 s1 tc).
  { destruct HLn as [->|[A B]]; [reflexivity|]. unfold tabu_update. replace (len <=? length q1) with false by (symmetry; apply Nat.leb_gt; lia). replace (len' <=? length q1) with false by (symmetry; apply Nat.leb_gt; lia). reflexivity. }
  pose proof (tabu_update_spec draws cands len dur cand q1 s1 tc T1 Hc2 Hc1 L1) as HU. rewrite EU in HU |- *.
  destruct (tabu_update len' dur cand q1 s1 tc) as [[[q2 s2] tc2]|x]; cbn [bind]; [|reflexivity]. destruct HU as [T2 [L2 _]].
  destruct (out_of_patience pat _); [reflexivity|]. rewrite (IH _ P' _ _ _ _ _ _ R'); [reflexivity| |exact T2|exact L2].
  intros -> x Hx. apply HS in Hx. destruct (gt sc best); [apply (inside_next P cand Q (I eq_refl) Hc1 HN), Hx|apply I; [reflexivity|exact Hx]].
Qed.
End limits.
