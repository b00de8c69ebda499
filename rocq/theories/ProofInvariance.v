(** The estimators depend on the data only through the sufficient statistics (C64, C65). *)
From Verif Require Import Base Lib LibQc ModelStructure ModelGraph ModelCims ModelData ModelParams ModelCache ModelCtpc ModelSearch ModelEstimators
  SpecStructure SpecGraph SpecComb SpecParams SpecData SpecCtpc SpecSearch SpecEstimators SpecInvariance
  ProofStructure ProofGraph ProofComb ProofParams ProofParams2 ProofParams3 ProofData ProofData2 ProofData3
  ProofCtpc ProofCtpc2 ProofCtpc3 ProofCtpc4 ProofCtpc5 ProofCtpc6 ProofCtpc7 ProofSearch ProofSearch2 ProofSearch3 ProofEstimators ProofEstimators2.

(** ** the constraint-based estimator *)
Section cb.
Variables (s : structure) (t t' : trajectory) (tot : nat) (thr : Qc) (tests : nat -> cim -> cim -> bool).
Hypothesis Hwf : wf_structure s.
Hypothesis HP : forall v K, In v (nodes_labels s) -> (forall l, In l K -> In l (nodes_labels s)) -> set_params s t tot v K = set_params s t' tot v K.
Let e := MkEnv s t thr tests.
Let e' := MkEnv s t' thr tests.

Lemma ideal_same v m p S cs i j : test_ok s v p S -> ideal_test e tot v m p S cs i j = ideal_test e' tot v m p S cs i j.
Proof.
  intros [H1 [H2 [H3 H4]]]. unfold ideal_test. cbn [e e' e_struct e_traj].
  rewrite (HP v (p :: S) H1) by (intros l [<-|K]; auto). rewrite (HP v S H1) by auto.
  destruct (set_params s t' tot v (p :: S)) as [so2|x]; cbn [bind]; [|reflexivity].
  destruct (set_params s t' tot v S) as [so1|x]; cbn [bind]; [|reflexivity].
  destruct (thumb_of s cs p S) as [th|x]; cbn [bind]; [|reflexivity].
  set (l := combine _ _). generalize (MkState m empty_cache). clear HP. induction l as [|[c1 pc] l IH]; intros st; [reflexivity|]. cbn [test_configs].
  destruct (filter_cims_with_mask so2 (filter_of s p S) pc) as [cs2|x]; cbn [bind]; [|reflexivity].
  assert (K : forall st, test_cims e st cs c1 cs2 th i j = test_cims e' st cs c1 cs2 th i j).
  { clear. induction cs2 as [|c2 r IH]; intros st; [reflexivity|]. cbn [test_cims].
    change (independence_test e' st cs c1 c2 th i j) with (independence_test e st cs c1 c2 th i j).
    destruct (independence_test e st cs c1 c2 th i j) as [[b st']|x]; cbn [bind]; [|reflexivity]. destruct b; [apply IH|reflexivity]. }
  rewrite K. destruct (test_cims e' st cs c1 cs2 th i j) as [[b st']|x]; cbn [bind]; [|reflexivity]. destruct b; [apply IH|reflexivity].
Qed.
Lemma optimize_same v m : In v (nodes_labels s) ->
  optimize_structure e tot (MkState m empty_cache) v = optimize_structure e' tot (MkState m empty_cache) v.
Proof.
  intros Hv. rewrite !optimize_ideal by assumption. f_equal. cbn [e e' e_struct].
  match goal with |- optimize_with s v ?gm ?c1 m = optimize_with s v _ ?c2 m =>
    pose proof (optimize_rel s v gm gm c1 c2 eq Hwf Hv) as H end.
  specialize (H (fun a b p E _ => f_equal (fun m => mat_get m (idx_of s p) (idx_of s v)) E)).
  match type of H with ?A -> _ => assert (X : A) end.
  { intros a b p ps cs <- Ht Hr. cbn beta. rewrite <- (ideal_same v a p ps cs _ _ Ht). split.
    - unfold same_result. destruct (ideal_test _ _ _ _ _ _ _ _ _) as [[b1 m1]|y]; auto.
    - intros r a' K. exact (ideal_get e tot v a p ps cs r a' _ K Hr). }
  specialize (H X m m eq_refl). unfold same_result in H.
  match goal with |- ?A = ?B => destruct A as [[es1 m1]|x1], B as [[es2 m2]|x2] end; try contradiction; [|congruence].
  destruct H as [-> ->]. reflexivity.
Qed.
Lemma optimize_cleared m v es st : optimize_structure e tot (MkState m empty_cache) v = Ok (es, st) -> exists m', st = MkState m' empty_cache.
Proof. unfold optimize_structure. intros H. apply bind_ok in H as [[es1 st1] [_ H]]. injection H as _ <-. eexists. reflexivity. Qed.
Lemma sequential_same ns : (forall v, In v ns -> In v (nodes_labels s)) -> forall m,
  sequential_run e tot (MkState m empty_cache) ns = sequential_run e' tot (MkState m empty_cache) ns.
Proof.
  induction ns as [|v ns IH]; intros Hns m; [reflexivity|]. cbn [sequential_run]. rewrite <- (optimize_same v m (Hns v (or_introl eq_refl))).
  destruct (optimize_structure e tot (MkState m empty_cache) v) as [[es st]|x] eqn:E; cbn [bind]; [|reflexivity].
  destruct (optimize_cleared m v es st E) as [m' ->]. rewrite IH by (intros; apply Hns; right; assumption). reflexivity.
Qed.
Lemma pool_same ns : (forall v, In v ns -> In v (nodes_labels s)) -> forall m,
  pool_run e tot (MkState m empty_cache) ns = pool_run e' tot (MkState m empty_cache) ns.
Proof.
  intros Hns m.
  assert (K : forall f f' : label -> result (list edge), (forall v, In v ns -> f v = f' v) -> res_map f ns = res_map f' ns).
  { clear. induction ns as [|v ns IH]; intros f f' Hf; [reflexivity|]. cbn [res_map]. rewrite (Hf v) by (left; reflexivity).
    rewrite (IH f f') by (intros; apply Hf; right; assumption). reflexivity. }
  unfold pool_run.
  rewrite (K (fun n => let* (es, _) := optimize_structure e tot (MkState m empty_cache) n in Ok es)
             (fun n => let* (es, _) := optimize_structure e' tot (MkState m empty_cache) n in Ok es)); [reflexivity|].
  intros v Hv. rewrite (optimize_same v m (Hns v Hv)). reflexivity.
Qed.
End cb.

Lemma set_params_clean s t tot v K : set_params (clean_structure_edges s) t tot v K = set_params s t tot v K.
Proof. reflexivity. Qed.

Lemma cb_same s t t' tot m thr tests g mode : wf_structure s ->
  (forall v K, In v (nodes_labels s) -> (forall l, In l K -> In l (nodes_labels s)) -> set_params s t tot v K = set_params s t' tot v K) ->
  same_edges (cb_estimate_structure (MkCbEst (MkEnv s t thr tests) tot (MkState m empty_cache) g) mode)
             (cb_estimate_structure (MkCbEst (MkEnv s t' thr tests) tot (MkState m empty_cache) g) mode).
Proof.
  intros Hwf HP. unfold cb_estimate_structure. cbn [cb_e cb_tot cb_st e_struct e_traj e_threshold e_tests].
  set (s0 := clean_structure_edges s).
  assert (Hwf0 : wf_structure s0) by exact Hwf.
  assert (HP0 : forall v K, In v (nodes_labels s0) -> (forall l, In l K -> In l (nodes_labels s0)) -> set_params s0 t tot v K = set_params s0 t' tot v K).
  { intros v K H1 H2. unfold s0. rewrite !set_params_clean. apply HP; assumption. }
  assert (E : (if mode then sequential_run (MkEnv s0 t thr tests) tot (MkState m empty_cache) (nodes_labels s0)
               else pool_run (MkEnv s0 t thr tests) tot (MkState m empty_cache) (nodes_labels s0))
            = (if mode then sequential_run (MkEnv s0 t' thr tests) tot (MkState m empty_cache) (nodes_labels s0)
               else pool_run (MkEnv s0 t' thr tests) tot (MkState m empty_cache) (nodes_labels s0))).
  { destruct mode; [apply sequential_same|apply pool_same]; auto. }
  rewrite E. clear E. unfold same_edges. destruct (if mode then _ else _) as [[ess st1]|x]; cbn [bind]; reflexivity.
Qed.

(** ** the score-based estimator *)
Section sb.
Variables (Sc : Type) (score : list cim -> result Sc) (gt : Sc -> Sc -> bool) (t t' : trajectory) (draws : nat -> nat).
Variables (s : structure) (v : label).
Hypothesis Hwf : wf_structure s.
Hypothesis Hed : edges_list s = [].
Hypothesis Hv : In v (nodes_labels s).
Hypothesis HP : forall K, (forall l, In l K -> In l (nodes_labels s)) ->
  set_params s t (total_variables_number s) v K = set_params s t' (total_variables_number s) v K.

Lemma score_same g P : rep0 s v g P -> get_score_from_graph Sc score t g v = get_score_from_graph Sc score t' g v.
Proof.
  intros R. destruct (rep_init t s v Hwf Hed Hv g P R) as [g1 [E1 [R1 F1]]]. destruct (rep_init t' s v Hwf Hed Hv g P R) as [g2 [E2 [R2 F2]]].
  assert (g2 = g1) by congruence. subst g2. unfold get_score_from_graph. rewrite E1. cbn [bind]. rewrite F1, F2, HP by apply R. reflexivity.
Qed.
Variables (cands : list label) (mp pat : option nat).
Hypothesis Hcands : forall c, In c cands -> In c (nodes_labels s).

Lemma step_same g P k c g1 added ev k1 best : rep s v g P -> In c (nodes_labels s) -> propose draws v mp g k c = Ok (g1, added, ev, k1) ->
  get_score_from_graph Sc score t g1 v = get_score_from_graph Sc score t' g1 v
  /\ forall sc g2, get_score_from_graph Sc score t' g1 v = Ok (sc, g2) ->
       exists P', rep s v (if gt sc best then g2 else undo v g2 c added ev) P'.
Proof.
  intros R Hc Ep. pose proof (propose_spec draws s v Hv mp g P k c R Hc) as HS. rewrite Ep in HS. destruct HS as [Q [RQ _]].
  split; [exact (score_same g1 Q (proj2 RQ))|]. intros sc g2 E.
  pose proof (iteration_spec Sc score gt t' draws s v Hwf Hed Hv mp g P best k c g1 added ev k1 R Hc Ep) as HI. rewrite E in HI.
  cbn zeta in HI. destruct HI as [P' [R' _]]. exists P'. exact R'.
Qed.

Lemma hill_same n : forall g P best c k, rep s v g P ->
  hill_loop Sc score gt t draws n v cands mp pat g best c k = hill_loop Sc score gt t' draws n v cands mp pat g best c k.
Proof.
  induction n as [|n IH]; intros g P best c k R; [reflexivity|]. cbn [hill_loop].
  destruct (rand_choice draws k cands) as [cand|x] eqn:Ec; cbn [bind]; [|reflexivity]. apply choice_In in Ec.
  destruct (propose draws v mp g (S k) cand) as [[[[g1 added] ev] k1]|x] eqn:Ep; cbn [bind]; [|reflexivity].
  destruct (step_same g P (S k) cand g1 added ev k1 best R (Hcands _ Ec) Ep) as [E1 E2]. rewrite E1.
  destruct (get_score_from_graph Sc score t' g1 v) as [[sc g2]|x] eqn:Es; cbn [bind]; [|reflexivity].
  destruct (E2 sc g2 eq_refl) as [P' R']. destruct (out_of_patience pat _); [reflexivity|].
  rewrite (IH _ P' _ _ _ R'). reflexivity.
Qed.
Lemma tabu_same len dur n : forall g P best c k q ts tc, rep s v g P -> tinv cands q ts -> length q <= len ->
  tabu_loop Sc score gt t draws n v cands mp pat len dur g best c k q ts tc
  = tabu_loop Sc score gt t' draws n v cands mp pat len dur g best c k q ts tc.
Proof.
  induction n as [|n IH]; intros g P best c k q ts tc R T HL; [reflexivity|]. cbn [tabu_loop].
  pose proof (tabu_pick_spec draws s cands Hcands len q ts k T) as HK.
  destruct (tabu_pick draws cands q ts k) as [[[[cand q1] s1] k0]|x]; cbn [bind]; [|reflexivity].
  destruct HK as [Hc1 [Hc2 [T1 [HA HB]]]].
  assert (L1 : length q1 <= len).
  { destruct (Forall_Exists_dec (fun y => In y q) (fun y => in_dec string_dec y q) cands) as [HF|HE].
    - rewrite Forall_forall in HF. rewrite (HB HF) in HL. simpl in HL. lia.
    - apply Exists_exists in HE as [y [K1 K2]]. destruct HA as [_ ->]; [exists y; auto|exact HL]. }
  destruct (propose draws v mp g k0 cand) as [[[[g1 added] ev] k1]|x] eqn:Ep; cbn [bind]; [|reflexivity].
  destruct (step_same g P k0 cand g1 added ev k1 best R (Hcands _ Hc1) Ep) as [E1 E2]. rewrite E1.
  destruct (get_score_from_graph Sc score t' g1 v) as [[sc g2]|x] eqn:Es; cbn [bind]; [|reflexivity].
  destruct (E2 sc g2 eq_refl) as [P' R'].
  pose proof (tabu_update_spec draws cands len dur cand q1 s1 tc T1 Hc2 Hc1 L1) as HU.
  destruct (tabu_update len dur cand q1 s1 tc) as [[[q2 s2] tc2]|x]; cbn [bind]; [|reflexivity]. destruct HU as [T2 [L2 _]].
  destruct (out_of_patience pat _); [reflexivity|]. rewrite (IH _ P' _ _ _ _ _ _ R' T2 L2). reflexivity.
Qed.
End sb.

Lemma sb_same_search Sc score gt s t t' known m v draws p : search_ready s known m v ->
  (forall K, (forall l, In l K -> In l (nodes_labels s)) -> set_params s t (total_variables_number s) v K = set_params s t' (total_variables_number s) v K) ->
  forall g, estimate_parents Sc score gt (MkSbEst s t m g) draws v p = estimate_parents Sc score gt (MkSbEst s t' m g) draws v p.
Proof.
  intros Hok HP g. unfold estimate_parents. cbn [sb_struct sb_traj sb_matrix].
  destruct (start_spec s known m v Hok) as [g0 [P [ES [R HK]]]].
  pose proof Hok as [Hwf [_ [Hed [_ [_ Hv]]]]].
  assert (Hc : forall c, In c (candidate_parents s known v) -> In c (nodes_labels s)) by (intros c K; unfold candidate_parents in K; apply filter_In in K; tauto).
  assert (E : get_score_from_graph Sc score t g0 v = get_score_from_graph Sc score t' g0 v) by (eapply score_same; eassumption).
  destruct (rep_init t' s v Hwf Hed Hv g0 P R) as [g1 [E1 [R1 F1]]].
  destruct (String.eqb (sp_optimizer p) "tabu").
  - unfold tabu_search. rewrite ES. cbn [bind]. rewrite E.
    destruct (get_score_from_graph Sc score t' g0 v) as [[sc g1']|x] eqn:Eb; cbn [bind]; [|reflexivity].
    assert (g1' = g1) as -> by (unfold get_score_from_graph in Eb; rewrite E1 in Eb; cbn [bind] in Eb;
      apply bind_ok in Eb as [so [_ Eb]]; apply bind_ok in Eb as [sc' [_ Eb]]; congruence). rewrite (cands_set s known m v Hok).
    erewrite (tabu_same Sc score gt t t' draws s v Hwf Hed Hv HP (candidate_parents s known v)); [reflexivity|exact Hc|exact R1| |simpl; lia].
    split; [constructor|split; [intros x; simpl; tauto|intros y []]].
  - unfold hill_climbing. rewrite ES. cbn [bind]. rewrite E.
    destruct (get_score_from_graph Sc score t' g0 v) as [[sc g1']|x] eqn:Eb; cbn [bind]; [|reflexivity].
    assert (g1' = g1) as -> by (unfold get_score_from_graph in Eb; rewrite E1 in Eb; cbn [bind] in Eb;
      apply bind_ok in Eb as [so [_ Eb]]; apply bind_ok in Eb as [sc' [_ Eb]]; congruence).
    erewrite (hill_same Sc score gt t t' draws s v Hwf Hed Hv HP (candidate_parents s known v)); [reflexivity|exact Hc|exact R1].
Qed.

Lemma sb_same Sc score gt s t t' known m g draws p dm pn : sb_ready (MkSbEst s t m g) known ->
  (forall v K, In v (nodes_labels s) -> (forall l, In l K -> In l (nodes_labels s)) ->
     set_params s t (total_variables_number s) v K = set_params s t' (total_variables_number s) v K) ->
  match sb_estimate_structure Sc score gt (MkSbEst s t m g) draws p dm pn, sb_estimate_structure Sc score gt (MkSbEst s t' m g) draws p dm pn with
  | Ok (es, pr, _), Ok (es', pr', _) => es = es' /\ pr = pr'
  | Err x, Err y => x = y
  | _, _ => False
  end.
Proof.
  intros Hr HP. unfold sb_estimate_structure. cbn [sb_struct sb_traj sb_matrix sb_graph].
  set (s0 := clean_structure_edges s).
  assert (E : forall v, In v (nodes_labels s0) -> estimate_parents Sc score gt (MkSbEst s0 t m g) (draws v) v p = estimate_parents Sc score gt (MkSbEst s0 t' m g) (draws v) v p).
  { intros v Hv. apply (sb_same_search Sc score gt s0 t t' known m v).
    - exact (sb_search_ready (MkSbEst s t m g) known v Hr Hv).
    - intros K HK. unfold s0. rewrite !set_params_clean. apply HP; assumption. }
  assert (EM : forall (h h' : label -> result (list edge)) l, (forall v, In v l -> h v = h' v) -> res_map h l = res_map h' l).
  { clear. induction l as [|v l IH]; intros Hl; [reflexivity|]. cbn [res_map]. rewrite (Hl v) by (left; reflexivity). rewrite IH by (intros; apply Hl; right; assumption). reflexivity. }
  assert (EB : forall (h h' : label -> bool) l, (forall v, In v l -> h v = h' v) -> existsb h l = existsb h' l).
  { clear. induction l as [|v l IH]; intros Hl; [reflexivity|]. cbn [existsb]. rewrite (Hl v) by (left; reflexivity). rewrite IH by (intros; apply Hl; right; assumption). reflexivity. }
  unfold pool_map.
  rewrite (EM (fun v => estimate_parents Sc score gt (MkSbEst s0 t m g) (draws v) v p) (fun v => estimate_parents Sc score gt (MkSbEst s0 t' m g) (draws v) v p)) by exact E.
  rewrite (EB (fun v => match estimate_parents Sc score gt (MkSbEst s0 t m g) (draws v) v p with Err Blocked => true | _ => false end)
              (fun v => match estimate_parents Sc score gt (MkSbEst s0 t' m g) (draws v) v p with Err Blocked => true | _ => false end))
    by (intros v Hv; rewrite (E v Hv); reflexivity).
  clear E EM EB.
  match goal with |- context [bind ?X _] => destruct X as [ess|x] end; cbn [bind]; auto.
Qed.

(** ** raw trajectories *)
Lemma steps_cons o o' r : steps (o :: o' :: r) = (o, o') :: steps (o' :: r).
Proof. reflexivity. Qed.
Lemma steps_cut a o b : steps (a ++ o :: b) = steps (a ++ [o]) ++ steps (o :: b).
Proof.
  induction a as [|x a IH]; [reflexivity|]. destruct a as [|y a].
  - cbn [app]. rewrite !steps_cons. reflexivity.
  - cbn [app] in IH |- *. rewrite !steps_cons, IH. reflexivity.
Qed.
Lemma steps_map (f : Qc * list Z -> Qc * list Z) r : steps (map f r) = map (fun ab => (f (fst ab), f (snd ab))) (steps r).
Proof. unfold steps. revert f. induction r as [|o r IH]; intros f; [reflexivity|]. destruct r as [|o' r]; [reflexivity|]. cbn [map tl combine fst snd]. f_equal. apply IH. Qed.

Definition dwell1 cols vals (r : raw) : Qc := Qcsum (map (fun ab => (fst (snd ab) - fst (fst ab))%Qc) (filter (fun ab => row_shows (snd (fst ab)) cols vals) (steps r))).
Definition jumps1 ni x' cols vals (r : raw) : Z := Z.of_nat (length (filter (fun ab => row_shows (snd (fst ab)) cols vals && row_shows (snd (snd ab)) [ni] [x']) (steps r))).
Lemma raw_dwell_cons cols vals r rs : raw_dwell (r :: rs) cols vals = (dwell1 cols vals r + raw_dwell rs cols vals)%Qc.
Proof. reflexivity. Qed.
Lemma raw_jumps_cons ni x' cols vals r rs : raw_jumps (r :: rs) ni x' cols vals = (jumps1 ni x' cols vals r + raw_jumps rs ni x' cols vals)%Z.
Proof. reflexivity. Qed.

Lemma dwell1_cut cols vals a o b : dwell1 cols vals (a ++ o :: b) = (dwell1 cols vals (a ++ [o]) + dwell1 cols vals (o :: b))%Qc.
Proof. unfold dwell1. rewrite steps_cut, filter_app, map_app, Qcsum_app. reflexivity. Qed.
Lemma jumps1_cut ni x' cols vals a o b : jumps1 ni x' cols vals (a ++ o :: b) = (jumps1 ni x' cols vals (a ++ [o]) + jumps1 ni x' cols vals (o :: b))%Z.
Proof. unfold jumps1. rewrite steps_cut, filter_app, app_length, Nat2Z.inj_add. reflexivity. Qed.
Lemma row_shows_two row ni pis x u x' : x <> x' -> row_shows row (ni :: pis) (x :: u) = true -> row_shows row [ni] [x'] = true -> False.
Proof.
  unfold row_shows. cbn [combine forallb fst snd]. intros Hx H1 H2. apply andb_true_iff in H1 as [H1 _]. apply andb_true_iff in H2 as [H2 _].
  destruct (nth_error row ni) as [z|]; [|discriminate]. apply Z.eqb_eq in H1, H2. lia.
Qed.

Lemma same_obs_dwell rs rs' : same_observations rs rs' -> forall cols vals, raw_dwell rs cols vals = raw_dwell rs' cols vals.
Proof.
  induction 1 as [rs|rs rs' H IH|rs rs' rs'' H1 IH1 H2 IH2|rs rs' H|d r rs|a o b rs|a t t' x o b rs]; intros cols vals; auto.
  - rewrite IH1. apply IH2.
  - unfold raw_dwell. apply Qcsum_perm, Permutation_map, H.
  - rewrite !raw_dwell_cons. f_equal. unfold dwell1. rewrite steps_map. induction (steps r) as [|ab l IH]; [reflexivity|].
    cbn [map filter fst snd]. destruct (row_shows (snd (fst ab)) cols vals); cbn [map]; [|exact IH]. rewrite !Qcsum_cons, <- IH. cbn [fst snd]. f_equal. ring.
  - rewrite !raw_dwell_cons, dwell1_cut. ring.
  - rewrite !raw_dwell_cons. f_equal. rewrite (dwell1_cut _ _ a (t, x) (o :: b)), (dwell1_cut _ _ a (t, x) ((t', x) :: o :: b)). f_equal. unfold dwell1. rewrite !steps_cons. cbn [filter fst snd].
    destruct (row_shows x cols vals); cbn [map fst snd]; [|reflexivity]. rewrite !Qcsum_cons. ring.
Qed.
Lemma same_obs_jumps rs rs' : same_observations rs rs' -> forall ni pis u x x', x <> x' ->
  raw_jumps rs ni x' (ni :: pis) (x :: u) = raw_jumps rs' ni x' (ni :: pis) (x :: u).
Proof.
  induction 1 as [rs|rs rs' H IH|rs rs' rs'' H1 IH1 H2 IH2|rs rs' H|d r rs|a o b rs|a t t' y o b rs]; intros ni pis u x x' Hx; auto.
  - symmetry. apply IH, Hx.
  - rewrite IH1 by exact Hx. apply IH2, Hx.
  - unfold raw_jumps. set (f := fun r : raw => _). clearbody f. clear Hx. induction H; cbn [map Zsum fold_right]; unfold Zsum in *; cbn [map fold_right]; lia.
  - rewrite !raw_jumps_cons. f_equal. unfold jumps1. f_equal. rewrite steps_map. induction (steps r) as [|ab l IH]; [reflexivity|].
    cbn [map filter fst snd]. destruct (row_shows (snd (fst ab)) (ni :: pis) (x :: u) && row_shows (snd (snd ab)) [ni] [x']); cbn [length]; rewrite IH; reflexivity.
  - rewrite !raw_jumps_cons, jumps1_cut. lia.
  - rewrite !raw_jumps_cons. f_equal. rewrite (jumps1_cut _ _ _ _ a (t, y) (o :: b)), (jumps1_cut _ _ _ _ a (t, y) ((t', y) :: o :: b)). f_equal. unfold jumps1. rewrite !steps_cons. cbn [filter fst snd].
    destruct (row_shows y (ni :: pis) (x :: u)) eqn:E1; cbn [andb]; [|reflexivity].
    destruct (row_shows y [ni] [x']) eqn:E2; [|destruct (row_shows (snd o) [ni] [x']); reflexivity]. exfalso. exact (row_shows_two y ni pis x u x' Hx E1 E2).
Qed.

Lemma raw_ok_alt cards r : raw_ok cards r <->
  (forall o, In o r -> length (snd o) = length cards)
  /\ (forall ab, In ab (steps r) -> Forall2 (fun z c => (0 <= z < Z.of_nat c)%Z) (snd (fst ab)) cards
                               /\ Forall2 (fun z c => (z < Z.of_nat c)%Z) (snd (snd ab)) cards).
Proof. unfold raw_ok. tauto. Qed.
Lemma raw_ok_cut cards a o b : raw_ok cards (a ++ o :: b) <-> raw_ok cards (a ++ [o]) /\ raw_ok cards (o :: b).
Proof.
  rewrite !raw_ok_alt, steps_cut. split.
  - intros [H1 H2]. split; (split; [intros y Hy; apply H1, in_app_iff; rewrite ?in_app_iff in Hy; cbn in *; tauto|intros ab Hab; apply H2, in_app_iff; tauto]).
  - intros [[H1 H2] [H3 H4]]. split.
    + intros y Hy. apply in_app_iff in Hy as [Hy|Hy]; [apply H1, in_app_iff; tauto|apply H3, Hy].
    + intros ab Hab. apply in_app_iff in Hab as [Hab|Hab]; auto.
Qed.
Lemma raw_ok_pair cards o o' b : raw_ok cards (o :: o' :: b) <->
  length (snd o) = length cards /\ Forall2 (fun z c => (0 <= z < Z.of_nat c)%Z) (snd o) cards /\ Forall2 (fun z c => (z < Z.of_nat c)%Z) (snd o') cards
  /\ raw_ok cards (o' :: b).
Proof.
  rewrite !raw_ok_alt, steps_cons. split.
  - intros [H1 H2]. destruct (H2 (o, o') (or_introl eq_refl)) as [A B]. cbn [fst snd] in A, B.
    split; [apply H1; left; reflexivity|]. split; [exact A|]. split; [exact B|]. split; [intros y Hy; apply H1; right; exact Hy|intros ab Hab; apply H2; right; exact Hab].
  - intros [H1 [H2 [H3 [H4 H5]]]]. split; [intros y [<-|Hy]; auto|]. intros ab [<-|Hab]; [split; assumption|auto].
Qed.
Lemma range_weak z cards : Forall2 (fun z c => (0 <= z < Z.of_nat c)%Z) z cards -> Forall2 (fun z c => (z < Z.of_nat c)%Z) z cards.
Proof. induction 1; constructor; [lia|assumption]. Qed.

Lemma same_obs_legal rs rs' : same_observations rs rs' -> forall vars cards, legal_input vars cards rs <-> legal_input vars cards rs'.
Proof.
  assert (X : forall vars cards rs rs', (Forall (raw_ok cards) rs <-> Forall (raw_ok cards) rs') ->
     ((exists r, In r rs /\ 2 <= length r) <-> (exists r, In r rs' /\ 2 <= length r)) -> (legal_input vars cards rs <-> legal_input vars cards rs')).
  { intros. unfold legal_input. tauto. }
  assert (Y : forall (P : raw -> Prop) r rs, (exists x, In x (r :: rs) /\ P x) <-> P r \/ exists x, In x rs /\ P x).
  { intros P r rs0. split; [intros [x [[<-|K] K']]; eauto|intros [K|[x [K K']]]; [exists r|exists x]; cbn; auto]. }
  induction 1 as [rs|rs rs' H IH|rs rs' rs'' H1 IH1 H2 IH2|rs rs' H|d r rs|a o b rs|a t t' x o b rs]; intros vars cards.
  - tauto.
  - symmetry. apply IH.
  - rewrite IH1. apply IH2.
  - apply X.
    + rewrite !Forall_forall. split; intros K x Hx; apply K; [apply (Permutation_in x (Permutation_sym H)), Hx|apply (Permutation_in x H), Hx].
    + split; intros [r [K1 K2]]; exists r; (split; [|exact K2]); [apply (Permutation_in r H), K1|apply (Permutation_in r (Permutation_sym H)), K1].
  - apply X; [rewrite !Forall_cons_iff|rewrite !Y, map_length; tauto].
    apply and_iff_compat_r. unfold raw_ok. rewrite steps_map. split; intros [K1 K2].
    + split; [|intros y Hy; apply in_map_iff in Hy as [w [<- Hw]]; exact (K2 w Hw)].
      intros ab Hab. apply in_map_iff in Hab as [w [<- Hw]]. exact (K1 w Hw).
    + split; [|intros y Hy; change (length (snd (fst y + d, snd y)%Qc) = length cards); apply K2; apply (in_map (fun o => (fst o + d, snd o)%Qc)), Hy].
      intros ab Hab. apply (K1 ((fst (fst ab) + d, snd (fst ab)), (fst (snd ab) + d, snd (snd ab)))%Qc).
      apply (in_map (fun ab0 : Qc * list Z * (Qc * list Z) => ((fst (fst ab0) + d, snd (fst ab0)), (fst (snd ab0) + d, snd (snd ab0)))%Qc)), Hab.
  - apply X; [rewrite !Forall_cons_iff, raw_ok_cut; tauto|]. rewrite !Y, !app_length. cbn [length]. 
    assert (Z : 2 <= length a + S (length b) <-> 2 <= length a + 1 \/ 2 <= S (length b)) by lia. rewrite Z. tauto.
  - apply X.
    + rewrite !Forall_cons_iff. apply and_iff_compat_r. rewrite (raw_ok_cut _ a (t, x) (o :: b)), (raw_ok_cut _ a (t, x) ((t', x) :: o :: b)).
      rewrite !raw_ok_pair. cbn [fst snd]. pose proof (range_weak x cards). tauto.
    + rewrite !Y, !app_length. cbn [length]. apply or_iff_compat_r. lia.
Qed.

(** ** what the import chain delivers *)
Definition struct_of (vars : list label) (cards : list nat) (prior : option (list edge)) : structure :=
  MkStructure vars (seq 0 (length vars)) cards (match prior with None => [] | Some es => es end) (length vars).
Definition traj_of (vars : list label) (rs : list raw) : trajectory :=
  MkTrajectory (raw_times rs) (raw_rows rs) (length vars + length vars) (length vars + 1).
Lemma imports_det vars cards prior rs s t : legal_input vars cards rs -> imports_to vars cards prior rs s t ->
  s = struct_of vars cards prior /\ t = traj_of vars rs.
Proof.
  intros [H1 [H2 [H3 [H4 H5]]]] [im [sp [sp1 [sp2 [P1 [P2 [P3 [P4 [P5 P6]]]]]]]]].
  destruct (pipeline vars cards prior rs H1 H2 H3 H4 H5) as [jm [tp [tp1 [tp2 [Q1 [Q2 [Q3 [Q4 [Q5 [Q6 _]]]]]]]]]].
  rewrite Q1 in P1. injection P1 as <-. rewrite Q2 in P2. injection P2 as <-. rewrite Q3 in P3. injection P3 as <-. rewrite Q4 in P4. injection P4 as <-.
  rewrite Q5 in P5. rewrite Q6 in P6. injection P5 as <-. injection P6 as <-. split; reflexivity.
Qed.
Lemma imports_exists vars cards prior rs : legal_input vars cards rs -> imports_to vars cards prior rs (struct_of vars cards prior) (traj_of vars rs).
Proof.
  intros [H1 [H2 [H3 [H4 H5]]]]. destruct (pipeline vars cards prior rs H1 H2 H3 H4 H5) as [jm [tp [tp1 [tp2 [Q1 [Q2 [Q3 [Q4 [Q5 [Q6 _]]]]]]]]]].
  exists jm, tp, tp1, tp2. auto 10.
Qed.
Lemma legal_data vars cards prior rs : legal_input vars cards rs -> data_ok (struct_of vars cards prior) (traj_of vars rs).
Proof.
  intros [H1 [H2 [H3 [H4 H5]]]]. destruct (pipeline vars cards prior rs H1 H2 H3 H4 H5) as [jm [tp [tp1 [tp2 [_ [_ [_ [_ [_ [_ Q]]]]]]]]]]. apply Q.
Qed.
Lemma legal_wf vars cards prior rs : legal_input vars cards rs -> wf_structure (struct_of vars cards prior).
Proof.
  intros [H1 [H2 [H3 _]]]. split; [|split; cbn [nodes_labels nodes_indexes nodes_values struct_of]; [apply seq_length|exact H3]].
  cbn [nodes_labels struct_of]. apply (NoDup_app_l vars (shifted_names vars)). unfold good_header in H1. inversion H1; assumption.
Qed.
Lemma legal_len vars cards rs : legal_input vars cards rs -> forall ab, In ab (flat_map steps rs) -> length (snd (fst ab)) = length vars.
Proof.
  intros [_ [_ [Hc [Hok _]]]] ab Hab. apply in_flat_map in Hab as [r [Hr Hab]]. rewrite Forall_forall in Hok. destruct (Hok r Hr) as [Hst _]. destruct (Hst ab Hab) as [F1 _].
  apply Forall2_length in F1. lia.
Qed.
Lemma struct_of_indx vars cards prior l i : structure_get_node_indx (struct_of vars cards prior) l = Ok i -> i < length vars.
Proof.
  intros Hl. unfold structure_get_node_indx in Hl; cbn [nodes_labels nodes_indexes struct_of] in Hl. apply bind_ok in Hl as [p [A B]].
  apply nth_res_ok in B. rewrite nth_error_seq' in B. destruct (Nat.ltb_spec p (length vars)); [injection B as <-; assumption|discriminate].
Qed.

Definition raw_cim (rs : list raw) (ni : nat) (pis : list nat) (c : nat) (u : list nat) : cim :=
  compute_cim_coefficients (new_cim (map (fun x => raw_dwell rs (ni :: pis) (x :: u)) (seq 0 c))
    (map (fun x => map (fun x' => if x' =? x
                               then Zsum (map (fun y => if y =? x then 0%Z else raw_jumps rs ni y (ni :: pis) (x :: u)) (seq 0 c))
                               else raw_jumps rs ni x' (ni :: pis) (x :: u)) (seq 0 c)) (seq 0 c))).

Lemma raw_cim_exact vars cards rs ni pis c u : legal_input vars cards rs -> Forall (fun i => i < length vars) (ni :: pis) ->
  exact_cim (traj_of vars rs) (length vars) ni pis c u = raw_cim rs ni pis c u.
Proof.
  intros HL HF. pose proof (legal_len vars cards rs HL) as Hlen. unfold exact_cim, raw_cim. f_equal. f_equal.
  - unfold exact_times. apply map_ext. intros x. apply (raw_dwell_eq rs _ _ (length vars)); assumption.
  - unfold exact_counts. apply map_ext. intros x.
    assert (J : forall y, jumps (traj_of vars rs) (length vars) ni pis u x y = raw_jumps rs ni y (ni :: pis) (x :: u)).
    { intros y. unfold jumps. apply (raw_jumps_eq rs ni y (ni :: pis) (x :: u) (length vars)); assumption. }
    apply map_ext. intros x'. rewrite J. destruct (x' =? x); [|reflexivity]. f_equal. apply map_ext. intros y. rewrite J. reflexivity.
Qed.
Lemma raw_cim_same rs rs' ni pis c u : same_observations rs rs' -> raw_cim rs ni pis c u = raw_cim rs' ni pis c u.
Proof.
  intros H. unfold raw_cim. f_equal. f_equal.
  - apply map_ext. intros x. apply same_obs_dwell, H.
  - apply map_ext. intros x.
    assert (J : forall y, y <> x -> raw_jumps rs ni y (ni :: pis) (x :: u) = raw_jumps rs' ni y (ni :: pis) (x :: u)) by (intros y Hy; apply same_obs_jumps; [exact H|congruence]).
    apply map_ext. intros x'. destruct (Nat.eqb_spec x' x) as [E|E]; [|apply J, E]. f_equal. apply map_ext. intros y.
    destruct (Nat.eqb_spec y x) as [E'|E']; [reflexivity|apply J, E'].
Qed.

Lemma raw_params vars cards prior rs es v c ni pis ps : legal_input vars cards rs ->
  let s := struct_of vars cards prior in
  edges_within vars es -> edges_within vars (edges_list s) ->
  node_view s (es ++ edges_list s) v c ni pis ps -> 0 < c -> compat c ps ->
  exists g, ng_fast_init (fresh_graph s es) v = Ok g
   /\ compute_parameters_for_node (traj_of vars rs) g v
      = Ok (MkSetOfCims (build_p_comb_structure_for_a_node ps) (map (raw_cim rs ni pis c) (le_enum ps))).
Proof.
  intros HL s He Hp V Hc Hcp.
  destruct (fresh_params s (traj_of vars rs) es v c ni pis ps (legal_wf _ _ _ _ HL) (legal_data _ _ _ _ HL) He Hp V Hc Hcp) as [g [G1 G2]].
  exists g. split; [exact G1|]. rewrite G2. do 2 f_equal. apply map_ext. intros u. cbn [total_variables_number s struct_of].
  apply (raw_cim_exact vars cards); [exact HL|]. destruct V as [_ [V2 [V3 _]]]. constructor; [eapply struct_of_indx, V2|].
  clear - V3. induction V3; constructor; [eapply struct_of_indx; eassumption|assumption].
Qed.

Lemma raw_set_params vars cards prior rs k v K : legal_input vars cards rs -> 0 < k -> (forall c, In c cards -> c = k) ->
  let s := struct_of vars cards prior in
  In v vars -> (forall l, In l K -> In l vars) ->
  set_params s (traj_of vars rs) (length vars) v K
  = Ok (MkSetOfCims (build_p_comb_structure_for_a_node (map (val_of s) (parents_in s K)))
         (map (raw_cim rs (idx_of s v) (map (idx_of s) (parents_in s K)) (val_of s v)) (le_enum (map (val_of s) (parents_in s K))))).
Proof.
  intros HL Hk Hu s Hv HK. pose proof (legal_wf vars cards prior rs HL) as Hwf. fold s in Hwf.
  assert (HV : forall l, In l vars -> val_of s l = k).
  { intros l Hl. destruct (wf_lookup s l Hwf Hl) as [q [_ [_ [W2 _]]]]. apply Hu. exact (nth_error_In _ _ W2). }
  assert (HI : forall l, In l vars -> idx_of s l < length vars).
  { intros l Hl. destruct (wf_lookup s l Hwf Hl) as [q [_ [_ [_ [W1 _]]]]]. eapply struct_of_indx. exact W1. }
  assert (HPin : forall l, In l (parents_in s K) -> In l vars) by (intros l Hl; unfold parents_in in Hl; apply filter_In in Hl; apply Hl).
  rewrite (set_params_exact s (traj_of vars rs) (length vars) v K Hwf (legal_data _ _ _ _ HL) eq_refl Hv).
  - do 2 f_equal. apply map_ext. intros u. apply (raw_cim_exact vars cards _ _ _ _ u HL). constructor; [apply HI, Hv|].
    apply Forall_forall. intros i Hi. apply in_map_iff in Hi as [l [<- Hl]]. apply HI, HPin, Hl.
  - rewrite HV by exact Hv. exact Hk.
  - intros c Hc _. apply in_map_iff in Hc as [l [<- Hl]]. rewrite !HV; auto.
  - exact HK.
Qed.

(** ** additivity, time units *)
Lemma raw_dwell_app rs1 rs2 cols vals : raw_dwell (rs1 ++ rs2) cols vals = (raw_dwell rs1 cols vals + raw_dwell rs2 cols vals)%Qc.
Proof. unfold raw_dwell. rewrite map_app, Qcsum_app. reflexivity. Qed.
Lemma raw_jumps_app rs1 rs2 ni x' cols vals : raw_jumps (rs1 ++ rs2) ni x' cols vals = (raw_jumps rs1 ni x' cols vals + raw_jumps rs2 ni x' cols vals)%Z.
Proof. unfold raw_jumps. rewrite map_app. induction (map _ rs1) as [|a l IH]; cbn [app Zsum fold_right]; [reflexivity|]. unfold Zsum in *. cbn [fold_right]. rewrite IH. lia. Qed.
Lemma Zsum_add {A} (f g h : A -> Z) l : (forall x, h x = (f x + g x)%Z) -> Zsum (map h l) = (Zsum (map f l) + Zsum (map g l))%Z.
Proof. intros H. induction l as [|x l IH]; [reflexivity|]. unfold Zsum in *. cbn [map fold_right]. rewrite IH, H. lia. Qed.

Lemma raw_cim_adds rs1 rs2 ni pis c u : adds_up (raw_cim rs1 ni pis c u) (raw_cim rs2 ni pis c u) (raw_cim (rs1 ++ rs2) ni pis c u).
Proof.
  unfold adds_up, raw_cim. cbn [compute_cim_coefficients new_cim c_times c_trans]. rewrite !map_length. do 4 (split; [reflexivity|]). split.
  - intros x a b. rewrite !map_nth_error_iff. destruct (nth_error (seq 0 c) x) as [y|]; cbn [option_map]; [|discriminate].
    intros H1 H2. injection H1 as <-. injection H2 as <-. rewrite raw_dwell_app. reflexivity.
  - intros x ra rb r. rewrite !map_nth_error_iff. destruct (nth_error (seq 0 c) x) as [y|]; cbn [option_map]; [|discriminate].
    intros H1 H2 H3. injection H1 as <-. injection H2 as <-. injection H3 as <-. rewrite !map_length. split; [reflexivity|]. split; [reflexivity|].
    intros z a b. rewrite !map_nth_error_iff. destruct (nth_error (seq 0 c) z) as [w|]; cbn [option_map]; [|discriminate].
    intros H1 H2. injection H1 as <-. injection H2 as <-. f_equal. destruct (w =? y); [|apply raw_jumps_app].
    apply Zsum_add. intros q. destruct (q =? y); [reflexivity|apply raw_jumps_app].
Qed.

Lemma steps_rescaled k r : steps (map (fun o : Qc * list Z => (k * fst o, snd o)%Qc) r)
  = map (fun ab => ((k * fst (fst ab), snd (fst ab)), (k * fst (snd ab), snd (snd ab)))%Qc) (steps r).
Proof. apply steps_map. Qed.
Lemma dwell1_rescaled k r cols vals : dwell1 cols vals (map (fun o : Qc * list Z => (k * fst o, snd o)%Qc) r) = (k * dwell1 cols vals r)%Qc.
Proof.
  unfold dwell1. rewrite steps_rescaled. induction (steps r) as [|ab l IH].
  - unfold Qcsum. cbn [map filter fold_right]. ring.
  - cbn [map filter fst snd]. destruct (row_shows (snd (fst ab)) cols vals); cbn [map]; [|exact IH]. rewrite !Qcsum_cons, IH. cbn [fst snd]. ring.
Qed.
Lemma raw_dwell_rescaled k rs cols vals : raw_dwell (rescaled k rs) cols vals = (k * raw_dwell rs cols vals)%Qc.
Proof.
  unfold rescaled. induction rs as [|r rs IH]; [unfold raw_dwell, Qcsum; cbn [map fold_right]; ring|].
  cbn [map]. rewrite !raw_dwell_cons, IH, dwell1_rescaled. ring.
Qed.
Lemma raw_jumps_rescaled k rs ni x' cols vals : raw_jumps (rescaled k rs) ni x' cols vals = raw_jumps rs ni x' cols vals.
Proof.
  unfold rescaled. induction rs as [|r rs IH]; [reflexivity|]. cbn [map]. rewrite !raw_jumps_cons, IH. f_equal. unfold jumps1. f_equal. rewrite steps_rescaled.
  induction (steps r) as [|ab l IH']; [reflexivity|]. cbn [map filter fst snd].
  destruct (row_shows (snd (fst ab)) cols vals && row_shows (snd (snd ab)) [ni] [x']); cbn [length]; rewrite IH'; reflexivity.
Qed.
Lemma raw_cim_rescaled k rs ni pis c u : same_in_unit k (raw_cim rs ni pis c u) (raw_cim (rescaled k rs) ni pis c u).
Proof.
  unfold same_in_unit, raw_cim. cbn [compute_cim_coefficients new_cim c_times c_trans]. split.
  - rewrite map_map. apply map_ext. intros x. apply raw_dwell_rescaled.
  - apply map_ext. intros x. apply map_ext. intros y. rewrite raw_jumps_rescaled. destruct (y =? x); [|reflexivity]. f_equal. apply map_ext.
    intros w. rewrite raw_jumps_rescaled. reflexivity.
Qed.
Lemma legal_rescaled k vars cards rs : legal_input vars cards rs -> legal_input vars cards (rescaled k rs).
Proof.
  intros [H1 [H2 [H3 [H4 [r [H5 H6]]]]]]. split; [exact H1|]. split; [exact H2|]. split; [exact H3|]. split.
  - apply Forall_forall. intros x Hx. apply in_map_iff in Hx as [r0 [<- Hr]]. rewrite Forall_forall in H4. destruct (H4 r0 Hr) as [K1 K2]. split.
    + rewrite steps_rescaled. intros ab Hab. apply in_map_iff in Hab as [w [<- Hw]]. exact (K1 w Hw).
    + intros o Ho. apply in_map_iff in Ho as [w [<- Hw]]. exact (K2 w Hw).
  - eexists. split; [apply (in_map (map (fun o : Qc * list Z => (k * fst o, snd o)%Qc))), H5|]. rewrite map_length. exact H6.
Qed.
Lemma legal_app vars cards rs1 rs2 : legal_input vars cards rs1 -> legal_input vars cards rs2 -> legal_input vars cards (rs1 ++ rs2).
Proof.
  intros [H1 [H2 [H3 [H4 [r [H5 H6]]]]]] [_ [_ [_ [K4 _]]]]. split; [exact H1|]. split; [exact H2|]. split; [exact H3|]. split; [apply Forall_app; auto|].
  exists r. split; [apply in_app_iff; left; exact H5|exact H6].
Qed.
