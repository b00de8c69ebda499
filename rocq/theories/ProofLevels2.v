(** The significance levels: data for which a lower level adds an edge. *)
From Coq Require Import Reals Lra.
From Verif Require Import Base Lib ModelStructure ModelGraph ModelCims ModelData ModelParams ModelCache ModelCtpc ModelFamScore ModelIndep
  SpecStructure SpecGraph SpecComb SpecParams SpecData SpecCtpc SpecFloating SpecInvariance SpecFamScore SpecIndep SpecRecover2 SpecCoding SpecLevels
  ProofStructure ProofGraph ProofComb ProofParams ProofParams2 ProofParams3 ProofCtpc ProofCtpc2 ProofCtpc4 ProofFamScore2 ProofIndep ProofIndep2
  ProofInvariance ProofFloating5 ProofCoding ProofCoding3 ProofCoding4 ProofCbSim ProofRecover2.
Open Scope nat_scope.

Lemma cb_replace vars cards prior rs k P T thr m g mode : legal_input vars cards rs -> Forall clock_ok rs -> equal_cards cards k ->
  (forall n c1 c2, computed_cim n c1 -> computed_cim n c2 -> T n c1 c2 = the_tests P n c1 c2) ->
  let s := struct_of vars cards prior in let t := traj_of vars rs in
  same_edges (cb_estimate_structure (MkCbEst (MkEnv s t thr T) (length vars) (MkState m empty_cache) g) mode)
             (cb_estimate_structure (MkCbEst (MkEnv s t thr (the_tests P)) (length vars) (MkState m empty_cache) g) mode).
Proof.
  intros HL HT HE HTT s t. apply cb_sim; [exact (legal_wf vars cards prior rs HL)|]. intros v p K Ht. apply verdict_tests_ext.
  intros so1 so2 c1 c2 E1 E2 I1 I2. pose proof Ht as [Hv [Hp [_ HK]]]. destruct HE as [Hk HU].
  assert (HKp : forall l, In l (p :: K) -> In l vars) by (intros l [<-|Hl]; [exact Hp|exact (HK l Hl)]).
  unfold s, t in E1, E2. rewrite (raw_set_params vars cards prior rs k v K HL Hk HU Hv HK) in E1.
  rewrite (raw_set_params vars cards prior rs k v (p :: K) HL Hk HU Hv HKp) in E2. injection E1 as <-. injection E2 as <-.
  cbn [so_actual_cims] in I1, I2. apply in_map_iff in I1 as [u1 [<- _]]. apply in_map_iff in I2 as [u2 [<- _]]. fold s.
  assert (HI : forall l, In l vars -> idx_of s l < length vars).
  { intros l Hl. destruct (wf_lookup s l (legal_wf vars cards prior rs HL) Hl) as [q [_ [_ [_ [W1 _]]]]]. eapply struct_of_indx. exact W1. }
  assert (HF : forall K', Forall (fun i => i < length vars) (idx_of s v :: map (idx_of s) (parents_in s K'))).
  { intros K'. constructor; [apply HI, Hv|]. apply Forall_forall. intros i Hi. apply in_map_iff in Hi as [l [<- Hl]]. apply HI. unfold parents_in in Hl. apply filter_In in Hl. apply Hl. }
  apply HTT; apply (raw_computed vars cards); auto.
Qed.

(** ** the data: eight trajectories, in each of which X makes one jump *)
Definition lvars : list label := ["X"; "W"; "U"].
Definition lcards : list nat := [2;2;2].
Definition jump_after (d : Z) (w u : Z) : raw := [(0%Qc, [0; w; u]%Z); (Q2Qc (inject_Z d), [1; w; u]%Z)].
Definition ldata : list raw :=
  [jump_after 133 0 0; jump_after 134 0 0; jump_after 1 1 1; jump_after 1 1 1; jump_after 1 1 1; jump_after 1 1 1; jump_after 1 1 0; jump_after 1 1 0].

Lemma ldata_legal : legal_input lvars lcards ldata.
Proof.
  split; [unfold lvars; repeat constructor; cbn; intuition discriminate|]. split; [discriminate|]. split; [reflexivity|]. split.
  - apply Forall_forall. intros r Hr. assert (E : exists d w u, (0 <= w < 2 /\ 0 <= u < 2)%Z /\ r = jump_after d w u).
    { unfold ldata in Hr. cbn [In] in Hr. repeat destruct Hr as [<-|Hr]; try (do 3 eexists; split; [|reflexivity]; lia). contradiction. }
    destruct E as [d [w [u [[A B] ->]]]]. unfold jump_after.
    split; [intros ab [<-|[]]; unfold lcards; cbn [fst snd map]; split; repeat constructor; cbn; lia|]. intros o [<-|[<-|[]]]; reflexivity.
  - eexists. split; [left; reflexivity|cbn; lia].
Qed.
Lemma ldata_clock : Forall clock_ok ldata.
Proof. repeat constructor; intros ab [<-|[]]; cbn; discriminate. Qed.
Lemma lcards_equal : equal_cards lcards 2.
Proof. split; [lia|]. intros c Hc. cbn in Hc. intuition congruence. Qed.

(** ** the tests that occur *)
Definition ltable (b : bool) : list (Z * Z * (Z * Z) * bool) :=
  [(8, 273, (2, 267), false); (8, 273, (6, 6), false); (8, 273, (4, 269), true); (8, 273, (4, 4), false);
   (4, 269, (2, 267), true); (4, 269, (2, 2), b); (4, 4, (4, 4), true);
   (6, 6, (4, 4), true); (6, 6, (2, 2), true); (2, 267, (2, 267), true)]%Z.
Definition seen (c : cim) (r d : Z) : bool := (exits c 0 =? r)%Z && Qc_eq_bool (nth 0 (c_times c) 0%Qc) (Q2Qc (inject_Z d)).
Definition ltests (P : test_params) (b : bool) (n : nat) (c1 c2 : cim) : bool :=
  if (n =? 2) && (exits c1 1 =? 0)%Z then
    if (exits c1 0 =? 0)%Z || (exits c2 0 =? 0)%Z then true
    else match find (fun e => seen c1 (fst (fst (fst e))) (snd (fst (fst e))) && seen c2 (fst (snd (fst e))) (snd (snd (fst e)))) (ltable b) with
         | Some e => snd e | None => the_tests P n c1 c2 end
  else the_tests P n c1 c2.
Definition lratio (r1 d1 r2 d2 : Z) : R := (((IZR r2 - 1) / (IZR d2 + 1)) / ((IZR r1 - 1) / (IZR d1 + 1)))%R.
Definition table_ok (P : test_params) (b : bool) : Prop :=
  forall r1 d1 r2 d2 v, In (r1, d1, (r2, d2), v) (ltable b) -> v = true <-> f_accepts P r1 r2 (lratio r1 d1 r2 d2).
Lemma seen_iff c r d : seen c r d = true -> exits c 0 = r /\ time_in c 0 = IZR d.
Proof.
  unfold seen, time_in. rewrite andb_true_iff, Z.eqb_eq. intros [H1 H2]. split; [exact H1|]. apply Qc_eq_bool_correct in H2. rewrite H2. apply Qc2R_Z.
Qed.
Lemma ltests_ok P b n c1 c2 : quantiles_ok P -> table_ok P b -> computed_cim n c1 -> computed_cim n c2 -> ltests P b n c1 c2 = the_tests P n c1 c2.
Proof.
  intros HQ HT K1 K2. unfold ltests. destruct ((n =? 2) && (exits c1 1 =? 0)%Z) eqn:EN; [|reflexivity]. apply andb_true_iff in EN as [EN E1].
  apply Nat.eqb_eq in EN. subst n. apply Z.eqb_eq in E1.
  assert (X : the_tests P 2 c1 c2 = true <-> rates_agree P c1 c2 0).
  { rewrite the_tests_iff by assumption. split; [intros H; apply (binary_state P); try assumption; [apply K1|apply K2|lia|apply H; lia]|].
    intros H x Hx. apply (binary_state P); try assumption; [apply K1|apply K2|]. destruct x as [|[|x]]; [exact H|left; exact E1|lia]. }
  destruct ((exits c1 0 =? 0)%Z || (exits c2 0 =? 0)%Z) eqn:E0.
  { symmetry. apply X. apply orb_true_iff in E0 as [E0|E0]; apply Z.eqb_eq in E0; [left|right; left]; exact E0. }
  destruct (find _ (ltable b)) as [e|] eqn:EF; [|reflexivity]. apply find_some in EF as [I J]. apply andb_true_iff in J as [J1 J2].
  destruct e as [[[r1 d1] [r2 d2]] v]. cbn [fst snd] in J1, J2 |- *. apply seen_iff in J1 as [A1 A2]. apply seen_iff in J2 as [B1 B2].
  apply eq_true_iff_eq. rewrite X, (HT _ _ _ _ _ I). unfold rates_agree, f_accepts, lratio. rewrite A1, B1. unfold smoothed_ratio. rewrite A1, A2, B1, B2.
  assert (L : (2 <= r1 /\ 2 <= r2)%Z). { clear - I. unfold ltable in I. cbn [In] in I. repeat destruct I as [E|I]; try (injection E as <- <- <- <- _; lia). contradiction. }
  split; [intros H; right; right; right; tauto|]. intros [H|[H|[H|H]]]; [lia|lia|lia|tauto].
Qed.

Definition ls0 := struct_of lvars lcards None.
Definition lm0 : list (list bool) := match build_removable_edges_matrix ls0 3 [] with Ok m => m | Err _ => [] end.
Definition lrun (P : test_params) (b mode : bool) (thr : Qc) :=
  match cb_estimate_structure (MkCbEst (MkEnv ls0 (traj_of lvars ldata) thr (ltests P b)) 3 (MkState lm0 empty_cache) (build_complete_graph lvars)) mode with
  | Ok (es, _) => Some es | Err _ => None end.
Lemma lvalues P mode thr : lrun P false mode thr = Some [("W","X")] /\ lrun P true mode thr = Some [("U","X")].
Proof. destruct mode; split; vm_compute; reflexivity. Qed.
Lemma lresult P b mode thr : quantiles_ok P -> table_ok P b -> exists est es r,
  new_cb_estimator ls0 (traj_of lvars ldata) 3 [] thr (the_tests P) = Ok est /\ cb_estimate_structure est mode = Ok (es, r)
  /\ es = (if b then [("U","X")] else [("W","X")]).
Proof.
  intros HQ HT. pose proof (cb_replace lvars lcards None ldata 2 P (ltests P b) thr lm0 (build_complete_graph lvars) mode ldata_legal ldata_clock lcards_equal (fun n c1 c2 => ltests_ok P b n c1 c2 HQ HT)) as B.
  cbv zeta in B. fold ls0 in B. change (length lvars) with 3 in B.
  assert (V : lrun P b mode thr = Some (if b then [("U","X")] else [("W","X")])) by (destruct (lvalues P mode thr) as [V1 V2]; destruct b; assumption).
  unfold lrun in V. unfold same_edges in B. set (E1 := MkCbEst (MkEnv ls0 (traj_of lvars ldata) thr (the_tests P)) 3 (MkState lm0 empty_cache) (build_complete_graph lvars)) in *.
  destruct (cb_estimate_structure (MkCbEst (MkEnv ls0 (traj_of lvars ldata) thr (ltests P b)) 3 (MkState lm0 empty_cache) (build_complete_graph lvars)) mode) as [[es0 r0]|x]; [|discriminate].
  destruct (cb_estimate_structure E1 mode) as [[es r]|x] eqn:R1; [|contradiction]. injection V as V. exists E1, es, r.
  split; [reflexivity|]. split; [exact R1|]. congruence.
Qed.
