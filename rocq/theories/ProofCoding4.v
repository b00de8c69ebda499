(** The coding of the states: data for which the constraint-based answer depends on it. *)
From Coq Require Import Reals Lra.
From Verif Require Import Base Lib ModelStructure ModelGraph ModelCims ModelData ModelParams ModelCache ModelCtpc ModelFamScore ModelIndep
  SpecStructure SpecGraph SpecComb SpecParams SpecData SpecCtpc SpecFloating SpecInvariance SpecFamScore SpecIndep SpecCoding
  ProofStructure ProofGraph ProofComb ProofParams ProofParams2 ProofParams3 ProofCtpc ProofCtpc2 ProofCtpc4 ProofFamScore2 ProofIndep ProofIndep2
  ProofInvariance ProofFloating5 ProofCoding ProofCoding3 ProofCbSim.
Open Scope nat_scope.

(** verdicts only depend on the tests' answers on the CIMs in question *)
Lemma filter_cims_incl (so : set_of_cims cim) mask comb cc : filter_cims_with_mask so mask comb = Ok cc -> forall c, In c cc -> In c (so_actual_cims so).
Proof.
  unfold filter_cims_with_mask. destruct (length mask <=? 1); [intros E; injection E as <-; auto|]. intros E. apply res_map_ok in E. intros c Hc.
  induction E as [|i c' is cs Hi E IH]; [contradiction|]. destruct Hc as [<-|Hc]; [|apply IH, Hc]. apply nth_res_ok in Hi. exact (nth_error_In _ _ Hi).
Qed.
Lemma verdict_tests_ext s t tot thr T T' v p K cs :
  (forall so1 so2 c1 c2, set_params s t tot v K = Ok so1 -> set_params s t tot v (p :: K) = Ok so2 -> In c1 (so_actual_cims so1) -> In c2 (so_actual_cims so2) -> T cs c1 c2 = T' cs c1 c2) ->
  verdict (MkEnv s t thr T) tot v p K cs = verdict (MkEnv s t thr T') tot v p K cs.
Proof.
  intros H. unfold verdict. cbn [e_struct e_traj]. destruct (set_params s t tot v (p :: K)) as [so2|x]; cbn [bind]; [|reflexivity].
  destruct (set_params s t tot v K) as [so1|x]; cbn [bind]; [|reflexivity]. destruct (thumb_of s cs p K) as [th|x]; cbn [bind]; [|reflexivity].
  specialize (H so1 so2). assert (X : forall l, (forall c1 pc, In (c1, pc) l -> In c1 (so_actual_cims so1)) ->
    verdict_configs (MkEnv s t thr T) cs so2 (filter_of s p K) th l = verdict_configs (MkEnv s t thr T') cs so2 (filter_of s p K) th l).
  { induction l as [|[c1 pc] l IH]; intros Hl; [reflexivity|]. cbn [verdict_configs]. destruct (filter_cims_with_mask so2 (filter_of s p K) pc) as [cc|x] eqn:EF; cbn [bind]; [|reflexivity].
    assert (E : verdict_cims (MkEnv s t thr T) cs c1 th cc = verdict_cims (MkEnv s t thr T') cs c1 th cc).
    { pose proof (filter_cims_incl so2 _ _ cc EF) as HI. clear EF. specialize (Hl c1 pc (or_introl eq_refl)). induction cc as [|c2 cc IHc]; [reflexivity|]. cbn [verdict_cims e_tests].
      change (too_few (MkEnv s t thr T') cs th c1) with (too_few (MkEnv s t thr T) cs th c1).
      rewrite (H c1 c2 eq_refl eq_refl Hl (HI c2 (or_introl eq_refl))), IHc by (intros; apply HI; right; assumption). reflexivity. }
    rewrite E, IH by (intros c0 pc0 I; apply (Hl c0 pc0); right; exact I). reflexivity. }
  apply X. intros c1 pc I. exact (in_combine_l _ _ _ _ I).
Qed.

(** a shortcut through the tests where one or both CIMs have seen at most one exit *)
Definition quick_reject (c1 c2 : cim) (x : nat) : bool :=
  ((exits c1 x =? 1) && (2 <=? exits c2 x) || (2 <=? exits c1 x) && (exits c2 x =? 1))%Z.
Definition quick_accept (n : nat) (c1 c2 : cim) (x : nat) : bool :=
  (exits c1 x =? 0)%Z || (exits c2 x =? 0)%Z
  || (exits c1 x =? 1)%Z && (exits c2 x =? 1)%Z
     && existsb (fun j => negb (j =? x) && (jumps_of c1 x j =? 0)%Z && (jumps_of c2 x j =? 0)%Z) (seq 0 n).
Definition quick_tests (P : test_params) (n : nat) (c1 c2 : cim) : bool :=
  if existsb (quick_reject c1 c2) (seq 0 n) then false
  else if forallb (quick_accept n c1 c2) (seq 0 n) then true else the_tests P n c1 c2.
Lemma quick_tests_ok P n c1 c2 : quantiles_ok P -> computed_cim n c1 -> computed_cim n c2 -> quick_tests P n c1 c2 = the_tests P n c1 c2.
Proof.
  intros HQ K1 K2. unfold quick_tests. destruct (existsb (quick_reject c1 c2) (seq 0 n)) eqn:ER.
  - symmetry. apply not_true_is_false. rewrite the_tests_iff by assumption. intros H. apply existsb_exists in ER as [x [Hx Q]]. apply in_seq in Hx.
    specialize (H x ltac:(lia)). unfold quick_reject in Q. apply orb_true_iff in Q as [Q|Q]; apply andb_true_iff in Q as [Q1 Q2];
      destruct H as [H|[H|[[H|H] _]]]; lia.
  - destruct (forallb (quick_accept n c1 c2) (seq 0 n)) eqn:EA; [|reflexivity]. symmetry. apply the_tests_iff; try assumption. intros x Hx.
    rewrite forallb_forall in EA. specialize (EA x ltac:(apply in_seq; lia)). unfold quick_accept in EA. unfold state_accepts.
    apply orb_true_iff in EA as [EA|EA]; [apply orb_true_iff in EA as [EA|EA]; lia|]. apply andb_true_iff in EA as [EA E3]. apply andb_true_iff in EA as [E1 E2].
    right; right. split; [left; lia|]. left. apply existsb_exists in E3 as [j [Hj E3]]. apply in_seq in Hj. apply andb_true_iff in E3 as [E3 E4]. apply andb_true_iff in E3 as [E3 E5].
    apply negb_true_iff, Nat.eqb_neq in E3. exists j. split; [lia|]. split; [exact E3|]. lia.
Qed.

Lemma cb_quick vars cards prior rs k P thr m g mode : quantiles_ok P -> legal_input vars cards rs -> Forall clock_ok rs -> equal_cards cards k ->
  let s := struct_of vars cards prior in let t := traj_of vars rs in
  same_edges (cb_estimate_structure (MkCbEst (MkEnv s t thr (quick_tests P)) (length vars) (MkState m empty_cache) g) mode)
             (cb_estimate_structure (MkCbEst (MkEnv s t thr (the_tests P)) (length vars) (MkState m empty_cache) g) mode).
Proof.
  intros HQ HL HT HE s t. apply cb_sim; [exact (legal_wf vars cards prior rs HL)|]. intros v p K Ht. apply verdict_tests_ext.
  intros so1 so2 c1 c2 E1 E2 I1 I2. pose proof Ht as [Hv [Hp [_ HK]]]. destruct HE as [Hk HU].
  assert (HKp : forall l, In l (p :: K) -> In l vars) by (intros l [<-|Hl]; [exact Hp|exact (HK l Hl)]).
  unfold s, t in E1, E2. rewrite (raw_set_params vars cards prior rs k v K HL Hk HU Hv HK) in E1.
  rewrite (raw_set_params vars cards prior rs k v (p :: K) HL Hk HU Hv HKp) in E2. injection E1 as <-. injection E2 as <-.
  cbn [so_actual_cims] in I1, I2. apply in_map_iff in I1 as [u1 [<- _]]. apply in_map_iff in I2 as [u2 [<- _]]. fold s.
  assert (HI : forall l, In l vars -> idx_of s l < length vars).
  { intros l Hl. destruct (wf_lookup s l (legal_wf vars cards prior rs HL) Hl) as [q [_ [_ [_ [W1 _]]]]]. eapply struct_of_indx. exact W1. }
  assert (HF : forall K', Forall (fun i => i < length vars) (idx_of s v :: map (idx_of s) (parents_in s K'))).
  { intros K'. constructor; [apply HI, Hv|]. apply Forall_forall. intros i Hi. apply in_map_iff in Hi as [l [<- Hl]]. apply HI. unfold parents_in in Hl. apply filter_In in Hl. apply Hl. }
  apply quick_tests_ok; [exact HQ| |]; apply (raw_computed vars cards); auto.
Qed.

(** ** the data *)
Definition cvars : list label := ["X"; "V"; "W"; "Y"; "Z"].
Definition ccards : list nat := [3;3;3;3;3].
Definition cknown : list edge := [("V", "X"); ("W", "X"); ("Z", "X")].
Definition cobs (t : Qc) (x v w y : nat) : Qc * list Z := (t, map Z.of_nat [x; v; w; y; 0]).
Definition cdata : list raw :=
  map (fun vw => let v := fst vw in let w := snd vw in let y := if (v =? 0) && (w =? 0) then 0 else 1 in [cobs 0%Qc 0 v w y; cobs 1%Qc 1 v w y])
      (list_prod [0;1;2] [0;1;2]).
(** states 0 and 2 of the last variable are interchanged *)
Definition ccode (i x : nat) : nat := if (i =? 4) then 2 - x else x.
Definition cthr : Qc := (1 / Q2Qc (inject_Z 108))%Qc.

Lemma cdata_legal : legal_input cvars ccards cdata.
Proof.
  split; [unfold cvars; repeat constructor; cbn; intuition discriminate|]. split; [discriminate|]. split; [reflexivity|]. split.
  - apply Forall_forall. intros r Hr. unfold cdata in Hr. apply in_map_iff in Hr as [[v w] [<- Hr]]. apply in_prod_iff in Hr as [Hv Hw]. cbn in Hv, Hw.
    assert (v < 3 /\ w < 3) as [Lv Lw] by lia. cbn [fst snd]. set (y := if (v =? 0) && (w =? 0) then 0 else 1). assert (y < 3) by (unfold y; destruct ((v =? 0) && (w =? 0)); lia). clearbody y.
    split; [intros ab [<-|[]]; unfold ccards, cobs; cbn [fst snd map]; split; repeat constructor; lia|]. intros o [<-|[<-|[]]]; reflexivity.
  - eexists. split; [left; reflexivity|cbn; lia].
Qed.
Lemma cdata_clock : Forall clock_ok cdata.
Proof. repeat constructor; intros ab [<-|[]]; cbn; discriminate. Qed.
Lemma ccode_ok : coding ccode ccards.
Proof.
  intros i c Hi. assert (c = 3) by (do 5 (destruct i as [|i]; [cbn in Hi; congruence|]); destruct i; discriminate). subst c.
  unfold ccode. split; intros x; destruct (i =? 4); lia.
Qed.
Lemma ccards_equal : equal_cards ccards 3.
Proof. split; [lia|]. intros c Hc. cbn in Hc. intuition congruence. Qed.
Definition cs0 := struct_of cvars ccards None.
Definition cm0 : list (list bool) := match build_removable_edges_matrix cs0 5 cknown with Ok m => m | Err _ => [] end.

Definition quick_run (P : test_params) (rs : list raw) (mode : bool) :=
  match cb_estimate_structure (MkCbEst (MkEnv cs0 (traj_of cvars rs) cthr (quick_tests P)) 5 (MkState cm0 empty_cache) (build_complete_graph cvars)) mode with
  | Ok (es, _) => Some (emem ("Y", "X") es) | Err _ => None end.
Lemma quick_values P mode : quick_run P cdata mode = Some false /\ quick_run P (recoded ccode cdata) mode = Some true.
Proof. destruct mode; split; vm_compute; reflexivity. Qed.
