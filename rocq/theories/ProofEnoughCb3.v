(** C89: the verdict of one test on many copies of the data. *)
From Coq Require Import Reals Lra Classical_Prop.
From Verif Require Import Base Lib LibQc ModelStructure ModelGraph ModelCims ModelData ModelParams ModelCache ModelCtpc ModelFamScore ModelIndep
  SpecStructure SpecGraph SpecComb SpecParams SpecData SpecCtpc SpecFamScore SpecCoding SpecInvariance SpecBias SpecIndep SpecEnough SpecEnoughCb SpecFloating
  ProofStructure ProofGraph ProofComb ProofParams ProofParams2 ProofParams3 ProofCache ProofConserve ProofCtpc ProofCtpc2 ProofCtpc4 ProofFamScore ProofFamScore2 ProofCoding ProofCoding2 ProofInvariance ProofUnit ProofUnit3 ProofIndep ProofIndep2 ProofBias
  ProofRedundant2 ProofCost2 ProofFew ProofFew3 ProofFew4 ProofEnough ProofEnough2 ProofEnough3 ProofEnough4 ProofEnough5 ProofEnoughCb ProofEnoughCb2.
Close Scope R_scope. Open Scope nat_scope.

(** a test that never lacks data never gives up *)
Lemma verdict_plenty e cs so2 flt th l b mk : (forall c1 pc, In (c1, pc) l -> too_few e cs th c1 = false) -> verdict_configs e cs so2 flt th l = Ok (b, mk) -> mk = false.
Proof.
  induction l as [|[c1 pc] l IH]; intros H E; cbn [verdict_configs] in E; [congruence|]. apply bind_ok in E as [cc [_ E]].
  assert (F : snd (verdict_cims e cs c1 th cc) = false).
  { clear E IH. pose proof (H c1 pc (or_introl eq_refl)) as F. induction cc as [|c2 cc IHc]; cbn [verdict_cims]; [reflexivity|]. rewrite F. destruct (e_tests e cs c1 c2); [exact IHc|reflexivity]. }
  destruct (verdict_cims e cs c1 th cc) as [[] mk']; [apply IH; [intros; eapply H; right; eassumption|exact E]|]. cbn [snd] in F. congruence.
Qed.

Lemma Zsum_ge_one {A} (f : A -> Z) n l : (0 <= n)%Z -> (forall x, In x l -> (n <= f x)%Z) -> l <> [] -> (n <= Zsum (map f l))%Z.
Proof.
  intros Hn H Hl. destruct l as [|a l]; [contradiction|]. cbn [map]. rewrite Zsum_cons. pose proof (H a (or_introl eq_refl)).
  assert (0 <= Zsum (map f l))%Z; [|lia]. assert (G : forall x, In x l -> (0 <= f x)%Z) by (intros x Hx; specialize (H x (or_intror Hx)); lia).
  clear -G. induction l as [|b l IH]; [cbn; lia|]. cbn [map]. rewrite Zsum_cons. pose proof (G b (or_introl eq_refl)). pose proof (IH (fun x Hx => G x (or_intror Hx))). lia.
Qed.

Section verdicts.
Variables (vars : list label) (cards : list nat) (k : nat) (rs : list raw).
Hypothesis HL : legal_input vars cards rs.
Hypothesis HE : equal_cards cards k.
Hypothesis Hk : 2 <= k.
Hypothesis HC : Forall clock_strict rs.
Variables (P : test_params) (thr : Qc).
Hypothesis HQ : quantiles_ok P.
Hypothesis HS : quantiles_settle P.
Hypothesis HV : k = 2 \/ forall v, In v vars -> every_change_seen vars k rs v.
Notation s := (struct_of vars cards None).
Notation us K := (le_enum (map (fun _ => k) (parents_in s K))).
Notation cim_n n v K u := (raw_cim (copies n rs) (idx_of s v) (cols_of vars cards None K) k u).
Notation ideal v p K u d x := (cell_ideal rs k (idx_of s v) (cols_of vars cards None K) u (cols_of vars cards None (p :: K)) (ext s p K u d) x).
Definition settled (n : nat) (v p : label) (K : list label) : Prop :=
  (forall u d x, In u (us K) -> d < k -> x < k -> (state_accepts P k (cim_n n v K u) (cim_n n v (p :: K) (ext s p K u d)) x <-> ideal v p K u d x))
  /\ (forall u, In u (us K) -> enough_data thr k k (map (fun _ => k) (parents_in s K)) (cim_n n v K u)).

Lemma shows_fun (f g : label -> nat) row O : row_shows row (map f O) (map g O) = forallb (fun l => match nth_error row (f l) with Some z => Z.eqb z (Z.of_nat (g l)) | None => false end) O.
Proof. unfold row_shows. induction O as [|l O IH]; [reflexivity|]. cbn [map combine forallb fst snd]. rewrite IH. reflexivity. Qed.
Lemma seen_all v K : In v vars -> incl K vars -> ~ In v K -> every_change_seen vars k rs v ->
  forall u x j, In u (us K) -> x < k -> In j (oth k x) -> Mm rs (idx_of s v) (cols_of vars cards None K) u x j <> 0.
Proof.
  intros Hv HK Nv Hse u x j Hu Hx Hj. apply oth_In in Hj as [Hj N]. apply us_ok in Hu as [U1 U2].
  set (a := lookup (parents_in s K) u).
  assert (Ea : map a (parents_in s K) = u) by (apply lookup_map'; [apply red_NoDup, (en_wf vars cards None rs HL)|exact U1]).
  assert (La : forall l, a l < k) by (intros l; apply lookup_lt; [lia|exact U2]).
  specialize (Hse a x j La Hx Hj ltac:(congruence)).
  assert (E : changes_given vars rs v K a x j = raw_jumps rs (idx_of s v) j (idx_of s v :: cols_of vars cards None K) (x :: u)) by (rewrite (changes_alt vars cards None k rs v HL HE Hv K a x j HK), Ea; reflexivity).
  unfold Mm. rewrite <- E.
  assert (M : (changes_given vars rs v (filter (fun l => negb (String.eqb l v)) vars) a x j <= changes_given vars rs v K a x j)%Z).
  { unfold changes_given, raw_jumps. apply Zsum_mono. intros r _. apply inj_le, filter_sub. intros ab _ F. apply andb_true_iff in F as [F1 F2]. apply andb_true_iff. split; [|exact F2].
    cbn [map] in F1 |- *. rewrite row_shows_cons in F1 |- *. apply andb_true_iff in F1 as [F0 F1]. apply andb_true_iff. split; [exact F0|]. rewrite shows_fun, forallb_forall in F1 |- *. intros l Hl. apply F1.
    apply filter_In. split; [apply HK, Hl|]. apply negb_true_iff, String.eqb_neq. intros ->. contradiction. }
  lia.
Qed.
Lemma enough_n v K : In v vars -> incl K vars -> ~ In v K -> exists n0, forall n, n0 <= n -> forall u, In u (us K) -> enough_data thr k k (map (fun _ => k) (parents_in s K)) (cim_n n v K u).
Proof.
  intros Hv HK Nv. destruct (Nat.eq_dec k 2) as [E2|N2]; [exists 0; intros n _ u _ H; lia|]. destruct HV as [|HV']; [contradiction|]. specialize (HV' v Hv).
  set (th := Qc_of_Z (Z.of_nat ((k - 1) * (k - 1) * k * nat_prod (map (fun _ : label => k) (parents_in s K))))).
  assert (PT : (0 < th)%Qc).
  { apply Qc_of_Z_pos. rewrite (thumb_is k _ ltac:(lia)). assert (0 < k ^ (1 + length (parents_in s K))) by (apply Nat.neq_0_lt_0, Nat.pow_nonzero; lia). assert (0 < k - 1) by lia. nia. }
  destruct (archimedean (thr * th)%Qc) as [n0 H0]. exists n0. intros n Hn u Hu H2. fold th.
  set (z := Zsum _). assert (Hz : (Z.of_nat n <= z)%Z).
  { unfold z. assert (G : forall x, In x (seq 0 k) -> (Z.of_nat n <= nth x (nth x (c_trans (cim_n n v K u)) []) 0)%Z).
    { intros x Hx. apply in_seq in Hx. change (nth x (nth x (c_trans (cim_n n v K u)) []) 0%Z) with (exits (cim_n n v K u) x). rewrite exits_n by lia. apply inj_le.
      assert (exists j, In j (oth k x)) as [j Hj]. { destruct (Nat.eq_dec x 0) as [->|]; [exists 1|exists 0]; apply oth_In; lia. }
      pose proof (seen_all v K Hv HK Nv HV' u x j Hu ltac:(lia) Hj) as M.
      assert (nat_sum (map (Mm rs (idx_of s v) (cols_of vars cards None K) u x) (oth k x)) <> 0) by (intros Z; apply M; exact (nat_sum_zero _ _ Z j Hj)). nia. }
    apply (Zsum_ge_one (fun x => nth x (nth x (c_trans (cim_n n v K u)) []) 0%Z) (Z.of_nat n) (seq 0 k)); [lia|exact G|]. intros E. apply (f_equal (@length nat)) in E. rewrite seq_length in E. cbn in E. lia. }
  assert (L : (thr * th <= Qc_of_Z z)%Qc) by (eapply Qcle_trans; [exact H0|apply Qc_of_Z_le; lia]).
  replace thr with (thr * th / th)%Qc by (field; apply Qc_pos_neq, PT).
  unfold Qcdiv. apply Qcmult_le_compat_r; [exact L|]. apply Qclt_le_weak. pose proof (Qcdiv_pos 1 th ltac:(reflexivity) PT) as Q. unfold Qcdiv in Q. rewrite Qcmult_1_l in Q. exact Q.
Qed.
Lemma settled_one v p K : In v vars -> In p vars -> incl K vars -> ~ In v K -> exists n0, forall n, n0 <= n -> settled n v p K.
Proof.
  intros Hv Hp HK Nv. destruct (enough_n v K Hv HK Nv) as [n1 N1].
  destruct (all_eventually (fun (y : list nat * (nat * nat)) n => let '(u, (d, x)) := y in state_accepts P k (cim_n n v K u) (cim_n n v (p :: K) (ext s p K u d)) x <-> ideal v p K u d x)
    (list_prod (us K) (list_prod (seq 0 k) (seq 0 k)))) as [n2 N2].
  - intros [u [d x]] Hy. apply in_prod_iff in Hy as [Hu Hy]. apply in_prod_iff in Hy as [Hd Hx]. apply in_seq in Hd, Hx.
    destruct (cell_limit P rs k (idx_of s v) (cols_of vars cards None K) u (cols_of vars cards None (p :: K)) (ext s p K u d) x HQ HS HC Hk ltac:(lia)) as [n0 [_ H]]. exists n0. exact H.
  - exists (n1 + n2). intros n Hn. split; [|apply N1; lia]. intros u d x Hu Hd Hx. apply (N2 n ltac:(lia) (u, (d, x))). apply in_prod_iff. split; [exact Hu|]. apply in_prod_iff. split; apply in_seq; lia.
Qed.
Lemma settled_ext n v p K : incl K vars -> settled n v p (parents_in s K) -> settled n v p K.
Proof.
  intros HK H. assert (E1 : parents_in s (parents_in s K) = parents_in s K).
  { apply parents_in_ext. intros l. unfold parents_in. rewrite filter_In, lmem_In. split; [tauto|]. intros Hl. auto. }
  assert (E2 : parents_in s (p :: parents_in s K) = parents_in s (p :: K)).
  { apply parents_in_ext. intros l. cbn [In]. unfold parents_in. rewrite filter_In, lmem_In. split; [tauto|]. intros [<-|Hl]; auto. }
  unfold settled, cols_of, ext, with_p in H |- *. rewrite E1, E2 in H. exact H.
Qed.
Lemma settled_all : exists n0, 2 <= n0 /\ forall n, n0 <= n -> forall v p K, In v vars -> In p vars -> incl K vars -> ~ In v K -> settled n v p K.
Proof.
  destruct (all_eventually (fun (x : label * (list label * label)) n => let '(v, (K, p)) := x in ~ In v K -> settled n v p K) (list_prod vars (list_prod (all_sub vars) vars))) as [n0 H].
  - intros [v [K p]] Hx. apply in_prod_iff in Hx as [Hv Hx]. apply in_prod_iff in Hx as [HK Hp]. apply all_sub_In in HK. destruct (in_dec string_dec v K) as [I|I]; [exists 0; intros n _ C; contradiction|].
    destruct (settled_one v p K Hv Hp ltac:(intros l Hl; exact (sublist_In _ _ l HK Hl)) I) as [n0 H]. exists n0. intros n Hn _. apply H, Hn.
  - exists (2 + n0). split; [lia|]. intros n Hn v p K Hv Hp HK Nv. apply settled_ext; [exact HK|].
    apply (H n ltac:(lia) (v, (parents_in s K, p))); [|unfold parents_in; rewrite filter_In, lmem_In; tauto]. apply in_prod_iff. split; [exact Hv|]. apply in_prod_iff. split; [|exact Hp]. apply all_sub_In, sublist_filter.
Qed.
Lemma idx_lt l : In l vars -> idx_of s l < length vars.
Proof. intros Hl. apply nth_error_Some. rewrite (proj1 (en_pos vars cards None k rs HL HE l Hl)). discriminate. Qed.
(** ** the verdict *)
Lemma verdict_settled prior n v p K : 1 <= n -> test_ok (struct_of vars cards prior) v p K -> settled n v p K ->
  exists b, verdict (MkEnv (struct_of vars cards prior) (traj_of vars (copies n rs)) thr (the_tests P)) (length vars) v p K k = Ok (b, false) /\ (b = true <-> ~ depends vars rs v K p).
Proof.
  intros Hn Ht [A B]. pose proof (copies_legal vars cards n rs Hn HL) as HLn. pose proof (legal_data vars cards prior _ HLn) as Hd. pose proof (legal_wf vars cards prior _ HLn) as Hwf.
  set (e := MkEnv (struct_of vars cards prior) (traj_of vars (copies n rs)) thr (the_tests P)).
  destruct Ht as [Hv [Hp [ND HK]]]. cbn in Hv, Hp, HK. assert (Ht : test_ok (struct_of vars cards prior) v p K) by (split; [exact Hv|]; split; [exact Hp|]; split; assumption).
  assert (NpK : ~ In p K) by (inversion ND as [|? ? _ N1]; inversion N1; assumption). assert (NvK : ~ In v K) by (inversion ND as [|? ? N1 _]; intros I; apply N1; right; exact I).
  assert (CE : forall Q u, incl Q vars -> data_cim (traj_of vars (copies n rs)) (length vars) (idx_of s v) (cols_of vars cards None Q) k u = cim_n n v Q u).
  { intros Q u HQ'. apply (raw_cim_exact vars cards); [exact HLn|]. constructor; [apply idx_lt; exact Hv|]. unfold cols_of. apply Forall_map, Forall_forall. intros l Hl. apply idx_lt. unfold parents_in in Hl. apply filter_In in Hl. tauto. }
  destruct (verdict_meaning e (length vars) k v p K Hwf Hd eq_refl (proj1 HE) (proj2 HE) Ht) as [b [mk [E1 E2]]].
  assert (Em : mk = false).
  { clear E2. unfold verdict in E1. cbn [e e_struct e_traj] in E1.
    apply bind_ok in E1 as [so2 [_ E1]]. apply bind_ok in E1 as [so1 [P1 E1]]. apply bind_ok in E1 as [th [HT E1]].
    refine (verdict_plenty e k so2 _ th _ b mk _ E1). intros c1 pc Hin. apply in_combine_l in Hin.
    rewrite (raw_set_params vars cards prior (copies n rs) k v K HLn) in P1 by (auto; try lia; apply HE). injection P1 as <-. cbn [so_actual_cims] in Hin. apply in_map_iff in Hin as [u [<- Hu]].
    assert (Hu' : In u (us K)) by (rewrite (en_vals vars cards prior k _ HLn HE) in Hu; exact Hu).
    replace (val_of (struct_of vars cards prior) v) with k by (symmetry; destruct (wf_lookup _ v Hwf Hv) as [i [_ [_ [E3 _]]]]; apply HE; eapply nth_error_In, E3).
    change (raw_cim (copies n rs) (idx_of (struct_of vars cards prior) v) (map (idx_of (struct_of vars cards prior)) (parents_in (struct_of vars cards prior) K)) k u) with (cim_n n v K u).
    rewrite <- (CE K u HK). apply (too_few_iff e (length vars) k v p K Hwf eq_refl (proj1 HE) (proj2 HE) Ht _ u th HT). cbn [e e_threshold e_traj e_struct].
    change (data_cim (traj_of vars (copies n rs)) (length vars) (idx_of (struct_of vars cards prior) v) (cols_of vars cards None K) k u) with (data_cim (traj_of vars (copies n rs)) (length vars) (idx_of s v) (cols_of vars cards None K) k u).
    rewrite (CE K u HK). exact (B u Hu'). }
  subst mk. exists b. split; [exact E1|]. rewrite E2. clear E1 E2.
  assert (X : (forall a : label -> nat, (forall x, a x < k) -> pair_accepts e (length vars) k (idx_of (e_struct e) v) (filter (fun l => lmem l K) (nodes_labels (e_struct e))) (filter (fun l => lmem l (p :: K)) (nodes_labels (e_struct e)))
        (map (idx_of (e_struct e)) (filter (fun l => lmem l K) (nodes_labels (e_struct e)))) (map (idx_of (e_struct e)) (filter (fun l => lmem l (p :: K)) (nodes_labels (e_struct e)))) a)
    <-> forall u d x, In u (us K) -> d < k -> x < k -> ideal v p K u d x).
  { assert (Y : forall a : label -> nat, (forall x, a x < k) -> In (map a (parents_in s K)) (us K)).
    { intros a Ha. apply us_ok. split; [apply map_length|]. apply Forall_map, Forall_forall. intros; apply Ha. }
    assert (W : forall a : label -> nat, (forall x, a x < k) -> (pair_accepts e (length vars) k (idx_of (e_struct e) v) (filter (fun l => lmem l K) (nodes_labels (e_struct e))) (filter (fun l => lmem l (p :: K)) (nodes_labels (e_struct e)))
        (map (idx_of (e_struct e)) (filter (fun l => lmem l K) (nodes_labels (e_struct e)))) (map (idx_of (e_struct e)) (filter (fun l => lmem l (p :: K)) (nodes_labels (e_struct e)))) a
        <-> forall x, x < k -> ideal v p K (map a (parents_in s K)) (a p) x)).
    { intros a Ha. unfold pair_accepts. cbn [e e_struct e_traj e_threshold e_tests].
      change (filter (fun l => lmem l K) (nodes_labels (struct_of vars cards prior))) with (parents_in s K). change (filter (fun l => lmem l (p :: K)) (nodes_labels (struct_of vars cards prior))) with (parents_in s (p :: K)).
      change (map (idx_of (struct_of vars cards prior)) (parents_in s K)) with (cols_of vars cards None K). change (map (idx_of (struct_of vars cards prior)) (parents_in s (p :: K))) with (cols_of vars cards None (p :: K)).
      change (idx_of (struct_of vars cards prior) v) with (idx_of s v).
      assert (EX : map a (parents_in s (p :: K)) = ext s p K (map a (parents_in s K)) (a p)) by (symmetry; apply map_ext_in; intros l Hl; apply (with_all vars cards None rs HL); exact Hl).
      assert (Q1 : computed_cim k (cim_n n v K (map a (parents_in s K)))) by (rewrite <- CE by exact HK; apply exact_cim_computed, (raw_nonneg vars), copies_clock, strict_ok, HC).
      assert (HpK' : incl (p :: K) vars) by (intros l [<-|Hl]; [exact Hp|apply HK, Hl]).
      assert (Q2 : computed_cim k (cim_n n v (p :: K) (ext s p K (map a (parents_in s K)) (a p)))) by (rewrite <- CE by exact HpK'; apply exact_cim_computed, (raw_nonneg vars), copies_clock, strict_ok, HC).
      rewrite (CE K _ HK), (CE (p :: K) _ HpK'), EX, (the_tests_iff P HQ k _ _ Q1 Q2).
      split; [intros [_ F] x Hx; apply A; auto|]. intros F. split; [apply B, Y, Ha|]. intros x Hx. apply A; auto. }
    split.
    - intros F u d x Hu Hd' Hx. pose proof (proj1 (us_ok vars cards None k K u) Hu) as [U1 U2]. set (a := with_p s p K u d).
      assert (La : forall l, a l < k) by (intros l; unfold a, with_p; destruct (String.eqb l p); [exact Hd'|apply lookup_lt; [lia|exact U2]]).
      pose proof (proj1 (W a La) (F a La) x Hx) as I. unfold a in I. rewrite (with_sp s p K (en_wf vars cards None rs HL) NpK u d U1) in I. unfold with_p in I at 1. rewrite String.eqb_refl in I. exact I.
    - intros F a Ha. apply W; [exact Ha|]. intros x Hx. apply F; auto. }
  rewrite X. split.
  - apply (ideal_indep vars cards k rs v p K HL HE Hk HC Hv Hp NpK HK). destruct HV as [->|HV']; [left; reflexivity|right]. intros u x j. apply (seen_all v K Hv HK NvK (HV' v Hv)).
  - intros ND' u d x Hu Hd' Hx. apply (indep_ideal vars cards k rs v p K HL HE Hk HC Hv Hp NpK HK); assumption.
Qed.
End verdicts.
