(** C90: the verdict of one test on many copies of the data, without conditions on the data. *)
From Coq Require Import Reals Lra Classical_Prop.
From Verif Require Import Base Lib LibQc ModelStructure ModelGraph ModelCims ModelData ModelParams ModelCache ModelCtpc ModelFamScore ModelIndep
  SpecStructure SpecGraph SpecComb SpecParams SpecData SpecCtpc SpecFamScore SpecCoding SpecInvariance SpecBias SpecIndep SpecEnough SpecEnoughCb SpecVisible SpecFloating
  ProofStructure ProofGraph ProofComb ProofParams ProofParams2 ProofParams3 ProofCache ProofConserve ProofCtpc ProofCtpc2 ProofCtpc4 ProofFamScore ProofFamScore2 ProofCoding ProofCoding2 ProofInvariance ProofUnit ProofUnit3 ProofIndep ProofIndep2 ProofBias
  ProofRedundant2 ProofCost2 ProofFew ProofFew3 ProofFew4 ProofEnough ProofEnough2 ProofEnough3 ProofEnough4 ProofEnough5 ProofEnoughCb ProofEnoughCb2 ProofEnoughCb3 ProofVisible.
Close Scope R_scope. Open Scope nat_scope.

Lemma Zsum_ge_term {A} (f : A -> Z) l a : (forall x, In x l -> (0 <= f x)%Z) -> In a l -> (f a <= Zsum (map f l))%Z.
Proof.
  induction l as [|b l IH]; intros H []; cbn [map]; rewrite Zsum_cons.
  - subst b. assert (0 <= Zsum (map f l))%Z; [|lia]. assert (G : forall x, In x l -> (0 <= f x)%Z) by (intros x Hx; apply H; right; exact Hx).
    clear -G. induction l as [|b l IH]; [cbn; lia|]. cbn [map]. rewrite Zsum_cons. pose proof (G b (or_introl eq_refl)). pose proof (IH (fun x Hx => G x (or_intror Hx))). lia.
  - pose proof (H b (or_introl eq_refl)). pose proof (IH (fun x Hx => H x (or_intror Hx)) H0). lia.
Qed.

Section verdicts.
Variables (vars : list label) (cards : list nat) (k : nat) (rs : list raw).
Hypothesis HL : legal_input vars cards rs.
Hypothesis HE : equal_cards cards k.
Hypothesis Hk : 2 <= k.
Hypothesis HC : Forall clock_strict rs.
Variables (P : test_params) (thr : Qc).
Hypothesis HQ : quantiles_ok P.
Hypothesis HS : quantiles_settle P.
Hypothesis HT : (0 < thr)%Qc.
Notation s := (struct_of vars cards None).
Notation us K := (le_enum (map (fun _ => k) (parents_in s K))).
Notation cim_n n v K u := (raw_cim (copies n rs) (idx_of s v) (cols_of vars cards None K) k u).
Notation ideal v p K u d x := (cell_ideal rs k (idx_of s v) (cols_of vars cards None K) u (cols_of vars cards None (p :: K)) (ext s p K u d) x).
Notation m1 v K u x := (nat_sum (map (Mm rs (idx_of s v) (cols_of vars cards None K) u x) (oth k x))).
Definition alive (v : label) (K : list label) (u : list nat) : Prop := exists x, x < k /\ m1 v K u x <> 0.
Definition settles (n : nat) (v p : label) (K : list label) : Prop :=
  (forall u d x, In u (us K) -> d < k -> x < k -> (state_accepts P k (cim_n n v K u) (cim_n n v (p :: K) (ext s p K u d)) x <-> ideal v p K u d x))
  /\ (forall u, In u (us K) -> (enough_data thr k k (map (fun _ => k) (parents_in s K)) (cim_n n v K u) <-> (2 < k -> alive v K u))).
Lemma alive_dec v K u : alive v K u \/ forall x, x < k -> m1 v K u x = 0.
Proof.
  destruct (exists_dec_nat (fun x => negb (m1 v K u x =? 0)) (seq 0 k)) as [[x [X1 X2]]|H].
  - left. exists x. apply in_seq in X1. apply negb_true_iff, Nat.eqb_neq in X2. split; [lia|exact X2].
  - right. intros x Hx. specialize (H x ltac:(apply in_seq; lia)). apply negb_false_iff, Nat.eqb_eq in H. exact H.
Qed.
Lemma enough_iff v K u : exists n0, forall n, n0 <= n -> (enough_data thr k k (map (fun _ => k) (parents_in s K)) (cim_n n v K u) <-> (2 < k -> alive v K u)).
Proof.
  destruct (Nat.eq_dec k 2) as [E2|N2]; [exists 0; intros n _; split; intros _ H; lia|].
  set (th := Qc_of_Z (Z.of_nat ((k - 1) * (k - 1) * k * nat_prod (map (fun _ : label => k) (parents_in s K))))).
  assert (PT : (0 < th)%Qc).
  { apply Qc_of_Z_pos. rewrite (thumb_is k _ ltac:(lia)). assert (0 < k ^ (1 + length (parents_in s K))) by (apply Nat.neq_0_lt_0, Nat.pow_nonzero; lia). assert (0 < k - 1) by lia. nia. }
  assert (EX : forall n x, x < k -> nth x (nth x (c_trans (cim_n n v K u)) []) 0%Z = Z.of_nat (n * m1 v K u x)).
  { intros n x Hx. change (nth x (nth x (c_trans (cim_n n v K u)) []) 0%Z) with (exits (cim_n n v K u) x). apply exits_n. exact Hx. }
  destruct (alive_dec v K u) as [AL|DEAD].
  - destruct (archimedean (thr * th)%Qc) as [n0 H0]. exists n0. intros n Hn. split; [intros _ _; exact AL|]. intros _ H2. fold th.
    set (z := Zsum _). assert (Hz : (Z.of_nat n <= z)%Z).
    { destruct AL as [x [Hx Nx]]. unfold z. eapply Z.le_trans; [|apply (Zsum_ge_term (fun x => nth x (nth x (c_trans (cim_n n v K u)) []) 0%Z) (seq 0 k) x)].
      - rewrite EX by exact Hx. nia.
      - intros y Hy. apply in_seq in Hy. rewrite EX by lia. lia.
      - apply in_seq. lia. }
    assert (L : (thr * th <= Qc_of_Z z)%Qc) by (eapply Qcle_trans; [exact H0|apply Qc_of_Z_le; lia]).
    replace thr with (thr * th / th)%Qc by (field; apply Qc_pos_neq, PT).
    unfold Qcdiv. apply Qcmult_le_compat_r; [exact L|]. apply Qclt_le_weak. pose proof (Qcdiv_pos 1 th ltac:(reflexivity) PT) as Q. unfold Qcdiv in Q. rewrite Qcmult_1_l in Q. exact Q.
  - exists 0. intros n _. split.
    + intros A H2. exfalso. specialize (A H2). fold th in A.
      assert (Z0 : Zsum (map (fun x => nth x (nth x (c_trans (cim_n n v K u)) []) 0%Z) (seq 0 k)) = 0%Z).
      { rewrite (map_ext_in _ (fun _ => 0%Z)) by (intros x Hx; apply in_seq in Hx; rewrite EX, DEAD by lia; lia). clear. induction (seq 0 k) as [|b l IH]; [reflexivity|]. cbn [map]. rewrite Zsum_cons, IH. reflexivity. }
      rewrite Z0 in A. change (Qc_of_Z 0) with 0%Qc in A. unfold Qcdiv in A. rewrite Qcmult_0_l in A. exact (Qclt_not_le _ _ HT A).
    + intros A. destruct (A ltac:(lia)) as [x [Hx Nx]]. destruct (Nx (DEAD x Hx)).
Qed.
Lemma settles_one v p K : exists n0, forall n, n0 <= n -> settles n v p K.
Proof.
  destruct (all_eventually (fun u n => enough_data thr k k (map (fun _ => k) (parents_in s K)) (cim_n n v K u) <-> (2 < k -> alive v K u)) (us K)) as [n1 N1]; [intros u _; apply enough_iff|].
  destruct (all_eventually (fun (y : list nat * (nat * nat)) n => let '(u, (d, x)) := y in state_accepts P k (cim_n n v K u) (cim_n n v (p :: K) (ext s p K u d)) x <-> ideal v p K u d x)
    (list_prod (us K) (list_prod (seq 0 k) (seq 0 k)))) as [n2 N2].
  - intros [u [d x]] Hy. apply in_prod_iff in Hy as [Hu Hy]. apply in_prod_iff in Hy as [Hd Hx]. apply in_seq in Hd, Hx.
    destruct (cell_limit P rs k (idx_of s v) (cols_of vars cards None K) u (cols_of vars cards None (p :: K)) (ext s p K u d) x HQ HS HC Hk ltac:(lia)) as [n0 [_ H]]. exists n0. exact H.
  - exists (n1 + n2). intros n Hn. split; [|intros u Hu; apply N1; [lia|exact Hu]]. intros u d x Hu Hd Hx. apply (N2 n ltac:(lia) (u, (d, x))). apply in_prod_iff. split; [exact Hu|]. apply in_prod_iff. split; apply in_seq; lia.
Qed.
Lemma settles_ext n v p K : incl K vars -> settles n v p (parents_in s K) -> settles n v p K.
Proof.
  intros HK H. assert (E1 : parents_in s (parents_in s K) = parents_in s K).
  { apply parents_in_ext. intros l. unfold parents_in. rewrite filter_In, lmem_In. split; [tauto|]. intros Hl. auto. }
  assert (E2 : parents_in s (p :: parents_in s K) = parents_in s (p :: K)).
  { apply parents_in_ext. intros l. cbn [In]. unfold parents_in. rewrite filter_In, lmem_In. split; [tauto|]. intros [<-|Hl]; auto. }
  unfold settles, alive, cols_of, ext, with_p in H |- *. rewrite E1, E2 in H. exact H.
Qed.
Lemma settles_all : exists n0, 2 <= n0 /\ forall n, n0 <= n -> forall v p K, In v vars -> In p vars -> incl K vars -> settles n v p K.
Proof.
  destruct (all_eventually (fun (x : label * (list label * label)) n => let '(v, (K, p)) := x in settles n v p K) (list_prod vars (list_prod (all_sub vars) vars))) as [n0 H].
  - intros [v [K p]] Hx. apply settles_one.
  - exists (2 + n0). split; [lia|]. intros n Hn v p K Hv Hp HK. apply settles_ext; [exact HK|].
    apply (H n ltac:(lia) (v, (parents_in s K, p))). apply in_prod_iff. split; [exact Hv|]. apply in_prod_iff. split; [|exact Hp]. apply all_sub_In, sublist_filter.
Qed.
(** ** silence in the words of the data *)
Lemma silent_iff v K : In v vars -> incl K vars -> (silent vars k rs v K <-> exists u, In u (us K) /\ ~ alive v K u).
Proof.
  intros Hv HK. split.
  - intros [a [Ha Hs]]. exists (map a (parents_in s K)). split; [apply us_ok; split; [apply map_length|]; apply Forall_map, Forall_forall; intros; apply Ha|].
    intros [x [Hx Nx]]. apply nat_sum_pos in Nx as [y [Hy Ny]]. apply oth_In in Hy as [Hy Nxy]. specialize (Hs x y Hx Hy ltac:(congruence)). rewrite (changes_K vars cards k rs v K HL HE Hv HK) in Hs. lia.
  - intros [u [Hu Na]]. apply us_ok in Hu as [U1 U2]. set (a := lookup (parents_in s K) u).
    assert (Ea : map a (parents_in s K) = u) by (apply lookup_map'; [apply red_NoDup, (en_wf vars cards None rs HL)|exact U1]).
    exists a. split; [intros l; apply lookup_lt; [lia|exact U2]|]. intros x y Hx Hy N. rewrite (changes_K vars cards k rs v K HL HE Hv HK), Ea.
    destruct (Nat.eq_dec (Mm rs (idx_of s v) (cols_of vars cards None K) u x y) 0) as [->|NZ]; [reflexivity|]. exfalso. apply Na. exists x. split; [exact Hx|]. intros Z. apply NZ. apply (nat_sum_zero _ _ Z y), oth_In. auto.
Qed.
(** ** the verdict *)
Lemma verdict_settles prior n v p K : 1 <= n -> test_ok (struct_of vars cards prior) v p K -> settles n v p K ->
  exists b mk, verdict (MkEnv (struct_of vars cards prior) (traj_of vars (copies n rs)) thr (the_tests P)) (length vars) v p K k = Ok (b, mk)
    /\ (b = true <-> ~ visible vars k rs v K p /\ ~ (2 < k /\ silent vars k rs v K)) /\ (mk = true -> 2 < k /\ silent vars k rs v K).
Proof.
  intros Hn Ht [A B]. pose proof (copies_legal vars cards n rs Hn HL) as HLn. pose proof (legal_data vars cards prior _ HLn) as Hd. pose proof (legal_wf vars cards prior _ HLn) as Hwf.
  set (e := MkEnv (struct_of vars cards prior) (traj_of vars (copies n rs)) thr (the_tests P)).
  destruct Ht as [Hv [Hp [ND HK]]]. cbn in Hv, Hp, HK. assert (Ht : test_ok (struct_of vars cards prior) v p K) by (split; [exact Hv|]; split; [exact Hp|]; split; assumption).
  assert (NpK : ~ In p K) by (inversion ND as [|? ? _ N1]; inversion N1; assumption). assert (NvK : ~ In v K) by (inversion ND as [|? ? N1 _]; intros I; apply N1; right; exact I).
  assert (CE : forall Q u, incl Q vars -> data_cim (traj_of vars (copies n rs)) (length vars) (idx_of s v) (cols_of vars cards None Q) k u = cim_n n v Q u).
  { intros Q u HQ'. apply (raw_cim_exact vars cards); [exact HLn|]. constructor; [apply (idx_lt vars cards k rs HL HE); exact Hv|]. unfold cols_of. apply Forall_map, Forall_forall. intros l Hl. apply (idx_lt vars cards k rs HL HE). unfold parents_in in Hl. apply filter_In in Hl. tauto. }
  assert (SI : 2 < k /\ silent vars k rs v K <-> exists u, In u (us K) /\ ~ (2 < k -> alive v K u)).
  { rewrite (silent_iff v K Hv HK). split; [intros [H [u [U1 U2]]]; exists u; split; [exact U1|intros X; exact (U2 (X H))]|]. intros [u [U1 U2]]. destruct (Nat.lt_ge_cases 2 k) as [H|H]; [|exfalso; apply U2; lia]. split; [exact H|]. exists u. split; [exact U1|]. intros X. apply U2. intros _. exact X. }
  destruct (verdict_meaning e (length vars) k v p K Hwf Hd eq_refl (proj1 HE) (proj2 HE) Ht) as [b [mk [E1 E2]]].
  assert (Em : mk = true -> 2 < k /\ silent vars k rs v K).
  { intros Emk. apply SI. apply NNPP. intros NX. assert (B' : forall u, In u (us K) -> enough_data thr k k (map (fun _ => k) (parents_in s K)) (cim_n n v K u)).
    { intros u Hu. apply (B u Hu). intros H2. destruct (alive_dec v K u) as [Y|Y]; [exact Y|]. exfalso. apply NX. exists u. split; [exact Hu|]. intros Z. destruct (Z H2) as [x [Hx Nx]]. exact (Nx (Y x Hx)). }
    assert (mk = false); [|congruence]. clear E2. unfold verdict in E1. cbn [e e_struct e_traj] in E1.
    apply bind_ok in E1 as [so2 [_ E1]]. apply bind_ok in E1 as [so1 [P1 E1]]. apply bind_ok in E1 as [th [HTh E1]].
    refine (verdict_plenty e k so2 _ th _ b mk _ E1). intros c1 pc Hin. apply in_combine_l in Hin.
    rewrite (raw_set_params vars cards prior (copies n rs) k v K HLn) in P1 by (auto; try lia; apply HE). injection P1 as <-. cbn [so_actual_cims] in Hin. apply in_map_iff in Hin as [u [<- Hu]].
    assert (Hu' : In u (us K)) by (rewrite (en_vals vars cards prior k _ HLn HE) in Hu; exact Hu).
    replace (val_of (struct_of vars cards prior) v) with k by (symmetry; destruct (wf_lookup _ v Hwf Hv) as [i [_ [_ [E3 _]]]]; apply HE; eapply nth_error_In, E3).
    change (raw_cim (copies n rs) (idx_of (struct_of vars cards prior) v) (map (idx_of (struct_of vars cards prior)) (parents_in (struct_of vars cards prior) K)) k u) with (cim_n n v K u).
    rewrite <- (CE K u HK). apply (too_few_iff e (length vars) k v p K Hwf eq_refl (proj1 HE) (proj2 HE) Ht _ u th HTh). cbn [e e_threshold e_traj e_struct].
    change (data_cim (traj_of vars (copies n rs)) (length vars) (idx_of (struct_of vars cards prior) v) (cols_of vars cards None K) k u) with (data_cim (traj_of vars (copies n rs)) (length vars) (idx_of s v) (cols_of vars cards None K) k u).
    rewrite (CE K u HK). exact (B' u Hu'). }
  exists b, mk. split; [exact E1|]. split; [|exact Em]. rewrite E2. clear E1 E2 Em.
  assert (X : (forall a : label -> nat, (forall x, a x < k) -> pair_accepts e (length vars) k (idx_of (e_struct e) v) (filter (fun l => lmem l K) (nodes_labels (e_struct e))) (filter (fun l => lmem l (p :: K)) (nodes_labels (e_struct e)))
        (map (idx_of (e_struct e)) (filter (fun l => lmem l K) (nodes_labels (e_struct e)))) (map (idx_of (e_struct e)) (filter (fun l => lmem l (p :: K)) (nodes_labels (e_struct e)))) a)
    <-> (forall u d x, In u (us K) -> d < k -> x < k -> ideal v p K u d x) /\ forall u, In u (us K) -> 2 < k -> alive v K u).
  { assert (Y : forall a : label -> nat, (forall x, a x < k) -> In (map a (parents_in s K)) (us K)).
    { intros a Ha. apply us_ok. split; [apply map_length|]. apply Forall_map, Forall_forall. intros; apply Ha. }
    assert (W : forall a : label -> nat, (forall x, a x < k) -> (pair_accepts e (length vars) k (idx_of (e_struct e) v) (filter (fun l => lmem l K) (nodes_labels (e_struct e))) (filter (fun l => lmem l (p :: K)) (nodes_labels (e_struct e)))
        (map (idx_of (e_struct e)) (filter (fun l => lmem l K) (nodes_labels (e_struct e)))) (map (idx_of (e_struct e)) (filter (fun l => lmem l (p :: K)) (nodes_labels (e_struct e)))) a
        <-> (2 < k -> alive v K (map a (parents_in s K))) /\ forall x, x < k -> ideal v p K (map a (parents_in s K)) (a p) x)).
    { intros a Ha. unfold pair_accepts. cbn [e e_struct e_traj e_threshold e_tests].
      change (filter (fun l => lmem l K) (nodes_labels (struct_of vars cards prior))) with (parents_in s K). change (filter (fun l => lmem l (p :: K)) (nodes_labels (struct_of vars cards prior))) with (parents_in s (p :: K)).
      change (map (idx_of (struct_of vars cards prior)) (parents_in s K)) with (cols_of vars cards None K). change (map (idx_of (struct_of vars cards prior)) (parents_in s (p :: K))) with (cols_of vars cards None (p :: K)).
      change (idx_of (struct_of vars cards prior) v) with (idx_of s v).
      assert (EX : map a (parents_in s (p :: K)) = ext s p K (map a (parents_in s K)) (a p)) by (symmetry; apply map_ext_in; intros l Hl; apply (with_all vars cards None rs HL); exact Hl).
      assert (Q1 : computed_cim k (cim_n n v K (map a (parents_in s K)))) by (rewrite <- CE by exact HK; apply exact_cim_computed, (raw_nonneg vars), copies_clock, strict_ok, HC).
      assert (HpK' : incl (p :: K) vars) by (intros l [<-|Hl]; [exact Hp|apply HK, Hl]).
      assert (Q2 : computed_cim k (cim_n n v (p :: K) (ext s p K (map a (parents_in s K)) (a p)))) by (rewrite <- CE by exact HpK'; apply exact_cim_computed, (raw_nonneg vars), copies_clock, strict_ok, HC).
      rewrite (CE K _ HK), (CE (p :: K) _ HpK'), EX, (the_tests_iff P HQ k _ _ Q1 Q2), <- (B _ (Y a Ha)).
      split; [intros [F0 F]; split; [exact F0|]; intros x Hx; apply A; auto|]. intros [F0 F]. split; [exact F0|]. intros x Hx. apply A; auto. }
    split.
    - intros F. split.
      + intros u d x Hu Hd' Hx. pose proof (proj1 (us_ok vars cards None k K u) Hu) as [U1 U2]. set (a := with_p s p K u d).
        assert (La : forall l, a l < k) by (intros l; unfold a, with_p; destruct (String.eqb l p); [exact Hd'|apply lookup_lt; [lia|exact U2]]).
        pose proof (proj2 (proj1 (W a La) (F a La)) x Hx) as I. unfold a in I. rewrite (with_sp s p K (en_wf vars cards None rs HL) NpK u d U1) in I. unfold with_p in I at 1. rewrite String.eqb_refl in I. exact I.
      + intros u Hu H2. pose proof (proj1 (us_ok vars cards None k K u) Hu) as [U1 U2]. set (a := with_p s p K u 0).
        assert (La : forall l, a l < k) by (intros l; unfold a, with_p; destruct (String.eqb l p); [lia|apply lookup_lt; [lia|exact U2]]).
        pose proof (proj1 (proj1 (W a La) (F a La)) H2) as I. unfold a in I. rewrite (with_sp s p K (en_wf vars cards None rs HL) NpK u 0 U1) in I. exact I.
    - intros [F G] a Ha. apply W; [exact Ha|]. split; [intros H2; apply G; auto|]. intros x Hx. apply F; auto. }
  rewrite X, SI. split.
  - intros [F G]. split; [apply (ideal_invisible vars cards k rs v p K HL HE Hk HC Hv Hp NpK HK), F|]. intros [u [U1 U2]]. apply U2. exact (G u U1).
  - intros [ND' NS]. split; [intros u d x Hu Hd' Hx; apply (invisible_ideal vars cards k rs v p K HL HE Hk HC Hv Hp NpK HK); assumption|].
    intros u Hu H2. destruct (alive_dec v K u) as [Y|Y]; [exact Y|]. exfalso. apply NS. exists u. split; [exact Hu|]. intros Z. destruct (Z H2) as [x [Hx Nx]]. exact (Nx (Y x Hx)).
Qed.
End verdicts.
