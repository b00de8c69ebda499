(** Redundant variables and FamScore: a parent whose state is a function of the other parents changes nothing. *)
From Coq Require Import Reals Lra.
From Verif Require Import Base Lib ModelStructure ModelGraph ModelCims ModelData ModelParams ModelCache ModelCtpc ModelSearch ModelFamScore
  SpecStructure SpecGraph SpecComb SpecParams SpecData SpecCtpc SpecSearch SpecRedundant SpecCoding
  ProofStructure ProofGraph ProofComb ProofParams ProofParams2 ProofParams3 ProofCtpc ProofCtpc2 ProofCtpc4 ProofFamScore ProofFamScore2 ProofRedundant
  ProofSearch ProofSearch3 ProofCache ProofCoding2.
Open Scope nat_scope.

(** ** FamScore: order of the configurations, and configurations without data *)
Definition empty_cim (n : nat) (c : cim) : Prop :=
  full_cim n c /\ (forall x, x < n -> nth_error (c_times c) x = Some 0%Qc) /\ (forall x y, x < n -> y < n -> entry_at (c_trans c) x y = Some 0%Z).

Lemma res_map_app_sum {A} (f : A -> result R) l z : (forall a, In a z -> f a = Ok 0%R) ->
  (let* r := res_map f (l ++ z) in Ok (Rsum r)) = (let* r := res_map f l in Ok (Rsum r)).
Proof.
  intros Hz. induction l as [|a l IH].
  - cbn [app]. rewrite (res_map_sum f (fun _ => 0%R) z Hz). cbn [res_map bind]. f_equal.
    clear. unfold Rsum. induction z as [|a z IH]; [reflexivity|]. cbn [map fold_right] in *. rewrite IH. cbn. lra.
  - cbn [app res_map]. destruct (f a) as [x|e]; cbn [bind]; [|reflexivity].
    destruct (res_map f (l ++ z)) as [r|e], (res_map f l) as [r'|e']; cbn [bind] in *; try discriminate; [|congruence].
    injection IH as IH. unfold Rsum in *. cbn [fold_right]. rewrite IH. reflexivity.
Qed.
Section fam.
Variables (lg : R -> R) (n : nat).
Lemma full_perm cims cims' tau alpha : Permutation cims cims' -> Forall (full_cim n) cims -> get_fam_score lg cims' tau alpha = get_fam_score lg cims tau alpha.
Proof.
  intros HP HA. assert (HB : Forall (full_cim n) cims') by (eapply Permutation_Forall; eassumption).
  assert (Q : marginal_likelihood_q lg cims' tau alpha = marginal_likelihood_q lg cims tau alpha).
  { unfold marginal_likelihood_q. apply (sum_perm _ cims' cims ValueError (Permutation_sym HP)). intros c e Hc. rewrite Forall_forall in HB.
    apply (variable_q_err lg n), HB, Hc. }
  assert (T : forall axx, marginal_likelihood_theta lg cims' alpha axx = marginal_likelihood_theta lg cims alpha axx).
  { intros axx. unfold marginal_likelihood_theta. apply (sum_perm _ cims' cims ValueError (Permutation_sym HP)). intros c e Hc. rewrite Forall_forall in HB.
    rewrite (variable_theta_closed lg n) by (apply HB, Hc). discriminate. }
  unfold get_fam_score. destruct cims as [|c cs].
  - apply Permutation_nil in HP. subst. reflexivity.
  - destruct cims' as [|c' cs']; [apply Permutation_sym, Permutation_nil in HP; discriminate|].
    cbn [nth_res nth_error bind]. rewrite (proj1 (Forall_inv HA)), (proj1 (Forall_inv HB)). destruct (n =? 1); [reflexivity|]. rewrite Q, T. reflexivity.
Qed.
Lemma empty_q c tau alpha : (0 < tau)%R -> empty_cim n c -> variable_cim_xu_marginal_likelihood_q lg c tau alpha = Ok 0%R.
Proof.
  intros Ht [HF [H1 H2]]. rewrite variable_q_alt, (proj1 HF). rewrite (res_map_sum _ (fun _ => 0%R)).
  - f_equal. unfold Rsum. induction (seq 0 n) as [|a z IH]; [reflexivity|]. cbn [map fold_right] in *. rewrite IH. lra.
  - intros i Hi. apply in_seq in Hi. unfold one_q. pose proof (entry_rows _ _ _ _ (H2 i i ltac:(lia) ltac:(lia))) as E.
    destruct (nth_res (c_trans c) i) as [row|]; cbn [bind] in E |- *; [|discriminate]. rewrite E. cbn [bind]. unfold nth_res. rewrite (H1 i) by lia. cbn [bind].
    unfold single_cim_xu_marginal_likelihood_q, py_log. destruct (Rlt_dec 0 tau); [|contradiction]. cbn [bind]. rewrite Qc2R_0, Rplus_0_r.
    destruct (Rlt_dec 0 tau); [|contradiction]. cbn [bind]. f_equal. rewrite Rplus_0_r. lra.
Qed.
Lemma empty_theta c alpha axx : empty_cim n c -> variable_cim_xu_marginal_likelihood_theta lg c alpha axx = Ok 0%R.
Proof.
  intros [HF [H1 H2]]. rewrite (variable_theta_closed lg n) by exact HF. f_equal.
  assert (E : forall x, In x (seq 0 n) -> one_theta lg n c alpha axx x = 0%R).
  { intros x Hx. apply in_seq in Hx. unfold one_theta. unfold m_at at 1. rewrite (H2 x x) by lia. rewrite Rplus_0_r.
    assert (Z : Rsum (map (fun j => lg (axx + IZR (m_at c x j)) - lg axx)%R (filter (fun j => negb (j =? x)) (seq 0 n))) = 0%R); [|rewrite Z; lra].
    assert (HI : forall j, In j (filter (fun j => negb (j =? x)) (seq 0 n)) -> j < n) by (intros j Hj; apply filter_In in Hj as [Hj _]; apply in_seq in Hj; lia).
    unfold Rsum. induction (filter (fun j => negb (j =? x)) (seq 0 n)) as [|j l IH]; [reflexivity|]. cbn [map fold_right].
    rewrite IH by (intros; apply HI; right; assumption). unfold m_at. rewrite (H2 x j) by (try lia; apply HI; left; reflexivity). replace (axx + IZR 0)%R with axx by (cbn; lra). cbn [IZR]. lra. }
  unfold Rsum. induction (seq 0 n) as [|a z IH]; [reflexivity|]. cbn [map fold_right]. rewrite IH by (intros; apply E; right; assumption).
  rewrite (E a) by (left; reflexivity). lra.
Qed.
Lemma fam_empty cims z tau alpha : cims <> [] -> Forall (full_cim n) cims -> Forall (empty_cim n) z -> get_fam_score lg (cims ++ z) tau alpha = get_fam_score lg cims tau alpha.
Proof.
  intros Hne HA HZ. unfold get_fam_score. destruct cims as [|c cs]; [contradiction|]. cbn [app nth_res nth_error bind]. destruct (length (c_times c) =? 1); [reflexivity|].
  change (c :: cs ++ z) with ((c :: cs) ++ z).
  assert (T : forall axx, marginal_likelihood_theta lg ((c :: cs) ++ z) alpha axx = marginal_likelihood_theta lg (c :: cs) alpha axx).
  { intros axx. unfold marginal_likelihood_theta. apply res_map_app_sum. intros c0 H0. rewrite Forall_forall in HZ. apply empty_theta, HZ, H0. }
  destruct (Rlt_dec 0 tau) as [Ht|Ht].
  - assert (Q : marginal_likelihood_q lg ((c :: cs) ++ z) tau alpha = marginal_likelihood_q lg (c :: cs) tau alpha).
    { unfold marginal_likelihood_q. apply res_map_app_sum. intros c0 H0. rewrite Forall_forall in HZ. apply (empty_q c0); [exact Ht|apply HZ, H0]. }
    rewrite Q, T. reflexivity.
  - (* tau <= 0: both raise, unless there are no states *)
    destruct (Nat.eq_dec n 0) as [->|Hn].
    + assert (Q0 : forall c0, length (c_times c0) = 0 -> variable_cim_xu_marginal_likelihood_q lg c0 tau alpha = Ok 0%R).
      { intros c0 E. unfold variable_cim_xu_marginal_likelihood_q. rewrite E. reflexivity. }
      assert (Q : marginal_likelihood_q lg ((c :: cs) ++ z) tau alpha = marginal_likelihood_q lg (c :: cs) tau alpha).
      { unfold marginal_likelihood_q. apply res_map_app_sum. intros c0 H0. rewrite Forall_forall in HZ. apply Q0, (proj1 (HZ c0 H0)). }
      rewrite Q, T. reflexivity.
    + assert (Q : forall l, marginal_likelihood_q lg (c :: l) tau alpha = Err ValueError).
      { intros l. unfold marginal_likelihood_q. cbn [res_map]. rewrite variable_q_alt, (proj1 (Forall_inv HA)).
        destruct n as [|n']; [contradiction|]. cbn [seq res_map].
        assert (E : one_q lg tau alpha c 0 = Err ValueError); [|rewrite E; reflexivity].
        destruct (one_q lg tau alpha c 0) as [x|e] eqn:E; [exfalso|f_equal; apply (one_q_err lg (S n') tau alpha c 0 e (Forall_inv HA)); [lia|exact E]].
        unfold one_q in E. apply bind_ok in E as [row [_ E]]. apply bind_ok in E as [m [_ E]]. apply bind_ok in E as [q [_ E]].
        unfold single_cim_xu_marginal_likelihood_q, py_log in E. destruct (Rlt_dec 0 tau); [contradiction|discriminate]. }
      cbn [app]. rewrite !Q. reflexivity.
Qed.
End fam.

(** ** the configurations with and without the redundant parent *)
Lemma perm_split {A} (eqd : forall a b : A, {a = b} + {a <> b}) l m : NoDup l -> NoDup m -> incl m l ->
  Permutation l (m ++ filter (fun x => if in_dec eqd x m then false else true) l).
Proof.
  intros N1 N2 HI. apply NoDup_Permutation; [exact N1| |].
  - apply NoDup_app_intro; [exact N2|apply NoDup_filter, N1|]. intros x Hx Hf. apply filter_In in Hf as [_ Hf]. destruct (in_dec eqd x m); [discriminate|contradiction].
  - intros x. rewrite in_app_iff, filter_In. destruct (in_dec eqd x m) as [I|I].
    + split; [tauto|]. intros _. apply HI, I.
    + split; [tauto|]. intros [H|[H _]]; [apply HI, H|exact H].
Qed.

Lemma data_full t tot ni pis k u : full_cim k (data_cim t tot ni pis k u).
Proof.
  split; [unfold data_cim; cbn [compute_cim_coefficients new_cim c_times]; unfold exact_times; rewrite map_length; apply seq_length|].
  intros x y Hx Hy. unfold data_cim. cbn [compute_cim_coefficients new_cim c_trans]. unfold exact_counts, entry_at.
  rewrite map_nth_error_iff, nth_seq_lt by exact Hx. cbn [option_map]. rewrite map_nth_error_iff, nth_seq_lt by exact Hy. cbn [option_map]. eauto.
Qed.
Lemma data_empty t tot ni pis k u : (forall row, In row (t_rows t) -> row_shows row pis u = false) -> empty_cim k (data_cim t tot ni pis k u).
Proof.
  intros H. split; [apply data_full|]. split.
  - intros x Hx. unfold data_cim. cbn [compute_cim_coefficients new_cim c_times]. unfold exact_times. rewrite map_nth_error_iff, nth_seq_lt by exact Hx. cbn [option_map]. f_equal.
    unfold dwell_time. rewrite (filter_ext_In _ (fun _ => false)).
    + assert (E : forall l : list (Qc * list Z), filter (fun _ => false) l = []) by (induction l; [reflexivity|assumption]). rewrite E. reflexivity.
    + intros [q row] Hin. apply in_combine_r in Hin. specialize (H row Hin). unfold row_shows in *. cbn [snd combine forallb]. rewrite H. apply andb_false_r.
  - intros x y Hx Hy. unfold data_cim. cbn [compute_cim_coefficients new_cim c_trans]. unfold exact_counts, entry_at.
    rewrite map_nth_error_iff, nth_seq_lt by exact Hx. cbn [option_map]. rewrite map_nth_error_iff, nth_seq_lt by exact Hy. cbn [option_map]. f_equal.
    assert (J : forall y, jumps t tot ni pis u x y = 0%Z).
    { intro y0. unfold jumps, row_count. rewrite (filter_ext_In _ (fun _ => false)).
      - clear. induction (t_rows t); [reflexivity|exact IHl].
      - intros row Hin. specialize (H row Hin). unfold row_shows in *. cbn [combine forallb fst snd]. rewrite H. rewrite !andb_false_r. reflexivity. }
    destruct (y =? x); [|apply J]. clear Hy. induction (seq 0 k) as [|z l IH]; [reflexivity|]. cbn [map]. unfold Zsum in *. cbn [fold_right]. rewrite IH, J. destruct (z =? x); reflexivity.
Qed.

Definition any_env (s : structure) : cb_env := MkEnv s (MkTrajectory [] [] 0 0) 0%Qc (fun _ _ _ => true).
Lemma lookup_map' (l : list label) w : NoDup l -> length w = length l -> map (lookup l w) l = w.
Proof. apply (lookup_map (any_env (MkStructure [] [] [] [] 0)) 0 1 eq_refl). lia. Qed.
Lemma config_const k (l : list label) u : config_ok (map (fun _ => k) l) u <-> length u = length l /\ Forall (fun d => d < k) u.
Proof. apply (config_const_iff (any_env (MkStructure [] [] [] [] 0)) 0 k "" "" [] eq_refl). Qed.
Section red.
Variables (s : structure) (t : trajectory) (k : nat) (p : label) (K : list label).
Hypothesis Hwf : wf_structure s.
Hypothesis Hd : data_ok s t.
Hypothesis Hk : 0 < k.
Hypothesis HV : forall x, In x (nodes_values s) -> x = k.
Hypothesis Hp : In p (nodes_labels s).
Hypothesis HpK : ~ In p K.
Hypothesis HK : forall l, In l K -> In l (nodes_labels s).
Hypothesis HD : determined s t p K.
Let sp := parents_in s K.
Let lp := parents_in s (p :: K).
Let csp := map (idx_of s) sp.
Let clp := map (idx_of s) lp.

Lemma red_cols f : columns_of s (filter f (nodes_labels s)) (map (idx_of s) (filter f (nodes_labels s))).
Proof.
  unfold columns_of. assert (A : forall l, In l (filter f (nodes_labels s)) -> structure_get_node_indx s l = Ok (idx_of s l)).
  { intros l Hl. apply filter_In in Hl as [Hl _]. destruct (wf_lookup s l Hwf Hl) as [_ [_ [_ [_ [Q _]]]]]. exact Q. }
  induction (filter f (nodes_labels s)) as [|l r IH]; cbn [map]; constructor; [apply A; left; reflexivity|apply IH; intros l' Hl'; apply A; right; exact Hl'].
Qed.
Lemma red_NoDup K' : NoDup (parents_in s K').
Proof. unfold parents_in. apply NoDup_filter, Hwf. Qed.
Lemma sp_lp l : In l sp -> In l lp.
Proof. unfold sp, lp, parents_in. rewrite !filter_In, !lmem_In. cbn [In]. tauto. Qed.
Lemma lp_sp l : In l lp -> l = p \/ In l sp.
Proof. unfold sp, lp, parents_in. rewrite !filter_In, !lmem_In. cbn [In]. intros [A [B|B]]; [left; congruence|tauto]. Qed.
Lemma p_sp : ~ In p sp.
Proof. unfold sp, parents_in. rewrite filter_In, lmem_In. tauto. Qed.
Lemma p_lp : In p lp.
Proof. unfold lp, parents_in. rewrite filter_In, lmem_In. cbn [In]. auto. Qed.
Lemma K_labels : forall z i, In z K -> structure_get_node_indx s z = Ok i -> In z sp.
Proof.
  intros z i Hz E. unfold sp, parents_in. apply filter_In. rewrite lmem_In. split; [apply HK, Hz|exact Hz].
Qed.

Definition red_state (u : list nat) : nat :=
  match find (fun row => row_shows row csp u) (t_rows t) with
  | Some row => match nth_error row (idx_of s p) with Some z => Z.to_nat z | None => 0 end
  | None => 0 end.
Definition red_assign (u : list nat) (l : label) : nat := if String.eqb l p then red_state u else lookup sp u l.
Definition red_ext (u : list nat) : list nat := map (red_assign u) lp.

Lemma red_state_lt u : red_state u < k.
Proof.
  unfold red_state. destruct (find _ _) as [row|] eqn:E; [|exact Hk]. apply find_some in E as [Hr _].
  destruct (wf_lookup s p Hwf Hp) as [i [_ [_ [E3 [Ei Ec]]]]]. destruct Hd as [_ [_ [_ H]]]. destruct (H row Hr p _ _ Ei Ec) as [_ [[d [-> Hdc]] _]].
  rewrite Nat2Z.id. rewrite <- (HV (val_of s p)); [exact Hdc|]. eapply nth_error_In, E3.
Qed.
Lemma red_sp u : length u = length sp -> u = map (red_assign u) sp.
Proof.
  intros Hl. rewrite <- (lookup_map' sp u (red_NoDup K) Hl) at 1. apply map_ext_in. intros l Hl'. unfold red_assign.
  destruct (String.eqb_spec l p) as [->|]; [exfalso; exact (p_sp Hl')|reflexivity].
Qed.
Lemma red_shows u row : length u = length sp -> In row (t_rows t) -> row_shows row clp (red_ext u) = row_shows row csp u.
Proof.
  intros Hl Hr. assert (CS : columns_of s sp csp) by apply red_cols. assert (CL : columns_of s lp clp) by apply red_cols.
  apply eq_true_iff_eq. unfold red_ext. rewrite (red_sp u Hl) at 2. rewrite (shows_iff s row _ lp clp CL), (shows_iff s row _ sp csp CS). split.
  - intros H l i Hl'. apply H, sp_lp, Hl'.
  - intros H l i Hl' Ei. destruct (lp_sp l Hl') as [->|Hs]; [|apply H; assumption].
    unfold red_assign. rewrite String.eqb_refl. unfold red_state.
    assert (S0 : row_shows row csp u = true) by (rewrite (red_sp u Hl); apply (shows_iff s row _ sp csp CS), H).
    destruct (find (fun row => row_shows row csp u) (t_rows t)) as [r0|] eqn:EF.
    2:{ pose proof (find_none _ _ EF row Hr) as N. cbn beta in N. congruence. }
    apply find_some in EF as [R0 S1]. rewrite (red_sp u Hl) in S1. pose proof (proj1 (shows_iff s r0 _ sp csp CS) S1) as H0.
    destruct (wf_lookup s p Hwf Hp) as [_ [_ [_ [_ [Ep Ec]]]]]. rewrite Ep in Ei. injection Ei as <-.
    rewrite (HD row r0 Hr R0) with (i := idx_of s p); [|intros z i Hz Ez; rewrite (H z i), (H0 z i); auto; eapply K_labels; eassumption|exact Ep].
    destruct Hd as [_ [_ [_ H1]]]. destruct (H1 r0 R0 p _ _ Ep Ec) as [_ [[d [-> _]] _]]. rewrite Nat2Z.id. reflexivity.
Qed.
Lemma red_config u : config_ok (map (fun _ => k) sp) u -> config_ok (map (fun _ => k) lp) (red_ext u).
Proof.
  intros Hu. apply config_const. unfold red_ext. split; [apply map_length|]. apply Forall_map, Forall_forall. intros l Hl. unfold red_assign.
  destruct (String.eqb l p); [apply red_state_lt|]. apply config_const in Hu as [_ Hu]. clear -Hu Hk. revert Hu. generalize sp. intros q. revert u.
  induction q as [|y q IH]; intros u Hu; [exact Hk|]. destruct u as [|d u]; [exact Hk|]. cbn [lookup]. destruct (String.eqb l y); [exact (Forall_inv Hu)|]. apply IH. exact (Forall_inv_tail Hu).
Qed.
Lemma red_inj u w : length u = length sp -> length w = length sp -> red_ext u = red_ext w -> u = w.
Proof.
  intros Hu Hw E. rewrite (red_sp u Hu), (red_sp w Hw). unfold red_ext in E. apply map_ext_in. intros l Hl.
  apply sp_lp in Hl. clear -E Hl. induction lp as [|y q IH]; [contradiction|]. cbn [map] in E. injection E as E1 E2. destruct Hl as [<-|Hl]; auto.
Qed.
Lemma red_unseen w row : config_ok (map (fun _ => k) lp) w -> In row (t_rows t) -> row_shows row clp w = true ->
  exists u, config_ok (map (fun _ => k) sp) u /\ w = red_ext u.
Proof.
  intros Hw Hr S0. apply config_const in Hw as [L1 L2]. set (a := lookup lp w). assert (Ew : w = map a lp) by (symmetry; apply lookup_map'; [apply red_NoDup|exact L1]).
  assert (CS : columns_of s sp csp) by apply red_cols. assert (CL : columns_of s lp clp) by apply red_cols.
  rewrite Ew in S0. pose proof (proj1 (shows_iff s row a lp clp CL) S0) as H0.
  exists (map a sp). assert (LU : length (map a sp) = length sp) by apply map_length. split.
  - apply config_const. split; [exact LU|]. apply Forall_map, Forall_forall. intros l Hl. apply sp_lp in Hl. rewrite Ew in L2. rewrite Forall_map, Forall_forall in L2. apply L2, Hl.
  - assert (S1 : row_shows row csp (map a sp) = true) by (apply (shows_iff s row a sp csp CS); intros l i Hl; apply H0, sp_lp, Hl).
    rewrite <- (red_shows (map a sp) row LU Hr) in S1. unfold red_ext in S1 |- *. pose proof (proj1 (shows_iff s row _ lp clp CL) S1) as H1.
    rewrite Ew. apply map_ext_in. intros l Hl. assert (Hll : In l (nodes_labels s)) by (unfold lp, parents_in in Hl; apply filter_In in Hl; tauto).
    destruct (wf_lookup s l Hwf Hll) as [_ [_ [_ [_ [E _]]]]]. pose proof (H0 l _ Hl E) as A. pose proof (H1 l _ Hl E) as B. rewrite A in B. injection B as B. lia.
Qed.

Lemma red_score lg tau alpha v : In v (nodes_labels s) ->
  pscore R (fun cims => get_fam_score lg cims tau alpha) t s v (p :: K) = pscore R (fun cims => get_fam_score lg cims tau alpha) t s v K.
Proof.
  intros Hv. assert (HVv : forall l, In l (nodes_labels s) -> val_of s l = k).
  { intros l Hl. destruct (wf_lookup s l Hwf Hl) as [i [_ [_ [E3 _]]]]. apply HV. eapply nth_error_In, E3. }
  assert (EV : forall K', map (val_of s) (parents_in s K') = map (fun _ => k) (parents_in s K')).
  { intros K'. apply map_ext_in. intros l Hl. apply HVv. unfold parents_in in Hl. apply filter_In in Hl. tauto. }
  assert (HC : forall K', compat k (map (fun _ : label => k) (parents_in s K'))) by (intros K' q Hq _; apply in_map_iff in Hq as [_ [<- _]]; reflexivity).
  unfold pscore. set (tot := total_variables_number s).
  rewrite (set_params_exact s t tot v K Hwf Hd eq_refl Hv) by (rewrite ?EV, ?(HVv v Hv); auto).
  rewrite (set_params_exact s t tot v (p :: K) Hwf Hd eq_refl Hv) by (rewrite ?EV, ?(HVv v Hv); auto; intros l [<-|Hl]; auto).
  cbn [bind so_actual_cims]. rewrite !EV, (HVv v Hv). fold sp lp csp clp. set (ni := idx_of s v).
  set (small := le_enum (map (fun _ => k) sp)). set (large := le_enum (map (fun _ => k) lp)).
  assert (LS : forall u, In u small -> length u = length sp) by (intros u Hu; apply le_enum_ok, config_const in Hu; tauto).
  pose proof (perm_split (list_eq_dec Nat.eq_dec) large (map red_ext small)) as PM.
  assert (PM' : Permutation large (map red_ext small ++ filter (fun x => if in_dec (list_eq_dec Nat.eq_dec) x (map red_ext small) then false else true) large)).
  { apply PM.
    - apply le_enum_NoDup.
    - assert (ND : NoDup small) by apply le_enum_NoDup.
      assert (INJ : forall u w, In u small -> In w small -> red_ext u = red_ext w -> u = w) by (intros; apply red_inj; auto).
      clear -ND INJ. induction ND as [|u l Hn ND IH]; [constructor|]. cbn [map]. constructor.
      + intros I. apply in_map_iff in I as [w [E I]]. apply Hn. rewrite (INJ u w); auto; [left; reflexivity|right; exact I].
      + apply IH. intros; apply INJ; auto; right; assumption.
    - intros w Hw. apply in_map_iff in Hw as [u [<- Hu]]. apply le_enum_ok, red_config, le_enum_ok, Hu. }
  clear PM. rewrite (full_perm lg k (map (data_cim t tot ni clp k) (map red_ext small ++ filter (fun x => if in_dec (list_eq_dec Nat.eq_dec) x (map red_ext small) then false else true) large))).
  2:{ apply Permutation_map, Permutation_sym, PM'. } 2:{ apply Forall_map, Forall_forall. intros u _. apply data_full. }
  rewrite map_app, (fam_empty lg k).
  - rewrite map_map. f_equal. apply map_ext_in. intros u Hu. apply data_cim_ext. intros row Hr. apply red_shows; [apply LS, Hu|exact Hr].
  - intros E. apply map_eq_nil, map_eq_nil in E. assert (I : nth_error small 0 <> None).
    { apply nth_error_Some. unfold small. rewrite le_enum_length. clear -Hk. induction sp as [|a l IH]; cbn [map nat_prod]; [cbn; lia|]. unfold nat_prod in *. cbn [fold_right]. nia. }
    rewrite E in I. contradiction.
  - apply Forall_map, Forall_forall. intros u _. apply data_full.
  - apply Forall_map, Forall_forall. intros w Hw. apply filter_In in Hw as [Hw Hn]. apply data_empty. intros row Hr.
    destruct (row_shows row clp w) eqn:E; [exfalso|reflexivity]. destruct (red_unseen w row (proj1 (le_enum_ok _ _) Hw) Hr E) as [u [Hu ->]].
    destruct (in_dec _ _ _) as [I|I]; [discriminate|]. apply I, in_map, le_enum_ok, Hu.
Qed.
End red.
