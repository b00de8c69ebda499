(** Variables that never change and FamScore (C87): every further parent lowers the score. *)
From Coq Require Import Reals Lra.
From Verif Require Import Base Lib LibQc ModelStructure ModelGraph ModelCims ModelData ModelParams ModelCache ModelCtpc ModelSearch ModelFamScore
  SpecStructure SpecGraph SpecComb SpecParams SpecData SpecCtpc SpecSearch SpecRedundant SpecCoding
  ProofStructure ProofGraph ProofComb ProofParams ProofParams2 ProofParams3 ProofConserve ProofCtpc ProofCtpc2 ProofCtpc4 ProofFamScore ProofFamScore2 ProofRedundant
  ProofSearch ProofSearch3 ProofCache ProofCoding2 ProofRedundant2.
Open Scope nat_scope.

(** ** FamScore without transitions *)
Definition still_cim (n : nat) (c : cim) : Prop :=
  full_cim n c /\ (forall x, x < n -> exists T, nth_error (c_times c) x = Some T /\ (0 <= T)%Qc) /\ forall x y, x < n -> y < n -> entry_at (c_trans c) x y = Some 0%Z.
Definition time_at (c : cim) (x : nat) : R := Qc2R (nth x (c_times c) 0%Qc).
Definition still_value (tau alpha : R) (n : nat) (c : cim) : R := Rsum (map (fun x => - (alpha + 1) * (ln (tau + time_at c x) - ln tau))%R (seq 0 n)).
Section still.
Variables (lg : R -> R) (n : nat) (tau alpha : R).
Hypothesis Ht : (0 < tau)%R.
Lemma still_q c : still_cim n c -> variable_cim_xu_marginal_likelihood_q lg c tau alpha = Ok (still_value tau alpha n c).
Proof.
  intros [HF [H1 H2]]. rewrite variable_q_alt, (proj1 HF). apply res_map_sum. intros i Hi. apply in_seq in Hi. unfold one_q. pose proof (entry_rows _ _ _ _ (H2 i i ltac:(lia) ltac:(lia))) as E.
  destruct (nth_res (c_trans c) i) as [row|]; cbn [bind] in E |- *; [|discriminate]. rewrite E. cbn [bind]. destruct (H1 i ltac:(lia)) as [T [ET HT]]. unfold nth_res. rewrite ET. cbn [bind].
  unfold single_cim_xu_marginal_likelihood_q, py_log. destruct (Rlt_dec 0 tau); [|contradiction]. cbn [bind]. apply Qc2R_nonneg in HT. destruct (Rlt_dec 0 (tau + Qc2R T)) as [L|L]; [|exfalso; lra].
  cbn [bind]. f_equal. unfold time_at. rewrite (nth_error_nth _ _ 0%Qc ET). replace (alpha + 0 + 1)%R with (alpha + 1)%R by lra. lra.
Qed.
Lemma still_theta c axx : still_cim n c -> variable_cim_xu_marginal_likelihood_theta lg c alpha axx = Ok 0%R.
Proof.
  intros [HF [H1 H2]]. rewrite (variable_theta_closed lg n) by exact HF. f_equal.
  assert (E : forall x, In x (seq 0 n) -> one_theta lg n c alpha axx x = 0%R).
  { intros x Hx. apply in_seq in Hx. unfold one_theta. unfold m_at at 1. rewrite (H2 x x) by lia. rewrite Rplus_0_r.
    assert (Z : Rsum (map (fun j => lg (axx + IZR (m_at c x j)) - lg axx)%R (filter (fun j => negb (j =? x)) (seq 0 n))) = 0%R); [|rewrite Z; lra].
    assert (HI : forall j, In j (filter (fun j => negb (j =? x)) (seq 0 n)) -> j < n) by (intros j Hj; apply filter_In in Hj as [Hj _]; apply in_seq in Hj; lia).
    unfold Rsum. induction (filter (fun j => negb (j =? x)) (seq 0 n)) as [|j l IH]; [reflexivity|]. cbn [map fold_right].
    rewrite IH by (intros; apply HI; right; assumption). unfold m_at. rewrite (H2 x j) by (try lia; apply HI; left; reflexivity). replace (axx + IZR 0)%R with axx by (cbn; lra). cbn [IZR]. lra. }
  unfold Rsum. induction (seq 0 n) as [|a z IH]; [reflexivity|]. cbn [map fold_right]. rewrite IH by (intros; apply E; right; assumption).
  rewrite (E a) by (left; reflexivity). lra.
Qed.
Lemma still_score cims : n <> 1 -> cims <> [] -> Forall (still_cim n) cims -> get_fam_score lg cims tau alpha = Ok (Rsum (map (still_value tau alpha n) cims)).
Proof.
  intros Hn Hne HS. unfold get_fam_score. destruct cims as [|c cs] eqn:EC; [contradiction|]. cbn [nth_res nth_error bind]. rewrite (proj1 (proj1 (Forall_inv HS))).
  replace (n =? 1) with false by (symmetry; apply Nat.eqb_neq, Hn). rewrite <- EC in *. clear EC c cs. rewrite Forall_forall in HS.
  assert (Q : marginal_likelihood_q lg cims tau alpha = Ok (Rsum (map (still_value tau alpha n) cims))) by (apply res_map_sum; intros c Hc; apply still_q, HS, Hc).
  assert (T : forall axx, marginal_likelihood_theta lg cims alpha axx = Ok 0%R).
  { intros axx. unfold marginal_likelihood_theta. rewrite (res_map_sum _ (fun _ => 0%R)) by (intros c Hc; apply still_theta, HS, Hc). f_equal. clear. unfold Rsum. induction cims as [|a l IH]; [reflexivity|]. cbn [map fold_right]. rewrite IH. lra. }
  rewrite Q. cbn [bind]. rewrite T. cbn [bind]. f_equal. lra.
Qed.
(** splitting the time *)
Lemma ln_sub a b : (0 <= a)%R -> (0 <= b)%R -> (ln (tau + (a + b)) - ln tau <= (ln (tau + a) - ln tau) + (ln (tau + b) - ln tau))%R.
Proof.
  intros Ha Hb. assert (K : (ln tau + ln (tau + (a + b)) <= ln (tau + a) + ln (tau + b))%R); [|lra].
  rewrite <- !ln_mult by lra. destruct (Req_dec (a * b) 0) as [E|E].
  - replace (tau * (tau + (a + b)))%R with ((tau + a) * (tau + b))%R by nra. lra.
  - left. apply ln_increasing; [apply Rmult_lt_0_compat; lra|]. assert (0 < a * b)%R by (pose proof (Rmult_le_pos a b Ha Hb); lra). nra.
Qed.
Lemma ln_sub_sum l : Forall (fun a => 0 <= a)%R l -> (ln (tau + Rsum l) - ln tau <= Rsum (map (fun a => ln (tau + a) - ln tau) l))%R.
Proof.
  induction 1 as [|a l Ha Hl IH]; [unfold Rsum; cbn [map fold_right]; rewrite Rplus_0_r; lra|].
  change (Rsum (a :: l)) with (a + Rsum l)%R. change (Rsum (map (fun a => ln (tau + a) - ln tau)%R (a :: l))) with ((ln (tau + a) - ln tau) + Rsum (map (fun a => ln (tau + a) - ln tau) l))%R.
  pose proof (ln_sub a (Rsum l) Ha (Rsum_nonneg l Hl)). lra.
Qed.
End still.
Lemma Rsum_le {A} (f g : A -> R) l : (forall x, In x l -> (f x <= g x)%R) -> (Rsum (map f l) <= Rsum (map g l))%R.
Proof. unfold Rsum. induction l as [|a l IH]; intros H; cbn [map fold_right]; [lra|]. pose proof (H a (or_introl eq_refl)). pose proof (IH (fun x Hx => H x (or_intror Hx))). lra. Qed.
Lemma Rsum_scale {A} c (f : A -> R) l : Rsum (map (fun x => c * f x)%R l) = (c * Rsum (map f l))%R.
Proof. unfold Rsum. induction l as [|a l IH]; cbn [map fold_right]; [lra|]. rewrite IH. lra. Qed.
Lemma Rsum_flat {A B} (f : B -> R) (g : A -> list B) l : Rsum (map f (flat_map g l)) = Rsum (map (fun a => Rsum (map f (g a))) l).
Proof. induction l as [|a l IH]; [reflexivity|]. cbn [flat_map map]. rewrite map_app, Rsum_app, IH. reflexivity. Qed.
Lemma Rsum_swap {A B} (f : A -> B -> R) la lb : Rsum (map (fun a => Rsum (map (f a) lb)) la) = Rsum (map (fun b => Rsum (map (fun a => f a b) la)) lb).
Proof.
  induction la as [|a la IH]; cbn [map].
  - unfold Rsum at 1. cbn [fold_right]. induction lb as [|b lb IHb]; [reflexivity|]. unfold Rsum in *. cbn [map fold_right] in *. lra.
  - change (Rsum (Rsum (map (f a) lb) :: map (fun a0 => Rsum (map (f a0) lb)) la)) with (Rsum (map (f a) lb) + Rsum (map (fun a0 => Rsum (map (f a0) lb)) la))%R. rewrite IH, <- Rsum_plus. reflexivity.
Qed.

(** ** One more parent splits every configuration into [k] *)
Lemma Qcsum_zero {A} (l : list A) : Qcsum (map (fun _ => 0%Qc) l) = 0%Qc.
Proof. induction l as [|a l IH]; [reflexivity|]. cbn [map]. unfold Qcsum in *. cbn [fold_right]. rewrite IH. ring. Qed.
Lemma Qcsum_pick k d (q : Qc) : d < k -> Qcsum (map (fun x => if x =? d then q else 0%Qc) (seq 0 k)) = q.
Proof.
  assert (G : forall n a, (a <= d < a + n -> Qcsum (map (fun x => if x =? d then q else 0%Qc) (seq a n)) = q) /\ (d < a -> Qcsum (map (fun x => if x =? d then q else 0%Qc) (seq a n)) = 0%Qc)).
  { induction n as [|n IH]; intros a; split; intros H; try lia; try reflexivity; cbn [seq map]; unfold Qcsum; cbn [fold_right]; fold (Qcsum (map (fun x => if x =? d then q else 0%Qc) (seq (S a) n))).
    - destruct (Nat.eqb_spec a d) as [->|N]; [rewrite (proj2 (IH (S d))) by lia; ring|rewrite (proj1 (IH (S a))) by lia; ring].
    - destruct (Nat.eqb_spec a d) as [->|N]; [lia|]. rewrite (proj2 (IH (S a))) by lia. ring. }
  intros H. apply (G k 0). lia.
Qed.
Lemma Qcsum_add {A} (f g : A -> Qc) l : Qcsum (map (fun x => f x + g x)%Qc l) = (Qcsum (map f l) + Qcsum (map g l))%Qc.
Proof. induction l as [|a l IH]; [cbn; ring|]. cbn [map]. unfold Qcsum in *. cbn [fold_right]. rewrite IH. ring. Qed.
Lemma split_rows {A} (f : A -> Qc) (P : A -> bool) (Q : nat -> A -> bool) k l : (forall a, In a l -> exists d, d < k /\ forall x, Q x a = (x =? d)) ->
  Qcsum (map (fun d => Qcsum (map f (filter (fun a => P a && Q d a) l))) (seq 0 k)) = Qcsum (map f (filter P l)).
Proof.
  induction l as [|a l IH]; intros H; [cbn [filter map]; apply Qcsum_zero|]. destruct (H a (or_introl eq_refl)) as [d [Hd HQ]].
  assert (E : forall x, Qcsum (map f (filter (fun a => P a && Q x a) (a :: l))) = ((if x =? d then (if P a then f a else 0) else 0) + Qcsum (map f (filter (fun a => P a && Q x a) l)))%Qc).
  { intros x. cbn [filter]. rewrite HQ. destruct (P a), (x =? d); cbn [andb map]; unfold Qcsum; cbn [fold_right]; ring. }
  rewrite (map_ext _ _ E), Qcsum_add, (Qcsum_pick k d _ Hd), IH by (intros b Hb; apply H; right; exact Hb).
  cbn [filter]. destruct (P a); cbn [map]; unfold Qcsum; cbn [fold_right]; ring.
Qed.

Section split.
Variables (s : structure) (t : trajectory) (k : nat) (p : label) (K : list label).
Hypothesis Hwf : wf_structure s.
Hypothesis Hd : data_ok s t.
Hypothesis Hk : 0 < k.
Hypothesis HV : forall x, In x (nodes_values s) -> x = k.
Hypothesis Hp : In p (nodes_labels s).
Hypothesis HpK : ~ In p K.
Hypothesis HK : forall l, In l K -> In l (nodes_labels s).
Let sp := parents_in s K.
Let lp := parents_in s (p :: K).
Let csp := map (idx_of s) sp.
Let clp := map (idx_of s) lp.
Definition with_p (u : list nat) (d : nat) (l : label) : nat := if String.eqb l p then d else lookup sp u l.
Definition ext (u : list nat) (d : nat) : list nat := map (with_p u d) lp.
Lemma with_sp u d : length u = length sp -> map (with_p u d) sp = u.
Proof.
  intros Hl. rewrite <- (lookup_map' sp u (red_NoDup s Hwf K) Hl) at 2. apply map_ext_in. intros l Hl'. unfold with_p.
  destruct (String.eqb_spec l p) as [->|]; [exfalso; exact (p_sp s p K HpK Hl')|reflexivity].
Qed.
Lemma ext_shows u d row : length u = length sp -> row_shows row clp (ext u d) = row_shows row csp u && row_shows row [idx_of s p] [d].
Proof.
  intros Hl. assert (CS : columns_of s sp csp) by apply red_cols, Hwf. assert (CL : columns_of s lp clp) by apply red_cols, Hwf.
  assert (CP : columns_of s [p] [idx_of s p]) by (constructor; [|constructor]; destruct (wf_lookup s p Hwf Hp) as [_ [_ [_ [_ [Q _]]]]]; exact Q).
  apply eq_true_iff_eq. rewrite andb_true_iff. unfold ext. rewrite <- (with_sp u d Hl) at 2. replace [d] with (map (with_p u d) [p]) by (cbn [map]; unfold with_p; rewrite String.eqb_refl; reflexivity).
  rewrite (shows_iff s row _ lp clp CL), (shows_iff s row _ sp csp CS), (shows_iff s row _ [p] [idx_of s p] CP). split.
  - intros H. split; intros l i Hl'; [apply H, (sp_lp s p K), Hl'|]. destruct Hl' as [<-|[]]. apply H, (p_lp s p K Hp).
  - intros [H1 H2] l i Hl'. destruct (lp_sp s p K l Hl') as [->|Hs]; [apply H2; left; reflexivity|apply H1, Hs].
Qed.
Lemma ext_config u d : config_ok (map (fun _ => k) sp) u -> d < k -> config_ok (map (fun _ => k) lp) (ext u d).
Proof.
  intros Hu Hdk. apply config_const. unfold ext. split; [apply map_length|]. apply Forall_map, Forall_forall. intros l Hl. unfold with_p.
  destruct (String.eqb l p); [exact Hdk|]. apply config_const in Hu as [_ Hu]. clear -Hu Hk. revert Hu. generalize sp. intros q. revert u.
  induction q as [|y q IH]; intros u Hu; [exact Hk|]. destruct u as [|d u]; [exact Hk|]. cbn [lookup]. destruct (String.eqb l y); [exact (Forall_inv Hu)|]. apply IH. exact (Forall_inv_tail Hu).
Qed.
Lemma ext_inj u d u' d' : length u = length sp -> length u' = length sp -> ext u d = ext u' d' -> u = u' /\ d = d'.
Proof.
  intros Hu Hu' E. assert (A : forall l, In l lp -> with_p u d l = with_p u' d' l) by (unfold ext in E; clear -E; intros l Hl; induction lp as [|y q IH]; [contradiction|]; cbn [map] in E; injection E as E1 E2; destruct Hl as [<-|Hl]; auto).
  split.
  - rewrite <- (with_sp u d Hu), <- (with_sp u' d' Hu'). apply map_ext_in. intros l Hl. apply A, (sp_lp s p K), Hl.
  - pose proof (A p (p_lp s p K Hp)) as E0. unfold with_p in E0. rewrite String.eqb_refl in E0. exact E0.
Qed.
Lemma ext_onto w : config_ok (map (fun _ => k) lp) w -> exists u d, config_ok (map (fun _ => k) sp) u /\ d < k /\ w = ext u d.
Proof.
  intros Hw. apply config_const in Hw as [L1 L2]. set (a := lookup lp w). assert (Ew : w = map a lp) by (symmetry; apply lookup_map'; [apply red_NoDup, Hwf|exact L1]).
  assert (B : forall l, In l lp -> a l < k) by (rewrite Ew in L2; rewrite Forall_map, Forall_forall in L2; exact L2).
  exists (map a sp), (a p). split; [|split; [apply B, (p_lp s p K Hp)|]].
  - apply config_const. split; [apply map_length|]. apply Forall_map, Forall_forall. intros l Hl. apply B, (sp_lp s p K), Hl.
  - rewrite Ew at 1. unfold ext. apply map_ext_in. intros l Hl. unfold with_p. destruct (String.eqb_spec l p) as [->|N]; [reflexivity|].
    destruct (lp_sp s p K l Hl) as [->|Hs]; [congruence|]. pose proof (lookup_map' sp (map a sp) (red_NoDup s Hwf K) (map_length _ _)) as M. clear -M Hs. fold sp in Hs. symmetry.
    assert (G : forall q, In l q -> map (lookup sp (map a sp)) q = map a q -> lookup sp (map a sp) l = a l) by (induction q as [|y q IH]; intros Hq E; [contradiction|]; cbn [map] in E; injection E as E1 E2; destruct Hq as [<-|Hq]; auto).
    exact (G sp Hs M).
Qed.
Lemma ext_perm : Permutation (le_enum (map (fun _ => k) lp)) (flat_map (fun u => map (ext u) (seq 0 k)) (le_enum (map (fun _ => k) sp))).
Proof.
  assert (LS : forall u, In u (le_enum (map (fun _ => k) sp)) -> length u = length sp) by (intros u Hu; apply le_enum_ok, config_const in Hu; tauto).
  apply NoDup_Permutation; [apply le_enum_NoDup| |].
  - assert (ND : NoDup (le_enum (map (fun _ => k) sp))) by apply le_enum_NoDup. induction ND as [|u l Hn ND IH]; [constructor|]. cbn [flat_map].
    apply NoDup_app_intro; [|apply IH; intros w Hw; apply LS; right; exact Hw|].
    + assert (IJ : forall d d', ext u d = ext u d' -> d = d') by (intros d d' E; apply (ext_inj u d u d' (LS u (or_introl eq_refl)) (LS u (or_introl eq_refl)) E)).
      assert (Ns := seq_NoDup k 0). clear -IJ Ns. induction Ns as [|d r Hd Ns IH]; [constructor|]. cbn [map]. constructor; [|exact IH]. intros H. apply in_map_iff in H as [d' [E H]]. apply IJ in E. congruence.
    + intros w H1 H2. apply in_map_iff in H1 as [d [<- _]]. apply in_flat_map in H2 as [u' [Hu' H2]]. apply in_map_iff in H2 as [d' [E _]].
      apply ext_inj in E as [E _]; [congruence|apply LS; right; exact Hu'|apply LS; left; reflexivity].
  - intros w. rewrite in_flat_map, le_enum_ok. split.
    + intros Hw. destruct (ext_onto w Hw) as [u [d [A [B ->]]]]. exists u. split; [apply le_enum_ok, A|]. apply in_map, in_seq. lia.
    + intros [u [Hu H]]. apply in_map_iff in H as [d [<- H]]. apply in_seq in H. apply ext_config; [apply le_enum_ok, Hu|lia].
Qed.
(** the times add up *)
Lemma ext_times ni u x : length u = length sp ->
  Qcsum (map (fun d => dwell_time (t_times t) (t_rows t) (ni :: clp) (x :: ext u d)) (seq 0 k)) = dwell_time (t_times t) (t_rows t) (ni :: csp) (x :: u).
Proof.
  intros Hl. unfold dwell_time. rewrite <- (split_rows fst (fun tr => row_shows (snd tr) (ni :: csp) (x :: u)) (fun d tr => row_shows (snd tr) [idx_of s p] [d]) k).
  - f_equal. apply map_ext. intros d. do 2 f_equal. apply filter_ext. intros [q row]. cbn [snd]. rewrite !row_shows_cons, (ext_shows u d row Hl). apply andb_assoc.
  - intros [q row] Hin. apply in_combine_r in Hin. destruct (wf_lookup s p Hwf Hp) as [i [_ [_ [E3 [Ei Ec]]]]]. destruct Hd as [_ [_ [_ H]]]. destruct (H row Hin p _ _ Ei Ec) as [_ [[d [E Hdc]] _]].
    exists d. split; [rewrite <- (HV (val_of s p)); [exact Hdc|eapply nth_error_In, E3]|]. intros y. cbn [snd]. unfold row_shows. cbn [combine forallb fst snd]. rewrite E, andb_true_r.
    destruct (Nat.eqb_spec y d) as [->|N]; [apply Z.eqb_refl|apply Z.eqb_neq; lia].
Qed.

Variable v : label.
Hypothesis Hv : In v (nodes_labels s).
Hypothesis Hnn : Forall (fun q => 0 <= q)%Qc (t_times t).
Hypothesis Hstill : forall pis u x y, x <> y -> jumps t (total_variables_number s) (idx_of s v) pis u x y = 0%Z.
Hypothesis Hk2 : k <> 1.
Lemma dwell_nonneg cols vals : (0 <= dwell_time (t_times t) (t_rows t) cols vals)%Qc.
Proof.
  unfold dwell_time. assert (F : forall tr, In tr (combine (t_times t) (t_rows t)) -> (0 <= fst tr)%Qc) by (intros [q r] H; apply in_combine_l in H; rewrite Forall_forall in Hnn; apply Hnn, H).
  induction (combine (t_times t) (t_rows t)) as [|tr l IH]; [apply Qcle_refl|]. cbn [filter]. assert (IH' := IH (fun a Ha => F a (or_intror Ha))). destruct (row_shows (snd tr) cols vals); [|exact IH'].
  cbn [map]. unfold Qcsum in *. cbn [fold_right]. rewrite <- (Qcplus_0_l 0). apply Qcplus_le_compat; [apply F; left; reflexivity|exact IH'].
Qed.
Lemma still_data pis u : still_cim k (data_cim t (total_variables_number s) (idx_of s v) pis k u).
Proof.
  split; [apply data_full|]. split.
  - intros x Hx. unfold data_cim. cbn [compute_cim_coefficients new_cim c_times]. unfold exact_times. rewrite map_nth_error_iff, nth_seq_lt by exact Hx. cbn [option_map]. eexists. split; [reflexivity|]. apply dwell_nonneg.
  - intros x y Hx Hy. unfold data_cim. cbn [compute_cim_coefficients new_cim c_trans]. unfold exact_counts, entry_at.
    rewrite map_nth_error_iff, nth_seq_lt by exact Hx. cbn [option_map]. rewrite map_nth_error_iff, nth_seq_lt by exact Hy. cbn [option_map]. f_equal.
    destruct (Nat.eqb_spec y x) as [->|N]; [|apply Hstill; congruence]. clear Hy. induction (seq 0 k) as [|z l IH]; [reflexivity|]. cbn [map]. unfold Zsum in *. cbn [fold_right]. rewrite IH.
    destruct (Nat.eqb_spec z x) as [->|N]; [reflexivity|]. rewrite Hstill by congruence. reflexivity.
Qed.
Lemma time_at_data pis u x : x < k -> time_at (data_cim t (total_variables_number s) (idx_of s v) pis k u) x = Qc2R (dwell_time (t_times t) (t_rows t) (idx_of s v :: pis) (x :: u)).
Proof.
  intros Hx. unfold time_at, data_cim. cbn [compute_cim_coefficients new_cim c_times]. unfold exact_times. f_equal. apply nth_error_nth. rewrite map_nth_error_iff, nth_seq_lt by exact Hx. reflexivity.
Qed.

Definition still_total (tau alpha : R) (P : list label) : R :=
  Rsum (map (fun u => still_value tau alpha k (data_cim t (total_variables_number s) (idx_of s v) (map (idx_of s) (parents_in s P)) k u)) (le_enum (map (fun _ => k) (parents_in s P)))).
Lemma still_pscore lg tau alpha P : (0 < tau)%R -> (forall l, In l P -> In l (nodes_labels s)) ->
  pscore R (fun cims => get_fam_score lg cims tau alpha) t s v P = Ok (still_total tau alpha P).
Proof.
  intros Ht HP. assert (HVv : forall l, In l (nodes_labels s) -> val_of s l = k).
  { intros l Hl. destruct (wf_lookup s l Hwf Hl) as [i [_ [_ [E3 _]]]]. apply HV. eapply nth_error_In, E3. }
  assert (EV : map (val_of s) (parents_in s P) = map (fun _ => k) (parents_in s P)).
  { apply map_ext_in. intros l Hl. apply HVv. unfold parents_in in Hl. apply filter_In in Hl. tauto. }
  unfold pscore. set (tot := total_variables_number s). rewrite (set_params_exact s t tot v P Hwf Hd eq_refl Hv); rewrite ?EV, ?(HVv v Hv); auto.
  2:{ intros q Hq _. apply in_map_iff in Hq as [_ [<- _]]. reflexivity. }
  cbn [bind so_actual_cims]. rewrite (still_score lg k tau alpha Ht).
  - unfold still_total. fold tot. rewrite map_map. reflexivity.
  - exact Hk2.
  - intros E. apply map_eq_nil in E. assert (I : nth_error (le_enum (map (fun _ => k) (parents_in s P))) 0 <> None).
    { apply nth_error_Some. rewrite le_enum_length. clear -Hk. induction (parents_in s P) as [|a l IH]; cbn [map nat_prod]; [cbn; lia|]. unfold nat_prod in *. cbn [fold_right]. nia. }
    rewrite E in I. contradiction.
  - apply Forall_map, Forall_forall. intros u _. apply still_data.
Qed.
Lemma still_more tau alpha : (0 < tau)%R -> (0 <= alpha + 1)%R -> (still_total tau alpha (p :: K) <= still_total tau alpha K)%R.
Proof.
  intros Ht Ha. unfold still_total. fold sp lp csp clp. set (tot := total_variables_number s). set (ni := idx_of s v).
  rewrite (Rsum_perm _ _ (Permutation_map _ ext_perm)), Rsum_flat. apply Rsum_le. intros u Hu. assert (Hl : length u = length sp) by (apply le_enum_ok, config_const in Hu; tauto).
  rewrite map_map. unfold still_value. rewrite (Rsum_swap (fun d x => (- (alpha + 1) * (ln (tau + time_at (data_cim t tot ni clp k (ext u d)) x) - ln tau))%R)). apply Rsum_le. intros x Hx. apply in_seq in Hx.
  rewrite (Rsum_scale (- (alpha + 1)) (fun d => (ln (tau + time_at (data_cim t tot ni clp k (ext u d)) x) - ln tau)%R)).
  apply Rmult_le_compat_neg_l; [lra|]. unfold tot, ni. rewrite time_at_data by lia. rewrite <- (ext_times (idx_of s v) u x Hl), Qc2R_sum, map_map.
  erewrite (Rsum_ext (fun d => (ln (tau + time_at _ x) - ln tau)%R)); [|intros d _; rewrite time_at_data by lia; reflexivity].
  pose proof (ln_sub_sum tau Ht (map (fun d => Qc2R (dwell_time (t_times t) (t_rows t) (idx_of s v :: clp) (x :: ext u d))) (seq 0 k))) as L. rewrite map_map in L. apply L.
  apply Forall_map, Forall_forall. intros d _. apply Qc2R_nonneg, dwell_nonneg.
Qed.
End split.
