(** C88: the score difference made by one more parent on copies of the data. *)
From Coq Require Import Reals Lra.
From Verif Require Import Base Lib LibQc ModelStructure ModelGraph ModelCims ModelData ModelParams ModelCache ModelCtpc ModelSearch ModelFamScore
  SpecStructure SpecGraph SpecComb SpecParams SpecData SpecCtpc SpecSearch SpecFamScore SpecRedundant SpecCoding SpecInvariance SpecBias SpecEnough SpecFloating
  ProofStructure ProofGraph ProofComb ProofParams ProofParams2 ProofParams3 ProofConserve ProofCtpc ProofCtpc2 ProofCtpc4 ProofFamScore ProofFamScore2 ProofRedundant
  ProofSearch ProofSearch3 ProofCache ProofCoding ProofCoding2 ProofRedundant2 ProofFew ProofInvariance ProofUnit ProofUnit3 ProofIndep ProofBias ProofAsymp ProofEnough ProofEnough2 ProofEnough3.
Close Scope R_scope. Open Scope nat_scope.

Section enough.
Variables (vars : list label) (cards : list nat) (prior : option (list edge)) (k : nat) (rs : list raw) (v : label).
Hypothesis HL : legal_input vars cards rs.
Hypothesis HE : equal_cards cards k.
Hypothesis Hk : 2 <= k.
Hypothesis HC : Forall clock_strict rs.
Hypothesis Hv : In v vars.
Let s := struct_of vars cards prior.
Let ni := idx_of s v.
Definition cols_of (P : list label) : list nat := map (idx_of s) (parents_in s P).
Lemma en_wf : wf_structure s.
Proof. apply (legal_wf vars cards prior rs HL). Qed.
Lemma en_pos l : In l vars -> nth_error vars (idx_of s l) = Some l /\ nth_error cards (idx_of s l) = Some k.
Proof.
  intros Hl. destruct (wf_lookup s l en_wf Hl) as [i [E1 [E2 [E3 _]]]]. cbn [s struct_of nodes_labels nodes_indexes nodes_values] in *.
  assert (Hi : i < length vars) by (apply nth_error_Some; congruence). rewrite nth_seq_lt in E2 by exact Hi. injection E2 as E2. cbn in E2. rewrite <- E2. split; [exact E1|].
  rewrite E3. f_equal. apply HE. eapply nth_error_In, E3.
Qed.
Lemma column_at l i : nth_error vars i = Some l -> NoDup vars -> column vars l = i.
Proof.
  revert i. clear. induction vars as [|x r IH]; intros i H N; [destruct i; discriminate|]. inversion N as [|? ? Hx N']; subst. destruct i as [|i]; cbn [nth_error] in H; cbn [column].
  - injection H as ->. rewrite String.eqb_refl. reflexivity.
  - destruct (String.eqb_spec x l) as [->|]; [exfalso; apply Hx; eapply nth_error_In, H|]. f_equal. apply IH; assumption.
Qed.
Lemma col_idx l : In l vars -> column vars l = idx_of s l.
Proof. intros Hl. apply column_at; [apply en_pos, Hl|apply en_wf]. Qed.
Lemma row_state ab l : step_in rs ab -> In l vars -> exists d, d < k /\ nth_error (snd (fst ab)) (idx_of s l) = Some (Z.of_nat d).
Proof.
  intros [r [Hr Hab]] Hl. destruct HL as [_ [_ [_ [Hok _]]]]. rewrite Forall_forall in Hok. destruct (proj1 (Hok r Hr) ab Hab) as [F _].
  destruct (en_pos l Hl) as [_ E]. revert E. generalize (idx_of s l). clear -F. induction F as [|z c zs cs H F IH]; intros i E; [destruct i; discriminate|]. destruct i as [|i]; cbn [nth_error] in E |- *; [|apply IH, E].
  injection E as ->. exists (Z.to_nat z). rewrite Z2Nat.id by lia. split; [lia|reflexivity].
Qed.
Lemma row_one ab l : step_in rs ab -> In l vars -> exists d, d < k /\ forall x, row_shows (snd (fst ab)) [idx_of s l] [x] = (x =? d).
Proof.
  intros H Hl. destruct (row_state ab l H Hl) as [d [Hd E]]. exists d. split; [exact Hd|]. intros x. unfold row_shows. cbn [combine forallb fst snd]. rewrite E, andb_true_r.
  destruct (Nat.eqb_spec x d) as [->|N]; [apply Z.eqb_refl|apply Z.eqb_neq; lia].
Qed.
Lemma next_state ab y : step_in rs ab -> row_shows (snd (snd ab)) [ni] [y] = true -> y < k.
Proof.
  intros [r [Hr Hab]] H. destruct HL as [_ [_ [_ [Hok _]]]]. rewrite Forall_forall in Hok. destruct (proj1 (Hok r Hr) ab Hab) as [_ F].
  destruct (en_pos v Hv) as [_ E]. fold ni in E. unfold row_shows in H. cbn [combine forallb fst snd] in H. rewrite andb_true_r in H. revert E H. generalize ni. clear -F. induction F as [|z c zs cs H F IH]; intros i E; [destruct i; discriminate|].
  destruct i as [|i]; cbn [nth_error] in E |- *; [|apply IH, E]. injection E as ->. intros Ez. apply Z.eqb_eq in Ez. lia.
Qed.
Lemma jumps_big y cols vals : k <= y -> raw_jumps rs ni y cols vals = 0%Z.
Proof.
  intros Hy. unfold raw_jumps. assert (G : forall r, In r rs -> filter (fun ab => row_shows (snd (fst ab)) cols vals && row_shows (snd (snd ab)) [ni] [y]) (steps r) = []).
  { intros r Hr. destruct (filter _ (steps r)) as [|ab z] eqn:EF; [reflexivity|]. exfalso. assert (I : In ab (ab :: z)) by (left; reflexivity). rewrite <- EF in I. apply filter_In in I as [I1 I2]. apply andb_true_iff in I2 as [_ I2].
    apply next_state in I2; [lia|]. exists r. auto. }
  revert G. generalize rs. clear. induction rs as [|r l IH]; intros G; [reflexivity|]. cbn [map]. rewrite Zsum_cons, G by (left; reflexivity). rewrite IH by (intros; apply G; right; assumption). reflexivity.
Qed.
Lemma given_shows P a x row : incl P vars -> row_shows row (map (column vars) (v :: P)) (x :: map a P) = row_shows row (ni :: cols_of P) (x :: map a (parents_in s P)).
Proof.
  intros HP. cbn [map]. rewrite !row_shows_cons. rewrite (col_idx v Hv). fold ni. f_equal. apply eq_true_iff_eq.
  assert (C1 : columns_of s P (map (column vars) P)).
  { unfold columns_of. clear x. induction P as [|l P IH]; cbn [map]; constructor; [|apply IH; intros z Hz; apply HP; right; exact Hz]. rewrite col_idx by (apply HP; left; reflexivity).
    destruct (wf_lookup s l en_wf (HP l (or_introl eq_refl))) as [_ [_ [_ [_ [Q _]]]]]. exact Q. }
  assert (C2 : columns_of s (parents_in s P) (cols_of P)) by apply red_cols, en_wf.
  rewrite (shows_iff s row a _ _ C1), (shows_iff s row a _ _ C2). split; intros H l i Hl E; apply H; try exact E.
  - unfold parents_in in Hl. apply filter_In in Hl as [_ Hl]. apply lmem_In, Hl.
  - unfold parents_in. apply filter_In. split; [apply HP, Hl|apply lmem_In, Hl].
Qed.
Lemma time_alt P a x : incl P vars -> time_given vars rs v P a x = raw_dwell rs (ni :: cols_of P) (x :: map a (parents_in s P)).
Proof. intros HP. apply dwell_same. intros ab _. apply given_shows, HP. Qed.
Lemma changes_alt P a x y : incl P vars -> changes_given vars rs v P a x y = raw_jumps rs ni y (ni :: cols_of P) (x :: map a (parents_in s P)).
Proof. intros HP. unfold changes_given. rewrite (col_idx v Hv). apply jumps_same. intros ab _. apply given_shows, HP. Qed.
(** an observed situation is legal *)
Lemma observed P a x : incl P vars -> (0 < time_given vars rs v P a x)%Qc -> x < k /\ forall l, In l P -> a l < k.
Proof.
  intros HP H. rewrite time_alt in H by exact HP. apply dwell_some in H as [ab [Hab H]]. rewrite row_shows_cons, andb_true_iff in H. destruct H as [H1 H2]. split.
  - destruct (row_one ab v Hab Hv) as [d [Hd E]]. fold ni in E. pose proof (E x) as E'. unfold row_shows in E'. cbn [combine forallb fst snd] in E'. rewrite andb_true_r in E'. rewrite H1 in E'. symmetry in E'. apply Nat.eqb_eq in E'. lia.
  - intros l Hl. assert (C2 : columns_of s (parents_in s P) (cols_of P)) by apply red_cols, en_wf. rewrite (shows_iff s _ a _ _ C2) in H2.
    destruct (row_state ab l Hab (HP l Hl)) as [d [Hd E]]. destruct (wf_lookup s l en_wf (HP l Hl)) as [_ [_ [_ [_ [Q _]]]]].
    rewrite (H2 l _ ltac:(unfold parents_in; apply filter_In; split; [apply HP, Hl|apply lmem_In, Hl]) Q) in E. injection E as E. lia.
Qed.

(** ** the score *)
Section score.
Variables (lg : R -> R) (tau alpha : R).
Hypothesis Hlg : log_gamma_equation lg.
Hypothesis Ht : (0 < tau)%R.
Hypothesis Ha : (0 < alpha)%R.
Let axx := (alpha / (INR k - 1))%R.
Definition fam (ds : list raw) (P : list label) : R := Rsum (map (cellsum k tau alpha ds ni (cols_of P)) (le_enum (map (fun _ => k) (parents_in s P)))).
Lemma en_vals P : map (val_of s) (parents_in s P) = map (fun _ => k) (parents_in s P).
Proof.
  apply map_ext_in. intros l Hl. unfold parents_in in Hl. apply filter_In in Hl as [Hl _]. destruct (wf_lookup s l en_wf Hl) as [i [_ [_ [E3 _]]]]. apply HE. eapply nth_error_In, E3.
Qed.
Lemma fam_pscore ds P : legal_input vars cards ds -> Forall clock_ok ds -> incl P vars ->
  pscore R (fun cims => get_fam_score lg cims tau alpha) (traj_of vars ds) s v P = Ok (fam ds P).
Proof.
  intros HL' HC' HP. unfold pscore. change (total_variables_number s) with (length vars). unfold s. rewrite (raw_set_params vars cards prior ds k v P HL') by (auto; try lia; apply HE). fold s.
  cbn [bind so_actual_cims]. rewrite en_vals. replace (val_of s v) with k by (symmetry; destruct (wf_lookup s v en_wf Hv) as [i [_ [_ [E3 _]]]]; apply HE; eapply nth_error_In, E3).
  apply (raw_score lg k tau alpha Hlg Hk Ht Ha); [exact HC'|]. intros E. assert (I : nth_error (le_enum (map (fun _ => k) (parents_in s P))) 0 <> None).
  { apply nth_error_Some. rewrite le_enum_length. clear -Hk. induction (parents_in s P) as [|a l IH]; cbn [map nat_prod]; [cbn; lia|]. unfold nat_prod in *. cbn [fold_right]. nia. }
  rewrite E in I. contradiction.
Qed.

Variables (p : label) (K : list label).
Hypothesis Hp : In p vars.
Hypothesis HpK : ~ In p K.
Hypothesis HK : incl K vars.
Let us := le_enum (map (fun _ => k) (parents_in s K)).
Let Td (u : list nat) (x d : nat) : R := Tm rs ni (cols_of (p :: K)) (ext s p K u d) x.
Let md (u : list nat) (x d j : nat) : nat := Mm rs ni (cols_of (p :: K)) (ext s p K u d) x j.
Let D := seq 0 k.
Let diff (n : nat) : R := Rsum (map (fun u => Rsum (map (fun x => split_diff tau alpha axx D (oth k x) (Td u x) (md u x) n) (seq 0 k))) us).
Lemma us_ok u : In u us <-> length u = length (parents_in s K) /\ Forall (fun d => d < k) u.
Proof. unfold us. rewrite le_enum_ok. apply config_const. Qed.
Lemma ext_row u d x ab : In u us -> step_in rs ab ->
  row_shows (snd (fst ab)) (ni :: cols_of (p :: K)) (x :: ext s p K u d) = row_shows (snd (fst ab)) (ni :: cols_of K) (x :: u) && row_shows (snd (fst ab)) [idx_of s p] [d].
Proof.
  intros Hu _. rewrite !row_shows_cons. unfold cols_of. rewrite (ext_shows s p K en_wf Hp HpK u d _ ltac:(apply us_ok, Hu)). apply andb_assoc.
Qed.
Lemma Td_sum u x : In u us -> Rsum (map (Td u x) D) = Tm rs ni (cols_of K) u x.
Proof.
  intros Hu. unfold Td, Tm, D. rewrite <- (split_dwell rs k (fun d => ni :: cols_of (p :: K)) (fun d => x :: ext s p K u d) (ni :: cols_of K) (x :: u) (idx_of s p)).
  - rewrite Qc2R_sum, map_map. reflexivity.
  - intros ab Hab. apply row_one; [exact Hab|exact Hp].
  - intros ab d Hab. apply ext_row; assumption.
Qed.
Lemma md_sum u x j : In u us -> pooled D (md u x) j = Mm rs ni (cols_of K) u x j.
Proof.
  intros Hu. unfold pooled, md, Mm, D. apply (split_jumps rs k ni j (fun d => ni :: cols_of (p :: K)) (fun d => x :: ext s p K u d) (ni :: cols_of K) (x :: u) (idx_of s p)).
  - intros ab Hab. apply row_one; [exact Hab|exact Hp].
  - intros ab d Hab. apply ext_row; assumption.
Qed.
Lemma Td_nonneg u x d : (0 <= Td u x d)%R.
Proof. unfold Td, Tm. apply Qc2R_nonneg, raw_dwell_nonneg, strict_ok, HC. Qed.
Lemma Qc2R_zero q : Qc2R q = 0%R -> q = 0%Qc.
Proof. intros H. destruct (Qc_dec q 0) as [[L|L]|E]; [| |exact E]; exfalso.
  - assert (P : (0 < - q)%Qc) by (apply Qclt_minus_iff in L; rewrite Qcplus_0_l in L; exact L). apply Qc2R_pos in P. assert (Qc2R (- q + q)%Qc = 0%R) by (rewrite Qcplus_comm, Qcplus_opp_r; apply (Qc2R_Z 0)). rewrite Qc2R_plus in H0. lra.
  - apply Qc2R_pos in L. lra.
Qed.
Lemma Td_zero u x d : Td u x d = 0%R -> forall j, md u x d j = 0.
Proof. intros H j. unfold Td, Tm in H. apply Qc2R_zero in H. unfold md, Mm. rewrite (dwell_jumps rs ni j _ _ HC H). reflexivity. Qed.
Lemma oth_ne x : x < k -> oth k x <> [].
Proof. intros H E. apply oth_length in H. rewrite E in H. cbn in H. lia. Qed.
Lemma fam_diff n : (fam (copies n rs) (p :: K) - fam (copies n rs) K = diff n)%R.
Proof.
  unfold fam. rewrite (Rsum_perm _ _ (Permutation_map _ (ext_perm s k p K en_wf ltac:(lia) Hp HpK))), Rsum_flat, <- Rsum_minus. fold us. unfold diff. apply Rsum_ext. intros u Hu.
  rewrite map_map. unfold cellsum. rewrite (Rsum_swap (fun d x => cellv tau alpha (alpha / (INR k - 1)) (Tm (copies n rs) ni (cols_of (p :: K)) (ext s p K u d) x) (map (Mm (copies n rs) ni (cols_of (p :: K)) (ext s p K u d) x) (oth k x)))).
  rewrite <- Rsum_minus. apply Rsum_ext. intros x Hx. unfold split_diff. fold axx. fold D. f_equal.
  - apply Rsum_ext. intros d _. unfold Td, md. rewrite Tm_copies, map_map. f_equal. apply map_ext. intros j. apply Mm_copies.
  - rewrite (Td_sum u x Hu), Tm_copies, map_map. f_equal. apply map_ext. intros j. rewrite (md_sum u x j Hu). apply Mm_copies.
Qed.
Let A := Rsum (map (fun u => Rsum (map (fun x => split_a D (oth k x) (Td u x) (md u x)) (seq 0 k))) us).
Let B := Rsum (map (fun u => Rsum (map (fun x => split_b alpha axx D (oth k x) (Td u x) (md u x)) (seq 0 k))) us).
Lemma diff_grows : grows diff 0 A B.
Proof.
  assert (Z : forall l : list (list nat), 0%R = Rsum (map (fun _ => Rsum (map (fun _ => 0%R) (seq 0 k))) l)) by (intros l; symmetry; apply Rsum_0; intros; apply Rsum_0; reflexivity).
  rewrite (Z us). unfold diff, A, B. apply (grows_sum (fun u n => Rsum (map (fun x => split_diff tau alpha axx D (oth k x) (Td u x) (md u x) n) (seq 0 k)))). intros u Hu.
  apply (grows_sum (fun x n => split_diff tau alpha axx D (oth k x) (Td u x) (md u x) n)). intros x Hx. apply split_grows; auto.
  - apply axx_pos; assumption.
  - intros d _. apply Td_nonneg.
  - intros d _ H j _. apply Td_zero, H.
Qed.
(** ** translating situations *)
Lemma with_all a l : In l (parents_in s (p :: K)) -> with_p s p K (map a (parents_in s K)) (a p) l = a l.
Proof.
  intros Hl. unfold with_p. destruct (String.eqb_spec l p) as [->|N]; [reflexivity|]. destruct (lp_sp s p K l Hl) as [->|Hs]; [congruence|].
  pose proof (lookup_map' (parents_in s K) (map a (parents_in s K)) (red_NoDup s en_wf K) (map_length _ _)) as M.
  assert (G : forall q, In l q -> map (lookup (parents_in s K) (map a (parents_in s K))) q = map a q -> lookup (parents_in s K) (map a (parents_in s K)) l = a l) by (induction q as [|y q IH]; intros Hq E; [contradiction|]; cbn [map] in E; injection E as E1 E2; destruct Hq as [<-|Hq]; auto).
  exact (G _ Hs M).
Qed.
Lemma pK_incl : incl (p :: K) vars.
Proof. intros l [<-|Hl]; [exact Hp|apply HK, Hl]. Qed.
Lemma to_cell a x : (0 < time_given vars rs v (p :: K) a x)%Qc ->
  In (map a (parents_in s K)) us /\ x < k /\ a p < k /\ Qc2R (time_given vars rs v (p :: K) a x) = Td (map a (parents_in s K)) x (a p)
  /\ forall y, changes_given vars rs v (p :: K) a x y = Z.of_nat (md (map a (parents_in s K)) x (a p) y).
Proof.
  intros H. destruct (observed (p :: K) a x pK_incl H) as [Hx Hl]. split; [|split; [exact Hx|split; [apply Hl; left; reflexivity|]]].
  - apply us_ok. split; [apply map_length|]. apply Forall_map, Forall_forall. intros l H'. apply Hl. right. unfold parents_in in H'. apply filter_In in H' as [_ H']. apply lmem_In, H'.
  - assert (E : ext s p K (map a (parents_in s K)) (a p) = map a (parents_in s (p :: K))) by (apply map_ext_in; intros l H'; apply with_all, H').
    unfold Td, md, Tm, Mm. rewrite E. split; [rewrite time_alt by apply pK_incl; reflexivity|]. intros y. rewrite changes_alt by apply pK_incl. rewrite Z2Nat.id by apply raw_jumps_nonneg. reflexivity.
Qed.
Lemma of_cell u d x : In u us -> time_given vars rs v (p :: K) (with_p s p K u d) x = raw_dwell rs (ni :: cols_of (p :: K)) (x :: ext s p K u d)
  /\ (forall y, changes_given vars rs v (p :: K) (with_p s p K u d) x y = Z.of_nat (md u x d y)) /\ with_p s p K u d p = d /\ forall d', forall l, In l K -> with_p s p K u d l = with_p s p K u d' l.
Proof.
  intros Hu. split; [apply time_alt, pK_incl|]. split; [|split].
  - intros y. rewrite changes_alt by apply pK_incl. unfold md, Mm. rewrite Z2Nat.id by apply raw_jumps_nonneg. reflexivity.
  - unfold with_p. rewrite String.eqb_refl. reflexivity.
  - intros d' l Hl. unfold with_p. destruct (String.eqb_spec l p) as [->|]; [contradiction|reflexivity].
Qed.
Lemma pos_R q : (0 < Qc2R q)%R -> (0 < q)%Qc.
Proof.
  intros H. destruct (Qclt_le_dec 0 q) as [L|L]; [exact L|]. exfalso. assert (P : (0 <= - q)%Qc) by (apply Qcle_minus_iff in L; rewrite Qcplus_0_l in L; exact L). apply Qc2R_nonneg in P.
  assert (E : Qc2R (- q + q)%Qc = 0%R) by (rewrite Qcplus_comm, Qcplus_opp_r; apply (Qc2R_Z 0)). rewrite Qc2R_plus in E. lra.
Qed.
Lemma rate_cross (m m' : Z) (T T' : Qc) : (0 < T)%Qc -> (0 < T')%Qc -> ((Qc_of_Z m / T = Qc_of_Z m' / T')%Qc <-> (IZR m * Qc2R T' = IZR m' * Qc2R T)%R).
Proof.
  intros H H'. assert (N : T <> 0%Qc) by (apply Qc_pos_neq, H). assert (N' : T' <> 0%Qc) by (apply Qc_pos_neq, H'). rewrite <- !Qc2R_Z, <- !Qc2R_mult. split.
  - intros E. f_equal. assert (E' : (Qc_of_Z m / T * (T * T') = Qc_of_Z m' / T' * (T * T'))%Qc) by (rewrite E; reflexivity).
    replace (Qc_of_Z m / T * (T * T'))%Qc with (Qc_of_Z m * T')%Qc in E' by (field; exact N). replace (Qc_of_Z m' / T' * (T * T'))%Qc with (Qc_of_Z m' * T)%Qc in E' by (field; exact N'). exact E'.
  - intros E. assert (Z : Qc2R (Qc_of_Z m * T' - Qc_of_Z m' * T)%Qc = 0%R).
    { assert (W : (Qc2R ((Qc_of_Z m * T' - Qc_of_Z m' * T) + Qc_of_Z m' * T)%Qc = Qc2R (Qc_of_Z m * T')%Qc)) by (f_equal; ring). rewrite Qc2R_plus in W. lra. }
    apply Qc2R_zero in Z. assert (E' : (Qc_of_Z m * T' = Qc_of_Z m' * T)%Qc) by (replace (Qc_of_Z m * T')%Qc with ((Qc_of_Z m * T' - Qc_of_Z m' * T) + Qc_of_Z m' * T)%Qc by ring; rewrite Z; ring).
    replace (Qc_of_Z m / T)%Qc with ((Qc_of_Z m * T') / (T * T'))%Qc by (field; auto). rewrite E'. field. auto.
Qed.

(** ** the three cases *)
Lemma case_depends : depends vars rs v K p -> exists n0, 1 <= n0 /\ forall n, n0 <= n -> (fam (copies n rs) K < fam (copies n rs) (p :: K))%R.
Proof.
  intros [a [b [x [y [[H1 [H2 [H3 H4]]] [Hxy H5]]]]]].
  assert (PA : (0 < A)%R).
  { destruct (to_cell a x H3) as [A1 [A2 [A3 [A4 A5]]]]. destruct (to_cell b x H4) as [_ [_ [B3 [B4 B5]]]].
    assert (EM : map b (parents_in s K) = map a (parents_in s K)) by (apply map_ext_in; intros l Hl; symmetry; apply H1; unfold parents_in in Hl; apply filter_In in Hl as [_ Hl]; apply lmem_In, Hl).
    rewrite EM in *. set (u := map a (parents_in s K)) in *.
    assert (Hy : y < k). { destruct (Nat.lt_ge_cases y k) as [|G]; [assumption|]. exfalso. apply H5. unfold rate_given. rewrite !changes_alt by apply pK_incl. rewrite !jumps_big by exact G. unfold Qcdiv. change (Qc_of_Z 0) with 0%Qc. ring. }
    assert (NN : forall u x, (0 <= split_a D (oth k x) (Td u x) (md u x))%R) by (intros; apply split_a_nonneg; [intros; apply Td_nonneg|intros; apply Td_zero; assumption]).
    assert (ND : (INR (md u x (a p) y) * Td u x (b p) <> INR (md u x (b p) y) * Td u x (a p))%R).
    { intros E. apply H5. unfold rate_given. rewrite A5, B5. apply rate_cross; [assumption|assumption|]. rewrite A4, B4, <- !INR_IZR_INZ. exact E. }
    unfold A. rewrite <- (Rsum_0 (fun _ : list nat => 0%R) us) by reflexivity. apply Rsum_lt.
    - intros w _. apply Rsum_nonneg, Forall_map, Forall_forall. intros; apply NN.
    - exists u. split; [exact A1|]. rewrite <- (Rsum_0 (fun _ : nat => 0%R) (seq 0 k)) by reflexivity. apply Rsum_lt; [intros; apply NN|]. exists x. split; [apply in_seq; lia|].
      apply (split_differs D (oth k x) (Td u x) (md u x)) with (d := a p) (d' := b p) (j := y).
      + intros; apply Td_nonneg.
      + intros; apply Td_zero; assumption.
      + apply V_In. split; [apply in_seq; lia|]. rewrite <- A4. apply Qc2R_pos, H3.
      + apply V_In. split; [apply in_seq; lia|]. rewrite <- B4. apply Qc2R_pos, H4.
      + apply oth_In. split; [exact Hy|congruence].
      + exact ND. }
  destruct (eventually_up diff A B diff_grows PA) as [n0 [N1 N2]]. exists n0. split; [exact N1|]. intros n Hn. specialize (N2 n Hn). rewrite <- fam_diff in N2. lra.
Qed.
Lemma same_rates u x d d' j : ~ depends vars rs v K p -> In u us -> x < k -> In j (oth k x) -> (0 < Td u x d)%R -> (0 < Td u x d')%R -> (INR (md u x d j) * Td u x d' = INR (md u x d' j) * Td u x d)%R.
Proof.
  intros ND Hu Hx Hj P P'. destruct (Req_dec (INR (md u x d j) * Td u x d') (INR (md u x d' j) * Td u x d)) as [E|E]; [exact E|]. exfalso. apply ND.
  destruct (of_cell u d x Hu) as [A1 [A2 [A3 A4]]]. destruct (of_cell u d' x Hu) as [B1 [B2 [B3 _]]]. unfold Td, Tm in P, P'. apply pos_R in P, P'. apply oth_In in Hj as [Hj1 Hj2].
  exists (with_p s p K u d), (with_p s p K u d'), x, j. split; [|split; [congruence|]].
  - split; [apply A4|]. rewrite A3, B3, A1, B1. split; [|split; assumption]. intros ->. apply E. reflexivity.
  - unfold rate_given. rewrite A1, B1, A2, B2. intros W. apply rate_cross in W; [|assumption|assumption]. rewrite <- !INR_IZR_INZ in W. apply E. exact W.
Qed.
Lemma case_independent : ~ depends vars rs v K p -> varies vars rs v K p -> exists n0, 1 <= n0 /\ forall n, n0 <= n -> (fam (copies n rs) (p :: K) < fam (copies n rs) K)%R.
Proof.
  intros ND [a [b [x [H1 [H2 [H3 H4]]]]]].
  assert (S1 : forall u z, In u us -> z < k -> forall d d' j, In d (filter (fun d => if Rlt_dec 0 (Td u z d) then true else false) D) -> In d' (filter (fun d => if Rlt_dec 0 (Td u z d) then true else false) D) -> In j (oth k z) -> (INR (md u z d j) * Td u z d' = INR (md u z d' j) * Td u z d)%R).
  { intros u z Hu Hz d d' j Hd Hd' Hj. apply V_In in Hd, Hd'. apply same_rates; tauto. }
  assert (EA : A = 0%R).
  { unfold A. apply Rsum_0. intros u Hu. apply Rsum_0. intros z Hz. apply in_seq in Hz. apply split_a_zero; [intros; apply Td_nonneg|intros; apply Td_zero; assumption|]. apply S1; [exact Hu|lia]. }
  assert (LB : (B < 0)%R).
  { destruct (to_cell a x H3) as [A1 [A2 [A3 [A4 A5]]]]. destruct (to_cell b x H4) as [_ [_ [B3 [B4 B5]]]].
    assert (EM : map b (parents_in s K) = map a (parents_in s K)) by (apply map_ext_in; intros l Hl; symmetry; apply H1; unfold parents_in in Hl; apply filter_In in Hl as [_ Hl]; apply lmem_In, Hl).
    rewrite EM in *. set (u := map a (parents_in s K)) in *.
    assert (LE : forall w z, In w us -> In z (seq 0 k) -> (split_b alpha axx D (oth k z) (Td w z) (md w z) <= 0)%R).
    { intros w z Hw Hz. apply in_seq in Hz. apply split_b_le; [exact Ha|apply axx_pos; assumption|intros; apply Td_nonneg|intros; apply Td_zero; assumption|apply oth_ne; lia|apply axx_total; lia|apply S1; [exact Hw|lia]]. }
    unfold B. rewrite <- (Rsum_0 (fun _ : list nat => 0%R) us) by reflexivity. apply Rsum_lt.
    - intros w Hw. rewrite <- (Rsum_0 (fun _ : nat => 0%R) (seq 0 k)) by reflexivity. apply Rsum_le. intros z Hz. apply LE; assumption.
    - exists u. split; [exact A1|]. rewrite <- (Rsum_0 (fun _ : nat => 0%R) (seq 0 k)) by reflexivity. apply Rsum_lt; [intros z Hz; apply LE; assumption|]. exists x. split; [apply in_seq; lia|].
      apply (split_b_lt alpha axx Ha ltac:(apply axx_pos; assumption) D (oth k x) (Td u x) (md u x)) with (d := a p) (d' := b p).
      + intros; apply Td_nonneg.
      + intros; apply Td_zero; assumption.
      + apply oth_ne; exact A2.
      + apply axx_total; [lia|exact A2].
      + apply S1; assumption.
      + exact H2.
      + apply V_In. split; [apply in_seq; lia|]. rewrite <- A4. apply Qc2R_pos, H3.
      + apply V_In. split; [apply in_seq; lia|]. rewrite <- B4. apply Qc2R_pos, H4. }
  pose proof diff_grows as G. rewrite EA in G. destruct (eventually_down diff B G LB) as [n0 [N1 N2]]. exists n0. split; [exact N1|]. intros n Hn. specialize (N2 n Hn). rewrite <- fam_diff in N2. lra.
Qed.
Lemma case_constant n : ~ varies vars rs v K p -> fam (copies n rs) (p :: K) = fam (copies n rs) K.
Proof.
  intros NV. assert (E : diff n = 0%R); [|pose proof (fam_diff n); lra]. unfold diff. apply Rsum_0. intros u Hu. apply Rsum_0. intros x Hx. apply in_seq in Hx.
  apply split_same; [exact Ha|intros; apply Td_nonneg|intros; apply Td_zero; assumption|apply axx_total; lia| |apply seq_NoDup].
  intros d d' Hd Hd'. apply V_In in Hd as [_ P]. apply V_In in Hd' as [_ P']. destruct (Nat.eq_dec d d') as [|N]; [assumption|]. exfalso. apply NV.
  destruct (of_cell u d x Hu) as [A1 [A2 [A3 A4]]]. destruct (of_cell u d' x Hu) as [B1 [B2 [B3 _]]]. unfold Td, Tm in P, P'. apply pos_R in P, P'.
  exists (with_p s p K u d), (with_p s p K u d'), x. split; [apply A4|]. rewrite A3, B3, A1, B1. auto.
Qed.
End score.
End enough.
