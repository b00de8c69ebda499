(** C99: the score when states that never occur are declared. *)
From Coq Require Import Reals Lra.
From Verif Require Import Base Lib LibQc ModelStructure ModelGraph ModelCims ModelData ModelParams ModelFamScore
  SpecStructure SpecGraph SpecComb SpecParams SpecData SpecFloating SpecInvariance SpecSearch SpecFamScore SpecSurplus
  ProofStructure ProofGraph ProofComb ProofParams ProofParams2 ProofParams3 ProofFamScore ProofFamScore2 ProofData ProofInvariance ProofFloating5 ProofSpare ProofSpare2.
Open Scope nat_scope.

(** ** a smaller predictive weight *)
Section weight.
Variables (alpha a a' : R).
Hypothesis Halpha : (0 < alpha)%R.
Hypothesis Ha' : (0 < a' <= a)%R.
Lemma dest_term seen d : (ln ((a' + INR (count_occ Nat.eq_dec seen d)) / (alpha + INR (length seen))) <= ln ((a + INR (count_occ Nat.eq_dec seen d)) / (alpha + INR (length seen))))%R.
Proof.
  pose proof (pos_INR (count_occ Nat.eq_dec seen d)) as P. pose proof (pos_INR (length seen)) as Q.
  set (c := INR _) in *. set (n := INR (length seen)) in *. clearbody c n.
  destruct (Req_dec a' a) as [->|N]; [apply Rle_refl|]. apply Rlt_le, ln_increasing.
  - apply Rdiv_lt_0_compat; lra.
  - unfold Rdiv. apply Rmult_lt_compat_r; [apply Rinv_0_lt_compat; lra|lra].
Qed.
Lemma dest_term_strict seen d : (a' < a)%R -> (ln ((a' + INR (count_occ Nat.eq_dec seen d)) / (alpha + INR (length seen))) < ln ((a + INR (count_occ Nat.eq_dec seen d)) / (alpha + INR (length seen))))%R.
Proof.
  intros N. pose proof (pos_INR (count_occ Nat.eq_dec seen d)) as P. pose proof (pos_INR (length seen)) as Q.
  set (c := INR _) in *. set (n := INR (length seen)) in *. clearbody c n. apply ln_increasing.
  - apply Rdiv_lt_0_compat; lra.
  - unfold Rdiv. apply Rmult_lt_compat_r; [apply Rinv_0_lt_compat; lra|lra].
Qed.
Lemma dest_le ds : forall seen, (dest_loglik alpha a' seen ds <= dest_loglik alpha a seen ds)%R.
Proof. induction ds as [|d ds IH]; intros seen; cbn [dest_loglik]; [apply Rle_refl|]. apply Rplus_le_compat; [apply dest_term|apply IH]. Qed.
Lemma dest_lt ds seen : (a' < a)%R -> ds <> [] -> (dest_loglik alpha a' seen ds < dest_loglik alpha a seen ds)%R.
Proof. intros N H. destruct ds as [|d ds]; [congruence|]. cbn [dest_loglik]. apply Rplus_lt_le_compat; [apply dest_term_strict, N|apply dest_le]. Qed.
End weight.

Lemma weight_le alpha k k' : (0 < alpha)%R -> 2 <= k -> k <= k' -> (0 < alpha / (INR k' - 1) <= alpha / (INR k - 1))%R.
Proof.
  intros A K L. assert (INR 2 <= INR k)%R by (apply le_INR; lia). assert (INR k <= INR k')%R by (apply le_INR; lia). cbn [INR] in H.
  split; [apply Rdiv_lt_0_compat; lra|]. unfold Rdiv. apply Rmult_le_compat_l; [lra|]. apply Rinv_le_contravar; lra.
Qed.
Lemma weight_lt alpha k k' : (0 < alpha)%R -> 2 <= k -> k < k' -> (alpha / (INR k' - 1) < alpha / (INR k - 1))%R.
Proof.
  intros A K L. assert (INR 2 <= INR k)%R by (apply le_INR; lia). assert (INR k < INR k')%R by (apply lt_INR; lia). cbn [INR] in H.
  unfold Rdiv. apply Rmult_lt_compat_l; [lra|]. apply Rinv_lt_contravar; [|lra]. apply Rmult_lt_0_compat; lra.
Qed.
Lemma Rsum_le {A} (f g : A -> R) l : (forall x, In x l -> (f x <= g x)%R) -> (Rsum (map f l) <= Rsum (map g l))%R.
Proof. induction l as [|x l IH]; intros H; [apply Rle_refl|]. unfold Rsum in *. cbn [map fold_right]. apply Rplus_le_compat; [apply H; left; reflexivity|apply IH; intros y Hy; apply H; right; exact Hy]. Qed.
Lemma Rsum_lt {A} (f g : A -> R) l : (forall x, In x l -> (f x <= g x)%R) -> (exists x, In x l /\ (f x < g x)%R) -> (Rsum (map f l) < Rsum (map g l))%R.
Proof.
  induction l as [|x l IH]; intros H [y [Hy L]]; [contradiction|]. unfold Rsum in *. cbn [map fold_right].
  assert (T : (fold_right Rplus 0 (map f l) <= fold_right Rplus 0 (map g l))%R) by (apply (Rsum_le f g l); intros z Hz; apply H; right; exact Hz).
  destruct Hy as [->|Hy]; [apply Rplus_lt_le_compat; assumption|].
  apply Rplus_le_lt_compat; [apply H; left; reflexivity|]. apply IH; [intros z Hz; apply H; right; exact Hz|]. exists y. auto.
Qed.
Lemma visit_le tau alpha k k' h : (0 < alpha)%R -> 2 <= k -> k <= k' -> (visit_loglik tau alpha k' h <= visit_loglik tau alpha k h)%R.
Proof. intros A K L. unfold visit_loglik. apply Rplus_le_compat_l. apply dest_le; [exact A|apply weight_le; assumption]. Qed.
Lemma total_le tau alpha k k' hs : (0 < alpha)%R -> 2 <= k -> k <= k' -> (total_loglik tau alpha k' hs <= total_loglik tau alpha k hs)%R.
Proof. intros A K L. unfold total_loglik. apply Rsum_le. intros hc _. apply Rsum_le. intros h _. apply visit_le; assumption. Qed.
Lemma total_lt tau alpha k k' hs : (0 < alpha)%R -> 2 <= k -> k < k' -> some_transition hs -> (total_loglik tau alpha k' hs < total_loglik tau alpha k hs)%R.
Proof.
  intros A K L [hc [h [H1 [H2 H3]]]]. unfold total_loglik. apply Rsum_lt.
  - intros q _. apply Rsum_le. intros z _. apply visit_le; [exact A|exact K|lia].
  - exists hc. split; [exact H1|]. apply Rsum_lt; [intros z _; apply visit_le; [exact A|exact K|lia]|]. exists h. split; [exact H2|].
    unfold visit_loglik. apply Rplus_lt_compat_l. apply dest_lt; [exact A|apply weight_le; [exact A|exact K|lia]|apply weight_lt; assumption|exact H3].
Qed.

(** ** surplus states and configurations contribute nothing *)
Lemma Rsum_app a b : Rsum (a ++ b) = (Rsum a + Rsum b)%R.
Proof. unfold Rsum. induction a as [|x a IH]; cbn [app fold_right]; [lra|]. rewrite IH. lra. Qed.
Lemma Rsum_none {A} (f : A -> R) l : (forall x, In x l -> f x = 0%R) -> Rsum (map f l) = 0%R.
Proof. induction l as [|x l IH]; intros H; [reflexivity|]. unfold Rsum in *. cbn [map fold_right]. rewrite (H x (or_introl eq_refl)), IH; [lra|]. intros y Hy. apply H. right. exact Hy. Qed.
Lemma visit_nil tau alpha n : visit_loglik tau alpha n [] = 0%R.
Proof. unfold visit_loglik. cbn. lra. Qed.

Section surplus.
Variables (vars : list label) (cards : list nat) (prior : option (list edge)) (rs : list raw) (k k' : nat).
Hypothesis HL : legal_input vars cards rs.
Hypothesis HE : equal_cards cards k.
Hypothesis Hk : k <= k'.
Let s := struct_of vars cards prior.
Let t := traj_of vars rs.
Variables (E : list edge) (v : label) (ni : nat) (pis ps : list nat).
Hypothesis V : node_view s E v k ni pis ps.

Lemma columns_bounded row cols vals : In row (t_rows t) -> Forall (fun i => exists l, structure_get_node_indx s l = Ok i /\ structure_get_states_number s l = Ok k) cols ->
  length cols = length vals -> row_shows row cols vals = true -> Forall (fun d => d < k) vals.
Proof.
  intros Hr HC L HS. apply shows_forall in HS; [|exact L]. destruct (legal_data vars cards prior rs HL) as [_ [_ [_ HD]]]. specialize (HD row Hr). fold s in HD.
  revert HC. clear L. induction HS as [|i d cols vals H _ IH]; intros HC; inversion HC; subst; constructor; [|apply IH; assumption].
  destruct H2 as [l [L1 L2]]. destruct (HD l i k L1 L2) as [_ [[d' [D1 D2]] _]]. rewrite H in D1. injection D1 as D1. apply Nat2Z.inj in D1. subst. exact D2.
Qed.
Lemma view_columns : Forall (fun i => exists l, structure_get_node_indx s l = Ok i /\ structure_get_states_number s l = Ok k) (ni :: pis).
Proof.
  destruct V as [V1 [V2 [V3 V4]]]. constructor; [exists v; auto|].
  pose proof (legal_wf vars cards prior rs HL) as W. fold s in W.
  assert (W' : forall l, In l (nodes_labels s) -> structure_get_states_number s l = Ok k).
  { intros l Hl. destruct (wf_lookup s l W Hl) as [q [_ [_ [A [_ B]]]]]. rewrite B. f_equal. apply (proj2 HE). exact (nth_error_In _ _ A). }
  assert (HI : forall l, In l (filter (fun l => emem (l, v) E) (nodes_labels s)) -> In l (nodes_labels s)) by (intros l Hl; apply filter_In in Hl; apply Hl).
  revert HI V3. generalize (filter (fun l => emem (l, v) E) (nodes_labels s)). intros ls HI H. clear V V4. revert HI. induction H as [|l i ls pis' H _ IH]; intros HI; constructor.
  - exists l. split; [exact H|]. apply W', HI. left. reflexivity.
  - apply IH. intros l' Hl'. apply HI. right. exact Hl'.
Qed.
Lemma no_visits u x : length u = length pis -> ~ Forall (fun d => d < k) (x :: u) -> data_visits t (length vars) ni pis u x = [].
Proof.
  intros L N. unfold data_visits. rewrite filter_none; [reflexivity|]. intros [q row] Hq. cbn [snd]. destruct (row_shows row (ni :: pis) (x :: u)) eqn:S0; [|reflexivity].
  exfalso. apply N. apply (columns_bounded row (ni :: pis) (x :: u)); [eapply in_combine_r, Hq|apply view_columns|cbn [length]; lia|exact S0].
Qed.
Lemma surplus_total tau alpha us us' n : Forall (fun u => length u = length pis) us -> Forall (fun u => length u = length pis /\ ~ Forall (fun d => d < k) u) us' ->
  total_loglik tau alpha n (data_histories t (length vars) ni pis k' (us ++ us')) = total_loglik tau alpha n (data_histories t (length vars) ni pis k us).
Proof.
  intros H1 H2. unfold total_loglik, data_histories. rewrite !map_app, Rsum_app. replace (Rsum (map _ (map _ us'))) with 0%R.
  2:{ symmetry. rewrite map_map. apply Rsum_none. intros u Hu. rewrite map_map. apply Rsum_none. intros x _. rewrite Forall_forall in H2. destruct (H2 u Hu) as [L N].
      rewrite no_visits; [apply visit_nil|exact L|]. intros F. apply N. exact (Forall_inv_tail F). }
  rewrite Rplus_0_r. f_equal. rewrite !map_map. apply map_ext_in. intros u Hu. rewrite Forall_forall in H1. specialize (H1 u Hu).
  replace k' with (k + (k' - k)) by lia. rewrite seq_app, !map_app, Rsum_app. cbn [Nat.add]. rewrite (map_map _ _ (seq k (k' - k))), (Rsum_none _ (seq k (k' - k))); [lra|].
  intros x Hx. apply in_seq in Hx. rewrite no_visits; [apply visit_nil|exact H1|]. intros F. pose proof (Forall_inv F). cbn beta in H. lia.
Qed.
End surplus.
