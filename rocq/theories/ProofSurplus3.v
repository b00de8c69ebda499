(** C99: how much a score can drop when states that never occur are declared. *)
From Coq Require Import Reals Lra.
From Verif Require Import Base Lib LibQc ModelStructure ModelGraph ModelCims ModelData ModelParams ModelFamScore
  SpecStructure SpecGraph SpecComb SpecParams SpecData SpecFloating SpecInvariance SpecSearch SpecFamScore SpecSurplus
  ProofStructure ProofGraph ProofComb ProofParams ProofParams2 ProofParams3 ProofFamScore ProofFamScore2 ProofData ProofData3 ProofInvariance ProofFloating5 ProofSpare ProofSpare2 ProofSurplus ProofSurplus2.
Open Scope nat_scope.

Definition transitions (hs : list (list (list (R * option nat)))) : nat :=
  list_sum (map (fun hc => list_sum (map (fun h => length (destinations h)) hc)) hs).
Section weight.
Variables (alpha a a' q : R).
Hypothesis Halpha : (0 < alpha)%R.
Hypothesis Ha' : (0 < a')%R.
Hypothesis Hq : (1 <= q)%R.
Hypothesis Ha : (a = a' * q)%R.
Lemma dest_term_drop seen d : (ln ((a + INR (count_occ Nat.eq_dec seen d)) / (alpha + INR (length seen))) <= ln ((a' + INR (count_occ Nat.eq_dec seen d)) / (alpha + INR (length seen))) + ln q)%R.
Proof.
  pose proof (pos_INR (count_occ Nat.eq_dec seen d)) as P. pose proof (pos_INR (length seen)) as Q.
  set (c := INR _) in *. set (n := INR (length seen)) in *. clearbody c n. subst a.
  assert (0 < (a' + c) / (alpha + n))%R by (apply Rdiv_lt_0_compat; lra).
  rewrite <- ln_mult by lra. assert (I : (0 < / (alpha + n))%R) by (apply Rinv_0_lt_compat; lra).
  assert (T : ((a' * q + c) / (alpha + n) <= (a' + c) / (alpha + n) * q)%R).
  { unfold Rdiv. replace ((a' + c) * / (alpha + n) * q)%R with ((a' * q + c * q) * / (alpha + n))%R by ring. apply Rmult_le_compat_r; [lra|]. assert (c * 1 <= c * q)%R by (apply Rmult_le_compat_l; assumption). lra. }
  assert (0 < (a' * q + c) / (alpha + n))%R. { apply Rdiv_lt_0_compat; [|lra]. assert (a' * 1 <= a' * q)%R by (apply Rmult_le_compat_l; lra). lra. }
  destruct T as [T|T]; [apply Rlt_le, ln_increasing; assumption|rewrite T; apply Rle_refl].
Qed.
Lemma dest_drop ds : forall seen, (dest_loglik alpha a seen ds <= dest_loglik alpha a' seen ds + INR (length ds) * ln q)%R.
Proof.
  induction ds as [|d ds IH]; intros seen; cbn [dest_loglik length]; [cbn [INR]; lra|]. rewrite S_INR.
  pose proof (dest_term_drop seen d). pose proof (IH (seen ++ [d])). lra.
Qed.
End weight.
Lemma Rsum_drop {A} (f g : A -> R) (n : A -> nat) C l : (forall x, In x l -> (f x <= g x + INR (n x) * C)%R) -> (Rsum (map f l) <= Rsum (map g l) + INR (list_sum (map n l)) * C)%R.
Proof.
  induction l as [|x l IH]; intros H; unfold Rsum, list_sum in *; cbn [map fold_right]; [cbn [INR]; lra|]. rewrite plus_INR.
  pose proof (H x (or_introl eq_refl)). specialize (IH (fun y Hy => H y (or_intror Hy))). lra.
Qed.
Lemma total_drop tau alpha k k' hs : (0 < alpha)%R -> 2 <= k -> k <= k' ->
  (total_loglik tau alpha k hs <= total_loglik tau alpha k' hs + INR (transitions hs) * ln ((INR k' - 1) / (INR k - 1)))%R.
Proof.
  intros A K L. unfold total_loglik, transitions. apply Rsum_drop. intros hc _. apply Rsum_drop. intros h _. unfold visit_loglik.
  assert (INR 2 <= INR k)%R by (apply le_INR; lia). assert (INR k <= INR k')%R by (apply le_INR; lia). cbn [INR] in H.
  pose proof (dest_drop alpha (alpha / (INR k - 1)) (alpha / (INR k' - 1)) ((INR k' - 1) / (INR k - 1)) A) as D.
  assert (X : (0 < alpha / (INR k' - 1))%R) by (apply Rdiv_lt_0_compat; lra).
  assert (Y : (1 <= (INR k' - 1) / (INR k - 1))%R).
  { apply (Rmult_le_reg_r (INR k - 1)); [lra|]. unfold Rdiv. rewrite Rmult_assoc, Rinv_l by lra. lra. }
  assert (Z : (alpha / (INR k - 1) = alpha / (INR k' - 1) * ((INR k' - 1) / (INR k - 1)))%R) by (field; lra).
  specialize (D X Y Z (destinations h) []). lra.
Qed.

(** ** the transitions of all histories are changes in the data *)
Lemma sum_one {A} (w : A -> nat) b l : NoDup l -> (forall x, In x l -> w x <= b) -> (forall x y, In x l -> In y l -> 0 < w x -> 0 < w y -> x = y) -> list_sum (map w l) <= b.
Proof.
  induction 1 as [|x l N ND IH]; intros B U; cbn [map list_sum fold_right]; [lia|]. change (fold_right Nat.add 0 (map w l)) with (list_sum (map w l)).
  destruct (Nat.eq_dec (w x) 0) as [E|E].
  - rewrite E. apply IH; [intros y Hy; apply B; right; exact Hy|]. intros y z Hy Hz. apply U; right; assumption.
  - assert (Z : list_sum (map w l) = 0).
    { assert (Q : forall y, In y l -> w y = 0).
      { intros y Hy. destruct (Nat.eq_dec (w y) 0) as [F|F]; [exact F|]. exfalso. apply N. rewrite (U x y) by (try (left; reflexivity); try (right; assumption); lia). exact Hy. }
      clear - Q. induction l as [|y l IH]; [reflexivity|]. cbn. rewrite (Q y) by (left; reflexivity). apply IH. intros z Hz. apply Q. right. exact Hz. }
    rewrite Z. pose proof (B x (or_introl eq_refl)). lia.
Qed.
Lemma list_sum_add {A} (f g : A -> nat) l : list_sum (map (fun x => f x + g x) l) = list_sum (map f l) + list_sum (map g l).
Proof. unfold list_sum. induction l as [|x l IH]; [reflexivity|]. cbn [map fold_right]. rewrite IH. lia. Qed.
Lemma list_sum_zero {A} (w : A -> nat) l : (forall x, w x = 0) -> list_sum (map w l) = 0.
Proof. intros H. unfold list_sum. induction l as [|x l IH]; [reflexivity|]. cbn [map fold_right]. rewrite H, IH. reflexivity. Qed.
Lemma list_sum_pos {A} (w : A -> nat) l : 0 < list_sum (map w l) -> exists x, In x l /\ 0 < w x.
Proof. unfold list_sum. induction l as [|x l IH]; cbn [map fold_right]; [lia|]. intros H. destruct (Nat.eq_dec (w x) 0) as [E|E]; [|exists x; split; [left; reflexivity|lia]]. destruct IH as [y [A1 A2]]; [lia|]. exists y. split; [right; exact A1|exact A2]. Qed.
Lemma shows_inj row cols : forall u u', length u = length cols -> length u' = length cols -> row_shows row cols u = true -> row_shows row cols u' = true -> u = u'.
Proof.
  unfold row_shows. induction cols as [|i cols IH]; intros [|a u] [|b u'] L L'; try discriminate; [reflexivity|]. cbn [combine forallb fst snd].
  rewrite !andb_true_iff. intros [A1 A2] [B1 B2]. f_equal; [|apply IH; try assumption; cbn in L, L'; lia].
  destruct (nth_error row i) as [z|]; [|discriminate]. apply Z.eqb_eq in A1. apply Z.eqb_eq in B1. lia.
Qed.
Definition row_changes (tot ni : nat) (row : list Z) : bool :=
  match nth_error row ni, nth_error row (ni + tot) with Some x, Some y => (0 <=? y)%Z && negb (y =? x)%Z | _, _ => false end.
Lemma transitions_count tot ni pis k us (L : list (Qc * list Z)) : NoDup us -> (forall u, In u us -> length u = length pis) ->
  list_sum (map (fun u => list_sum (map (fun x => length (destinations (map (row_visit tot ni x) (filter (fun tr => row_shows (snd tr) (ni :: pis) (x :: u)) L)))) (seq 0 k))) us)
  <= length (filter (fun tr => row_changes tot ni (snd tr)) L).
Proof.
  intros ND LU. induction L as [|tr L IH].
  - rewrite list_sum_zero; [cbn; lia|]. intros u. apply list_sum_zero. reflexivity.
  - set (w := fun u x => if row_shows (snd tr) (ni :: pis) (x :: u) then length (destinations [row_visit tot ni x tr]) else 0).
    assert (E : forall u x, length (destinations (map (row_visit tot ni x) (filter (fun tr => row_shows (snd tr) (ni :: pis) (x :: u)) (tr :: L))))
       = w u x + length (destinations (map (row_visit tot ni x) (filter (fun tr => row_shows (snd tr) (ni :: pis) (x :: u)) L)))).
    { intros u x. unfold w. cbn [filter]. destruct (row_shows (snd tr) (ni :: pis) (x :: u)); [|reflexivity]. cbn [map]. unfold destinations. cbn [flat_map]. rewrite !app_length. cbn [length]. lia. }
    rewrite (map_ext _ (fun u => list_sum (map (w u) (seq 0 k)) + list_sum (map (fun x => length (destinations (map (row_visit tot ni x) (filter (fun tr => row_shows (snd tr) (ni :: pis) (x :: u)) L)))) (seq 0 k)))).
    2: { intros u. rewrite <- list_sum_add. f_equal. apply map_ext. intros x. apply E. }
    rewrite list_sum_add. set (b := if row_changes tot ni (snd tr) then 1 else 0).
    assert (W : forall u x, w u x <= b).
    { intros u x. unfold w, b. destruct (row_shows (snd tr) (ni :: pis) (x :: u)) eqn:S; [|lia]. unfold row_shows in S. cbn [combine forallb fst snd] in S. apply andb_true_iff in S as [S _].
      unfold row_visit, row_changes, destinations. cbn [flat_map snd]. destruct (nth_error (snd tr) ni) as [z|]; [|discriminate]. apply Z.eqb_eq in S. subst z.
      destruct (nth_error (snd tr) (ni + tot)) as [y|]; [|cbn; lia]. destruct ((0 <=? y)%Z && negb (y =? Z.of_nat x)%Z); cbn; lia. }
    assert (S1 : forall u x, 0 < w u x -> row_shows (snd tr) (ni :: pis) (x :: u) = true).
    { intros u x. unfold w. destruct (row_shows (snd tr) (ni :: pis) (x :: u)); [reflexivity|lia]. }
    assert (S0 : list_sum (map (fun u => list_sum (map (w u) (seq 0 k))) us) <= b).
    { apply sum_one; [exact ND| |].
      - intros u Hu. apply sum_one; [apply seq_NoDup|intros x _; apply W|]. intros x y _ _ Hx Hy. apply S1 in Hx, Hy.
        apply LU in Hu. assert (X : x :: u = y :: u) by (eapply shows_inj; [| |exact Hx|exact Hy]; cbn; lia). injection X. auto.
      - intros u u' Hu Hu' H H'. apply list_sum_pos in H as [x [_ Hx]]. apply list_sum_pos in H' as [y [_ Hy]]. apply S1 in Hx, Hy. apply LU in Hu, Hu'.
        assert (X : x :: u = y :: u') by (eapply shows_inj; [| |exact Hx|exact Hy]; cbn; lia). injection X. auto. }
    assert (F : length (filter (fun tr => row_changes tot ni (snd tr)) (tr :: L)) = b + length (filter (fun tr => row_changes tot ni (snd tr)) L)).
    { cbn [filter]. unfold b. destruct (row_changes tot ni (snd tr)); reflexivity. }
    rewrite F. apply Nat.add_le_mono; assumption.
Qed.
Lemma changes_of_data (vars : list label) (cards : list nat) rs ni pis k us : legal_input vars cards rs -> NoDup us -> (forall u, In u us -> length u = length pis) ->
  ni < length vars -> transitions (data_histories (traj_of vars rs) (length vars) ni pis k us) <= length (filter (changed ni) (flat_map steps rs)).
Proof.
  intros HL ND LU Hni. unfold transitions, data_histories. rewrite map_map.
  rewrite (map_ext _ (fun u => list_sum (map (fun x => length (destinations (map (row_visit (length vars) ni x) (filter (fun tr => row_shows (snd tr) (ni :: pis) (x :: u)) (combine (t_times (traj_of vars rs)) (t_rows (traj_of vars rs))))))) (seq 0 k)))).
  2: { intros u. rewrite map_map. reflexivity. }
  eapply Nat.le_trans; [apply transitions_count; assumption|]. unfold traj_of, raw_times, raw_rows. cbn [t_times t_rows].
  pose proof (legal_len vars cards rs HL) as LL. revert LL. generalize (flat_map steps rs). intros S LL. induction S as [|ab S IH]; [cbn; lia|].
  cbn [map combine filter]. specialize (IH (fun q Hq => LL q (or_intror Hq))). pose proof (LL ab (or_introl eq_refl)) as Lab. cbn [snd].
  destruct (row_changes (length vars) ni (snd (fst ab) ++ snd (snd ab))) eqn:R.
  - replace (changed ni ab) with true; [cbn [length]; lia|]. symmetry. unfold row_changes in R. unfold changed.
    rewrite nth_error_app1 in R by lia. rewrite nth_error_app2 in R by lia. replace (ni + length vars - length (snd (fst ab))) with ni in R by lia.
    destruct (nth_error (snd (fst ab)) ni) as [x|]; [|discriminate]. destruct (nth_error (snd (snd ab)) ni) as [y|]; [|discriminate].
    apply andb_true_iff in R as [_ R]. rewrite Z.eqb_sym. exact R.
  - destruct (changed ni ab); cbn [length]; lia.
Qed.
