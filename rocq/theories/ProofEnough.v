(** One cell of FamScore under n-fold data, and what splitting it does (C88). *)
From Coq Require Import Reals Lra Lia List.
From Verif Require Import Base ModelFamScore ProofFamScore ProofAsymp ProofFew.
Import ListNotations.
Open Scope R_scope.

(** ** the log-sum inequality *)
Definition hh (m t : R) : R := m * ln m - m * ln t - m.
Lemma tangent m t q : 0 <= m -> 0 < t -> 0 < q -> m * ln q - t * q <= hh m t /\ (m <> t * q -> m * ln q - t * q < hh m t).
Proof.
  intros Hm Ht Hq. unfold hh. destruct (Req_dec m 0) as [->|N].
  - assert (0 < t * q) by (apply Rmult_lt_0_compat; assumption). split; [lra|intros _; lra].
  - assert (Mp : 0 < m) by lra. set (z := t * q / m). assert (Z : 0 < z) by (unfold z; apply Rdiv_lt_0_compat; [apply Rmult_lt_0_compat|]; assumption).
    assert (E : ln z = ln t + ln q - ln m) by (unfold z, Rdiv; rewrite ln_mult, ln_mult, ln_Rinv; auto; [apply Rmult_lt_0_compat; assumption|apply Rinv_0_lt_compat, Mp]).
    assert (F : m * z = t * q) by (unfold z; field; lra). split.
    + pose proof (ln_below z Z) as L. rewrite E in L. apply (Rmult_le_compat_l m) in L; [|lra]. rewrite (Rmult_minus_distr_l m z 1), F in L. lra.
    + intros Nz. assert (z <> 1) as Z1 by (intros W; rewrite W, Rmult_1_r in F; congruence).
      pose proof (ln_below_lt z Z Z1) as L. rewrite E in L. apply (Rmult_lt_compat_l m) in L; [|lra]. rewrite (Rmult_minus_distr_l m z 1), F in L. lra.
Qed.
Lemma Rsum_cons x l : Rsum (x :: l) = x + Rsum l. Proof. reflexivity. Qed.
Lemma Rsum_lt {A} (f g : A -> R) l : (forall x, In x l -> f x <= g x) -> (exists x, In x l /\ f x < g x) -> Rsum (map f l) < Rsum (map g l).
Proof.
  induction l as [|a l IH]; intros H [x [Hx Hlt]]; [destruct Hx|]. cbn [map]. rewrite !Rsum_cons. pose proof (H a (or_introl eq_refl)). destruct Hx as [->|Hx].
  - pose proof (Rsum_le f g l (fun y Hy => H y (or_intror Hy))). lra.
  - assert (Rsum (map f l) < Rsum (map g l)) by (apply IH; [intros y Hy; apply H; right; exact Hy|eauto]). lra.
Qed.
Lemma Rsum_0 {A} (f : A -> R) l : (forall x, In x l -> f x = 0) -> Rsum (map f l) = 0.
Proof. induction l as [|a l IH]; intros H; [reflexivity|]. cbn [map]. rewrite Rsum_cons, (H a), IH by (intros; try apply H; cbn; auto). lra. Qed.
Lemma Rsum_pos {A} (f : A -> R) l : (forall x, In x l -> 0 < f x) -> l <> [] -> 0 < Rsum (map f l).
Proof.
  intros H N. destruct l as [|a l]; [congruence|]. cbn [map]. rewrite Rsum_cons. pose proof (H a (or_introl eq_refl)).
  assert (0 <= Rsum (map f l)) by (apply Rsum_nonneg, Forall_map, Forall_forall; intros x Hx; left; apply H; right; exact Hx). lra.
Qed.
Lemma Rsum_all0 {A} (f : A -> R) l : (forall x, In x l -> 0 <= f x) -> Rsum (map f l) = 0 -> forall x, In x l -> f x = 0.
Proof.
  induction l as [|a l IH]; intros H E x Hx; [destruct Hx|]. cbn [map] in E. rewrite Rsum_cons in E. pose proof (H a (or_introl eq_refl)).
  assert (0 <= Rsum (map f l)) by (apply Rsum_nonneg, Forall_map, Forall_forall; intros y Hy; apply H; right; exact Hy).
  destruct Hx as [<-|Hx]; [lra|]. apply IH; auto; [intros; apply H; right; assumption|lra].
Qed.
Lemma Rsum_mul_r {A} (f : A -> R) c l : Rsum (map (fun x => f x * c) l) = Rsum (map f l) * c.
Proof. rewrite <- (Rsum_ext (fun x => c * f x)) by (intros; ring). rewrite Rsum_scale. ring. Qed.
Lemma Rsum_minus {A} (f g : A -> R) l : Rsum (map (fun x => f x - g x) l) = Rsum (map f l) - Rsum (map g l).
Proof. induction l as [|a l IH]; [cbn; lra|]. cbn [map]. rewrite !Rsum_cons, IH. lra. Qed.
Section logsum.
Context {A : Type}.
Variables (m T : A -> R) (D : list A).
Hypothesis Hm : forall d, In d D -> 0 <= m d.
Hypothesis HT : forall d, In d D -> 0 < T d.
Let mm := Rsum (map m D).
Let TT := Rsum (map T D).
Lemma logsum : D <> [] -> hh mm TT <= Rsum (map (fun d => hh (m d) (T d)) D)
  /\ ((exists d, In d D /\ m d * TT <> mm * T d) -> hh mm TT < Rsum (map (fun d => hh (m d) (T d)) D))
  /\ ((forall d, In d D -> m d * TT = mm * T d) -> hh mm TT = Rsum (map (fun d => hh (m d) (T d)) D)).
Proof.
  intros ND. assert (PT : 0 < TT) by (apply Rsum_pos; assumption). assert (PM : 0 <= mm) by (apply Rsum_nonneg, Forall_map, Forall_forall; exact Hm).
  destruct (Req_dec mm 0) as [Z|NZ].
  - assert (M0 : forall d, In d D -> m d = 0) by (apply Rsum_all0; assumption).
    assert (E : hh mm TT = Rsum (map (fun d => hh (m d) (T d)) D)).
    { rewrite Z. unfold hh at 1. rewrite (Rsum_0 (fun d => hh (m d) (T d))); [ring|]. intros d Hd. rewrite M0 by exact Hd. unfold hh. ring. }
    split; [lra|]. split; [|intros _; exact E]. intros [d [Hd N]]. rewrite (M0 d Hd), Z in N. lra.
  - set (q := mm / TT). assert (Q : 0 < q) by (apply Rdiv_lt_0_compat; lra).
    assert (E : hh mm TT = Rsum (map (fun d => m d * ln q - T d * q) D)).
    { rewrite Rsum_minus, !Rsum_mul_r. fold mm TT. unfold hh, q, Rdiv. rewrite ln_mult, ln_Rinv; try lra; [field; lra|apply Rinv_0_lt_compat, PT]. }
    rewrite E. split; [apply Rsum_le; intros d Hd; apply tangent; auto|]. split.
    + intros [d [Hd N]]. apply Rsum_lt; [intros d' Hd'; apply tangent; auto|]. exists d. split; [exact Hd|]. apply tangent; auto.
      intros W. apply N. rewrite W. unfold q. field. lra.
    + intros H. apply Rsum_ext. intros d Hd. assert (W : m d = T d * q) by (unfold q; apply (Rmult_eq_reg_r TT); [rewrite (H d Hd); field|]; lra).
      unfold hh. rewrite W. rewrite ln_mult by (auto). ring.
Qed.
End logsum.

(** ** one cell *)
Section cell.
Variables (tau alpha axx : R).
Hypothesis Ht : 0 < tau.
Hypothesis Ha : 0 < alpha.
Hypothesis Hx : 0 < axx.
Definition cellv (T : R) (ms : list nat) : R :=
  lsum (alpha + 1) (nat_sum ms) - (alpha + 1 + INR (nat_sum ms)) * ln (tau + T) + (alpha + 1) * ln tau - lsum alpha (nat_sum ms) + Rsum (map (lsum axx) ms).
Definition cell_a (T : R) (ms : list nat) : R := Rsum (map (fun m => hh (INR m) T) ms).
Definition cell_b (ms : list nat) : R := (if (nat_sum ms =? 0)%nat then 0 else 1) - (alpha + 1) + Rsum (map (fun m => if (m =? 0)%nat then 0 else axx - / 2) ms).
Lemma nat_sum_scale n ms : nat_sum (map (Nat.mul n) ms) = (n * nat_sum ms)%nat.
Proof. unfold nat_sum. induction ms as [|m ms IH]; cbn [map fold_right]; [lia|]. rewrite IH. lia. Qed.
Lemma INR_nat_sum ms : INR (nat_sum ms) = Rsum (map INR ms).
Proof. unfold nat_sum, Rsum. induction ms as [|m ms IH]; cbn [map fold_right]; [reflexivity|]. rewrite plus_INR, IH. reflexivity. Qed.
Lemma cell_zero ms : (forall m, In m ms -> m = 0%nat) -> cellv 0 ms = 0.
Proof.
  intros H. assert (E : nat_sum ms = 0%nat) by (unfold nat_sum; induction ms as [|m ms IH]; [reflexivity|]; cbn [fold_right]; rewrite (H m), IH by (intros; try apply H; cbn; auto); reflexivity).
  unfold cellv. rewrite E. cbn [INR]. rewrite !Rplus_0_r. rewrite (Rsum_0 (lsum axx)) by (intros m Hm; rewrite (H m Hm); reflexivity). unfold lsum. cbn [seq map]. unfold Rsum. cbn [fold_right]. ring.
Qed.
Lemma cell_grows T ms : 0 < T -> grows (fun n => cellv (INR n * T) (map (Nat.mul n) ms)) 0 (cell_a T ms) (cell_b ms).
Proof.
  intros HT. set (M := nat_sum ms).
  pose proof (grows_lsum (alpha + 1) M ltac:(lra)) as G1. pose proof (grows_scale (-1) _ _ _ _ (grows_log (alpha + 1) (INR M) tau T HT ltac:(lra))) as G2.
  pose proof (grows_scale (-1) _ _ _ _ (grows_lsum alpha M Ha)) as G3. pose proof (grows_const ((alpha + 1) * ln tau)) as G4.
  assert (G5 : grows (fun n => Rsum (map (fun m => lsum axx (n * m)) ms)) (Rsum (map INR ms)) (Rsum (map (fun m => INR m * ln (INR m) - INR m) ms)) (Rsum (map (fun m => if (m =? 0)%nat then 0 else axx - / 2) ms))).
  { apply grows_sum. intros m _. apply grows_lsum, Hx. }
  pose proof (grows_plus _ _ _ _ _ _ _ _ (grows_plus _ _ _ _ _ _ _ _ (grows_plus _ _ _ _ _ _ _ _ (grows_plus _ _ _ _ _ _ _ _ G1 G2) G3) G4) G5) as G.
  revert G. apply grows_ext.
  - intros n _. unfold cellv. rewrite nat_sum_scale, mult_INR. fold M. rewrite map_map. ring.
  - unfold M. rewrite <- INR_nat_sum. ring.
  - unfold cell_a, hh. rewrite !Rsum_minus, Rsum_mul_r, <- !INR_nat_sum. fold M. ring.
  - unfold cell_b. fold M. destruct (M =? 0)%nat; lra.
Qed.
Lemma cell_b_neg ms : ms <> [] -> axx * INR (length ms) = alpha -> cell_b ms < 0.
Proof.
  intros HN E. unfold cell_b. destruct (Nat.eqb_spec (nat_sum ms) 0) as [Z|Z].
  - rewrite (Rsum_0 (fun m => if (m =? 0)%nat then 0 else axx - / 2)); [lra|]. intros m Hm. replace m with 0%nat; [reflexivity|].
    clear -Z Hm. induction ms as [|a ms IH]; [destruct Hm|]. unfold nat_sum in Z. cbn [fold_right] in Z. fold (nat_sum ms) in Z. destruct Hm as [<-|Hm]; [lia|apply IH; [lia|exact Hm]].
  - assert (S1 : Rsum (map (fun m => if (m =? 0)%nat then 0 else axx - / 2) ms) < Rsum (map (fun _ => axx) ms)).
    { apply Rsum_lt; [intros m _; destruct (m =? 0)%nat; lra|]. assert (X : exists m, In m ms /\ m <> 0%nat).
      { clear -Z. induction ms as [|a ms IH]; [exfalso; apply Z; reflexivity|]. destruct a as [|a]; [|exists (S a); split; [left; reflexivity|discriminate]].
        destruct IH as [m [H1 H2]]; [exact Z|]. exists m. split; [right; exact H1|exact H2]. }
      destruct X as [m [H1 H2]]. exists m. split; [exact H1|]. apply Nat.eqb_neq in H2. rewrite H2. lra. }
    assert (S2 : Rsum (map (fun _ : nat => axx) ms) = axx * INR (length ms)).
    { clear. induction ms as [|a ms IH]; [cbn; ring|]. cbn [map length]. rewrite Rsum_cons, IH, S_INR. ring. }
    lra.
Qed.
Lemma cell_b_ext {A} (f g : A -> nat) J : (forall j, In j J -> f j = 0%nat <-> g j = 0%nat) -> cell_b (map f J) = cell_b (map g J).
Proof.
  intros H. unfold cell_b. rewrite !map_map. f_equal.
  - f_equal. assert (Z : nat_sum (map f J) = 0%nat <-> nat_sum (map g J) = 0%nat).
    { unfold nat_sum. induction J as [|j J IH]; [tauto|]. cbn [map fold_right]. pose proof (H j (or_introl eq_refl)). pose proof (IH (fun x Hx => H x (or_intror Hx))). lia. }
    destruct (Nat.eqb_spec (nat_sum (map f J)) 0), (Nat.eqb_spec (nat_sum (map g J)) 0); tauto.
  - apply Rsum_ext. intros j Hj. specialize (H j Hj). destruct (Nat.eqb_spec (f j) 0), (Nat.eqb_spec (g j) 0); tauto.
Qed.

(** ** splitting a cell: [d] ranges over the states of a further parent, [j] over the destinations *)
Section split.
Variables (D : list nat) (J : list nat) (T : nat -> R) (m : nat -> nat -> nat).
Hypothesis HT : forall d, In d D -> 0 <= T d.
Hypothesis H0 : forall d, In d D -> T d = 0 -> forall j, In j J -> m d j = 0%nat.
Hypothesis HJ : J <> [].
Hypothesis Hal : axx * INR (length J) = alpha.
Definition pooled (j : nat) : nat := nat_sum (map (fun d => m d j) D).
Definition split_diff (n : nat) : R :=
  Rsum (map (fun d => cellv (INR n * T d) (map (Nat.mul n) (map (m d) J))) D) - cellv (INR n * Rsum (map T D)) (map (Nat.mul n) (map pooled J)).
Let V := filter (fun d => if Rlt_dec 0 (T d) then true else false) D.
Lemma V_In d : In d V <-> In d D /\ 0 < T d.
Proof. unfold V. rewrite filter_In. destruct (Rlt_dec 0 (T d)); intuition discriminate. Qed.
Lemma V_sum (f : nat -> R) : (forall d, In d D -> ~ 0 < T d -> f d = 0) -> Rsum (map f D) = Rsum (map f V).
Proof.
  intros H. unfold V. clear -H. induction D as [|d l IH]; [reflexivity|]. cbn [filter map]. rewrite Rsum_cons, IH by (intros; apply H; [right|]; assumption).
  destruct (Rlt_dec 0 (T d)) as [L|L]; [reflexivity|]. rewrite (H d) by (auto; left; reflexivity). lra.
Qed.
Lemma off d : In d D -> ~ 0 < T d -> T d = 0 /\ forall j, In j J -> m d j = 0%nat.
Proof. intros Hd N. assert (E : T d = 0) by (pose proof (HT d Hd); lra). split; [exact E|exact (H0 d Hd E)]. Qed.
Lemma V_T : Rsum (map T D) = Rsum (map T V).
Proof. apply V_sum. intros d Hd N. apply (off d Hd N). Qed.
Lemma V_m j : In j J -> INR (pooled j) = Rsum (map (fun d => INR (m d j)) V).
Proof. intros Hj. unfold pooled. rewrite INR_nat_sum, map_map. apply V_sum. intros d Hd N. destruct (off d Hd N) as [_ E]. rewrite E by exact Hj. reflexivity. Qed.
Lemma off_cell n d : In d D -> ~ 0 < T d -> cellv (INR n * T d) (map (Nat.mul n) (map (m d) J)) = 0.
Proof.
  intros Hd N. destruct (off d Hd N) as [E1 E2]. rewrite E1, Rmult_0_r. apply cell_zero. intros x Hx'. apply in_map_iff in Hx' as [y [<- Hy]]. apply in_map_iff in Hy as [j [<- Hj]]. rewrite E2 by exact Hj. lia.
Qed.
Lemma V_pos : V <> [] -> 0 < Rsum (map T D).
Proof. intros H. rewrite V_T. apply Rsum_pos; [|exact H]. intros d Hd. apply V_In in Hd. tauto. Qed.
(** no more than one state of the further parent seen: nothing changes *)
Lemma split_same n : (forall d d', In d V -> In d' V -> d = d') -> NoDup D -> split_diff n = 0.
Proof.
  intros H1 ND. unfold split_diff. rewrite (V_sum (fun d => cellv (INR n * T d) (map (Nat.mul n) (map (m d) J)))) by (intros d Hd N; apply off_cell; assumption). rewrite V_T.
  assert (NV : NoDup V) by (unfold V; clear -ND; induction ND as [|a l Hn ND IH]; cbn [filter]; [constructor|]; destruct (Rlt_dec 0 (T a)); [constructor; [rewrite filter_In; tauto|]|]; assumption).
  destruct V as [|d [|d' r]] eqn:EV.
  - cbn [map]. unfold Rsum. cbn [fold_right]. rewrite Rmult_0_r, cell_zero; [ring|]. intros x Hx'. apply in_map_iff in Hx' as [y [<- Hy]]. apply in_map_iff in Hy as [j [<- Hj]].
    assert (E : INR (pooled j) = 0) by (rewrite V_m by exact Hj; fold V; rewrite EV; reflexivity). apply (INR_eq (pooled j) 0) in E. rewrite E. lia.
  - cbn [map]. unfold Rsum. cbn [fold_right]. rewrite !Rplus_0_r. replace (map pooled J) with (map (m d) J); [ring|]. apply map_ext_in. intros j Hj. apply INR_eq. rewrite V_m by exact Hj. fold V. rewrite EV. cbn. ring.
  - exfalso. assert (d = d') by (apply H1; cbn; auto). subst. inversion NV as [|? ? K _]. apply K. left. reflexivity.
Qed.
Definition split_a : R := Rsum (map (fun d => cell_a (T d) (map (m d) J)) V) - (if Rlt_dec 0 (Rsum (map T D)) then cell_a (Rsum (map T D)) (map pooled J) else 0).
Definition split_b : R := Rsum (map (fun d => cell_b (map (m d) J)) V) - (if Rlt_dec 0 (Rsum (map T D)) then cell_b (map pooled J) else 0).
Lemma V_empty : ~ 0 < Rsum (map T D) -> V = [].
Proof. intros H. destruct V as [|d r] eqn:E; [reflexivity|]. exfalso. apply H, V_pos. rewrite E. discriminate. Qed.
Lemma split_grows : grows split_diff 0 split_a split_b.
Proof.
  assert (G1 : grows (fun n => Rsum (map (fun d => cellv (INR n * T d) (map (Nat.mul n) (map (m d) J))) V)) (Rsum (map (fun _ => 0) V)) (Rsum (map (fun d => cell_a (T d) (map (m d) J)) V)) (Rsum (map (fun d => cell_b (map (m d) J)) V))).
  { apply grows_sum. intros d Hd. apply cell_grows, V_In, Hd. }
  rewrite (Rsum_0 (fun _ : nat => 0)) in G1 by reflexivity.
  unfold split_diff, split_a, split_b. destruct (Rlt_dec 0 (Rsum (map T D))) as [L|L].
  - pose proof (grows_plus _ _ _ _ _ _ _ _ G1 (grows_scale (-1) _ _ _ _ (cell_grows _ (map pooled J) L))) as G. revert G. apply grows_ext; try ring.
    intros n _. rewrite (V_sum (fun d => cellv (INR n * T d) (map (Nat.mul n) (map (m d) J)))) by (intros d Hd N; apply off_cell; assumption). ring.
  - revert G1. apply grows_ext; try ring. intros n _.
    rewrite (V_sum (fun d => cellv (INR n * T d) (map (Nat.mul n) (map (m d) J)))) by (intros d Hd N; apply off_cell; assumption).
    replace (Rsum (map T D)) with 0 by (rewrite V_T, (V_empty L); reflexivity). rewrite Rmult_0_r, cell_zero; [ring|]. intros x Hx'. apply in_map_iff in Hx' as [y [<- Hy]]. apply in_map_iff in Hy as [j [<- Hj]].
    assert (E : INR (pooled j) = 0) by (rewrite V_m by exact Hj; fold V; rewrite (V_empty L); reflexivity). apply (INR_eq (pooled j) 0) in E. rewrite E. lia.
Qed.
Lemma split_a_alt : 0 < Rsum (map T D) -> split_a = Rsum (map (fun j => Rsum (map (fun d => hh (INR (m d j)) (T d)) V) - hh (INR (pooled j)) (Rsum (map T D))) J).
Proof.
  intros L. unfold split_a, cell_a. destruct (Rlt_dec 0 (Rsum (map T D))) as [_|]; [|contradiction]. rewrite Rsum_minus, map_map. f_equal.
  rewrite <- (Rsum_swap (fun d j => hh (INR (m d j)) (T d))). apply Rsum_ext. intros d _. rewrite map_map. reflexivity.
Qed.
Lemma group j : In j J -> V <> [] ->
  0 <= Rsum (map (fun d => hh (INR (m d j)) (T d)) V) - hh (INR (pooled j)) (Rsum (map T D))
  /\ ((exists d, In d V /\ INR (m d j) * Rsum (map T D) <> INR (pooled j) * T d) -> 0 < Rsum (map (fun d => hh (INR (m d j)) (T d)) V) - hh (INR (pooled j)) (Rsum (map T D)))
  /\ ((forall d, In d V -> INR (m d j) * Rsum (map T D) = INR (pooled j) * T d) -> Rsum (map (fun d => hh (INR (m d j)) (T d)) V) - hh (INR (pooled j)) (Rsum (map T D)) = 0).
Proof.
  intros Hj HV. rewrite V_T, V_m by exact Hj.
  destruct (logsum (fun d => INR (m d j)) T V (fun d _ => pos_INR _) (fun d Hd => proj2 (proj1 (V_In d) Hd)) HV) as [L1 [L2 L3]].
  split; [lra|]. split; [intros H; apply L2 in H; lra|intros H; apply L3 in H; lra].
Qed.
Lemma split_a_nonneg : 0 <= split_a.
Proof.
  destruct (Rlt_dec 0 (Rsum (map T D))) as [L|L].
  - rewrite (split_a_alt L). apply Rsum_nonneg, Forall_map, Forall_forall. intros j Hj. apply group; [exact Hj|]. intros E. rewrite V_T, E in L. cbn in L. lra.
  - unfold split_a. destruct (Rlt_dec 0 (Rsum (map T D))); [contradiction|]. rewrite (V_empty L). cbn. lra.
Qed.
(** two rates differ: the split gains in proportion to the data *)
Lemma split_differs d d' j : In d V -> In d' V -> In j J -> INR (m d j) * T d' <> INR (m d' j) * T d -> 0 < split_a.
Proof.
  intros Hd Hd' Hj N. assert (HV : V <> []) by (intros E; rewrite E in Hd; destruct Hd). pose proof (V_pos HV) as L. rewrite (split_a_alt L).
  pose proof (proj2 (proj1 (V_In d) Hd)) as P. pose proof (proj2 (proj1 (V_In d') Hd')) as P'.
  rewrite <- (Rsum_0 (fun _ : nat => 0) J) by reflexivity. apply Rsum_lt; [intros i Hi; apply group; assumption|]. exists j. split; [exact Hj|]. apply group; [exact Hj|exact HV|].
  destruct (Req_dec (INR (m d j) * Rsum (map T D)) (INR (pooled j) * T d)) as [E|E]; [|exists d; auto].
  exists d'. split; [exact Hd'|]. intros E'. apply N. apply (Rmult_eq_reg_r (Rsum (map T D))); [|lra].
  replace (INR (m d j) * T d' * Rsum (map T D)) with (INR (m d j) * Rsum (map T D) * T d') by ring. rewrite E.
  replace (INR (m d' j) * T d * Rsum (map T D)) with (INR (m d' j) * Rsum (map T D) * T d) by ring. rewrite E'. ring.
Qed.
(** all the rates are the same: only the penalty remains *)
Hypothesis Heq : forall d d' j, In d V -> In d' V -> In j J -> INR (m d j) * T d' = INR (m d' j) * T d.
Lemma eq_pooled d j : In d V -> In j J -> INR (m d j) * Rsum (map T D) = INR (pooled j) * T d.
Proof.
  intros Hd Hj. rewrite V_T, V_m by exact Hj. rewrite (Rmult_comm (INR (m d j))), <- !Rsum_mul_r. apply Rsum_ext. intros d' Hd'. rewrite Rmult_comm. apply Heq; assumption.
Qed.
Lemma split_a_zero : split_a = 0.
Proof.
  destruct (Rlt_dec 0 (Rsum (map T D))) as [L|L].
  - rewrite (split_a_alt L). apply Rsum_0. intros j Hj. apply group; [exact Hj| |].
    + intros E. rewrite V_T, E in L. cbn in L. lra.
    + intros d Hd. apply eq_pooled; assumption.
  - unfold split_a. destruct (Rlt_dec 0 (Rsum (map T D))); [contradiction|]. rewrite (V_empty L). cbn. lra.
Qed.
Lemma split_b_alt : V <> [] -> split_b = (INR (length V) - 1) * cell_b (map pooled J).
Proof.
  intros HV. pose proof (V_pos HV) as L. unfold split_b. destruct (Rlt_dec 0 (Rsum (map T D))) as [_|]; [|contradiction].
  rewrite (Rsum_ext _ (fun _ => cell_b (map pooled J))).
  - assert (E : forall (l : list nat) c, Rsum (map (fun _ => c) l) = INR (length l) * c) by (induction l as [|a l IH]; intros c; [cbn; ring|]; cbn [map length]; rewrite Rsum_cons, IH, S_INR; ring). rewrite E. ring.
  - intros d Hd. apply cell_b_ext. intros j Hj. pose proof (eq_pooled d j Hd Hj) as E. apply V_In in Hd as [_ P]. split; intros Z; rewrite Z in E; cbn [INR] in E; rewrite Rmult_0_l in E.
    + symmetry in E. apply Rmult_integral in E as [E|E]; [apply (INR_eq _ 0), E|lra].
    + apply Rmult_integral in E as [E|E]; [apply (INR_eq _ 0), E|lra].
Qed.
Lemma split_b_neg : cell_b (map pooled J) < 0.
Proof. apply cell_b_neg; [intros E; apply map_eq_nil in E; contradiction|]. rewrite map_length. exact Hal. Qed.
Lemma split_b_le : split_b <= 0.
Proof.
  assert (C : V = [] \/ V <> []) by (clear; destruct V; [left; reflexivity|right; discriminate]). destruct C as [E|E].
  - unfold split_b. destruct (Rlt_dec 0 (Rsum (map T D))) as [L|L]; [rewrite V_T, E in L; cbn in L; lra|]. fold V. rewrite E. cbn. lra.
  - rewrite (split_b_alt E). assert (LV : 1 <= INR (length V)) by (apply INR_ge1; clear -E; destruct V; [congruence|cbn; lia]). pose proof split_b_neg. nra.
Qed.
Lemma split_b_lt d d' : d <> d' -> In d V -> In d' V -> split_b < 0.
Proof.
  intros N Hd Hd'. rewrite split_b_alt by (intros E; rewrite E in Hd; destruct Hd). assert (LV : (2 <= length V)%nat).
  { clear -N Hd Hd'. destruct V as [|a [|b r]]; [destruct Hd|destruct Hd as [<-|[]], Hd' as [<-|[]]; congruence|cbn; lia]. }
  apply le_INR in LV. cbn in LV. pose proof split_b_neg. nra.
Qed.
End split.
End cell.
