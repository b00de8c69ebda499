(** The statistical tests: the chi-square statistic is Pearson's, and exactly which CIM pairs are accepted. *)
From Coq Require Import Reals Qreals Lra.
From Verif Require Import Base Lib ModelCims ModelFamScore ModelIndep SpecFamScore SpecIndep ProofParams ProofParams3 ProofFamScore ProofFamScore2.
Open Scope nat_scope.

(** ** conversion of exact rationals *)
Lemma Qc2R_Z z : Qc2R (Qc_of_Z z) = IZR z.
Proof. unfold Qc2R, Qc_of_Z. cbn [this Q2Qc]. rewrite (Qeq_eqR _ _ (Qred_correct (inject_Z z))). unfold Q2R, inject_Z; cbn. field. Qed.
Lemma Qc2R_1 : Qc2R 1%Qc = 1%R.
Proof. change 1%Qc with (Qc_of_Z 1). apply Qc2R_Z. Qed.
Lemma Qc2R_opp a : Qc2R (- a)%Qc = (- Qc2R a)%R.
Proof. unfold Qc2R. cbn [this Qcopp Q2Qc]. rewrite (Qeq_eqR _ _ (Qred_correct _)). apply Q2R_opp. Qed.
Lemma Qc2R_mult a b : Qc2R (a * b)%Qc = (Qc2R a * Qc2R b)%R.
Proof. unfold Qc2R. cbn [this Qcmult Q2Qc]. rewrite (Qeq_eqR _ _ (Qred_correct _)). apply Q2R_mult. Qed.
Lemma Qc2R_inv a : a <> 0%Qc -> Qc2R (/ a)%Qc = (/ Qc2R a)%R.
Proof.
  intros H. unfold Qc2R. cbn [this Qcinv Q2Qc]. rewrite (Qeq_eqR _ _ (Qred_correct _)). apply Q2R_inv.
  intros K. apply H. apply Qc_is_canon. exact K.
Qed.
Lemma Qc2R_div a b : b <> 0%Qc -> Qc2R (a / b)%Qc = (Qc2R a / Qc2R b)%R.
Proof. intros H. unfold Qcdiv. rewrite Qc2R_mult, Qc2R_inv by exact H. reflexivity. Qed.
Lemma Qc_plus1_nz T : (0 <= T)%Qc -> (T + 1)%Qc <> 0%Qc.
Proof.
  intros H K. pose proof (Qc2R_nonneg T H) as P. assert (E : Qc2R (T + 1) = 0%R) by (rewrite K; apply Qc2R_0).
  rewrite Qc2R_plus, Qc2R_1 in E. lra.
Qed.

(** ** extended reals *)
Lemma xsum_fin l rs : Forall2 (fun a r => a = Fin r) l rs -> xsum l = Fin (Rsum rs).
Proof. unfold xsum, Rsum. induction 1 as [|a r l rs -> H IH]; cbn [fold_right]; [reflexivity|rewrite IH; reflexivity]. Qed.
Lemma xadd_nan_r a : xadd a NaN = NaN.
Proof. destruct a; reflexivity. Qed.
Lemma xsum_nan l : In NaN l -> xsum l = NaN.
Proof.
  unfold xsum. induction l as [|a l IH]; intros H; [destruct H|]. cbn [fold_right]. destruct H as [->|H]; [reflexivity|].
  rewrite IH by exact H. apply xadd_nan_r.
Qed.
Lemma inf_of_sign_0 : inf_of_sign 0 = NaN.
Proof. unfold inf_of_sign. destruct (Rlt_dec 0 0); [lra|]. destruct (Rlt_dec 0 0); [lra|reflexivity]. Qed.
Lemma inf_of_sign_pos x : (0 < x)%R -> inf_of_sign x = PInf.
Proof. intros H. unfold inf_of_sign. destruct (Rlt_dec 0 x); [reflexivity|lra]. Qed.
Lemma inf_of_sign_neg x : (x < 0)%R -> inf_of_sign x = NInf.
Proof. intros H. unfold inf_of_sign. destruct (Rlt_dec 0 x); [lra|]. destruct (Rlt_dec x 0); [reflexivity|lra]. Qed.
Lemma xdiv_fin x y : y <> 0%R -> xdiv (Fin x) (Fin y) = Fin (x / y)%R.
Proof. intros H. unfold xdiv. destruct (Req_EM_T y 0); [contradiction|reflexivity]. Qed.
Lemma xdiv_0 x : xdiv (Fin x) (Fin 0) = inf_of_sign x.
Proof. unfold xdiv. destruct (Req_EM_T 0 0); [reflexivity|congruence]. Qed.
Lemma xdiv_nan a b : a = NaN \/ b = NaN -> xdiv a b = NaN.
Proof. intros [->| ->]; [reflexivity|destruct a; reflexivity]. Qed.
Lemma xsqrt_fin x : (0 <= x)%R -> xsqrt (Fin x) = Fin (sqrt x).
Proof. intros H. unfold xsqrt. destruct (Rle_dec 0 x); [reflexivity|contradiction]. Qed.
Lemma xgt_nan_l q : xgt NaN q = false. Proof. destruct q; reflexivity. Qed.
Lemma xgt_nan_r q : xgt q NaN = false. Proof. reflexivity. Qed.
Lemma xlt_nan_l q : xlt NaN q = false. Proof. destruct q; reflexivity. Qed.
Lemma xlt_nan_r q : xlt q NaN = false. Proof. destruct q; reflexivity. Qed.
Lemma xlt_fin_false x y : xlt (Fin x) (Fin y) = false <-> (y <= x)%R.
Proof. cbn. destruct (Rlt_dec x y); split; intros; try lra; try reflexivity; discriminate. Qed.

(** ** rows without the diagonal *)
Lemma other_states_split n x : x < n -> other_states n x = seq 0 x ++ seq (S x) (n - S x).
Proof.
  intros H. unfold other_states. replace n with (x + (1 + (n - S x))) at 1 by lia. rewrite !seq_app, !filter_app. cbn [plus seq filter].
  rewrite Nat.eqb_refl. cbn [negb app].
  assert (E : forall l, (forall j, In j l -> j <> x) -> filter (fun j => negb (j =? x)) l = l).
  { induction l as [|j l IHl]; intros K; [reflexivity|]. cbn [filter]. destruct (Nat.eqb_spec j x) as [E|_].
    - exfalso. exact (K j (or_introl eq_refl) E).
    - cbn [negb]. rewrite IHl; [reflexivity|]. intros i Hi. apply K. right. exact Hi. }
  rewrite !E; [replace (x + 1) with (S x) by lia; reflexivity| |]; intros j Hj; apply in_seq in Hj; lia.
Qed.
Lemma map_nth_seq {A} (row : list A) d a m : a + m <= length row -> map (fun j => nth j row d) (seq a m) = firstn m (skipn a row).
Proof.
  revert row a. induction m as [|m IH]; intros row a H; [reflexivity|]. cbn [seq map].
  rewrite IH by lia. clear IH. revert row H. induction a as [|a IHa]; intros row H; destruct row as [|r row]; cbn [length] in H; try lia.
  - reflexivity.
  - cbn [nth]. rewrite IHa by lia. reflexivity.
Qed.
Lemma no_diag_other_states (row : list Z) n x : length row = n -> x < n -> firstn x row ++ skipn (S x) row = map (fun j => nth j row 0%Z) (other_states n x).
Proof.
  intros L H. rewrite other_states_split, map_app by exact H. rewrite !map_nth_seq by lia. change (skipn 0 row) with row. f_equal.
  symmetry. apply firstn_all2. rewrite skipn_length. lia.
Qed.
Lemma other_states_In n x j : In j (other_states n x) <-> j < n /\ j <> x.
Proof.
  unfold other_states. rewrite filter_In, in_seq. destruct (Nat.eqb_spec j x); cbn [negb]; split; intros [H1 H2]; try discriminate; try lia; split; auto; lia.
Qed.
Lemma combine_map_same {A B C} (f : A -> B) (g : A -> C) l : combine (map f l) (map g l) = map (fun a => (f a, g a)) l.
Proof. induction l as [|a l IH]; [reflexivity|]. cbn [map combine]. rewrite IH. reflexivity. Qed.

(** ** access to the statistics *)
Section cim.
Variables (n : nat) (c : cim).
Hypothesis Hc : stats_ok n c.
Lemma stats_row x : x < n -> exists row, nth_error (c_trans c) x = Some row /\ length row = n /\ nth x (c_trans c) [] = row.
Proof.
  intros Hx. destruct Hc as [_ [H2 [_ H4]]]. destruct (nth_error (c_trans c) x) as [row|] eqn:E; [|apply nth_error_None in E; lia].
  destruct (H4 x row E) as [L _]. exists row. split; [reflexivity|]. split; [exact L|]. apply nth_error_nth, E.
Qed.
Lemma stats_nonneg x j : (0 <= jumps_of c x j)%Z.
Proof.
  unfold jumps_of. destruct (nth_in_or_default x (c_trans c) []) as [H|H].
  - apply In_nth_error in H as [k Hk]. destruct Hc as [_ [_ [_ H4]]]. destruct (H4 k _ Hk) as [_ [F _]].
    destruct (nth_in_or_default j (nth x (c_trans c) []) 0%Z) as [K|K]; [|rewrite K; lia]. rewrite Forall_forall in F. apply F, K.
  - rewrite H. destruct j; cbn; lia.
Qed.
Lemma stats_exit x : x < n -> diag_entry (c_trans c) x = Ok (exits c x).
Proof.
  intros Hx. destruct (stats_row x Hx) as [row [E [L N]]]. unfold diag_entry, exits, jumps_of, nth_res. rewrite E. cbn [bind].
  rewrite N. rewrite (nth_error_nth' row 0%Z) by lia. reflexivity.
Qed.
Lemma stats_no_diag x : x < n -> row_no_diag (c_trans c) x = Ok (map (jumps_of c x) (other_states n x)).
Proof.
  intros Hx. destruct (stats_row x Hx) as [row [E [L N]]]. unfold row_no_diag, nth_res. rewrite E. cbn [bind]. f_equal.
  rewrite (no_diag_other_states row n x L Hx). unfold jumps_of. rewrite N. reflexivity.
Qed.
Lemma stats_total x : x < n -> IZR (exits c x) = Rsum (jump_row n c x).
Proof.
  intros Hx. destruct (stats_row x Hx) as [row [E [L N]]]. destruct Hc as [_ [_ [_ H4]]]. destruct (H4 x row E) as [_ [_ D]].
  assert (EX : exits c x = Zsum (map (jumps_of c x) (other_states n x))).
  { unfold exits, jumps_of. rewrite N. rewrite (nth_error_nth' row 0%Z) in D by lia. injection D as ->.
    unfold other_states. rewrite Zsum_filter. reflexivity. }
  rewrite EX. clear EX. unfold jump_row, Rsum, Zsum. induction (other_states n x) as [|j l IH]; [reflexivity|]. cbn [map fold_right]. rewrite plus_IZR, IH. reflexivity.
Qed.
Lemma stats_exit_zero x j : x < n -> exits c x = 0%Z -> In j (other_states n x) -> jumps_of c x j = 0%Z.
Proof.
  intros Hx H Hj. pose proof (stats_total x Hx) as T. rewrite H in T. unfold jump_row in T.
  assert (P : forall l, In j l -> (0 <= Rsum (map (fun i => IZR (jumps_of c x i)) l))%R /\ (IZR (jumps_of c x j) <= Rsum (map (fun i => IZR (jumps_of c x i)) l))%R).
  { assert (Q : forall l, (0 <= Rsum (map (fun i => IZR (jumps_of c x i)) l))%R).
    { intros l. apply Rsum_nonneg, Forall_map, Forall_forall. intros i _. apply IZR_le, stats_nonneg. }
    induction l as [|a l IH]; intros K; [destruct K|]. split; [apply Q|]. unfold Rsum; cbn [map fold_right]. fold (Rsum (map (fun i => IZR (jumps_of c x i)) l)).
    destruct K as [->|K]; [pose proof (Q l); lra|]. destruct (IH K) as [_ K2]. pose proof (IZR_le _ _ (stats_nonneg x a)). lra. }
  destruct (P _ Hj) as [_ P2]. rewrite <- T in P2. apply le_IZR in P2. pose proof (stats_nonneg x j). lia.
Qed.
Lemma stats_time x : x < n -> (0 <= time_in c x)%R /\ exists T, nth_error (c_times c) x = Some T /\ time_in c x = Qc2R T /\ (0 <= T)%Qc.
Proof.
  intros Hx. destruct Hc as [H1 [_ [H3 _]]]. destruct (nth_error (c_times c) x) as [T|] eqn:E; [|apply nth_error_None in E; lia].
  assert (K : time_in c x = Qc2R T) by (unfold time_in; rewrite (nth_error_nth _ _ 0%Qc E); reflexivity).
  split; [rewrite K; apply Qc2R_nonneg, (H3 x), E|]. exists T. split; [reflexivity|]. split; [exact K|]. apply (H3 x), E.
Qed.
End cim.

Lemma computed_diag n c x : computed_cim n c -> x < n ->
  exists q, diag_entry (c_cim c) x = Ok q /\ Qc2R q = ((1 - IZR (exits c x)) / (time_in c x + 1))%R.
Proof.
  intros [Hc HE] Hx. destruct (stats_row n c Hc x Hx) as [row [E [L N]]]. destruct (stats_time n c Hc x Hx) as [_ [T [ET [KT HT]]]].
  assert (ED : nth_error row x = Some (exits c x)) by (unfold exits, jumps_of; rewrite N; apply nth_error_nth'; lia).
  destruct (cim_entry (c_times c) (c_trans c) x x T (exits c x) ET (ex_intro _ row (conj E ED))) as [qrow [K1 K2]].
  rewrite Nat.eqb_refl in K2. unfold diag_entry, nth_res. rewrite HE, K1. cbn [bind]. rewrite K2. eexists. split; [reflexivity|].
  rewrite Qc2R_div by (apply Qc_plus1_nz, HT). rewrite Qc2R_plus, Qc2R_1. unfold Qcminus. rewrite Qc2R_plus, Qc2R_opp, Qc2R_1, Qc2R_Z, KT. reflexivity.
Qed.

(** ** the chi-square statistic *)
Lemma pearson_short a b : (0 < Rsum a)%R -> (0 < Rsum b)%R -> Forall (fun p => 0 < fst p + snd p)%R (combine a b) ->
  pearson a b = Rsum (map (fun p => (Rsum a * snd p - Rsum b * fst p) ^ 2 / (Rsum a * Rsum b * (fst p + snd p)))%R (combine a b)).
Proof.
  intros Ha Hb H. unfold pearson. apply Rsum_ext. intros [x y] Hp. rewrite Forall_forall in H. specialize (H _ Hp). cbn [fst snd] in *.
  unfold pearson_cell. field. repeat split; lra.
Qed.
Lemma pearson_nonneg a b : (0 < Rsum a)%R -> (0 < Rsum b)%R -> Forall (fun p => 0 < fst p + snd p)%R (combine a b) -> (0 <= pearson a b)%R.
Proof.
  intros Ha Hb H. rewrite pearson_short by assumption. apply Rsum_nonneg, Forall_map. apply Forall_forall. intros p Hp.
  rewrite Forall_forall in H. specialize (H _ Hp).
  apply Rmult_le_pos; [apply pow2_ge_0|]. apply Rlt_le, Rinv_0_lt_compat. apply Rmult_lt_0_compat; [apply Rmult_lt_0_compat|]; assumption.
Qed.
Lemma combine_swap {A B} (a : list A) (b : list B) : combine b a = map (fun p => (snd p, fst p)) (combine a b).
Proof. revert b. induction a as [|x a IH]; intros [|y b]; cbn [combine map]; try reflexivity. rewrite IH. reflexivity. Qed.
Lemma pearson_sym a b : pearson a b = pearson b a.
Proof.
  unfold pearson. rewrite (combine_swap a b), map_map. apply Rsum_ext. intros p _. cbn [fst snd].
  rewrite (Rplus_comm (Rsum b) (Rsum a)), (Rplus_comm (snd p) (fst p)). ring.
Qed.
Lemma Rsum_zero l : Forall (fun x => 0 <= x)%R l -> (Rsum l = 0%R <-> Forall (fun x => x = 0%R) l).
Proof.
  induction 1 as [|x l Hx H IH]; [split; [constructor|reflexivity]|]. pose proof (Rsum_nonneg l H) as P. unfold Rsum in *. cbn [fold_right].
  split; intros K.
  - constructor; [lra|]. apply IH. lra.
  - rewrite (Forall_inv K). apply Forall_inv_tail in K. apply IH in K. rewrite K. lra.
Qed.
Lemma pearson_zero a b : (0 < Rsum a)%R -> (0 < Rsum b)%R -> Forall (fun p => 0 < fst p + snd p)%R (combine a b) ->
  (pearson a b = 0%R <-> proportional a b).
Proof.
  intros Ha Hb H. rewrite pearson_short by assumption. rewrite Rsum_zero.
  - unfold proportional. rewrite Forall_map. rewrite !Forall_forall. rewrite Forall_forall in H. split; intros K p Hp; specialize (K p Hp); specialize (H p Hp).
    + assert (D : (0 < Rsum a * Rsum b * (fst p + snd p))%R) by (apply Rmult_lt_0_compat; [apply Rmult_lt_0_compat|]; assumption).
      unfold Rdiv in K. apply Rmult_integral in K as [K|K].
      * assert (E : (Rsum a * snd p - Rsum b * fst p = 0)%R).
        { destruct (Req_dec (Rsum a * snd p - Rsum b * fst p) 0) as [E|E]; [exact E|]. exfalso. exact (pow_nonzero _ 2 E K). }
        lra.
      * exfalso. pose proof (Rinv_0_lt_compat _ D). lra.
    + replace (Rsum a * snd p - Rsum b * fst p)%R with 0%R by lra. unfold Rdiv. cbn [pow]. ring.
  - apply Forall_map. apply Forall_forall. intros p Hp. rewrite Forall_forall in H. specialize (H _ Hp).
    apply Rmult_le_pos; [apply pow2_ge_0|]. apply Rlt_le, Rinv_0_lt_compat. apply Rmult_lt_0_compat; [apply Rmult_lt_0_compat|]; assumption.
Qed.

Lemma sqrt_ratio r1 r2 m1 m2 : (0 < r1)%R -> (0 < r2)%R ->
  ((sqrt (r1 / r2) * m2 - sqrt (r2 / r1) * m1) * (sqrt (r1 / r2) * m2 - sqrt (r2 / r1) * m1) = (r1 * m2 - r2 * m1) ^ 2 / (r1 * r2))%R.
Proof.
  intros H1 H2. assert (P1 : (0 < r1 / r2)%R) by (apply Rdiv_lt_0_compat; assumption). assert (P2 : (0 < r2 / r1)%R) by (apply Rdiv_lt_0_compat; assumption).
  pose proof (sqrt_sqrt (r1 / r2) (Rlt_le _ _ P1)) as S1. pose proof (sqrt_sqrt (r2 / r1) (Rlt_le _ _ P2)) as S2.
  assert (S3 : (sqrt (r1 / r2) * sqrt (r2 / r1) = 1)%R).
  { rewrite <- sqrt_mult by lra. replace (r1 / r2 * (r2 / r1))%R with 1%R by (field; lra). apply sqrt_1. }
  set (K := sqrt (r1 / r2)) in *. set (L := sqrt (r2 / r1)) in *. clearbody K L.
  transitivity (K * K * m2 ^ 2 - 2 * (K * L) * m1 * m2 + L * L * m1 ^ 2)%R; [ring|]. rewrite S1, S2, S3. field. lra.
Qed.

Section pair.
Variables (n : nat) (c1 c2 : cim).
Hypothesis H1 : stats_ok n c1.
Hypothesis H2 : stats_ok n c2.
Variable x : nat.
Hypothesis Hx : x < n.

Definition chi_cell (m1 m2 : Z) : xr :=
  let K := xsqrt (xdiv (xZ (exits c1 x)) (xZ (exits c2 x))) in
  let L := xsqrt (xdiv (xZ (exits c2 x)) (xZ (exits c1 x))) in
  xdiv (xsquare (xsub (xmul K (xZ m2)) (xmul L (xZ m1)))) (xadd (xZ m1) (xZ m2)).
Lemma chi_cells : chi_stat c1 c2 x = Ok (xsum (map (fun j => chi_cell (jumps_of c1 x j) (jumps_of c2 x j)) (other_states n x))).
Proof.
  unfold chi_stat. rewrite !(stats_exit n), !(stats_no_diag n) by assumption. cbn [bind]. rewrite combine_map_same, map_map. reflexivity.
Qed.

Lemma chi_cell_pos m1 m2 : (0 < exits c1 x)%Z -> (0 < exits c2 x)%Z -> (0 <= m1)%Z -> (0 <= m2)%Z ->
  chi_cell m1 m2 = if (m1 + m2 =? 0)%Z then NaN
    else Fin ((IZR (exits c1 x) * IZR m2 - IZR (exits c2 x) * IZR m1) ^ 2 / (IZR (exits c1 x) * IZR (exits c2 x) * (IZR m1 + IZR m2)))%R.
Proof.
  intros R1 R2 M1 M2. apply IZR_lt in R1, R2. unfold chi_cell, xZ.
  set (r1 := IZR (exits c1 x)) in *. set (r2 := IZR (exits c2 x)) in *. clearbody r1 r2.
  rewrite !xdiv_fin by lra. rewrite !xsqrt_fin by (apply Rlt_le, Rdiv_lt_0_compat; assumption).
  cbn [xmul xneg xsub xadd xsquare]. destruct (Z.eqb_spec (m1 + m2) 0) as [E|E].
  - replace m1 with 0%Z by lia. replace m2 with 0%Z by lia. unfold xsquare, xsub. cbn [xmul xneg xadd].
    replace (0 + 0)%R with 0%R by ring. rewrite xdiv_0.
    match goal with |- inf_of_sign ?e = _ => replace e with 0%R by ring end. apply inf_of_sign_0.
  - unfold xsquare, xsub. cbn [xmul xneg xadd]. rewrite xdiv_fin.
    + f_equal. assert (P : (0 < IZR m1 + IZR m2)%R) by (rewrite <- plus_IZR; apply IZR_lt; lia).
      transitivity (((sqrt (r1 / r2) * IZR m2 - sqrt (r2 / r1) * IZR m1) * (sqrt (r1 / r2) * IZR m2 - sqrt (r2 / r1) * IZR m1)) / (IZR m1 + IZR m2))%R; [f_equal; ring|].
      rewrite sqrt_ratio by assumption. field. lra.
    + rewrite <- plus_IZR. apply not_0_IZR. exact E.
Qed.

Lemma chi_cell_zero m1 m2 : exits c1 x = 0%Z /\ m1 = 0%Z \/ exits c2 x = 0%Z /\ m2 = 0%Z -> (0 <= exits c1 x)%Z -> (0 <= exits c2 x)%Z -> chi_cell m1 m2 = NaN.
Proof.
  intros H P1 P2. unfold chi_cell, xZ.
  destruct H as [[E ->]|[E ->]].
  - rewrite E. rewrite (xdiv_0 (IZR (exits c2 x))).
    destruct (Z.eq_dec (exits c2 x) 0) as [E2|E2].
    + rewrite E2. change (IZR 0) with 0%R. rewrite xdiv_0, inf_of_sign_0. cbn [xsqrt xmul]. reflexivity.
    + assert (Q : (0 < IZR (exits c2 x))%R) by (apply IZR_lt; lia). rewrite inf_of_sign_pos by exact Q. cbn [xsqrt].
      rewrite xdiv_fin by lra. rewrite xsqrt_fin by (unfold Rdiv; rewrite Rmult_0_l; lra). cbn [xmul]. rewrite inf_of_sign_0. unfold xsub. cbn [xneg]. rewrite xadd_nan_r. reflexivity.
  - rewrite E. rewrite (xdiv_0 (IZR (exits c1 x))).
    destruct (Z.eq_dec (exits c1 x) 0) as [E2|E2].
    + rewrite E2. change (IZR 0) with 0%R. rewrite inf_of_sign_0. reflexivity.
    + assert (Q : (0 < IZR (exits c1 x))%R) by (apply IZR_lt; lia). rewrite inf_of_sign_pos by exact Q. cbn [xsqrt].
      cbn [xmul]. rewrite inf_of_sign_0. reflexivity.
Qed.

Lemma chi_pearson : (0 < exits c1 x)%Z -> (0 < exits c2 x)%Z -> ~ unseen_cell n c1 c2 x ->
  chi_stat c1 c2 x = Ok (Fin (pearson (jump_row n c1 x) (jump_row n c2 x))).
Proof.
  intros R1 R2 HU. rewrite chi_cells. f_equal.
  assert (HP : forall j, In j (other_states n x) -> (0 < jumps_of c1 x j + jumps_of c2 x j)%Z).
  { intros j Hj. apply other_states_In in Hj as [J1 J2]. pose proof (stats_nonneg n c1 H1 x j). pose proof (stats_nonneg n c2 H2 x j).
    destruct (Z.eq_dec (jumps_of c1 x j + jumps_of c2 x j) 0); [|lia]. exfalso. apply HU. exists j. repeat split; auto; lia. }
  assert (EC : combine (jump_row n c1 x) (jump_row n c2 x) = map (fun j => (IZR (jumps_of c1 x j), IZR (jumps_of c2 x j))) (other_states n x))
    by (unfold jump_row; apply combine_map_same).
  pose proof (stats_total n c1 H1 x Hx) as T1. pose proof (stats_total n c2 H2 x Hx) as T2.
  rewrite pearson_short.
  - rewrite EC, map_map. cbn [fst snd]. apply xsum_fin. rewrite <- T1, <- T2.
    assert (G : forall l, (forall j, In j l -> In j (other_states n x)) -> Forall2 (fun a r => a = Fin r) (map (fun j => chi_cell (jumps_of c1 x j) (jumps_of c2 x j)) l)
      (map (fun j => ((IZR (exits c1 x) * IZR (jumps_of c2 x j) - IZR (exits c2 x) * IZR (jumps_of c1 x j)) ^ 2 / (IZR (exits c1 x) * IZR (exits c2 x) * (IZR (jumps_of c1 x j) + IZR (jumps_of c2 x j))))%R) l)).
    { induction l as [|j l IH]; intros K; cbn [map]; constructor.
      - rewrite chi_cell_pos by (auto; eapply stats_nonneg; eassumption). specialize (HP j (K j (or_introl eq_refl))).
        destruct (Z.eqb_spec (jumps_of c1 x j + jumps_of c2 x j) 0); [lia|reflexivity].
      - apply IH. intros i Hi. apply K. right. exact Hi. }
    apply G. auto.
  - rewrite <- T1. apply IZR_lt, R1.
  - rewrite <- T2. apply IZR_lt, R2.
  - rewrite EC. apply Forall_map, Forall_forall. intros j Hj. cbn [fst snd]. rewrite <- plus_IZR. apply IZR_lt, HP, Hj.
Qed.

Lemma chi_unseen : unseen_cell n c1 c2 x -> chi_stat c1 c2 x = Ok NaN.
Proof.
  intros [j [J1 [J2 [E1 E2]]]]. rewrite chi_cells. f_equal. apply xsum_nan. apply in_map_iff. exists j.
  split; [|apply other_states_In; split; assumption]. rewrite E1, E2. pose proof (stats_nonneg n c1 H1 x x) as P1. pose proof (stats_nonneg n c2 H2 x x) as P2.
  fold (exits c1 x) in P1. fold (exits c2 x) in P2.
  destruct (Z.eq_dec (exits c1 x) 0); [apply chi_cell_zero; auto|]. destruct (Z.eq_dec (exits c2 x) 0); [apply chi_cell_zero; auto|].
  rewrite chi_cell_pos by lia. reflexivity.
Qed.
Lemma chi_no_exit : exits c1 x = 0%Z \/ exits c2 x = 0%Z -> 2 <= n -> chi_stat c1 c2 x = Ok NaN.
Proof.
  intros H Hn. rewrite chi_cells. f_equal. apply xsum_nan. apply in_map_iff.
  exists (if x =? 0 then 1 else 0).
  assert (J : In (if x =? 0 then 1 else 0) (other_states n x)) by (apply other_states_In; destruct (Nat.eqb_spec x 0); lia).
  split; [|exact J]. pose proof (stats_nonneg n c1 H1 x x) as P1. pose proof (stats_nonneg n c2 H2 x x) as P2.
  apply chi_cell_zero; auto. destruct H as [H|H]; [left|right]; split; auto; eapply stats_exit_zero; eassumption.
Qed.
Lemma exits_one : n = 1 -> exits c1 x = 0%Z.
Proof.
  intros ->. pose proof (stats_total 1 c1 H1 x Hx) as T. assert (x = 0) by lia. subst x. cbn in T. apply eq_IZR, T.
Qed.
Lemma chi_ok : exists v, chi_stat c1 c2 x = Ok v.
Proof. rewrite chi_cells. eauto. Qed.
End pair.
