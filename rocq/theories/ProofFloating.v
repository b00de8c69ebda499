(** Error analysis of single binary64 operations and of sums (C69). *)
From Flocq Require Import Core BinarySingleNaN Plus_error Relative.
From Coq Require Import Reals Lra Psatz.
From Verif Require Import Base ModelParams ModelFloating.
Open Scope R_scope.

Notation B := (bpow radix2).
Notation fexp64 := (SpecFloat.fexp 53 1024).
Notation rnd := (round radix2 fexp64 (round_mode mode_NE)).
Definition u : R := B (-53).
Lemma u_pos : 0 < u. Proof. apply bpow_gt_0. Qed.
Lemma u_small : u <= 1 / 16. Proof. replace (1 / 16) with (B (-4)) by (simpl; lra). apply bpow_le. lia. Qed.
Lemma u_ro_eq : u_ro radix2 53 = u.
Proof. unfold u_ro, u. replace (B (- (53) + 1)) with (B (-53) * 2); [lra|]. rewrite bpow_plus. reflexivity. Qed.
Lemma u_52 : 2 * u = / 2 ^ 52.
Proof.
  unfold u. change (-53)%Z with (-52 + -1)%Z. rewrite bpow_plus. change (B (-1)) with (/ 2).
  change (B (-52)) with (/ IZR (Z.pow_pos 2 52)). replace (2 ^ 52) with (IZR (Z.pow_pos 2 52)); [field|].
  - apply not_0_IZR. discriminate.
  - change (Z.pow_pos 2 52) with (2 ^ Z.of_nat 52)%Z. rewrite <- pow_IZR. reflexivity.
Qed.

(** ** rounding *)
Global Instance prec53 : Prec_gt_0 53. Proof. reflexivity. Qed.
Lemma fexp_FLT : fexp64 = FLT_exp (-1074) 53. Proof. reflexivity. Qed.
Global Instance valid_fexp : Valid_exp fexp64. Proof. rewrite fexp_FLT. apply FLT_exp_valid. reflexivity. Qed.
Lemma rnd_le x b : Rabs x <= B b -> (b <= 1020)%Z -> (-1074 <= b)%Z -> Rlt_bool (Rabs (rnd x)) (B 1024) = true.
Proof.
  intros H Hb Hm. apply Rlt_bool_true. apply Rle_lt_trans with (B b); [|apply bpow_lt; lia].
  apply abs_round_le_generic; [typeclasses eauto|typeclasses eauto|apply generic_format_bpow; rewrite fexp_FLT; unfold FLT_exp; lia|exact H].
Qed.
Definition factor (e : R) : Prop := / (1 + u) <= 1 + e <= 1 + u.
Lemma eps_factor e : Rabs e <= u / (1 + u) -> factor e.
Proof.
  intros H. pose proof u_pos. assert (H1 : u / (1 + u) <= u).
  { apply Rmult_le_reg_r with (1 + u); [lra|]. unfold Rdiv. rewrite Rmult_assoc, Rinv_l by lra. nra. }
  apply Rabs_le_inv in H as [L U]. split; [|lra].
  replace (/ (1 + u)) with (1 - u / (1 + u)) by (field; lra). lra.
Qed.

Lemma f64_format (x : f64) : generic_format radix2 (FLT_exp (-1074) 53) (B2R x).
Proof. apply (generic_format_B2R 53 1024). Qed.

Lemma fadd_ok (x y : f64) b : is_finite x = true -> is_finite y = true -> Rabs (B2R x + B2R y) <= B b -> (b <= 1020)%Z -> (-1074 <= b)%Z ->
  is_finite (fadd x y) = true /\ B2R (fadd x y) = rnd (B2R x + B2R y)
  /\ exists e, factor e /\ B2R (fadd x y) = (B2R x + B2R y) * (1 + e).
Proof.
  intros Fx Fy H Hb Hm. pose proof (Bplus_correct 53 1024 eq_refl eq_refl mode_NE x y Fx Fy) as C.
  rewrite (rnd_le _ b H Hb Hm) in C. destruct C as [C1 [C2 _]]. split; [exact C2|]. split; [exact C1|].
  destruct (FLT_plus_error_N_ex radix2 (-1074) 53 (fun z => negb (Z.even z)) (B2R x) (B2R y) (f64_format x) (f64_format y)) as [e [E1 E2]].
  exists e. rewrite u_ro_eq in E1. split; [apply eps_factor, E1|]. unfold fadd. rewrite C1. exact E2.
Qed.
Lemma fsub_ok (x y : f64) b : is_finite x = true -> is_finite y = true -> Rabs (B2R x - B2R y) <= B b -> (b <= 1020)%Z -> (-1074 <= b)%Z ->
  is_finite (fsub x y) = true /\ exists e, factor e /\ B2R (fsub x y) = (B2R x - B2R y) * (1 + e).
Proof.
  intros Fx Fy H Hb Hm. pose proof (Bminus_correct 53 1024 eq_refl eq_refl mode_NE x y Fx Fy) as C.
  rewrite (rnd_le _ b H Hb Hm) in C. destruct C as [C1 [C2 _]]. split; [exact C2|].
  destruct (FLT_plus_error_N_ex radix2 (-1074) 53 (fun z => negb (Z.even z)) (B2R x) (- B2R y) (f64_format x) (generic_format_opp _ _ _ (f64_format y))) as [e [E1 E2]].
  exists e. rewrite u_ro_eq in E1. split; [apply eps_factor, E1|]. unfold fsub. rewrite C1. exact E2.
Qed.
Lemma factor_0 : factor 0.
Proof.
  pose proof u_pos. split; [|lra]. rewrite Rplus_0_r. rewrite <- Rinv_1 at 2. apply Rinv_le; lra.
Qed.
Lemma fdiv_ok (x y : f64) b : is_finite x = true -> B2R y <> 0 -> Rabs (B2R x / B2R y) <= B b -> (b <= 1020)%Z -> (-1074 <= b)%Z ->
  B2R x = 0 \/ B (-1022) <= Rabs (B2R x / B2R y) ->
  is_finite (fdiv x y) = true /\ B2R (fdiv x y) = rnd (B2R x / B2R y)
  /\ exists e, factor e /\ B2R (fdiv x y) = (B2R x / B2R y) * (1 + e).
Proof.
  intros Fx Fy H Hb Hm Hn. pose proof (Bdiv_correct 53 1024 eq_refl eq_refl mode_NE x y Fy) as C.
  rewrite (rnd_le _ b H Hb Hm) in C. destruct C as [C1 [C2 _]]. split; [unfold fdiv; rewrite C2; exact Fx|]. split; [exact C1|]. unfold fdiv. rewrite C1.
  destruct Hn as [Z0|Hn].
  - exists 0. split; [apply factor_0|]. rewrite Z0. unfold Rdiv. rewrite !Rmult_0_l. apply round_0. typeclasses eauto.
  - destruct (relative_error_N_FLX'_ex radix2 53 eq_refl (fun z => negb (Z.even z)) (B2R x / B2R y)) as [e [E1 E2]].
    exists e. rewrite u_ro_eq in E1. split; [apply eps_factor, E1|]. rewrite <- E2. apply (round_FLT_FLX radix2 (-1074) 53). exact Hn.
Qed.

(** ** integers up to 2^53 are exact *)
Lemma int_format z : (Z.abs z <= 2 ^ 53)%Z -> generic_format radix2 fexp64 (IZR z).
Proof.
  intros H. destruct (Z.eq_dec (Z.abs z) (2 ^ 53)) as [E|E].
  - assert (G : generic_format radix2 fexp64 (B 53)) by (apply generic_format_bpow; rewrite fexp_FLT; unfold FLT_exp; lia).
    destruct (Z.abs_spec z) as [[_ A]|[_ A]].
    + replace z with (2 ^ 53)%Z by lia. exact G.
    + replace z with (- 2 ^ 53)%Z by lia. rewrite opp_IZR. apply generic_format_opp, G.
  - rewrite fexp_FLT. apply generic_format_FLT. apply (FLT_spec _ _ _ _ (Float radix2 z 0)); [unfold F2R; cbn [Fnum Fexp]; simpl (B 0); ring|cbn [Fnum]; change (Zpower radix2 53) with (2 ^ 53)%Z; lia|cbn [Fexp]; lia].
Qed.
Lemma rnd_int z : (Z.abs z <= 2 ^ 53)%Z -> rnd (IZR z) = IZR z.
Proof. intros H. apply round_generic; [typeclasses eauto|apply int_format, H]. Qed.
Lemma int_abs z n : (0 <= n)%Z -> (Z.abs z <= 2 ^ n)%Z -> Rabs (IZR z) <= B n.
Proof. intros Hn H. rewrite <- abs_IZR. rewrite <- IZR_Zpower by exact Hn. apply IZR_le. exact H. Qed.
Lemma f_of_Z_ok z : (Z.abs z <= 2 ^ 53)%Z -> is_finite (f_of_Z z) = true /\ B2R (f_of_Z z) = IZR z.
Proof.
  intros H. pose proof (binary_normalize_correct 53 1024 eq_refl eq_refl mode_NE z 0 false) as C. cbv zeta in C.
  assert (E : F2R (Float radix2 z 0) = IZR z) by (unfold F2R; cbn [Fnum Fexp]; simpl (bpow _ _); ring).
  rewrite E in C. rewrite (rnd_le _ 53 (int_abs z 53 ltac:(lia) H)) in C by lia.
  destruct C as [C1 [C2 _]]. split; [exact C2|]. unfold f_of_Z. rewrite C1. apply rnd_int, H.
Qed.
Lemma fadd_int x y a b : is_finite x = true -> is_finite y = true -> B2R x = IZR a -> B2R y = IZR b -> (Z.abs (a + b) <= 2 ^ 53)%Z ->
  is_finite (fadd x y) = true /\ B2R (fadd x y) = IZR (a + b).
Proof.
  intros Fx Fy Ex Ey H. assert (S : B2R x + B2R y = IZR (a + b)) by (rewrite Ex, Ey, plus_IZR; reflexivity).
  assert (R : Rabs (B2R x + B2R y) <= B 53) by (rewrite S; apply int_abs; [lia|exact H]).
  destruct (fadd_ok x y 53 Fx Fy R ltac:(lia) ltac:(lia)) as [F [E _]]. split; [exact F|]. rewrite E, S. apply rnd_int, H.
Qed.
Lemma fdiv_int z s q : (Z.abs z <= 2 ^ 53)%Z -> (0 < s <= 2 ^ 53)%Z -> z = (q * s)%Z ->
  is_finite (fdiv (f_of_Z z) (f_of_Z s)) = true /\ B2R (fdiv (f_of_Z z) (f_of_Z s)) = IZR q.
Proof.
  intros Hz Hs E. destruct (f_of_Z_ok z Hz) as [Fz Ez]. destruct (f_of_Z_ok s ltac:(lia)) as [Fs Es].
  assert (S0 : IZR s <> 0) by (apply not_0_IZR; lia).
  assert (Q : B2R (f_of_Z z) / B2R (f_of_Z s) = IZR q) by (rewrite Ez, Es, E, mult_IZR; field; exact S0).
  assert (Hq : (Z.abs q <= 2 ^ 53)%Z) by nia.
  assert (R : Rabs (B2R (f_of_Z z) / B2R (f_of_Z s)) <= B 53) by (rewrite Q; apply int_abs; [lia|exact Hq]).
  destruct (fdiv_ok (f_of_Z z) (f_of_Z s) 53 Fz ltac:(rewrite Es; exact S0) R ltac:(lia) ltac:(lia)) as [F [E' _]].
  - destruct (Z.eq_dec z 0) as [->|N]; [left; exact Ez|right].
    rewrite Q, <- abs_IZR. apply Rle_trans with (IZR 1); [change (IZR 1) with (B 0); apply bpow_le; lia|]. apply IZR_le. nia.
  - split; [exact F|]. rewrite E', Q. apply rnd_int, Hq.
Qed.
Lemma Btrunc_int (x : f64) z : B2R x = IZR z -> Btrunc x = z.
Proof.
  intros H. apply eq_IZR. rewrite (Btrunc_correct 53 1024 eq_refl), H. apply round_generic; [typeclasses eauto|].
  apply generic_format_FIX. exists (Float radix2 z 0); [unfold F2R; cbn [Fnum Fexp]; simpl (bpow _ _); ring|reflexivity].
Qed.

(** ** the flat index *)
Lemma f_sum_int l zs : Forall2 (fun (x : f64) z => is_finite x = true /\ B2R x = IZR z) l zs -> (forall z, In z zs -> (0 <= z)%Z) ->
  (Zsum zs <= 2 ^ 53)%Z -> forall acc a, is_finite acc = true -> B2R acc = IZR a -> (0 <= a)%Z -> (a + Zsum zs <= 2 ^ 53)%Z ->
  is_finite (fold_left fadd l acc) = true /\ B2R (fold_left fadd l acc) = IZR (a + Zsum zs).
Proof.
  induction 1 as [|x z l zs [Fx Ex] H IH]; intros Hz Hs acc a Fa Ea Ha Hb.
  - cbn. rewrite Z.add_0_r. auto.
  - assert (Z0 : (0 <= z)%Z) by (apply Hz; left; reflexivity).
    assert (P : (0 <= Zsum zs)%Z).
    { clear - Hz. assert (Hz' : forall z, In z zs -> (0 <= z)%Z) by (intros w Hw; apply Hz; right; exact Hw). clear Hz. unfold Zsum. induction zs as [|w r IH]; cbn [fold_right]; [lia|].
      pose proof (Hz' w (or_introl eq_refl)). pose proof (IH (fun v Hv => Hz' v (or_intror Hv))). lia. }
    change (Zsum (z :: zs)) with (z + Zsum zs)%Z in *. cbn [fold_left].
    destruct (fadd_int acc x a z Fa Fx Ea Ex ltac:(lia)) as [F E].
    destruct (IH (fun v Hv => Hz v (or_intror Hv)) ltac:(lia) (fadd acc x) (a + z)%Z F E ltac:(lia) ltac:(lia)) as [F' E'].
    split; [exact F'|]. rewrite E'. f_equal. lia.
Qed.
Lemma Zsum_pos l : (forall z, In z l -> (0 <= z)%Z) -> (0 <= Zsum l)%Z.
Proof.
  unfold Zsum. induction l as [|w r IH]; intros Hz; cbn [fold_right]; [lia|].
  pose proof (Hz w (or_introl eq_refl)). pose proof (IH (fun v Hv => Hz v (or_intror Hv))). lia.
Qed.
Lemma Zsum_ge l : (forall z, In z l -> (0 <= z)%Z) -> forall z, In z l -> (z <= Zsum l)%Z.
Proof.
  induction l as [|w r IH]; intros Hz z []; change (Zsum (w :: r)) with (w + Zsum r)%Z.
  - subst. pose proof (Zsum_pos r (fun v Hv => Hz v (or_intror Hv))). lia.
  - pose proof (IH (fun v Hv => Hz v (or_intror Hv)) z H). pose proof (Hz w (or_introl eq_refl)). lia.
Qed.
Lemma f_index_exact row scalar : (0 < hd 0 scalar)%Z -> (forall a, In a row -> (0 <= a)%Z) -> (forall b, In b scalar -> (0 <= b)%Z /\ (hd 0 scalar | b)%Z) ->
  (dot row scalar <= 2 ^ 53)%Z -> (hd 0 scalar <= 2 ^ 53)%Z -> f_scalar_index row scalar = scalar_index row scalar.
Proof.
  intros Hs Hr Hb Hd H53. set (s := hd 0%Z scalar) in *.
  set (pr := map (fun p => (fst p * snd p)%Z) (combine row scalar)).
  assert (Hp : forall z, In z pr -> (0 <= z)%Z /\ exists q, z = (q * s)%Z).
  { intros z Hz. apply in_map_iff in Hz as [[a b] [<- Hab]]. cbn [fst snd]. pose proof (Hr a (in_combine_l _ _ _ _ Hab)). destruct (Hb b (in_combine_r _ _ _ _ Hab)) as [Pb [q Q]].
    split; [nia|]. exists (a * q)%Z. rewrite Q. ring. }
  assert (Hle : forall z, In z pr -> (z <= 2 ^ 53)%Z).
  { intros z Hz. apply Z.le_trans with (Zsum pr); [|exact Hd]. apply Zsum_ge; [|exact Hz]. intros v Hv. apply Hp, Hv. }
  set (qs := map (fun z => Z.quot z s) pr).
  assert (Hq : forall z, In z pr -> (Z.quot z s * s = z)%Z /\ (0 <= Z.quot z s)%Z).
  { intros z Hz. destruct (Hp z Hz) as [P [q Q]]. rewrite Q. rewrite Z.quot_mul by lia. split; [reflexivity|]. nia. }
  assert (HS : (Zsum qs * s = Zsum pr)%Z).
  { unfold qs. clear - Hq. induction pr as [|z r IH]; [reflexivity|]. cbn [map]. change (Zsum (z :: r)) with (z + Zsum r)%Z. change (Zsum (Z.quot z s :: map (fun z => Z.quot z s) r)) with (Z.quot z s + Zsum (map (fun z => Z.quot z s) r))%Z.
    destruct (Hq z (or_introl eq_refl)) as [E _]. pose proof (IH (fun v Hv => Hq v (or_intror Hv))). lia. }
  assert (HF : Forall2 (fun (x : f64) z => is_finite x = true /\ B2R x = IZR z) (f_terms row scalar) qs).
  { unfold f_terms, qs, pr. fold s. rewrite map_map. assert (Hall : forall p, In p (combine row scalar) -> In (fst p * snd p)%Z pr) by (intros p Hp'; apply in_map_iff; exists p; auto).
    clearbody pr. clear - Hall Hp Hle Hq Hs H53. induction (combine row scalar) as [|p l IH]; cbn [map]; constructor.
    - pose proof (Hall p (or_introl eq_refl)) as Hi. destruct (Hp _ Hi) as [P _]. pose proof (Hle _ Hi). destruct (Hq _ Hi) as [E _]. apply (fdiv_int _ s); lia.
    - apply IH. intros q Hq'. apply Hall. right. exact Hq'. }
  assert (Hq0 : forall z, In z qs -> (0 <= z)%Z) by (intros z Hz; apply in_map_iff in Hz as [w [<- Hw]]; apply Hq, Hw).
  assert (HSle : (Zsum qs <= 2 ^ 53)%Z). { pose proof (Zsum_pos qs Hq0). change (dot row scalar) with (Zsum pr) in Hd. nia. }
  destruct (f_sum_int _ _ HF Hq0 HSle f_zero 0%Z (proj1 (f_of_Z_ok 0 ltac:(lia))) (proj2 (f_of_Z_ok 0 ltac:(lia))) ltac:(lia) ltac:(lia)) as [_ E].
  unfold f_scalar_index, f_sum. rewrite (Btrunc_int _ _ E). unfold scalar_index. fold s. change (dot row scalar) with (Zsum pr). rewrite <- HS. rewrite Z.quot_mul by lia. lia.
Qed.
