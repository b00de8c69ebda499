(** The FamScore is the log marginal likelihood of any history with the same statistics. *)
From Coq Require Import Reals Qreals Lra.
From Verif Require Import Base Lib ModelCims ModelFamScore SpecFamScore.
Open Scope nat_scope.

Lemma Rsum_app a b : Rsum (a ++ b) = (Rsum a + Rsum b)%R.
Proof. unfold Rsum. induction a as [|x a IH]; cbn [app fold_right]; [ring|rewrite IH; ring]. Qed.
Lemma Rsum_perm a b : Permutation a b -> Rsum a = Rsum b.
Proof. unfold Rsum. induction 1; cbn [fold_right]; try congruence; try ring. Qed.
Lemma Rsum_nonneg l : Forall (fun x => 0 <= x)%R l -> (0 <= Rsum l)%R.
Proof. unfold Rsum. induction 1; cbn [fold_right]; lra. Qed.
Lemma Rsum_plus {A} (f g : A -> R) l : Rsum (map (fun x => f x + g x)%R l) = (Rsum (map f l) + Rsum (map g l))%R.
Proof. unfold Rsum. induction l as [|x l IH]; cbn [map fold_right]; [ring|rewrite IH; ring]. Qed.
Lemma Rsum_ext {A} (f g : A -> R) l : (forall x, In x l -> f x = g x) -> Rsum (map f l) = Rsum (map g l).
Proof. intros H. f_equal. apply map_ext_in, H. Qed.
Lemma Rsum_one (f : nat -> R) d (v : R) L : NoDup L -> In d L ->
  Rsum (map (fun j => f j + if Nat.eq_dec d j then v else 0)%R L) = (Rsum (map f L) + v)%R.
Proof.
  intros N. induction L as [|a L IH]; intros H; [destruct H|]. apply NoDup_cons_iff in N as [N1 N2].
  unfold Rsum in *. cbn [map fold_right]. destruct (Nat.eq_dec d a) as [->|Hn].
  - assert (E : map (fun j => f j + (if Nat.eq_dec a j then v else 0))%R L = map f L).
    { apply map_ext_in. intros j Hj. destruct (Nat.eq_dec a j) as [->|]; [contradiction|ring]. }
    rewrite E. ring.
  - destruct H as [H|H]; [congruence|]. rewrite IH by assumption. ring.
Qed.

Section lg.
Variable lg : R -> R.
Hypothesis Hlg : log_gamma_equation lg.

Lemma dwell_closed h : Forall (fun v : R * option nat => 0 <= fst v)%R h -> forall a b, (0 < a)%R -> (0 < b)%R ->
  dwell_loglik a b h = (lg (a + INR (length (destinations h))) - lg a + a * ln b
     - (a + INR (length (destinations h))) * ln (b + Rsum (map fst h)))%R.
Proof.
  induction 1 as [|[t [d|]] h H1 H2 IH]; intros a b Ha Hb; cbn [fst] in *.
  - cbn. rewrite !Rplus_0_r. ring.
  - cbn [dwell_loglik destinations flat_map snd app length]. fold (destinations h). rewrite IH by lra.
    rewrite S_INR. unfold Rsum; cbn [map fst fold_right]. fold (Rsum (map fst h)).
    assert (P1 : (0 < Rpower b a)%R) by apply exp_pos.
    assert (P2 : (0 < Rpower (b + t) (a + 1))%R) by apply exp_pos.
    unfold Rdiv. rewrite ln_mult; [|apply Rmult_lt_0_compat; assumption|apply Rinv_0_lt_compat; exact P2].
    rewrite ln_mult by assumption. rewrite ln_Rinv by exact P2. unfold Rpower. rewrite !ln_exp.
    rewrite (Hlg a Ha).
    replace (a + 1 + INR (length (destinations h)))%R with (a + (INR (length (destinations h)) + 1))%R by ring.
    replace (b + t + Rsum (map fst h))%R with (b + (t + Rsum (map fst h)))%R by ring. ring.
  - cbn [dwell_loglik destinations flat_map snd app]. fold (destinations h). rewrite IH by lra.
    unfold Rsum; cbn [map fst fold_right]. fold (Rsum (map fst h)).
    unfold Rpower. rewrite ln_exp. unfold Rdiv. rewrite ln_mult; [|lra|apply Rinv_0_lt_compat; lra]. rewrite ln_Rinv by lra.
    replace (b + t + Rsum (map fst h))%R with (b + (t + Rsum (map fst h)))%R by ring. ring.
Qed.

Notation cnt := (count_occ Nat.eq_dec).
Lemma dest_closed alpha axx L : (0 < alpha)%R -> (0 < axx)%R -> NoDup L -> forall ds seen, (forall d, In d ds -> In d L) ->
  dest_loglik alpha axx seen ds = (lg (alpha + INR (length seen)) - lg (alpha + INR (length (seen ++ ds)))
    + Rsum (map (fun j => lg (axx + INR (cnt (seen ++ ds) j)) - lg (axx + INR (cnt seen j))) L))%R.
Proof.
  intros Ha Hx N. induction ds as [|d ds IH]; intros seen HL.
  - cbn [dest_loglik]. rewrite app_nil_r.
    rewrite (Rsum_ext _ (fun _ => 0%R)) by (intros; ring).
    assert (E : forall l : list nat, Rsum (map (fun _ => 0%R) l) = 0%R) by (intros l; unfold Rsum; induction l as [|x r IHr]; cbn [map fold_right]; lra).
    rewrite E. ring.
  - cbn [dest_loglik]. rewrite IH by (intros; apply HL; right; assumption). rewrite <- app_assoc. cbn [app].
    rewrite app_length. cbn [length]. rewrite plus_INR. cbn [INR].
    pose proof (pos_INR (length seen)) as P1. pose proof (pos_INR (cnt seen d)) as P2.
    unfold Rdiv. rewrite ln_mult; [|lra|apply Rinv_0_lt_compat; lra]. rewrite ln_Rinv by lra.
    replace (alpha + (INR (length seen) + 1))%R with (alpha + INR (length seen) + 1)%R by ring.
    rewrite Hlg by lra.
    rewrite (Rsum_ext (fun j => lg (axx + INR (cnt (seen ++ d :: ds) j)) - lg (axx + INR (cnt (seen ++ [d]) j)))%R
               (fun j => (lg (axx + INR (cnt (seen ++ d :: ds) j)) - lg (axx + INR (cnt seen j)))
                         + if Nat.eq_dec d j then - ln (axx + INR (cnt seen d)) else 0)%R L).
    + rewrite Rsum_one; [ring|exact N|apply HL; left; reflexivity].
    + intros j _. rewrite (count_occ_app _ seen [d]). cbn [count_occ]. destruct (Nat.eq_dec d j) as [->|Hn].
      * rewrite plus_INR. cbn [INR]. replace (axx + (INR (cnt seen j) + 1))%R with (axx + INR (cnt seen j) + 1)%R by ring.
        pose proof (pos_INR (cnt seen j)). rewrite (Hlg (axx + INR (cnt seen j))%R) by lra. ring.
      * rewrite Nat.add_0_r. ring.
Qed.

Lemma py_remove_seq n : forall a x, a <= x -> x < a + n -> py_remove Nat.eqb x (seq a n) = Ok (filter (fun j => negb (j =? x)) (seq a n)).
Proof.
  induction n as [|n IH]; intros a x H1 H2; [lia|]. cbn [seq py_remove filter].
  rewrite (Nat.eqb_sym a x). destruct (Nat.eqb_spec x a) as [->|Hn].
  - cbn [negb]. f_equal. assert (E : forall l, (forall j, In j l -> j <> a) -> filter (fun j => negb (j =? a)) l = l).
    { induction l as [|j l IHl]; intros K; [reflexivity|]. cbn [filter]. destruct (Nat.eqb_spec j a) as [E|_].
      - exfalso. exact (K j (or_introl eq_refl) E).
      - cbn [negb]. rewrite IHl; [reflexivity|]. intros i Hi. apply K. right. exact Hi. }
    rewrite E; [reflexivity|]. intros j Hj. apply in_seq in Hj. lia.
  - cbn [negb]. rewrite IH by lia. reflexivity.
Qed.

Variables (tau alpha : R).
Hypothesis Htau : (0 < tau)%R.
Hypothesis Halpha : (0 < alpha)%R.

Lemma single_score c n x h : length (c_times c) = n -> 2 <= n -> x < n -> history_of c n x h ->
  exists q th row m t, nth_error (c_trans c) x = Some row /\ nth_error row x = Some m /\ nth_error (c_times c) x = Some t
    /\ single_cim_xu_marginal_likelihood_q lg m t tau alpha = Ok q
    /\ single_cim_xu_marginal_likelihood_theta lg x c alpha (alpha / (INR n - 1))%R = Ok th
    /\ q = dwell_loglik (alpha + 1) tau h /\ th = dest_loglik alpha (alpha / (INR n - 1))%R [] (destinations h).
Proof.
  intros Hl Hn Hx [Hp [Hd [T [row [E1 [E2 [ET [Em Ec]]]]]]]].
  assert (Hn2 : (2 <= INR n)%R) by (apply (le_INR 2 n) in Hn; exact Hn).
  assert (Hxx : (0 < alpha / (INR n - 1))%R) by (apply Rdiv_lt_0_compat; lra).
  set (axx := (alpha / (INR n - 1))%R) in *. clearbody axx.
  assert (HT : (0 <= Rsum (map fst h))%R).
  { apply Rsum_nonneg, Forall_map. exact Hp. }
  set (L := filter (fun j => negb (j =? x)) (seq 0 n)).
  eexists _, _, row, _, T. split; [exact E2|]. split; [exact Em|]. split; [exact E1|].
  unfold single_cim_xu_marginal_likelihood_q, single_cim_xu_marginal_likelihood_theta, py_log.
  destruct (Rlt_dec 0 tau) as [_|K]; [|contradiction]. cbn [bind].
  rewrite ET. destruct (Rlt_dec 0 (tau + Rsum (map fst h))) as [_|K]; [|exfalso; apply K; clear - Htau HT; lra]. cbn [bind].
  split; [reflexivity|].
  rewrite Hl, py_remove_seq by lia. cbn [bind]. fold L.
  unfold nth_res. rewrite E2. cbn [bind]. rewrite Em. cbn [bind].
  rewrite (res_map_pure _ (fun j => (lg (axx + INR (cnt (destinations h) j)) - lg axx)%R)).
  2:{ intros j Hj. unfold L in Hj. apply filter_In in Hj as [J1 J2]. apply in_seq in J1. destruct (Nat.eqb_spec j x); [discriminate|].
      rewrite (Ec j) by lia. cbn [bind]. unfold single_internal_cim_xxu_marginal_likelihood_theta. rewrite <- INR_IZR_INZ. reflexivity. }
  cbn [bind]. split; [reflexivity|]. split.
  - rewrite (dwell_closed h Hp) by lra. rewrite <- !INR_IZR_INZ.
    replace (alpha + INR (length (destinations h)) + 1)%R with (alpha + 1 + INR (length (destinations h)))%R by ring. ring.
  - rewrite (dest_closed alpha axx L) ; auto.
    + cbn [app length count_occ INR]. rewrite <- !INR_IZR_INZ. rewrite Rplus_0_r. f_equal.
      apply Rsum_ext. intros j _. rewrite Rplus_0_r. reflexivity.
    + apply NoDup_filter, seq_NoDup.
    + intros d K. destruct (Hd d K). unfold L. apply filter_In. split; [apply in_seq; lia|]. destruct (Nat.eqb_spec d x); [contradiction|reflexivity].
Qed.

Lemma res_map_sum {A} (f : A -> result R) (g : A -> R) l : (forall a, In a l -> f a = Ok (g a)) -> (let* r := res_map f l in Ok (Rsum r)) = Ok (Rsum (map g l)).
Proof. intros H. rewrite (res_map_pure f g) by exact H. reflexivity. Qed.

Lemma nth_seq_map {A} (l : list A) d : l = map (fun i => nth i l d) (seq 0 (length l)).
Proof.
  induction l as [|a l IH]; [reflexivity|]. cbn [length seq map nth]. f_equal. rewrite <- seq_shift, map_map. exact IH.
Qed.

Lemma cim_score c n hc : length (c_times c) = n -> 2 <= n -> length hc = n -> (forall x h, nth_error hc x = Some h -> history_of c n x h) ->
  exists q th, variable_cim_xu_marginal_likelihood_q lg c tau alpha = Ok q
   /\ variable_cim_xu_marginal_likelihood_theta lg c alpha (alpha / (INR n - 1))%R = Ok th
   /\ (q + th)%R = Rsum (map (visit_loglik tau alpha n) hc).
Proof.
  intros Hl Hn Hh HH. unfold variable_cim_xu_marginal_likelihood_q, variable_cim_xu_marginal_likelihood_theta. rewrite Hl.
  exists (Rsum (map (fun x => dwell_loglik (alpha + 1) tau (nth x hc [])) (seq 0 n))),
    (Rsum (map (fun x => dest_loglik alpha (alpha / (INR n - 1)) [] (destinations (nth x hc []))) (seq 0 n))).
  assert (K : forall x, In x (seq 0 n) -> x < n /\ history_of c n x (nth x hc [])).
  { intros x Hx. apply in_seq in Hx. split; [lia|]. apply HH. apply nth_error_nth'. lia. }
  split; [|split].
  - apply res_map_sum. intros x Hx. destruct (K x Hx) as [K1 K2].
    destruct (single_score c n x _ Hl Hn K1 K2) as [q [th [row [m [t [E1 [E2 [E3 [E4 [E5 [-> _]]]]]]]]]]].
    unfold nth_res. rewrite E1. cbn [bind]. rewrite E2. cbn [bind]. rewrite E3. cbn [bind]. exact E4.
  - apply res_map_sum. intros x Hx. destruct (K x Hx) as [K1 K2].
    destruct (single_score c n x _ Hl Hn K1 K2) as [q [th [row [m [t [E1 [E2 [E3 [E4 [E5 [_ ->]]]]]]]]]]]. exact E5.
  - rewrite <- Rsum_plus. unfold visit_loglik. rewrite <- Hh. pose proof (f_equal (map (visit_loglik tau alpha n)) (nth_seq_map hc [])) as E. unfold visit_loglik in E. rewrite map_map in E. rewrite <- Hh in E. rewrite E. reflexivity.
Qed.

Lemma score_loglik n cims hs : 2 <= n -> cims <> [] -> histories_of n cims hs -> get_fam_score lg cims tau alpha = Ok (total_loglik tau alpha n hs).
Proof.
  intros Hn Hne H. unfold get_fam_score.
  assert (Hall : exists qs ths, res_map (fun c => variable_cim_xu_marginal_likelihood_q lg c tau alpha) cims = Ok qs
     /\ res_map (fun c => variable_cim_xu_marginal_likelihood_theta lg c alpha (alpha / (INR n - 1))%R) cims = Ok ths
     /\ (Rsum qs + Rsum ths)%R = total_loglik tau alpha n hs).
  { clear Hne. unfold total_loglik. induction H as [|c hc cims hs [H1 [H2 H3]] H IH]; cbn [res_map map].
    - exists [], []. split; [reflexivity|]. split; [reflexivity|]. cbn. ring.
    - destruct IH as [qs [ths [-> [-> E]]]]. destruct (cim_score c n hc H1 Hn H2 H3) as [q [th [-> [-> E']]]]. cbn [bind].
      eexists _, _. split; [reflexivity|]. split; [reflexivity|]. unfold Rsum in *. cbn [fold_right]. rewrite <- E, <- E'. ring. }
  destruct Hall as [qs [ths [Eq [Et E]]]].
  destruct H as [|c hc cims hs [H1 [H2 H3]] H]; [contradiction|]. cbn [nth_res nth_error bind]. rewrite H1.
  destruct (Nat.eqb_spec n 1); [lia|]. unfold marginal_likelihood_q, marginal_likelihood_theta.
  rewrite Eq, Et. cbn [bind]. rewrite E. reflexivity.
Qed.
End lg.
