(** Statistics always come from some history; the functional equation of log-gamma has a solution. *)
From Coq Require Import Reals Qreals Lra.
From Verif Require Import Base Lib ModelCims ModelFamScore SpecFamScore ProofParams3 ProofFamScore ProofFamScore2.
Open Scope nat_scope.

Definition dests (n x : nat) (row : list Z) : list nat :=
  flat_map (fun j => if j =? x then [] else repeat j (Z.to_nat (nth j row 0%Z))) (seq 0 n).
Definition canonical_history (n x : nat) (T : Qc) (row : list Z) : list (R * option nat) :=
  map (fun d => (0%R, Some d)) (dests n x row) ++ [(Qc2R T, None)].

Lemma destinations_canonical n x T row : destinations (canonical_history n x T row) = dests n x row.
Proof.
  unfold destinations, canonical_history. rewrite flat_map_app. cbn [flat_map snd app]. rewrite app_nil_r.
  induction (dests n x row) as [|d l IH]; [reflexivity|]. cbn [map flat_map snd app]. f_equal. exact IH.
Qed.
Lemma cnt_repeat j d k : cnt (repeat j k) d = if Nat.eq_dec j d then k else 0.
Proof. induction k as [|k IH]; cbn [repeat count_occ]; [destruct (Nat.eq_dec j d); reflexivity|]. rewrite IH. destruct (Nat.eq_dec j d); reflexivity. Qed.
Lemma cnt_flat (f : nat -> list nat) d l : NoDup l -> (forall j, j <> d -> cnt (f j) d = 0) ->
  cnt (flat_map f l) d = if in_dec Nat.eq_dec d l then cnt (f d) d else 0.
Proof.
  intros N H. induction l as [|a l IH]; [reflexivity|]. apply NoDup_cons_iff in N as [N1 N2]. cbn [flat_map]. rewrite count_occ_app, IH by exact N2.
  destruct (Nat.eq_dec a d) as [->|Hn].
  - destruct (in_dec Nat.eq_dec d l); [contradiction|]. destruct (in_dec Nat.eq_dec d (d :: l)) as [_|K]; [lia|exfalso; apply K; left; reflexivity].
  - rewrite (H a Hn). destruct (in_dec Nat.eq_dec d l) as [K|K]; destruct (in_dec Nat.eq_dec d (a :: l)) as [K'|K']; try reflexivity.
    + exfalso; apply K'; right; exact K.
    + destruct K' as [K'|K']; [congruence|contradiction].
Qed.
Lemma dests_count n x row d : d < n -> d <> x -> cnt (dests n x row) d = Z.to_nat (nth d row 0%Z).
Proof.
  intros Hd Hn. unfold dests. rewrite cnt_flat; [|apply seq_NoDup|].
  - destruct (in_dec Nat.eq_dec d (seq 0 n)) as [_|K]; [|exfalso; apply K, in_seq; lia].
    destruct (Nat.eqb_spec d x); [contradiction|]. rewrite cnt_repeat. destruct (Nat.eq_dec d d); congruence.
  - intros j Hj. destruct (j =? x); [reflexivity|]. rewrite cnt_repeat. destruct (Nat.eq_dec j d); congruence.
Qed.
Lemma dests_range n x row d : In d (dests n x row) -> d < n /\ d <> x.
Proof.
  unfold dests. intros H. apply in_flat_map in H as [j [H1 H2]]. apply in_seq in H1. destruct (Nat.eqb_spec j x); [destruct H2|].
  apply repeat_spec in H2. subst. split; [lia|assumption].
Qed.

Lemma stats_history n c x : stats_ok n c -> x < n -> exists h, history_of c n x h.
Proof.
  intros [H1 [H2 [H3 H4]]] Hx.
  destruct (nth_error (c_times c) x) as [T|] eqn:ET; [|apply nth_error_None in ET; lia].
  destruct (nth_error (c_trans c) x) as [row|] eqn:ER; [|apply nth_error_None in ER; lia].
  destruct (H4 x row ER) as [L [Hp Hd]]. exists (canonical_history n x T row).
  assert (HN : forall d, d < n -> nth_error row d = Some (nth d row 0%Z)) by (intros d Hdn; apply nth_error_nth'; lia).
  assert (HP : forall d, d < n -> (0 <= nth d row 0)%Z).
  { intros d Hdn. rewrite Forall_forall in Hp. apply Hp. eapply nth_error_In, HN, Hdn. }
  split; [|split].
  - unfold canonical_history. apply Forall_app; split.
    + apply Forall_map, Forall_forall. intros d _. cbn [fst]. lra.
    + constructor; [|constructor]. cbn [fst]. apply Qc2R_nonneg, (H3 x), ET.
  - rewrite destinations_canonical. apply dests_range.
  - exists T, row. split; [exact ET|]. split; [exact ER|]. split; [|split].
    + unfold canonical_history. rewrite map_app, Rsum_app, map_map. cbn [map fst]. unfold Rsum. cbn [fold_right].
      assert (E : forall l : list nat, fold_right Rplus 0%R (map (fun _ => 0%R) l) = 0%R) by (induction l as [|a l IH]; cbn [map fold_right]; lra).
      rewrite E. lra.
    + rewrite destinations_canonical, Hd. f_equal.
      rewrite (length_by_count (filter (fun j => negb (j =? x)) (seq 0 n))).
      * rewrite Zsum_filter. f_equal. apply map_ext_in. intros j Hj. apply in_seq in Hj. destruct (Nat.eqb_spec j x); [reflexivity|].
        rewrite dests_count by (assumption || lia). rewrite Z2Nat.id; [reflexivity|]. apply HP. lia.
      * apply NoDup_filter, seq_NoDup.
      * intros d K. apply dests_range in K as [K1 K2]. apply filter_In. split; [apply in_seq; lia|]. destruct (Nat.eqb_spec d x); [contradiction|reflexivity].
    + intros d Hdn Hn. rewrite destinations_canonical, dests_count by assumption. rewrite (HN d Hdn), Z2Nat.id; [reflexivity|]. apply HP, Hdn.
Qed.

Lemma stats_histories n cims : Forall (stats_ok n) cims -> exists hs, histories_of n cims hs.
Proof.
  induction 1 as [|c cims Hc H IH]; [exists []; constructor|]. destruct IH as [hs IH].
  assert (K : forall m, m <= n -> exists hc, length hc = m /\ forall x h, nth_error hc x = Some h -> history_of c n x h).
  { induction m as [|m IHm]; intros Hm; [exists []; split; [reflexivity|intros [|x] h K; discriminate]|].
    destruct IHm as [hc [L F]]; [lia|]. destruct (stats_history n c m Hc ltac:(lia)) as [h Hh]. exists (hc ++ [h]).
    split; [rewrite app_length; cbn [length]; lia|]. intros x h' Hx. destruct (Nat.lt_ge_cases x (length hc)) as [Hl|Hl].
    - rewrite nth_error_app1 in Hx by exact Hl. apply F, Hx.
    - rewrite nth_error_app2 in Hx by exact Hl. destruct (x - length hc) as [|y] eqn:Ey; [|destruct y; discriminate].
      injection Hx as <-. replace x with m by lia. exact Hh. }
  destruct (K n (le_n n)) as [hc [L F]]. exists (hc :: hs). constructor; [|exact IH]. destruct Hc as [H1 _]. auto.
Qed.

Lemma stats_scores lg tau alpha n cims : log_gamma_equation lg -> (0 < tau)%R -> (0 < alpha)%R -> 2 <= n -> cims <> [] -> Forall (stats_ok n) cims ->
  exists sc, get_fam_score lg cims tau alpha = Ok sc.
Proof. intros. destruct (stats_histories n cims) as [hs Hh]; [assumption|]. eexists. eapply score_loglik; eassumption. Qed.

(** a solution of the functional equation *)
Fixpoint lgn (n : nat) (x : R) : R := match n with 0 => 0%R | S n' => if Rle_dec x 1 then 0%R else (ln (x - 1) + lgn n' (x - 1))%R end.
Definition lg_example (x : R) : R := lgn (Z.to_nat (up x)) x.
Lemma lgn_stable n : forall m x, (x <= INR n)%R -> (x <= INR m)%R -> lgn n x = lgn m x.
Proof.
  induction n as [|n IH]; intros [|m] x H1 H2; cbn [lgn]; try reflexivity.
  - cbn [INR] in H1. destruct (Rle_dec x 1); [reflexivity|lra].
  - cbn [INR] in H2. destruct (Rle_dec x 1); [reflexivity|lra].
  - destruct (Rle_dec x 1); [reflexivity|]. rewrite !S_INR in *. rewrite (IH m (x - 1)%R) by lra. reflexivity.
Qed.
Lemma up_nat x : (0 < x)%R -> (x <= INR (Z.to_nat (up x)))%R.
Proof.
  intros H. destruct (archimed x) as [A _]. assert (0 <= up x)%Z by (apply le_IZR; lra).
  rewrite INR_IZR_INZ, Z2Nat.id by assumption. lra.
Qed.
Lemma lg_example_ok : log_gamma_equation lg_example.
Proof.
  intros x Hx. unfold lg_example. rewrite (lgn_stable _ (S (Z.to_nat (up x))) (x + 1)%R).
  - cbn [lgn]. destruct (Rle_dec (x + 1) 1); [lra|]. replace (x + 1 - 1)%R with x by ring. ring.
  - apply up_nat. lra.
  - rewrite S_INR. pose proof (up_nat x Hx). lra.
Qed.
