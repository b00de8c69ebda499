(** The score of a node computed from a data set is the log marginal likelihood of its rows. *)
From Coq Require Import Reals Qreals Lra.
From Verif Require Import Base Lib ModelStructure ModelGraph ModelCims ModelData ModelParams ModelCtpc ModelSearch ModelFamScore
  SpecStructure SpecGraph SpecComb SpecParams SpecSearch SpecFamScore
  ProofStructure ProofGraph ProofComb ProofIndex ProofParams ProofParams2 ProofParams3 ProofCtpc2 ProofSearch ProofSearch2 ProofSearch3 ProofFamScore.
Open Scope nat_scope.

Lemma Qc2R_plus a b : Qc2R (a + b)%Qc = (Qc2R a + Qc2R b)%R.
Proof. unfold Qc2R. cbn [this Qcplus Q2Qc]. rewrite <- Q2R_plus. apply Qeq_eqR, Qred_correct. Qed.
Lemma Qc2R_0 : Qc2R 0%Qc = 0%R.
Proof. unfold Qc2R. cbn. apply RMicromega.Q2R_0. Qed.
Lemma Qc2R_sum l : Qc2R (Qcsum l) = Rsum (map Qc2R l).
Proof. unfold Qcsum, Rsum. induction l as [|a l IH]; cbn [fold_right map]; [apply Qc2R_0|rewrite Qc2R_plus, IH; reflexivity]. Qed.
Lemma Qc2R_nonneg q : (0 <= q)%Qc -> (0 <= Qc2R q)%R.
Proof. intros H. rewrite <- Qc2R_0. apply Qle_Rle. exact H. Qed.

Notation cnt := (count_occ Nat.eq_dec).
Lemma Zsum_one d v L : NoDup L -> In d L -> forall f : nat -> Z,
  Zsum (map (fun j => f j + if Nat.eq_dec d j then v else 0)%Z L) = (Zsum (map f L) + v)%Z.
Proof.
  intros N. induction L as [|a L IH]; intros H f; [destruct H|]. apply NoDup_cons_iff in N as [N1 N2].
  unfold Zsum in *. cbn [map fold_right]. destruct (Nat.eq_dec d a) as [->|Hn].
  - assert (E : map (fun j => f j + (if Nat.eq_dec a j then v else 0))%Z L = map f L).
    { apply map_ext_in. intros j Hj. destruct (Nat.eq_dec a j) as [->|]; [contradiction|ring]. }
    rewrite E. ring.
  - destruct H as [H|H]; [congruence|]. rewrite IH by assumption. ring.
Qed.
Lemma length_by_count L : NoDup L -> forall l, (forall d, In d l -> In d L) ->
  Z.of_nat (length l) = Zsum (map (fun j => Z.of_nat (cnt l j)) L).
Proof.
  intros N. induction l as [|d l IH]; intros H.
  - cbn. unfold Zsum. induction L as [|a L IHL]; [reflexivity|]. apply NoDup_cons_iff in N as [_ N]. cbn [map fold_right].
    rewrite <- IHL by (auto; intros ? []). reflexivity.
  - rewrite (map_ext_in _ (fun j => Z.of_nat (cnt l j) + if Nat.eq_dec d j then 1 else 0)%Z).
    + rewrite Zsum_one, <- IH; [cbn [length]; lia| |exact N|]; [intros; apply H; right; assumption|apply H; left; reflexivity].
    + intros j _. cbn [count_occ]. destruct (Nat.eq_dec d j); lia.
Qed.
Lemma Zsum_filter x (f : nat -> Z) l : Zsum (map f (filter (fun j => negb (j =? x)) l)) = Zsum (map (fun j => if j =? x then 0%Z else f j) l).
Proof.
  unfold Zsum. induction l as [|a l IH]; [reflexivity|]. cbn [filter map fold_right]. destruct (Nat.eqb_spec a x); cbn [negb map fold_right]; rewrite IH; lia.
Qed.

(** destination counts of the rows read as visits *)
Section rows.
Variables (tot ni : nat) (pis u : list nat) (c x : nat).
Let sel (tr : Qc * list Z) := row_shows (snd tr) (ni :: pis) (x :: u).
Lemma row_shows_cons row col cols val vals : row_shows row (col :: cols) (val :: vals)
  = (match nth_error row col with Some z => Z.eqb z (Z.of_nat val) | None => false end) && row_shows row cols vals.
Proof. reflexivity. Qed.

Lemma dest_cons tr l : destinations (map (row_visit tot ni x) (tr :: l))
  = match snd (row_visit tot ni x tr) with Some d => [d] | None => [] end ++ destinations (map (row_visit tot ni x) l).
Proof. reflexivity. Qed.

Lemma visits_count times rows y : length times = length rows -> y <> x ->
  Z.of_nat (cnt (destinations (map (row_visit tot ni x) (filter sel (combine times rows)))) y)
  = row_count rows ((ni + tot) :: ni :: pis) (y :: x :: u).
Proof.
  intros Hl Hy. unfold row_count. f_equal. revert times Hl. induction rows as [|r rows IH]; intros [|t times] Hl; try discriminate; [reflexivity|].
  injection Hl as Hl. cbn [combine filter]. rewrite row_shows_cons. unfold sel at 1. cbn [snd].
  destruct (row_shows r (ni :: pis) (x :: u)) eqn:Es.
  - rewrite dest_cons, count_occ_app, IH by exact Hl. rewrite andb_true_r. unfold row_visit; cbn [snd].
    destruct (nth_error r (ni + tot)) as [z|]; [|reflexivity].
    destruct (Z.leb_spec 0 z) as [Hz|Hz]; cbn [andb].
    + destruct (Z.eqb_spec z (Z.of_nat x)) as [E|E]; cbn [negb].
      * destruct (Z.eqb_spec z (Z.of_nat y)) as [E'|E']; [exfalso; apply Hy; lia|reflexivity].
      * cbn [count_occ]. destruct (Z.eqb_spec z (Z.of_nat y)) as [E'|E'].
        -- destruct (Nat.eq_dec (Z.to_nat z) y) as [_|K]; [reflexivity|exfalso; apply K; lia].
        -- destruct (Nat.eq_dec (Z.to_nat z) y) as [K|_]; [exfalso; apply E'; lia|reflexivity].
    + cbn [count_occ]. destruct (Z.eqb_spec z (Z.of_nat y)) as [E'|E']; [lia|reflexivity].
  - rewrite IH by exact Hl. rewrite andb_false_r. reflexivity.
Qed.
End rows.

Lemma data_history t tot ni pis c u x : length (t_times t) = length (t_rows t) -> Forall (fun q => 0 <= q)%Qc (t_times t) ->
  (forall row, In row (t_rows t) -> exists z, nth_error row (ni + tot) = Some z /\ (z < Z.of_nat c)%Z) -> x < c ->
  history_of (exact_cim t tot ni pis c u) c x (data_visits t tot ni pis u x).
Proof.
  intros Hl Hp Hr Hx.
  assert (HD : forall d, In d (destinations (data_visits t tot ni pis u x)) -> d < c /\ d <> x).
  { intros d H. unfold destinations, data_visits in H. apply in_flat_map in H as [v [H1 H2]]. apply in_map_iff in H1 as [[q row] [<- H1]].
    apply filter_In in H1 as [H1 _]. apply in_combine_r in H1. unfold row_visit in H2; cbn [snd] in H2.
    destruct (Hr row H1) as [z [Ez Hz]]. rewrite Ez in H2. destruct (Z.leb_spec 0 z) as [H0|H0]; cbn [andb] in H2; [|destruct H2].
    destruct (Z.eqb_spec z (Z.of_nat x)) as [E|E]; cbn [negb] in H2; [destruct H2|]. destruct H2 as [<-|[]]. lia. }
  split; [|split].
  - unfold data_visits. apply Forall_map. apply Forall_forall. intros [q row] H. apply filter_In in H as [H _]. apply in_combine_l in H.
    cbn [row_visit fst]. apply Qc2R_nonneg. rewrite Forall_forall in Hp. apply Hp, H.
  - exact HD.
  - unfold exact_cim. cbn [compute_cim_coefficients new_cim c_times c_trans].
    eexists _, _. unfold exact_times, exact_counts. rewrite !map_nth_error_iff, nth_seq_lt by exact Hx. cbn [option_map].
    split; [reflexivity|]. split; [reflexivity|]. split.
    + unfold dwell_time. rewrite Qc2R_sum. unfold data_visits. rewrite !map_map. reflexivity.
    + assert (HC : forall y, y <> x -> jumps t tot ni pis u x y = Z.of_nat (cnt (destinations (data_visits t tot ni pis u x)) y)).
      { intros y Hy. unfold jumps. rewrite <- (visits_count tot ni pis u x (t_times t)) by assumption. reflexivity. }
      split.
      * rewrite map_nth_error_iff, nth_seq_lt by exact Hx. cbn [option_map]. rewrite Nat.eqb_refl. f_equal.
        rewrite (length_by_count (filter (fun j => negb (j =? x)) (seq 0 c))).
        -- rewrite Zsum_filter. f_equal. apply map_ext. intros y. destruct (Nat.eqb_spec y x); [reflexivity|]. apply HC; assumption.
        -- apply NoDup_filter, seq_NoDup.
        -- intros d Hd. destruct (HD d Hd). apply filter_In. split; [apply in_seq; lia|]. destruct (Nat.eqb_spec d x); [contradiction|reflexivity].
      * intros y Hy Hn. rewrite map_nth_error_iff, nth_seq_lt by exact Hy. cbn [option_map]. destruct (Nat.eqb_spec y x); [contradiction|].
        f_equal. apply HC; assumption.
Qed.

Lemma le_enum_NoDup sh : NoDup (le_enum sh).
Proof.
  apply NoDup_nth_error. intros i j Hi E. destruct (nth_error (le_enum sh) i) as [a|] eqn:Ei; [|apply nth_error_None in Ei; lia].
  destruct (le_enum_nth sh i a Ei) as [_ <-]. symmetry in E. destruct (le_enum_nth sh j a E) as [_ <-]. reflexivity.
Qed.

Section data.
Variable lg : R -> R.
Hypothesis Hlg : log_gamma_equation lg.
Variables (tau alpha : R).
Hypothesis Htau : (0 < tau)%R.
Hypothesis Halpha : (0 < alpha)%R.

Lemma node_score s t es v c ni pis ps us : wf_structure s -> data_ok s t -> Forall (fun q => 0 <= q)%Qc (t_times t) ->
  edges_within (nodes_labels s) es -> edges_within (nodes_labels s) (edges_list s) ->
  node_view s (es ++ edges_list s) v c ni pis ps -> 2 <= c -> compat c ps -> Forall (fun p => 0 < p) ps ->
  NoDup us -> (forall u, In u us <-> config_ok ps u) ->
  score_of (fun cims => get_fam_score lg cims tau alpha) t s v es
  = Ok (total_loglik tau alpha c (data_histories t (total_variables_number s) ni pis c us)).
Proof.
  intros Hwf Hd Hp H1 H2 V Hc Hcp Hps Nu Hu.
  destruct (fresh_params s t es v c ni pis ps Hwf Hd H1 H2 V ltac:(lia) Hcp) as [g [E1 E2]].
  unfold score_of. rewrite E1. cbn [bind]. rewrite E2. cbn [bind so_actual_cims].
  assert (EP : Permutation us (le_enum ps)).
  { apply NoDup_Permutation; [exact Nu|apply le_enum_NoDup|]. intros u. rewrite Hu, le_enum_ok. tauto. }
  destruct Hd as [Hl [_ [_ Hrow]]]. destruct V as [V1 [V2 _]].
  rewrite (score_loglik lg Hlg tau alpha Htau Halpha c _ (data_histories t (total_variables_number s) ni pis c (le_enum ps))).
  - f_equal. unfold total_loglik, data_histories. rewrite !map_map. apply Rsum_perm, Permutation_map. symmetry. exact EP.
  - exact Hc.
  - intros K. apply map_eq_nil in K. pose proof (le_enum_length ps) as L. rewrite K in L. cbn [length] in L.
    assert (Z : forall l, Forall (fun p => 0 < p) l -> 0 < nat_prod l).
    { clear. unfold nat_prod. induction 1 as [|a l Ha Hr IH]; cbn [fold_right]; [lia|]. apply Nat.mul_pos_pos; assumption. }
    specialize (Z ps Hps). lia.
  - unfold histories_of, data_histories. clear - Hl Hp Hrow V1 V2. induction (le_enum ps) as [|u r IH]; cbn [map]; constructor; [|exact IH].
    split; [unfold exact_cim; cbn [compute_cim_coefficients new_cim c_times]; unfold exact_times; rewrite map_length, seq_length; reflexivity|].
    split; [rewrite map_length, seq_length; reflexivity|].
    intros x h Hx. rewrite map_nth_error_iff in Hx. destruct (Nat.lt_ge_cases x c) as [K|K].
    + rewrite nth_seq_lt in Hx by exact K. injection Hx as <-. apply data_history; auto.
      intros row Hr. destruct (Hrow row Hr v ni c V2 V1) as [_ [_ Hz]]. exact Hz.
    + replace (nth_error (seq 0 c) x) with (@None nat) in Hx by (symmetry; apply nth_error_None; rewrite seq_length; exact K). discriminate.
Qed.

Lemma fam_computable s t v k : wf_structure s -> data_ok s t -> Forall (fun q => 0 <= q)%Qc (t_times t) -> edges_list s = [] ->
  In v (nodes_labels s) -> 2 <= k -> (forall x, In x (nodes_values s) -> x = k) ->
  scores_computable (fun cims => get_fam_score lg cims tau alpha) t s v.
Proof.
  intros Hwf Hd Hp He Hv Hk HV ps Hps.
  set (es := edges_into v ps). set (par := filter (fun l => emem (l, v) (es ++ edges_list s)) (nodes_labels s)).
  assert (Hval : forall l, In l (nodes_labels s) -> val_of s l = k).
  { intros l Hl. destruct (wf_lookup s l Hwf Hl) as [i [_ [_ [E _]]]]. apply HV. eapply nth_error_In; exact E. }
  destruct (wf_lookup s v Hwf Hv) as [_ [_ [_ [_ [Ei Ec]]]]].
  eexists. apply (node_score s t es v (val_of s v) (idx_of s v) (map (idx_of s) par) (map (val_of s) par) (le_enum (map (val_of s) par))); auto.
  - intros e H. apply edges_into_In in H as [H1 H2]. rewrite H2. auto.
  - rewrite He. intros e [].
  - split; [exact Ec|]. split; [exact Ei|]. fold par.
    assert (HF : forall (f : structure -> label -> nat) (look : structure -> label -> result nat), (forall l, In l (nodes_labels s) -> look s l = Ok (f s l)) ->
      Forall2 (fun p i => look s p = Ok i) par (map (f s) par)).
    { intros f look HL. assert (HI : forall p, In p par -> In p (nodes_labels s)) by (intros p H; apply filter_In in H; tauto).
      induction par as [|p r IH]; constructor; [apply HL, HI; left; reflexivity|apply IH; intros q Hq; apply HI; right; exact Hq]. }
    split; apply HF; intros l Hl; destruct (wf_lookup s l Hwf Hl) as [_ [_ [_ [_ [A B]]]]]; assumption.
  - rewrite Hval by exact Hv. exact Hk.
  - rewrite Hval by exact Hv. intros p H _. apply in_map_iff in H as [l [<- Hl]]. apply Hval. apply filter_In in Hl. tauto.
  - apply Forall_map, Forall_forall. intros l Hl. apply filter_In in Hl as [Hl _]. rewrite Hval by exact Hl. lia.
  - apply le_enum_NoDup.
  - intros u. apply le_enum_ok.
Qed.
End data.

(** Properties that need no assumption about log-gamma *)
Section anylg.
Variable lg : R -> R.
Lemma fam_perm n cims cims' tau alpha : Permutation cims cims' -> Forall (fun c => length (c_times c) = n) cims ->
  forall sc, get_fam_score lg cims tau alpha = Ok sc -> get_fam_score lg cims' tau alpha = Ok sc.
Proof.
  intros HP HF sc H. unfold get_fam_score in *.
  assert (HF' : Forall (fun c => length (c_times c) = n) cims') by (eapply Permutation_Forall; eassumption).
  destruct cims as [|c0 r]; [discriminate|]. destruct cims' as [|c0' r']; [apply Permutation_sym, Permutation_nil in HP; discriminate|].
  cbn [nth_res nth_error bind] in *. rewrite (Forall_inv HF) in H. rewrite (Forall_inv HF'). destruct (n =? 1); [discriminate|].
  assert (G : forall (f : cim -> result R) sc, (let* l := res_map f (c0 :: r) in Ok (Rsum l)) = Ok sc -> (let* l := res_map f (c0' :: r') in Ok (Rsum l)) = Ok sc).
  { intros f sc0 K. apply bind_ok in K as [l [K1 K2]]. apply res_map_ok in K1. injection K2 as <-.
    destruct (Permutation_Forall2 HP K1) as [l' [P' F']]. apply res_map_ok in F'. rewrite F'. cbn [bind]. rewrite (Rsum_perm _ _ P'). reflexivity. }
  apply bind_ok in H as [q [Hq H]]. apply bind_ok in H as [th [Ht H]]. injection H as <-.
  unfold marginal_likelihood_q, marginal_likelihood_theta in *. apply G in Hq. apply G in Ht. rewrite Hq. cbn [bind]. rewrite Ht. reflexivity.
Qed.

Lemma fam_one_state c cims tau alpha : length (c_times c) = 1 -> get_fam_score lg (c :: cims) tau alpha = Err ZeroDivisionError.
Proof. intros H. unfold get_fam_score. cbn [nth_res nth_error bind]. rewrite H. reflexivity. Qed.

Lemma binary_theta cims alpha : Forall (stats_ok 2) cims -> marginal_likelihood_theta lg cims alpha (alpha / (INR 2 - 1))%R = Ok 0%R.
Proof.
  intros H. unfold marginal_likelihood_theta. replace (alpha / (INR 2 - 1))%R with alpha by (cbn; field; lra).
  rewrite (res_map_pure _ (fun _ => 0%R)).
  - cbn [bind]. f_equal. unfold Rsum. clear. induction cims as [|c r IH]; cbn [map fold_right]; lra.
  - intros c Hc. rewrite Forall_forall in H. destruct (H c Hc) as [H1 [H2 [_ H4]]].
    destruct c as [[|t0 [|t1 [|? ?]]] tr ci]; cbn [c_times c_trans length] in *; try discriminate.
    destruct tr as [|r0 [|r1 [|? ?]]]; try discriminate.
    destruct (H4 0 r0 eq_refl) as [L0 [_ E0]]. destruct (H4 1 r1 eq_refl) as [L1 [_ E1]].
    destruct r0 as [|a0 [|b0 [|? ?]]]; try discriminate. destruct r1 as [|a1 [|b1 [|? ?]]]; try discriminate.
    cbn in E0, E1. rewrite ?Z.add_0_r in *. injection E0 as E0. injection E1 as E1. subst a0. subst b1.
    unfold variable_cim_xu_marginal_likelihood_theta, single_cim_xu_marginal_likelihood_theta, single_internal_cim_xxu_marginal_likelihood_theta.
    cbn. rewrite ?Z.add_0_r. f_equal. destruct b0, a1; cbn; ring.
Qed.
End anylg.
