(** Trajectory generation: C49, C50, C51, C52. *)
From Verif Require Import Base Lib LibQc ModelStructure ModelGraph ModelCims ModelGenerator ModelSample
  SpecStructure SpecGraph SpecComb SpecGenerator SpecSample
  ProofComb ProofSample ProofSample2 ProofSample3 ProofSample4 ProofSample5 PropsGenerator.
Open Scope nat_scope.

(** ** Concrete networks used below: A -> C <- B with 2, k, 2 states, generated and handed to TrajectoryGenerator *)
Definition coin_v (n : nat) : bool := (n =? 2) || (n =? 5).
Definition built (k : nat) : result (list edge * list (label * set_of_cims (list (list Qc))) * trajgen) :=
  let* g1 := generate_graph (new_netgen ["A";"B";"C"] [2;k;2]) (PyFloat (Q2Qc (1#2))) false rot coin_v in
  let* g2 := generate_cims g1 half_draws 1%Qc (Q2Qc 2) in
  let* E := dyn_str g2 in
  let* vars := variables g2 in
  match gn_cims g2 with Some cs => Ok (E, cs, new_trajgen vars E cs) | None => Err KeyError end.
Definition empty_tg := MkTrajgen [] [] [].
Definition net_E k := match built k with Ok b => fst (fst b) | _ => [] end.
Definition net_cs k := match built k with Ok b => snd (fst b) | _ => [] end.
Definition net_tg k := match built k with Ok b => snd b | _ => empty_tg end.
Lemma net_generated k : k = 2 \/ k = 3 ->
  sampled_from_generator ["A";"B";"C"] [2;k;2] half_draws 1%Qc (Q2Qc 2) (net_E k) (net_cs k) (net_tg k).
Proof.
  intro Hk. split; [repeat constructor; cbn; intuition discriminate|]. split; [reflexivity|].
  exists (PyFloat (Q2Qc (1#2))), false, rot, coin_v.
  destruct Hk; subst k; (eexists _, _, _; split; [exact rot_shuffles|]; split; [vm_compute; reflexivity|]; split; [vm_compute; reflexivity|];
    split; [vm_compute; reflexivity|]; split; [vm_compute; reflexivity|]; split; [vm_compute; reflexivity|]; vm_compute; reflexivity).
Qed.
(** a random source: every exponential draw is [e]; the multinomial picks the first possible state *)
Fixpoint first_pos (w : list Qc) : nat := match w with [] => 0 | a :: r => if qc_le a 0 then S (first_pos r) else 0 end.
Definition const_rng (e : Qc) : rng := MkRng (fun _ => e) (fun _ w => first_pos w).
Lemma const_rng_ok e : (0 <= e)%Qc -> rng_ok (const_rng e).
Proof.
  intro He. split; [intros; exact He|]. intros k w _ [i [x [Hi Hx]]]. cbn [const_rng pick]. revert i Hi.
  induction w as [|a w IH]; intros i Hi; [destruct i; discriminate|]. cbn [first_pos]. destruct (qc_le a 0) eqn:Ea.
  - destruct i as [|i]; [|exact (IH i Hi)]. cbn in Hi. injection Hi as ->. apply qc_le_iff in Ea. exfalso. exact (Qclt_not_le _ _ Hx Ea).
  - apply qc_le_false in Ea. exists a. split; [reflexivity|exact Ea].
Qed.

(** ** C49 *)
(** Networks built by NetworkGenerator can be sampled: at least two states per variable, draws in (0,1], min above
    the rounding grain, and the first two parents of every variable with equally many states. *)
Theorem C49_generated_networks_can_be_sampled labels vals u lo hi E cs tg :
  sampled_from_generator labels vals u lo hi E cs tg -> labels <> [] ->
  (forall n, 0 < u n)%Qc -> (forall n, u n <= 1)%Qc -> (lo <= hi)%Qc ->
  (forall c, In c vals -> 2 <= c /\ (Qc_nat (c - 1) * Q2Qc (1#20000) < lo)%Qc) ->
  (forall v pcs, In v labels -> Forall2 (card_in labels vals) (gen_parents labels E v) pcs -> first_two_equal pcs) ->
  sampling_net tg vals.
Proof. exact (generated_sampling_net labels vals u lo hi E cs tg). Qed.
Print Assumptions C49_generated_networks_can_be_sampled.

Lemma net2_ok : sampling_net (net_tg 2) [2;2;2].
Proof.
  eapply C49_generated_networks_can_be_sampled; [apply net_generated; left; reflexivity|discriminate| | | | |].
  - intro n. unfold half_draws. destruct (Nat.even n); reflexivity.
  - intro n. unfold half_draws. destruct (Nat.even n); discriminate.
  - discriminate.
  - intros c Hc. assert (c = 2) by (cbn in Hc; intuition lia). subst c. split; [lia|reflexivity].
  - intros v pcs Hv H. destruct pcs as [|a [|b r]]; [left; cbn; lia|left; cbn; lia|]. right.
    assert (K : forall p c, card_in ["A";"B";"C"] [2;2;2] p c -> c = 2).
    { intros p c [i [_ Hi]]. apply nth_error_In in Hi. cbn in Hi. intuition lia. }
    assert (P : Forall (eq 2) (a :: b :: r)).
    { apply Forall_forall. intros c Hc. apply In_nth_error in Hc as [i Hi]. destruct (Forall2_nth_error_r _ _ _ H i c Hi) as [p [_ Hp]]. symmetry. eapply K, Hp. }
    pose proof (Forall_inv P). pose proof (Forall_inv (Forall_inv_tail P)). subst. exists 2, r. reflexivity.
Qed.

(** What CTBN_Sample returns has the shape of a trajectory, whatever the limits and the draws; and it never raises. *)
Theorem C49_trajectory_shape tg cards g t_end max_tr fuel : sampling_net tg cards -> rng_ok g ->
  ctbn_sample fuel tg g t_end max_tr = Err OutOfFuel
  \/ exists rows, ctbn_sample fuel tg g t_end max_tr = Ok rows /\ trajectory_shape cards rows.
Proof.
  intros N R. destruct (loop_ok tg cards N g R t_end max_tr fuel _ (sinv_init tg cards N) (hinv_init tg cards N)) as [H|[rows [H1 [H2 _]]]]; [left; exact H|].
  right. exists rows. auto.
Qed.
Print Assumptions C49_trajectory_shape.
(** max_tr = n: n+1 rows, of the shape above *)
Theorem C49_number_of_rows tg cards g n : sampling_net tg cards -> rng_ok g ->
  exists rows, (forall fuel, n < fuel -> ctbn_sample fuel tg g (-(1))%Qc (Z.of_nat n) = Ok rows)
    /\ length rows = S n /\ trajectory_shape cards rows.
Proof.
  intros N R. destruct (loop_max_tr tg cards N g R (-(1))%Qc n (S n) _ (sinv_init tg cards N) (hinv_init tg cards N)) as [rows [H1 [H2 H3]]];
    [cbn; lia|cbn; lia|].
  exists rows. split; [intros fuel Hf; exact (fuel_mono tg g _ _ (S n) fuel _ rows ltac:(lia) H1)|]. split; [apply H3; reflexivity|].
  destruct (C49_trajectory_shape tg cards g (-(1))%Qc (Z.of_nat n) (S n) N R) as [H|[rows' [H H']]]; unfold ctbn_sample in H; rewrite H1 in H; [discriminate|].
  injection H as <-. exact H'.
Qed.
Print Assumptions C49_number_of_rows.
Example C49_case : sampling_net (net_tg 2) [2;2;2] /\ rng_ok (const_rng 1%Qc) /\
  match ctbn_sample 10 (net_tg 2) (const_rng 1%Qc) (-(1))%Qc 3 with
  | Ok rows => map (fun r => (this (fst r), snd r)) rows
  | Err _ => [] end
  = [(0, [0;0;0]%Z); (3#2, [1;0;0]%Z); (3#2, [1;1;0]%Z); (11#4, [-1;-1;-1]%Z)]%Q.
Proof. split; [exact net2_ok|]. split; [apply const_rng_ok; discriminate|]. vm_compute. reflexivity. Qed.

(** ** C50 *)
(** exactly n transitions are made when only max_tr is given, at most n when t_end is given as well *)
Theorem C50_transition_limit tg cards g t_end n fuel : sampling_net tg cards -> rng_ok g -> n < fuel ->
  exists rows, ctbn_sample fuel tg g t_end (Z.of_nat n) = Ok rows /\ length rows <= S n
    /\ (t_end = (- (1))%Qc -> length rows = S n).
Proof.
  intros N R Hf. apply (loop_max_tr tg cards N g R t_end n fuel _ (sinv_init tg cards N) (hinv_init tg cards N)); [cbn; lia|cbn; lia].
Qed.
Print Assumptions C50_transition_limit.
(** no recorded time exceeds the (rounded) end time *)
Theorem C50_time_limit tg cards g t_end max_tr fuel rows r : sampling_net tg cards -> rng_ok g -> (0 <= t_end)%Qc ->
  ctbn_sample fuel tg g t_end max_tr = Ok rows -> In r rows -> (fst r <= around4 t_end)%Qc /\ (fst r <= t_end + Q2Qc (1#20000))%Qc.
Proof.
  intros N R Ht H Hr.
  assert (A : (fst r <= around4 t_end)%Qc).
  { eapply (loop_t_end tg cards N g R t_end max_tr fuel); [|apply sinv_init, N| |exact H|exact Hr].
    - intro E. rewrite E in Ht. apply Ht. reflexivity.
    - intros r' [<-|[]]. cbn [fst sample_init st_row]. rewrite <- around4_0. apply around4_mono, Ht. }
  split; [exact A|]. destruct (around4_close t_end) as [_ B]. clear -A B. generalize dependent (around4 t_end). intros. qclra.
Qed.
Print Assumptions C50_time_limit.
(** without limits it never returns, whatever the network and the draws *)
Theorem C50_no_limits_never_returns tg g t_end max_tr fuel rows : no_limits t_end max_tr -> ctbn_sample fuel tg g t_end max_tr <> Ok rows.
Proof. intro H. apply no_limit_loop, H. Qed.
Print Assumptions C50_no_limits_never_returns.
Theorem C50_no_limits_runs_forever tg cards g t_end max_tr fuel : sampling_net tg cards -> rng_ok g -> no_limits t_end max_tr ->
  ctbn_sample fuel tg g t_end max_tr = Err OutOfFuel.
Proof.
  intros N R H. destruct (C49_trajectory_shape tg cards g t_end max_tr fuel N R) as [A|[rows [A _]]]; [exact A|].
  exfalso. exact (no_limit_loop _ _ _ _ _ H _ _ A).
Qed.
Print Assumptions C50_no_limits_runs_forever.
(** with an end time it terminates when rates and draws are bounded below *)
Theorem C50_end_time_terminates tg cards g h t_end max_tr : sampling_net tg cards -> rng_ok g ->
  dwell_at_least tg g h -> t_end <> (- (1))%Qc ->
  exists N rows, forall fuel, N <= fuel -> ctbn_sample fuel tg g t_end max_tr = Ok rows.
Proof. intros N R. exact (t_end_terminates tg cards N g R h t_end max_tr). Qed.
Print Assumptions C50_end_time_terminates.
(** this bound is needed: with draws that are all 0 the end time is never reached *)
Theorem C50_zero_draws_never_end tg cards g t_end fuel : sampling_net tg cards -> rng_ok g -> (0 < t_end)%Qc ->
  (forall k, exp_draw g k = 0%Qc) -> ctbn_sample fuel tg g t_end (-1) = Err OutOfFuel.
Proof. intros N R. exact (zeno tg cards N g R t_end fuel). Qed.
Print Assumptions C50_zero_draws_never_end.
Theorem C50_result_independent_of_fuel tg g t_end max_tr f f' rows rows' :
  ctbn_sample f tg g t_end max_tr = Ok rows -> ctbn_sample f' tg g t_end max_tr = Ok rows' -> rows = rows'.
Proof.
  intros H H'. destruct (Nat.le_ge_cases f f') as [L|L].
  - pose proof (fuel_mono tg g t_end max_tr f f' _ _ L H) as E. unfold ctbn_sample in H'. congruence.
  - pose proof (fuel_mono tg g t_end max_tr f' f _ _ L H') as E. unfold ctbn_sample in H. congruence.
Qed.
Print Assumptions C50_result_independent_of_fuel.
(** the hypothesis on rates and draws holds for a one-variable network with rate q > 0 and draws >= e > 0 *)
Definition one_var (q : Qc) : trajgen := MkTrajgen ["X"] [("X", [])] [("X", MkSetOfCims [[]] [[[(-q)%Qc; q]; [q; (-q)%Qc]]])].
Lemma one_var_ok q : (0 < q)%Qc -> sampling_net (one_var q) [2].
Proof.
  intro Hq. split; [repeat constructor; cbn; tauto|]. split; [discriminate|]. split; [reflexivity|]. split; [reflexivity|].
  intros v c [[|[|i]] [H1 H2]]; try discriminate. cbn in H1, H2. injection H1 as <-. injection H2 as <-. split; [lia|].
  exists [], [], (MkSetOfCims [[]] [[[(-q)%Qc; q]; [q; (-q)%Qc]]]). split; [reflexivity|]. split; [constructor|]. split; [reflexivity|]. split; [reflexivity|].
  split; [intros u Hu; inversion Hu; left; reflexivity|]. intros m [<-|[]]. split; [reflexivity|].
  assert (Hd : (- q <= 0)%Qc) by (clear -Hq; qclra). pose proof (Qclt_le_weak _ _ Hq) as Hq'.
  intros [|[|i]] row Hrow; try discriminate; cbn in Hrow; [injection Hrow as <-|injection Hrow as <-|destruct i; discriminate]; (split; [reflexivity|]; split).
  - exists (-q)%Qc. auto.
  - split; [|exists 1, q; auto]. intros [|[|j]] x Hj Hx; try (cbn in Hx; injection Hx as <-); [congruence|assumption|destruct j; discriminate].
  - exists (-q)%Qc. auto.
  - split; [|exists 0, q; auto]. intros [|[|j]] x Hj Hx; try (cbn in Hx; injection Hx as <-); [assumption|congruence|destruct j; discriminate].
Qed.
Lemma one_var_dwell q e : (0 < q)%Qc -> (0 < e)%Qc -> dwell_at_least (one_var q) (const_rng e) (q * e)%Qc.
Proof.
  intros Hq He. split; [rewrite <- (Qcmult_0_l e); apply Qcmult_lt_compat_r; assumption|].
  intros xs v q' k [m [x [d [H1 [H2 [H3 ->]]]]]]. cbn [const_rng exp_draw].
  assert (E : (- d)%Qc = q); [|rewrite E; apply Qcle_refl].
  unfold select_cim in H1. cbn [one_var tg_parents tg_cims dict_get] in H1. destruct (String.eqb_spec "X" v) as [<-|]; [|discriminate].
  cbn in H1. injection H1 as <-. destruct xs as [|x0 xs]; [discriminate|]. cbn in H2. injection H2 as ->.
  destruct x as [|[|x]]; cbn in H3; [injection H3 as <-; ring|injection H3 as <-; ring|]. unfold mat_get in H3. destruct x; discriminate.
Qed.
Example C50_end_time_case : sampling_net (one_var 1%Qc) [2] /\ rng_ok (const_rng 1%Qc) /\ dwell_at_least (one_var 1%Qc) (const_rng 1%Qc) (1*1)%Qc.
Proof. split; [apply one_var_ok; reflexivity|]. split; [apply const_rng_ok; discriminate|apply one_var_dwell; reflexivity]. Qed.
Example C50_time_case : match ctbn_sample 10 (net_tg 2) (const_rng 1%Qc) (Q2Qc 2) (-1) with
  | Ok rows => map (fun r => (this (fst r), snd r)) rows
  | Err _ => [] end
  = [(0, [0;0;0]%Z); (3#2, [1;0;0]%Z); (3#2, [-1;-1;-1]%Z)]%Q.
Proof. vm_compute. reflexivity. Qed.

(** ** C51 *)
(** The first transition happens at (the rounding of) the smallest rate * draw: the rate is used as a scale. *)
Theorem C51_first_event tg cards g t_end max_tr fuel rows r : sampling_net tg cards -> rng_ok g ->
  ctbn_sample fuel tg g t_end max_tr = Ok rows -> nth_error rows 1 = Some r ->
  exists i v q, nth_error (tg_vnames tg) i = Some v /\ leaving_rate tg (map (fun _ => 0) (tg_vnames tg)) v q
    /\ fst r = around4 (q * exp_draw g i)%Qc
    /\ forall j w q', nth_error (tg_vnames tg) j = Some w -> leaving_rate tg (map (fun _ => 0) (tg_vnames tg)) w q' ->
         (q * exp_draw g i <= q' * exp_draw g j)%Qc.
Proof. intros N R. exact (first_event tg cards N g R t_end max_tr fuel rows r). Qed.
Print Assumptions C51_first_event.
(** The whole run: there is an exact history behind the returned rows in which every transition is won by the
    variable with the smallest scheduled time, where a variable is scheduled at (clock of its last restart) +
    (its rate there) * (a draw of its own), and restarts when it or one of its parents changes; it moves to the
    state picked with its off-diagonal rates as weights. *)
Theorem C51_race tg cards g t_end max_tr fuel rows : sampling_net tg cards -> rng_ok g ->
  ctbn_sample fuel tg g t_end max_tr = Ok rows ->
  exists draw hist, follows_race tg g draw hist /\ shown hist rows.
Proof. intros N R. exact (race tg cards N g R t_end max_tr fuel rows). Qed.
Print Assumptions C51_race.
(** Exponential dwell times with rate q would be E/q: the two agree only for rate 1 (or a zero draw). *)
Theorem C51_scale_is_not_rate q e : (0 < q)%Qc -> ((q * e)%Qc = (e / q)%Qc <-> e = 0%Qc \/ q = 1%Qc).
Proof. exact (scale_vs_rate q e). Qed.
Print Assumptions C51_scale_is_not_rate.
(** two one-variable networks with rates 1/2 and 2, same draws (all 1): the slow one moves first, at 0.5 instead of 2 *)
Example C51_case : forall q t, (q, t) = (Q2Qc (1#2), (1#2)%Q) \/ (q, t) = (Q2Qc 2, 2%Q) ->
  match ctbn_sample 5 (one_var q) (const_rng 1%Qc) (-(1))%Qc 1 with
  | Ok [_; r] => this (fst r) = t | _ => False end.
Proof. intros q t [H|H]; injection H as -> ->; vm_compute; reflexivity. Qed.

(** ** C52 *)
(** The matrix used for a variable is the one stored, by NetworkGenerator, in the position of the current
    configuration of its parents; position and configuration belong together in the stored table. *)
Theorem C52_selected_cim labels vals u lo hi E cs tg v c pcs xs w :
  sampled_from_generator labels vals u lo hi E cs tg ->
  card_in labels vals v c -> Forall2 (card_in labels vals) (gen_parents labels E v) pcs ->
  in_states labels xs (gen_parents labels E v) w -> config_ok pcs w ->
  first_two_equal pcs ->
  exists so m, dict_get cs v = Ok so /\ length (so_actual_cims so) = nat_prod pcs
    /\ nth_error (so_p_combs so) (config_rank pcs w) = Some w
    /\ nth_error (so_actual_cims so) (config_rank pcs w) = Some m /\ select_cim tg xs v = Ok m.
Proof. exact (selected_cim labels vals u lo hi E cs tg v c pcs xs w). Qed.
Print Assumptions C52_selected_cim.
(** different configurations have different matrices' positions *)
Theorem C52_positions_distinct pcs w w' : config_ok pcs w -> config_ok pcs w' -> config_rank pcs w = config_rank pcs w' -> w = w'.
Proof. exact (config_rank_inj pcs w w'). Qed.
Print Assumptions C52_positions_distinct.
Example C52_case : sampled_from_generator ["A";"B";"C"] [2;2;2] half_draws 1%Qc (Q2Qc 2) (net_E 2) (net_cs 2) (net_tg 2)
  /\ gen_parents ["A";"B";"C"] (net_E 2) "C" = ["A";"B"]
  /\ match dict_get (net_cs 2) "C" with Ok so => nth_res (so_actual_cims so) 1 | Err e => Err e end = select_cim (net_tg 2) [1;0;0] "C"
  /\ match dict_get (net_cs 2) "C" with Ok so => nth_res (so_p_combs so) 1 | Err e => Err e end = Ok [1;0].
Proof. split; [apply net_generated; left; reflexivity|]. split; [vm_compute; reflexivity|]. split; vm_compute; reflexivity. Qed.
(** finding: when the first two parents have different cardinalities some row of valid states has no matrix *)
Theorem C52_mixed_cardinalities_refuted labels vals u lo hi E cs tg v c a b r :
  sampled_from_generator labels vals u lo hi E cs tg -> Forall (fun c => 0 < c) vals ->
  card_in labels vals v c -> Forall2 (card_in labels vals) (gen_parents labels E v) (a :: b :: r) -> a <> b ->
  exists xs, Forall2 (fun x c => x < c) xs vals /\ select_cim tg xs v = Err IndexError.
Proof. exact (missing_cim labels vals u lo hi E cs tg v c a b r). Qed.
Print Assumptions C52_mixed_cardinalities_refuted.
(** ... and a run of CTBN_Sample does stop with IndexError (B has 3 states and moves to state 2) *)
Definition last_pos (w : list Qc) : nat := if qc_le (last w 0%Qc) 0 then length w - 2 else length w - 1.
Definition b_first : rng := MkRng (fun k => if k =? 1 then 0%Qc else Q2Qc 5) (fun _ w => last_pos w).
Example C52_mixed_case :
  sampled_from_generator ["A";"B";"C"] [2;3;2] half_draws 1%Qc (Q2Qc 2) (net_E 3) (net_cs 3) (net_tg 3)
  /\ ctbn_sample 10 (net_tg 3) b_first (-(1))%Qc 5 = Err IndexError.
Proof. split; [apply net_generated; right; reflexivity|]. vm_compute. reflexivity. Qed.
