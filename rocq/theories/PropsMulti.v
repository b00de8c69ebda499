(** multi_trajectory: C53. *)
From Verif Require Import Base Lib LibQc ModelStructure ModelGraph ModelCims ModelGenerator ModelSample ModelMulti
  SpecComb SpecGenerator SpecSample SpecMulti ProofMulti PropsGenerator PropsSample.
Open Scope nat_scope.

(** One result per request, in some order: in every schedule without killed workers, when every request would
    return on its own (from the random state of the caller), the returned list is a rearrangement of those results. *)
Theorem C53_one_result_per_request tg g reqs rs l : Forall2 (returns tg g) reqs rs ->
  multi_returns (mstep tg reqs) g reqs l -> Permutation l rs.
Proof. exact (all_return tg g reqs rs l). Qed.
Print Assumptions C53_one_result_per_request.
(** The order is the order of completion: every rearrangement is returned by some schedule. *)
Theorem C53_every_order_possible tg g reqs rs l : Forall2 (returns tg g) reqs rs -> Permutation l rs ->
  multi_returns (mstep tg reqs) g reqs l.
Proof. exact (every_order tg g reqs rs l). Qed.
Print Assumptions C53_every_order_possible.
(** finding: n equal requests return n copies of one trajectory *)
Theorem C53_duplicated_randomness tg g req rows n l : returns tg g req rows ->
  multi_returns (mstep tg (repeat req n)) g (repeat req n) l -> l = repeat rows n.
Proof.
  intros R H. assert (F : Forall2 (returns tg g) (repeat req n) (repeat rows n)) by (clear H; induction n; cbn [repeat]; constructor; [exact R|exact IHn]).
  apply (all_return _ _ _ _ _ F) in H. apply Permutation_repeat in H. exact H.
Qed.
Print Assumptions C53_duplicated_randomness.

(** finding: the caller's random state does not advance, so a second identical call returns the same trajectories *)
Theorem C53_second_call_repeats tg g reqs rs s l s' l' : Forall2 (returns tg g) reqs rs ->
  clos_refl_trans _ (mstep tg reqs) (multi_init g reqs) s -> ms_parent s = PReturned l ->
  clos_refl_trans _ (mstep tg reqs) (multi_init (ms_rng s) reqs) s' -> ms_parent s' = PReturned l' -> Permutation l l'.
Proof.
  intros F H1 E1 H2 E2. destruct (minv_runs _ _ _ _ (msteps_ksteps _ _ _ _ H1)) as [G _]. rewrite G in H2.
  transitivity rs; [|symmetry]; eapply all_return; eauto; eexists; eauto.
Qed.
Print Assumptions C53_second_call_repeats.
(** when workers raise or are killed, what is returned still comes from distinct requests, each with its own result *)
Theorem C53_crashed_workers tg g reqs l : multi_returns (kstep tg reqs) g reqs l ->
  exists order, l = map snd order /\ NoDup (map fst order)
    /\ forall i rows, In (i, rows) order -> exists req, nth_error reqs i = Some req /\ returns tg g req rows.
Proof. exact (killed_returns tg g reqs l). Qed.
Print Assumptions C53_crashed_workers.
(** never stuck: until multi_trajectory has returned some process can move *)
Theorem C53_no_deadlock tg g reqs s : clos_refl_trans _ (kstep tg reqs) (multi_init g reqs) s ->
  (forall l, ms_parent s <> PReturned l) -> exists s', mstep tg reqs s s'.
Proof. intros H. apply progress with (g := g), minv_runs, H. Qed.
Print Assumptions C53_no_deadlock.
(** a finished call is final: nothing is appended after the return *)
Theorem C53_return_is_final tg g reqs s l s' : clos_refl_trans _ (kstep tg reqs) (multi_init g reqs) s -> ms_parent s = PReturned l ->
  ms_shared s = l /\ ~ mstep tg reqs s s'.
Proof. exact (return_final tg g reqs s l s'). Qed.
Print Assumptions C53_return_is_final.
(** the requests: nothing given - None; t_ends wins over max_trs; the other limit is off *)
Theorem C53_requests t_ends max_trs :
  (multi_requests t_ends max_trs = None <-> t_ends = None /\ max_trs = None)
  /\ (forall ts, t_ends = Some ts -> multi_requests t_ends max_trs = Some (map (fun t => (t, (-1)%Z)) ts))
  /\ (forall ms, t_ends = None -> max_trs = Some ms -> multi_requests t_ends max_trs = Some (map (fun m => ((-(1))%Qc, m)) ms)).
Proof.
  split; [|split].
  - destruct t_ends, max_trs; cbn; split; intro H; try discriminate; try (destruct H; discriminate); auto.
  - intros ts ->. reflexivity.
  - intros ms -> ->. reflexivity.
Qed.
Print Assumptions C53_requests.
(** the whole call with max_trs: one trajectory per entry, with n+1 rows and the shape of C49 *)
Theorem C53_max_trs tg cards g ns reqs l : sampling_net tg cards -> rng_ok g ->
  multi_requests None (Some (map Z.of_nat ns)) = Some reqs -> multi_returns (mstep tg reqs) g reqs l ->
  length l = length ns /\ Permutation (map (@length _) l) (map S ns) /\ forall rows, In rows l -> trajectory_shape cards rows.
Proof.
  intros N R E H. cbn in E. injection E as <-.
  assert (X : exists rs, Forall2 (returns tg g) (map (fun m => ((-(1))%Qc, m)) (map Z.of_nat ns)) rs
                /\ map (@length _) rs = map S ns /\ forall rows, In rows rs -> trajectory_shape cards rows).
  { clear H. induction ns as [|n ns [rs [A [B C]]]]; cbn [map]; [exists []; split; [constructor|split; [reflexivity|contradiction]]|].
    destruct (C49_number_of_rows tg cards g n N R) as [rows [H1 [H2 H3]]]. exists (rows :: rs). split; [|split].
    - constructor; [|exact A]. exists (S n). cbn [fst snd]. apply H1. lia.
    - cbn [map]. rewrite H2, B. reflexivity.
    - intros r [<-|Hr]; [exact H3|apply C, Hr]. }
  destruct X as [rs [A [B C]]]. pose proof (all_return _ _ _ _ _ A H) as P. split; [|split].
  - rewrite (Permutation_length P), <- (map_length (@length _) rs), B. apply map_length.
  - rewrite <- B. apply Permutation_map, P.
  - intros rows Hr. apply C. eapply Permutation_in; eauto.
Qed.
Print Assumptions C53_max_trs.
(** a concrete call with two different requests returns the two results in the reverse order *)
Example C53_case : exists r1 r2, r1 <> r2
  /\ returns (net_tg 2) (const_rng 1%Qc) ((-(1))%Qc, 2%Z) r1 /\ returns (net_tg 2) (const_rng 1%Qc) ((-(1))%Qc, 3%Z) r2
  /\ multi_returns (mstep (net_tg 2) [((-(1))%Qc, 2%Z); ((-(1))%Qc, 3%Z)]) (const_rng 1%Qc) [((-(1))%Qc, 2%Z); ((-(1))%Qc, 3%Z)] [r2; r1].
Proof.
  destruct (C49_number_of_rows (net_tg 2) [2;2;2] (const_rng 1%Qc) 2 net2_ok (const_rng_ok 1%Qc ltac:(discriminate))) as [r1 [A1 [L1 _]]].
  destruct (C49_number_of_rows (net_tg 2) [2;2;2] (const_rng 1%Qc) 3 net2_ok (const_rng_ok 1%Qc ltac:(discriminate))) as [r2 [A2 [L2 _]]].
  assert (R1 : returns (net_tg 2) (const_rng 1%Qc) ((-(1))%Qc, 2%Z) r1) by (exists 3; exact (A1 3 ltac:(lia))).
  assert (R2 : returns (net_tg 2) (const_rng 1%Qc) ((-(1))%Qc, 3%Z) r2) by (exists 4; exact (A2 4 ltac:(lia))).
  exists r1, r2. split; [intro E; rewrite E in L1; lia|]. split; [exact R1|]. split; [exact R2|].
  apply C53_every_order_possible with (rs := [r1; r2]); [repeat constructor; assumption|apply perm_swap].
Qed.
