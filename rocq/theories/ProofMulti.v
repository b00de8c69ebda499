From Verif Require Import Base Lib LibQc ModelStructure ModelGraph ModelCims ModelGenerator ModelSample ModelMulti
  SpecComb SpecGenerator SpecSample SpecMulti ProofGraph ProofSample ProofSample2.
From Coq Require Import Relation_Operators Operators_Properties.
Open Scope nat_scope.

Lemma returns_fun tg g req r r' : returns tg g req r -> returns tg g req r' -> r = r'.
Proof.
  intros [f H] [f' H']. unfold ctbn_sample in *. destruct (Nat.le_ge_cases f f') as [L|L].
  - pose proof (fuel_mono tg g _ _ f f' _ _ L H). congruence.
  - pose proof (fuel_mono tg g _ _ f' f _ _ L H'). congruence.
Qed.

(** [st] is a point of the run of CTBN_Sample *)
Definition on_run tg g (req : Qc * Z) st : Prop :=
  exists n, forall fuel, sample_loop (n + fuel) tg g (fst req) (snd req) (sample_init tg) = sample_loop fuel tg g (fst req) (snd req) st.
Lemma on_run_init tg g req : on_run tg g req (sample_init tg). Proof. exists 0. reflexivity. Qed.
Lemma on_run_step tg g req st st' : on_run tg g req st -> sample_step tg g (fst req) (snd req) st = Ok (inl st') -> on_run tg g req st'.
Proof.
  intros [n H] E. exists (S n). intro fuel. replace (S n + fuel) with (n + S fuel) by lia. rewrite H. cbn [sample_loop]. rewrite E. reflexivity.
Qed.
Lemma on_run_end tg g req st rows : on_run tg g req st -> sample_step tg g (fst req) (snd req) st = Ok (inr rows) -> returns tg g req rows.
Proof. intros [n H] E. exists (n + 1). unfold ctbn_sample. rewrite H. cbn [sample_loop]. rewrite E. reflexivity. Qed.
Lemma on_run_raise tg g req st e rows : on_run tg g req st -> sample_step tg g (fst req) (snd req) st = Err e -> ~ returns tg g req rows.
Proof.
  intros [n H] E [f Hf]. unfold ctbn_sample in Hf. pose proof (fuel_mono tg g _ _ f (n + S f) _ _ ltac:(lia) Hf) as K.
  rewrite H in K. cbn [sample_loop] in K. rewrite E in K. discriminate.
Qed.

Definition worker_ok tg g (req : Qc * Z) (w : worker) : Prop :=
  match w with
  | WRun g' st => g' = g /\ on_run tg g req st
  | WHave rows => returns tg g req rows
  | _ => True
  end.
Definition parent_ok (s : mstate) : Prop :=
  match ms_parent s with
  | PStart k => k <= length (ms_workers s) /\ (forall j, nth_error (ms_workers s) j = Some WIdle <-> k <= j < length (ms_workers s))
  | PJoin k => (forall j, nth_error (ms_workers s) j <> Some WIdle) /\ k <= length (ms_workers s)
               /\ forall j w, j < k -> nth_error (ms_workers s) j = Some w -> terminated w = true
  | PReturned l => l = ms_shared s /\ forall w, In w (ms_workers s) -> terminated w = true
  end.
Definition minv tg g (reqs : list (Qc * Z)) (s : mstate) : Prop :=
  ms_rng s = g /\ length (ms_workers s) = length reqs
  /\ (forall i req w, nth_error reqs i = Some req -> nth_error (ms_workers s) i = Some w -> worker_ok tg g req w)
  /\ (exists order, ms_shared s = map snd order /\ NoDup (map fst order)
      /\ (forall i, In i (map fst order) <-> nth_error (ms_workers s) i = Some WDone)
      /\ forall i rows, In (i, rows) order -> exists req, nth_error reqs i = Some req /\ returns tg g req rows)
  /\ parent_ok s.

Lemma minv_init tg g reqs : minv tg g reqs (multi_init g reqs).
Proof.
  unfold multi_init. split; [reflexivity|]. split; [apply map_length|]. cbn [ms_workers ms_shared]. split; [|split].
  - intros i req w _ H. rewrite map_nth_error_iff in H. destruct (nth_error reqs i); [|discriminate]. cbn in H. injection H as <-. exact I.
  - exists []. split; [reflexivity|]. split; [constructor|]. split; [|contradiction].
    intro i. rewrite map_nth_error_iff. split; [contradiction|]. destruct (nth_error reqs i); discriminate.
  - cbn. rewrite map_length. split; [lia|]. intro j. rewrite map_nth_error_iff. destruct (nth_error reqs j) eqn:E.
    + assert (j < length reqs) by (apply nth_error_Some; congruence). cbn. split; [lia|reflexivity].
    + apply nth_error_None in E. cbn. split; [discriminate|lia].
Qed.

Lemma nth_set_same {A} (l : list A) i v w : nth_error l i = Some w -> nth_error (set_at l i v) i = Some v.
Proof. intro H. rewrite nth_error_set_at, Nat.eqb_refl. assert (i < length l) by (apply nth_error_Some; congruence). destruct (Nat.ltb_spec i (length l)); [reflexivity|lia]. Qed.
Lemma nth_set_other {A} (l : list A) i j v : j <> i -> nth_error (set_at l i v) j = nth_error l j.
Proof. intro H. rewrite nth_error_set_at. destruct (Nat.eqb_spec i j); [congruence|reflexivity]. Qed.

(** replacing a live worker by another non-idle worker *)
Lemma minv_set tg g reqs ws sh p i w w' : minv tg g reqs (MkMstate g ws sh p) -> nth_error ws i = Some w -> w <> WIdle -> terminated w = false ->
  w' <> WIdle -> w' <> WDone -> (forall req, nth_error reqs i = Some req -> worker_ok tg g req w') ->
  minv tg g reqs (MkMstate g (set_at ws i w') sh p).
Proof.
  intros [_ [L [W [[order [O1 [O2 [O3 O4]]]] P]]]] Hi Hw Tw Hw' Hd Ok'. cbn [ms_workers ms_shared ms_parent] in *.
  split; [reflexivity|]. cbn [ms_workers ms_shared ms_parent]. rewrite set_at_length. split; [exact L|]. split; [|split].
  - intros j req v Hr Hv. destruct (Nat.eq_dec j i) as [->|Hj].
    + rewrite (nth_set_same _ _ _ _ Hi) in Hv. injection Hv as <-. apply Ok', Hr.
    + rewrite nth_set_other in Hv by exact Hj. eapply W; eauto.
  - exists order. split; [exact O1|]. split; [exact O2|]. split; [|exact O4]. intro j. rewrite O3. destruct (Nat.eq_dec j i) as [->|Hj].
    + rewrite (nth_set_same _ _ _ _ Hi), Hi. split; intro E; injection E as E; [subst w; discriminate|contradiction].
    + rewrite nth_set_other by exact Hj. reflexivity.
  - unfold parent_ok in *. cbn [ms_workers ms_shared ms_parent] in *. rewrite set_at_length. destruct p as [k|k|l].
    + destruct P as [P1 P2]. split; [exact P1|]. intro j. rewrite <- P2. destruct (Nat.eq_dec j i) as [->|Hj].
      * rewrite (nth_set_same _ _ _ _ Hi), Hi. split; intro E; injection E as E; contradiction.
      * rewrite nth_set_other by exact Hj. reflexivity.
    + destruct P as [P0 [P1 P2]]. split; [|split; [exact P1|]].
      * intro j. destruct (Nat.eq_dec j i) as [->|Hj]; [rewrite (nth_set_same _ _ _ _ Hi); congruence|rewrite nth_set_other by exact Hj; apply P0].
      * intros j v Hjk Hv. destruct (Nat.eq_dec j i) as [->|Hj]; [rewrite (P2 i w Hjk Hi) in Tw; discriminate|].
        rewrite nth_set_other in Hv by exact Hj. eapply P2; eauto.
    + destruct P as [P1 P2]. rewrite (P2 w (nth_error_In _ _ Hi)) in Tw. discriminate.
Qed.

Lemma minv_mstep tg g reqs s s' : minv tg g reqs s -> mstep tg reqs s s' -> minv tg g reqs s'.
Proof.
  intros M St. pose proof M as [G [L [W [O P]]]].
  destruct St as [g0 ws sh k Hk|g0 ws sh k Hk|g0 ws sh k w Hw Tw|g0 ws sh k Hk|g0 ws sh p i g' st t m st' Hi Hr E|g0 ws sh p i g' st t m rows Hi Hr E|g0 ws sh p i g' st t m e Hi Hr E|g0 ws sh p i rows Hi];
    cbn [ms_rng ms_workers ms_shared ms_parent] in *; subst g0.
  - (* start *) unfold parent_ok in P. cbn [ms_workers ms_parent] in P. destruct P as [P1 P2].
    assert (Hlt : k < length ws) by (apply nth_error_Some; congruence).
    split; [reflexivity|]. cbn [ms_workers ms_shared]. rewrite set_at_length. split; [exact L|]. split; [|split].
    + intros j req w Hr Hw. destruct (Nat.eq_dec j k) as [->|Hj].
      * rewrite (nth_set_same _ _ _ _ Hk) in Hw. injection Hw as <-. split; [reflexivity|apply on_run_init].
      * rewrite nth_set_other in Hw by exact Hj. eapply W; eauto.
    + destruct O as [order [O1 [O2 [O3 O4]]]]. exists order. split; [exact O1|]. split; [exact O2|]. split; [|exact O4].
      intro j. rewrite O3. destruct (Nat.eq_dec j k) as [->|Hj]; [rewrite (nth_set_same _ _ _ _ Hk), Hk; split; discriminate|rewrite nth_set_other by exact Hj; reflexivity].
    + unfold parent_ok. cbn [ms_workers ms_parent]. rewrite set_at_length. split; [lia|]. intro j. destruct (Nat.eq_dec j k) as [->|Hj].
      * rewrite (nth_set_same _ _ _ _ Hk). split; [discriminate|lia].
      * rewrite nth_set_other by exact Hj. rewrite P2. lia.
  - (* all started *) split; [reflexivity|]. split; [exact L|]. split; [exact W|]. split; [exact O|].
    unfold parent_ok in *. cbn [ms_workers ms_parent] in *. destruct P as [P1 P2]. split; [|split; [lia|intros; lia]].
    intros j Hj. apply P2 in Hj. lia.
  - (* join *) split; [reflexivity|]. split; [exact L|]. split; [exact W|]. split; [exact O|].
    unfold parent_ok in *. cbn [ms_workers ms_parent] in *. destruct P as [P0 [P1 P2]].
    assert (Hlt : k < length ws) by (apply nth_error_Some; congruence). split; [exact P0|]. split; [lia|].
    intros j v Hj Hv. destruct (Nat.eq_dec j k) as [->|Hne]; [congruence|]. apply (P2 j v); [lia|exact Hv].
  - (* return *) split; [reflexivity|]. split; [exact L|]. split; [exact W|]. split; [exact O|].
    unfold parent_ok in *. cbn [ms_workers ms_parent ms_shared] in *. destruct P as [P0 [P1 P2]]. split; [reflexivity|].
    intros w Hw. apply In_nth_error in Hw as [j Hj]. apply (P2 j w); [|exact Hj]. rewrite Hk. apply nth_error_Some. congruence.
  - destruct (W i _ _ Hr Hi) as [-> R]. eapply minv_set; eauto; try discriminate.
    intros req Hr'. rewrite Hr in Hr'. injection Hr' as <-. split; [reflexivity|]. eapply on_run_step; eauto.
  - destruct (W i _ _ Hr Hi) as [-> R]. eapply minv_set; eauto; try discriminate.
    intros req Hr'. rewrite Hr in Hr'. injection Hr' as <-. eapply on_run_end; eauto.
  - eapply minv_set; eauto; try discriminate. intros; exact I.
  - (* append *) assert (Hlt : i < length ws) by (apply nth_error_Some; congruence).
    destruct (nth_error reqs i) as [req|] eqn:Er; [|apply nth_error_None in Er; lia].
    pose proof (W i req _ Er Hi) as R. cbn [worker_ok] in R.
    assert (Hsame : nth_error (set_at ws i WDone) i = Some WDone) by (eapply nth_set_same; eauto).
    split; [reflexivity|]. cbn [ms_workers ms_shared]. rewrite set_at_length. split; [exact L|]. split; [|split].
    + intros j req' w Hr Hw. destruct (Nat.eq_dec j i) as [->|Hj]; [rewrite Hsame in Hw; injection Hw as <-; exact I|].
      rewrite nth_set_other in Hw by exact Hj. eapply W; eauto.
    + destruct O as [order [O1 [O2 [O3 O4]]]]. exists (order ++ [(i, rows)]). rewrite !map_app. cbn [map fst snd]. rewrite O1.
      split; [reflexivity|]. split; [|split].
      * apply NoDup_snoc; [exact O2|]. rewrite O3, Hi. discriminate.
      * intro j. rewrite in_app_iff, O3. cbn [In]. destruct (Nat.eq_dec j i) as [->|Hj]; [rewrite Hsame; tauto|].
        rewrite nth_set_other by exact Hj. intuition congruence.
      * intros j r Hj. apply in_app_or in Hj as [Hj|[Hj|[]]]; [exact (O4 j r Hj)|]. injection Hj as <- <-. exists req. auto.
    + unfold parent_ok in *. cbn [ms_workers ms_parent ms_shared] in *. rewrite set_at_length. destruct p as [k|k|l].
      * destruct P as [P1 P2]. split; [exact P1|]. intro j. rewrite <- P2. destruct (Nat.eq_dec j i) as [->|Hj].
        -- rewrite Hsame, Hi. split; discriminate.
        -- rewrite nth_set_other by exact Hj. reflexivity.
      * destruct P as [P0 [P1 P2]]. split; [|split; [exact P1|]].
        -- intro j. destruct (Nat.eq_dec j i) as [->|Hj]; [rewrite Hsame; discriminate|rewrite nth_set_other by exact Hj; apply P0].
        -- intros j v Hjk Hv. destruct (Nat.eq_dec j i) as [->|Hj]; [rewrite Hsame in Hv; injection Hv as <-; reflexivity|].
           rewrite nth_set_other in Hv by exact Hj. eapply P2; eauto.
      * destruct P as [P1 P2]. pose proof (P2 _ (nth_error_In _ _ Hi)). discriminate.
Qed.
Lemma minv_kstep tg g reqs s s' : minv tg g reqs s -> kstep tg reqs s s' -> minv tg g reqs s'.
Proof.
  intros M K. destruct K as [s0 s0' St|g0 ws sh p i w Hi [Hw Tw]]; [eapply minv_mstep; eauto|]. assert (G : g0 = g) by apply M. rewrite G in *.
  eapply minv_set; eauto; try discriminate. intros; exact I.
Qed.

Lemma minv_runs tg g reqs s : clos_refl_trans _ (kstep tg reqs) (multi_init g reqs) s -> minv tg g reqs s.
Proof.
  intro H. apply clos_rt_rtn1 in H. induction H as [|s s' St _ IH]; [apply minv_init|]. eapply minv_kstep; eauto.
Qed.
Lemma msteps_ksteps tg reqs s s' : clos_refl_trans _ (mstep tg reqs) s s' -> clos_refl_trans _ (kstep tg reqs) s s'.
Proof. induction 1; [apply rt_step, kstep_step; assumption|apply rt_refl|eapply rt_trans; eauto]. Qed.

(** with kills: what is returned comes from distinct requests *)
Lemma killed_returns tg g reqs l : multi_returns (kstep tg reqs) g reqs l ->
  exists order, l = map snd order /\ NoDup (map fst order)
    /\ forall i rows, In (i, rows) order -> exists req, nth_error reqs i = Some req /\ returns tg g req rows.
Proof.
  intros [s [H E]]. destruct (minv_runs _ _ _ _ H) as [_ [_ [_ [[order [O1 [O2 [O3 O4]]]] P]]]].
  unfold parent_ok in P. rewrite E in P. destruct P as [-> _]. exists order. auto.
Qed.

(** without kills: no worker whose request returns fails *)
Definition nofail tg g reqs (s : mstate) : Prop :=
  forall i req, nth_error reqs i = Some req -> (exists rows, returns tg g req rows) -> nth_error (ms_workers s) i <> Some WFailed.
Lemma nofail_step tg g reqs s s' : minv tg g reqs s -> nofail tg g reqs s -> mstep tg reqs s s' -> nofail tg g reqs s'.
Proof.
  intros [G [L [W _]]] N St i0 req0 Hr0 Hex.
  assert (K : forall ws i w, ms_workers s = ws -> (i0 = i -> w <> WFailed) -> nth_error (set_at ws i w) i0 <> Some WFailed).
  { intros ws i w Hws Hw. rewrite nth_error_set_at. destruct (Nat.eqb_spec i i0) as [->|]; cbn [andb].
    - destruct (i0 <? length ws); [intro Hc; injection Hc as Hc; exact (Hw eq_refl Hc)|]. rewrite <- Hws. exact (N i0 req0 Hr0 Hex).
    - rewrite <- Hws. exact (N i0 req0 Hr0 Hex). }
  destruct St as [g0 ws sh k Hk|g0 ws sh k Hk|g0 ws sh k w Hw Tw|g0 ws sh k Hk|g0 ws sh p i g' st t m st' Hi Hr E|g0 ws sh p i g' st t m rows Hi Hr E|g0 ws sh p i g' st t m e Hi Hr E|g0 ws sh p i rows Hi];
    cbn [ms_workers ms_rng] in *; try (apply K; [reflexivity|intros _; discriminate]); try exact (N i0 req0 Hr0 Hex).
  apply K; [reflexivity|]. intros ->. exfalso. destruct (W i _ _ Hr Hi) as [-> R]. rewrite Hr in Hr0. injection Hr0 as <-.
  destruct Hex as [rows Hrows]. exact (on_run_raise tg g (t, m) st e rows R E Hrows).
Qed.
Lemma nofail_runs tg g reqs s : clos_refl_trans _ (mstep tg reqs) (multi_init g reqs) s -> nofail tg g reqs s.
Proof.
  intro H. apply clos_rt_rtn1 in H. induction H as [|s s' St R IH].
  - intros i req _ _. cbn. rewrite map_nth_error_iff. destruct (nth_error reqs i); discriminate.
  - eapply nofail_step; eauto. apply minv_runs, msteps_ksteps. apply clos_rtn1_rt. exact R.
Qed.

Lemma perm_by_index {A} (order : list (nat * A)) (rs : list A) : NoDup (map fst order) ->
  (forall i, In i (map fst order) <-> i < length rs) -> (forall i a, In (i, a) order -> nth_error rs i = Some a) ->
  Permutation (map snd order) rs.
Proof.
  intros N H1 H2.
  assert (P : Permutation (map fst order) (seq 0 (length rs))).
  { apply NoDup_Permutation; [exact N|apply seq_NoDup|]. intro i. rewrite H1, in_seq. lia. }
  assert (E : map (@Some A) (map snd order) = map (nth_error rs) (map fst order)).
  { clear -H2. induction order as [|[i a] o IH]; [reflexivity|]. cbn [map fst snd]. rewrite IH by (intros; apply H2; right; assumption).
    rewrite (H2 i a (or_introl eq_refl)). reflexivity. }
  assert (F : map (nth_error rs) (seq 0 (length rs)) = map (@Some A) rs).
  { clear. induction rs as [|r rs IH]; [reflexivity|]. cbn [length seq map nth_error]. f_equal. rewrite <- seq_shift, map_map. exact IH. }
  apply (Permutation_map (nth_error rs)) in P. rewrite <- E, F in P.
  apply Permutation_map_inv in P as [l3 [E3 P3]].
  assert (K : map snd order = l3).
  { clear -E3. revert l3 E3. induction (map snd order) as [|a l IH]; intros [|b l3] E3; try discriminate; [reflexivity|].
    cbn [map] in E3. injection E3 as -> E3. f_equal. apply IH, E3. }
  rewrite K. apply Permutation_sym. exact P3.
Qed.

Lemma all_return tg g reqs rs l : Forall2 (returns tg g) reqs rs -> multi_returns (mstep tg reqs) g reqs l -> Permutation l rs.
Proof.
  intros F [s [H E]]. pose proof (nofail_runs _ _ _ _ H) as NF. apply msteps_ksteps in H.
  destruct (minv_runs _ _ _ _ H) as [_ [L [_ [[order [O1 [O2 [O3 O4]]]] P]]]].
  unfold parent_ok in P. rewrite E in P. destruct P as [-> P]. rewrite O1.
  pose proof (Forall2_length _ _ _ F) as LF.
  apply perm_by_index; [exact O2| |].
  - intro i. rewrite O3. split.
    + intro Hd. rewrite <- LF, <- L. apply nth_error_Some. congruence.
    + intro Hi. destruct (nth_error (ms_workers s) i) as [w|] eqn:Ew; [|apply nth_error_None in Ew; lia].
      pose proof (P w (nth_error_In _ _ Ew)) as T. destruct w; try discriminate; [reflexivity|]. exfalso.
      destruct (nth_error reqs i) as [req|] eqn:Er; [|apply nth_error_None in Er; lia].
      destruct (Forall2_nth_error _ _ _ F i req Er) as [r [_ Hr]]. exact (NF i req Er (ex_intro _ r Hr) Ew).
  - intros i a Hin. destruct (O4 i a Hin) as [req [Hr Ha]]. destruct (Forall2_nth_error _ _ _ F i req Hr) as [r [Hr1 Hr2]].
    rewrite Hr1. f_equal. eapply returns_fun; eauto.
Qed.

(** progress: as long as multi_trajectory has not returned, some process can take a step *)
Lemma progress tg g reqs s : minv tg g reqs s -> (forall l, ms_parent s <> PReturned l) -> exists s', mstep tg reqs s s'.
Proof.
  intros [G [L [W [O P]]]] NR. destruct s as [g0 ws sh p]. unfold parent_ok in P. cbn [ms_workers ms_parent ms_shared ms_rng] in *.
  assert (LIVE : forall i w, nth_error ws i = Some w -> w <> WIdle -> terminated w = false -> exists s', mstep tg reqs (MkMstate g0 ws sh p) s').
  { intros i w Hi Hw Tw. destruct w as [|g' st|rows| |]; try contradiction; try discriminate.
    - assert (Hlt : i < length ws) by (apply nth_error_Some; congruence).
      destruct (nth_error reqs i) as [[t m]|] eqn:Er; [|apply nth_error_None in Er; lia].
      destruct (sample_step tg g' t m st) as [[st'|rows]|e] eqn:E; eexists; [eapply step_sample|eapply step_sampled|eapply step_raise]; eauto.
    - eexists. eapply step_append. exact Hi. }
  destruct p as [k|k|l]; [| |exfalso; exact (NR l eq_refl)].
  - destruct P as [P1 P2]. destruct (Nat.eq_dec k (length ws)) as [->|Hk].
    + eexists. apply step_started. reflexivity.
    + eexists. apply step_start. apply P2. lia.
  - destruct P as [P0 [P1 P2]]. destruct (Nat.eq_dec k (length ws)) as [->|Hk].
    + eexists. apply step_return. reflexivity.
    + destruct (nth_error ws k) as [w|] eqn:Ew; [|apply nth_error_None in Ew; lia]. destruct (terminated w) eqn:Tw.
      * eexists. eapply step_join; eauto.
      * apply (LIVE k w Ew); [intros ->; exact (P0 k Ew)|exact Tw].
Qed.

(** every completion order can happen *)
Lemma start_all tg reqs g : forall k ws sh, (forall j, k <= j < length ws -> nth_error ws j = Some WIdle) -> k <= length ws ->
  clos_refl_trans _ (mstep tg reqs) (MkMstate g ws sh (PStart k))
    (MkMstate g (firstn k ws ++ map (fun _ => WRun g (sample_init tg)) (skipn k ws)) sh (PJoin 0)).
Proof.
  intros k ws sh H Hk. remember (length ws - k) as n eqn:En. revert k ws H Hk En. induction n as [|n IH]; intros k ws H Hk En.
  - assert (k = length ws) by lia. subst k. rewrite firstn_all, skipn_all. cbn [map]. rewrite app_nil_r. apply rt_step, step_started. reflexivity.
  - eapply rt_trans; [apply rt_step, step_start, H; lia|].
    assert (Hw : nth_error ws k = Some WIdle) by (apply H; lia).
    replace (firstn k ws ++ map (fun _ => WRun g (sample_init tg)) (skipn k ws))
       with (firstn (S k) (set_at ws k (WRun g (sample_init tg))) ++ map (fun _ => WRun g (sample_init tg)) (skipn (S k) (set_at ws k (WRun g (sample_init tg))))).
    + apply IH; rewrite ?set_at_length; [|lia|lia]. intros j Hj. rewrite nth_set_other by lia. apply H. lia.
    + clear -Hw. revert k Hw. induction ws as [|w ws IH]; intros [|k] Hw; try discriminate.
      * injection Hw as ->. cbn [set_at firstn skipn map app]. reflexivity.
      * cbn [set_at firstn skipn app] in *. f_equal. apply IH, Hw.
Qed.
Lemma run_worker tg reqs g p : forall fuel ws sh i st t m rows, nth_error ws i = Some (WRun g st) -> nth_error reqs i = Some (t, m) ->
  sample_loop fuel tg g t m st = Ok rows ->
  clos_refl_trans _ (mstep tg reqs) (MkMstate g ws sh p) (MkMstate g (set_at ws i WDone) (sh ++ [rows]) p).
Proof.
  induction fuel as [|fuel IH]; intros ws sh i st t m rows Hi Hr H; [discriminate|]. cbn [sample_loop] in H.
  assert (SS : forall w v, set_at (set_at ws i w) i v = set_at ws i v).
  { intros w v. clear. revert i. induction ws as [|a ws IH]; intros [|i]; cbn [set_at]; try reflexivity. rewrite IH. reflexivity. }
  apply bind_ok in H as [[st'|rows'] [E H]].
  - eapply rt_trans; [apply rt_step; eapply step_sample; eauto|]. rewrite <- (SS (WRun g st') WDone). eapply IH; [eapply nth_set_same; eauto|exact Hr|exact H].
  - injection H as ->. eapply rt_trans; [apply rt_step; eapply step_sampled; eauto|]. rewrite <- (SS (WHave rows) WDone). apply rt_step, step_append. eapply nth_set_same; eauto.
Qed.
Lemma run_workers tg reqs g p : forall order ws sh rs, NoDup order ->
  (forall i, In i order -> nth_error ws i = Some (WRun g (sample_init tg))) ->
  Forall2 (fun i rows => exists req, nth_error reqs i = Some req /\ returns tg g req rows) order rs ->
  exists ws', clos_refl_trans _ (mstep tg reqs) (MkMstate g ws sh p) (MkMstate g ws' (sh ++ rs) p) /\ length ws' = length ws
    /\ (forall i, In i order -> nth_error ws' i = Some WDone) /\ (forall i, ~ In i order -> nth_error ws' i = nth_error ws i).
Proof.
  induction order as [|i order IH]; intros ws sh rs N HR F.
  - inversion F; subst. exists ws. rewrite app_nil_r. split; [apply rt_refl|]. split; [reflexivity|]. split; [contradiction|reflexivity].
  - destruct rs as [|r rs]; [inversion F|]. assert (F1 : exists req, nth_error reqs i = Some req /\ returns tg g req r) by (inversion F; assumption).
    assert (F2 : Forall2 (fun i rows => exists req, nth_error reqs i = Some req /\ returns tg g req rows) order rs) by (inversion F; assumption).
    apply NoDup_cons_iff in N as [N1 N2]. destruct F1 as [[t m] [Hr [fuel Hf]]]. cbn [fst snd] in Hf. unfold ctbn_sample in Hf.
    destruct (IH (set_at ws i WDone) (sh ++ [r]) rs N2) as [ws' [R [Lw [D1 D2]]]]; [|exact F2|].
    + intros j Hj. rewrite nth_set_other; [apply HR; right; exact Hj|]. intros ->. contradiction.
    + exists ws'. split; [|split; [|split]].
      * eapply rt_trans; [eapply run_worker; eauto; apply HR; left; reflexivity|]. rewrite <- app_assoc in R. exact R.
      * rewrite Lw, set_at_length. reflexivity.
      * intros j [<-|Hj]; [|apply D1, Hj]. rewrite D2 by exact N1. eapply nth_set_same. apply HR. left. reflexivity.
      * intros j Hj. rewrite D2 by (intro; apply Hj; right; assumption). apply nth_set_other. intros ->. apply Hj. left. reflexivity.
Qed.
Lemma join_all tg reqs g ws sh : (forall i w, nth_error ws i = Some w -> terminated w = true) -> forall k, k <= length ws ->
  clos_refl_trans _ (mstep tg reqs) (MkMstate g ws sh (PJoin k)) (MkMstate g ws sh (PReturned sh)).
Proof.
  intros T k Hk. remember (length ws - k) as n eqn:En. revert k Hk En. induction n as [|n IH]; intros k Hk En.
  - apply rt_step, step_return. lia.
  - destruct (nth_error ws k) as [w|] eqn:Ew; [|apply nth_error_None in Ew; lia].
    eapply rt_trans; [apply rt_step; eapply step_join; eauto|]. apply IH; lia.
Qed.
Lemma Forall2_flip' {A B} (R : A -> B -> Prop) l m : Forall2 R l m -> Forall2 (fun b a => R a b) m l.
Proof. induction 1; constructor; assumption. Qed.
Lemma Forall2_weaken {A B} (R Q : A -> B -> Prop) l m : (forall a b, R a b -> Q a b) -> Forall2 R l m -> Forall2 Q l m.
Proof. intros H F. induction F; constructor; auto. Qed.
Lemma every_order tg g reqs rs l : Forall2 (returns tg g) reqs rs -> Permutation l rs -> multi_returns (mstep tg reqs) g reqs l.
Proof.
  intros F P. pose proof (Forall2_length _ _ _ F) as LF.
  (* the order of completion behind the permutation *)
  assert (EX : exists order, Permutation order (seq 0 (length reqs)) /\ Forall2 (fun i rows => nth_error rs i = Some rows) order l).
  { assert (G : Forall2 (fun i rows => nth_error rs i = Some rows) (seq 0 (length rs)) rs).
    { clear. assert (A : forall pre post : list (list (Qc * list Z)), Forall2 (fun i rows => nth_error (pre ++ post) i = Some rows) (seq (length pre) (length post)) post).
      { intros pre post. revert pre. induction post as [|x post IH]; intro pre; cbn [length seq]; constructor.
        - rewrite nth_error_app2 by lia. rewrite Nat.sub_diag. reflexivity.
        - specialize (IH (pre ++ [x])). rewrite app_length in IH. cbn [length] in IH. rewrite Nat.add_1_r, <- app_assoc in IH. exact IH. }
      exact (A [] rs). }
    rewrite LF. clear -G P. apply Permutation_sym in P. destruct (Permutation_Forall2 P (Forall2_flip' _ _ _ G)) as [order [Q1 Q2]].
    exists order. split; [apply Permutation_sym; exact Q1|]. apply Forall2_flip' in Q2. exact Q2. }
  destruct EX as [order [P1 F1]].
  assert (N : NoDup order) by (eapply Permutation_NoDup; [apply Permutation_sym, P1|apply seq_NoDup]).
  pose proof (start_all tg reqs g 0 (map (fun _ => WIdle) reqs) []) as ST.
  cbn [firstn skipn app] in ST. rewrite map_map in ST.
  destruct (run_workers tg reqs g (PJoin 0) order (map (fun _ => WRun g (sample_init tg)) reqs) [] l N) as [ws' [R [Lw [D1 D2]]]].
  - intros i Hi. apply (Permutation_in _ P1) in Hi. apply in_seq in Hi. rewrite map_nth_error_iff.
    destruct (nth_error reqs i) eqn:E; [reflexivity|apply nth_error_None in E; lia].
  - eapply Forall2_weaken; [|exact F1]. intros i rows Hi. cbn beta in Hi. destruct (Forall2_nth_error_r _ _ _ F i rows Hi) as [req [A B]]. exists req. auto.
  - exists (MkMstate g ws' l (PReturned l)). split; [|reflexivity]. eapply rt_trans; [|eapply rt_trans; [exact R|]].
    + apply ST; [|lia]. rewrite map_length. intros j Hj. rewrite map_nth_error_iff. destruct (nth_error reqs j) eqn:E; [reflexivity|apply nth_error_None in E; lia].
    + cbn [app]. apply join_all; [|lia]. intros i w Hw. assert (Hi : i < length ws') by (apply nth_error_Some; congruence).
      rewrite Lw, map_length in Hi. rewrite D1 in Hw; [injection Hw as <-; reflexivity|]. apply (Permutation_in _ (Permutation_sym P1)), in_seq. lia.
Qed.

Lemma return_final tg g reqs s l s' : clos_refl_trans _ (kstep tg reqs) (multi_init g reqs) s -> ms_parent s = PReturned l ->
  ms_shared s = l /\ ~ mstep tg reqs s s'.
Proof.
  intros H E. destruct (minv_runs _ _ _ _ H) as [_ [_ [_ [_ P]]]]. unfold parent_ok in P. rewrite E in P. destruct P as [-> P]. split; [reflexivity|].
  intro St. destruct St as [g0 ws sh k Hk|g0 ws sh k Hk|g0 ws sh k w Hw Tw|g0 ws sh k Hk|g0 ws sh p i g' st t m st' Hi Hr E'|g0 ws sh p i g' st t m rows Hi Hr E'|g0 ws sh p i g' st t m e Hi Hr E'|g0 ws sh p i rows Hi];
    cbn [ms_workers ms_parent] in *; try discriminate; pose proof (P _ (nth_error_In _ _ Hi)); discriminate.
Qed.
