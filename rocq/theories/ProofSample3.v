From Coq Require Import Qround Lqa.
From Verif Require Import Base Lib ModelStructure ModelGraph ModelCims ModelGenerator ModelSample
  SpecStructure SpecGraph SpecComb SpecGenerator SpecSample ProofComb ProofParams ProofParams2 LibQc ProofGenerator ProofGenerator2 ProofSample ProofSample2.
Open Scope nat_scope.

Lemma filter_length_le' {A} (p : A -> bool) l : length (filter p l) <= length l.
Proof. induction l as [|a l IH]; cbn [filter length]; [lia|]. destruct (p a); cbn [length]; lia. Qed.

Lemma count_le {A} (p : A -> bool) : forall l l', length l = length l' ->
  (forall i a a', nth_error l i = Some a -> nth_error l' i = Some a' -> p a' = true -> p a = true) ->
  length (filter p l') <= length (filter p l).
Proof.
  induction l as [|a l IH]; intros [|a' l'] L H; try discriminate; [cbn; lia|].
  cbn [filter]. assert (K : length (filter p l') <= length (filter p l)).
  { apply IH; [cbn in L; lia|]. intros i x x' H1 H2. apply (H (S i)); assumption. }
  pose proof (H 0 a a' eq_refl eq_refl) as H0. destruct (p a'); [rewrite H0 by reflexivity|destruct (p a)]; cbn [length]; lia.
Qed.
Lemma count_lt {A} (p : A -> bool) : forall l l' n a a', length l = length l' ->
  (forall i a a', nth_error l i = Some a -> nth_error l' i = Some a' -> p a' = true -> p a = true) ->
  nth_error l n = Some a -> nth_error l' n = Some a' -> p a = true -> p a' = false ->
  length (filter p l') < length (filter p l).
Proof.
  induction l as [|x l IH]; intros [|x' l'] n a a' L H Ha Ha' Pa Pa'; try discriminate; [destruct n; discriminate|].
  assert (H' : forall i a a', nth_error l i = Some a -> nth_error l' i = Some a' -> p a' = true -> p a = true).
  { intros i b b' H1 H2. apply (H (S i)); assumption. }
  assert (L' : length l = length l') by (cbn in L; lia).
  destruct n as [|n]; cbn [nth_error] in Ha, Ha'.
  - injection Ha as ->. injection Ha' as ->. cbn [filter]. rewrite Pa, Pa'. cbn [length]. pose proof (count_le p l l' L' H'). lia.
  - pose proof (IH l' n a a' L' H' Ha Ha' Pa Pa') as K. pose proof (H 0 x x' eq_refl eq_refl) as H0.
    cbn [filter]. destruct (p x'); [rewrite H0 by reflexivity|destruct (p x)]; cbn [length]; lia.
Qed.

Section Net.
Variables (tg : trajgen) (cards : list nat).
Hypothesis NET : sampling_net tg cards.
Variable g : rng.
Hypothesis RNG : rng_ok g.
Notation vs := (tg_vnames tg).
Notation sinv := (sinv tg cards).

Definition pending (B : Qc) (o : option Qc) : bool := match o with Some d => negb (qc_le B d) | None => false end.

Lemma t_end_progress h t_end max_tr : dwell_at_least tg g h -> t_end <> (- (1))%Qc ->
  forall K p st B, sinv st -> (B <= st_t st + h)%Qc -> length (filter (pending B) (st_times st)) <= p ->
  (t_end <= B + Qc_nat K * h)%Qc ->
  exists N, forall fuel, N <= fuel -> exists rows, sample_loop fuel tg g t_end max_tr st = Ok rows.
Proof.
  intros [Hh DW] Ht. induction K as [|K IHK]; induction p as [|p IHp]; intros st B S HB Hp HK;
  destruct (step_ok tg cards NET g RNG t_end max_tr st S) as [ds [k' [next [t [v [F1 [F2 [F3 [V [M1 [M2 [M3 Q]]]]]]]]]]]];
  (destruct (stop_test t_end max_tr st t) eqn:St;
   [exists 1; intros [|fuel] Hf; [lia|]; cbn [sample_loop]; rewrite Q; cbn [bind]; eexists; reflexivity|]);
  destruct Q as [st' [x [y [E [S' [T [D [Nt [X1 [X2 [X3 X4]]]]]]]]]]];
  (assert (Hlt : (t < t_end)%Qc) by
    (unfold stop_test in St; apply orb_false_iff in St as [_ St]; rewrite (proj2 (Qc_eq_bool_false _ _) Ht) in St; cbn [negb andb] in St;
     apply qc_le_false in St; exact St));
  assert (Hnew : forall i o d, nth_error (st_times st) i = Some o -> nth_error ds i = Some d -> (d < B)%Qc -> o = Some d) by
   (intros i o d Ho Hd Hdb; assert (Hi : i < length vs) by (rewrite <- F2; apply nth_error_Some; congruence);
    destruct (nth_error vs i) as [w|] eqn:Ew; [|apply nth_error_None in Ew; lia];
    pose proof (F3 i w o d Ew Ho Hd) as Fe; destruct o as [d'|]; cbn in Fe; [congruence|];
    exfalso; destruct Fe as [q [Hq ->]]; pose proof (DW _ _ _ (st_ke st + undef_before (st_times st) i) Hq) as Dq;
    clear -HB Hdb Dq; generalize dependent (q * exp_draw g (st_ke st + undef_before (st_times st) i))%Qc; intros z Hz Dz; qclra);
  (assert (Lt : length (st_times st) = length vs) by apply S);
  destruct (qc_le B t) eqn:CB.
  (* K = 0 *)
  - exfalso. apply qc_le_iff in CB. clear -CB Hlt HK. change (Qc_nat 0) with 0%Qc in HK. rewrite Qcmult_0_l in HK. qclra.
  - exfalso. apply qc_le_false in CB.
    assert (Hn : next < length (st_times st)) by (rewrite Lt, <- F2; apply nth_error_Some; congruence).
    destruct (nth_error (st_times st) next) as [o|] eqn:Eo; [|apply nth_error_None in Eo; lia].
    pose proof (Hnew next o t Eo M1 CB) as ->.
    assert (In (Some t) (filter (pending B) (st_times st))).
    { apply filter_In. split; [eapply nth_error_In; eauto|]. cbn [pending]. rewrite (proj2 (qc_le_false B t) CB). reflexivity. }
    destruct (filter (pending B) (st_times st)); [contradiction|cbn in Hp; lia].
  - exfalso. apply qc_le_iff in CB. clear -CB Hlt HK. change (Qc_nat 0) with 0%Qc in HK. rewrite Qcmult_0_l in HK. qclra.
  - apply qc_le_false in CB.
    destruct (IHp st' B S') as [N HN]; [rewrite T; clear -HB M3; qclra| |exact HK|].
    2:{ exists (Datatypes.S N). intros [|fuel] Hf; [lia|]. cbn [sample_loop]. rewrite E. cbn [bind]. apply HN. lia. }
    assert (Hn : next < length (st_times st)) by (rewrite Lt, <- F2; apply nth_error_Some; congruence).
    destruct (nth_error (st_times st) next) as [o|] eqn:Eo; [|apply nth_error_None in Eo; lia].
    pose proof (Hnew next o t Eo M1 CB) as ->.
    enough (length (filter (pending B) (st_times st')) < length (filter (pending B) (st_times st))) by lia.
    rewrite X4. apply (count_lt (pending B) _ _ next (Some t) None).
    + unfold reset_times. rewrite mapi_length. lia.
    + intros i a a' Ha Ha' Pa. unfold reset_times in Ha'. rewrite nth_error_mapi in Ha'.
      destruct (nth_error ds i) as [d|] eqn:Ed; [|discriminate]. cbn [option_map] in Ha'.
      destruct (_ || _); injection Ha' as <-; [discriminate|]. cbn [pending] in Pa. apply negb_true_iff, qc_le_false in Pa.
      rewrite (Hnew i a d Ha Ed Pa). cbn [pending]. rewrite (proj2 (qc_le_false B d) Pa). reflexivity.
    + exact Eo.
    + unfold reset_times. rewrite nth_error_mapi, M1. cbn [option_map]. rewrite Nat.eqb_refl. reflexivity.
    + cbn [pending]. rewrite (proj2 (qc_le_false B t) CB). reflexivity.
    + reflexivity.
  (* K + 1 *)
  - apply qc_le_iff in CB.
    destruct (IHK (length (filter (pending (st_t st' + h)%Qc) (st_times st'))) st' (st_t st' + h)%Qc S') as [N HN].
    + apply Qcle_refl.
    + lia.
    + rewrite T. revert HK. unfold Qc_nat. rewrite Nat2Z.inj_succ, <- Z.add_1_r, Qc_of_Z_add. change (Qc_of_Z 1) with 1%Qc.
      rewrite Qcmult_plus_distr_l, Qcmult_1_l. generalize (Qc_of_Z (Z.of_nat K) * h)%Qc. intros z HK. clear -CB HK. qclra.
    + exists (Datatypes.S N). intros [|fuel] Hf; [lia|]. cbn [sample_loop]. rewrite E. cbn [bind]. apply HN. lia.
  - exfalso. apply qc_le_false in CB.
    assert (Hn : next < length (st_times st)) by (rewrite Lt, <- F2; apply nth_error_Some; congruence).
    destruct (nth_error (st_times st) next) as [o|] eqn:Eo; [|apply nth_error_None in Eo; lia].
    pose proof (Hnew next o t Eo M1 CB) as ->.
    assert (In (Some t) (filter (pending B) (st_times st))).
    { apply filter_In. split; [eapply nth_error_In; eauto|]. cbn [pending]. rewrite (proj2 (qc_le_false B t) CB). reflexivity. }
    destruct (filter (pending B) (st_times st)); [contradiction|cbn in Hp; lia].
  - apply qc_le_iff in CB.
    destruct (IHK (length (filter (pending (st_t st' + h)%Qc) (st_times st'))) st' (st_t st' + h)%Qc S') as [N HN].
    + apply Qcle_refl.
    + lia.
    + rewrite T. revert HK. unfold Qc_nat. rewrite Nat2Z.inj_succ, <- Z.add_1_r, Qc_of_Z_add. change (Qc_of_Z 1) with 1%Qc.
      rewrite Qcmult_plus_distr_l, Qcmult_1_l. generalize (Qc_of_Z (Z.of_nat K) * h)%Qc. intros z HK. clear -CB HK. qclra.
    + exists (Datatypes.S N). intros [|fuel] Hf; [lia|]. cbn [sample_loop]. rewrite E. cbn [bind]. apply HN. lia.
  - apply qc_le_false in CB.
    destruct (IHp st' B S') as [N HN]; [rewrite T; clear -HB M3; qclra| |exact HK|].
    2:{ exists (Datatypes.S N). intros [|fuel] Hf; [lia|]. cbn [sample_loop]. rewrite E. cbn [bind]. apply HN. lia. }
    assert (Hn : next < length (st_times st)) by (rewrite Lt, <- F2; apply nth_error_Some; congruence).
    destruct (nth_error (st_times st) next) as [o|] eqn:Eo; [|apply nth_error_None in Eo; lia].
    pose proof (Hnew next o t Eo M1 CB) as ->.
    enough (length (filter (pending B) (st_times st')) < length (filter (pending B) (st_times st))) by lia.
    rewrite X4. apply (count_lt (pending B) _ _ next (Some t) None).
    + unfold reset_times. rewrite mapi_length. lia.
    + intros i a a' Ha Ha' Pa. unfold reset_times in Ha'. rewrite nth_error_mapi in Ha'.
      destruct (nth_error ds i) as [d|] eqn:Ed; [|discriminate]. cbn [option_map] in Ha'.
      destruct (_ || _); injection Ha' as <-; [discriminate|]. cbn [pending] in Pa. apply negb_true_iff, qc_le_false in Pa.
      rewrite (Hnew i a d Ha Ed Pa). cbn [pending]. rewrite (proj2 (qc_le_false B d) Pa). reflexivity.
    + exact Eo.
    + unfold reset_times. rewrite nth_error_mapi, M1. cbn [option_map]. rewrite Nat.eqb_refl. reflexivity.
    + cbn [pending]. rewrite (proj2 (qc_le_false B t) CB). reflexivity.
    + reflexivity.
Qed.

Lemma archimedes q h : (0 < h)%Qc -> exists K, (q <= Qc_nat K * h)%Qc.
Proof.
  intro Hh. destruct (floor_bounds (q / h)%Qc) as [_ U]. set (f := Qfloor (this (q / h)%Qc)) in *.
  exists (Z.to_nat (f + 1)).
  assert (A : (q / h <= Qc_nat (Z.to_nat (f + 1)))%Qc).
  { apply Qclt_le_weak. eapply Qclt_le_trans; [exact U|]. change 1%Qc with (Qc_of_Z 1). rewrite <- Qc_of_Z_add. apply (proj2 (Qc_of_Z_le _ _)). lia. }
  replace q with (q / h * h)%Qc by (apply Qcdiv_mult, Qc_pos_neq, Hh). apply Qcmult_le_compat_r; [exact A|apply Qclt_le_weak, Hh].
Qed.

Lemma t_end_terminates h t_end max_tr : dwell_at_least tg g h -> t_end <> (- (1))%Qc ->
  exists N rows, forall fuel, N <= fuel -> ctbn_sample fuel tg g t_end max_tr = Ok rows.
Proof.
  intros DW Ht. destruct (archimedes t_end h (proj1 DW)) as [K HK].
  destruct (t_end_progress h t_end max_tr DW Ht K (length (filter (pending h) (st_times (sample_init tg)))) (sample_init tg) h) as [N HN].
  - apply sinv_init, NET.
  - cbn [sample_init st_t]. rewrite Qcplus_0_l. apply Qcle_refl.
  - lia.
  - pose proof (proj1 DW). generalize dependent (Qc_nat K * h)%Qc. intros. qclra.
  - destruct (HN N (le_n _)) as [rows Hr]. exists N, rows. intros fuel Hf. eapply fuel_mono; [exact Hf|exact Hr].
Qed.

(** with draws that are all 0 the clock stands still *)
Lemma zeno_loop t_end : (0 < t_end)%Qc -> (forall k, exp_draw g k = 0%Qc) ->
  forall fuel st, sinv st -> st_t st = 0%Qc -> (forall i d, nth_error (st_times st) i = Some (Some d) -> d = 0%Qc) ->
  sample_loop fuel tg g t_end (-1) st = Err OutOfFuel.
Proof.
  intros Ht Z. induction fuel as [|fuel IH]; intros st S T0 A; [reflexivity|]. cbn [sample_loop].
  destruct (step_ok tg cards NET g RNG t_end (-1) st S) as [ds [k' [next [t [v [F1 [F2 [F3 [V [M1 [M2 [M3 Q]]]]]]]]]]]].
  assert (D0 : forall i d, nth_error ds i = Some d -> d = 0%Qc).
  { intros i d Hd. assert (Hi : i < length vs) by (rewrite <- F2; apply nth_error_Some; congruence).
    assert (Lt : length (st_times st) = length vs) by apply S.
    destruct (nth_error vs i) as [w|] eqn:Ew; [|apply nth_error_None in Ew; lia].
    destruct (nth_error (st_times st) i) as [o|] eqn:Eo; [|apply nth_error_None in Eo; lia].
    pose proof (F3 i w o d Ew Eo Hd) as Fe. destruct o as [d'|]; cbn in Fe; [subst d'; eapply A; eauto|].
    destruct Fe as [q [_ ->]]. rewrite Z, T0. ring. }
  assert (t0 : t = 0%Qc) by (eapply D0; eauto).
  assert (St : stop_test t_end (-1) st t = false).
  { unfold stop_test. cbn [Z.eqb negb andb orb]. rewrite t0. rewrite (proj2 (qc_le_false t_end 0) Ht). apply andb_false_r. }
  rewrite St in Q. destruct Q as [st' [x [y [E [S' [T [D [Nt [X1 [X2 [X3 X4]]]]]]]]]]]. rewrite E. cbn [bind].
  apply IH; [exact S'|congruence|]. intros i d Hd. rewrite X4 in Hd. unfold reset_times in Hd. rewrite nth_error_mapi in Hd.
  destruct (nth_error ds i) as [d'|] eqn:Ed; [|discriminate]. cbn [option_map] in Hd. destruct (_ || _); [discriminate|].
  injection Hd as <-. eapply D0; eauto.
Qed.
Lemma zeno t_end fuel : (0 < t_end)%Qc -> (forall k, exp_draw g k = 0%Qc) -> ctbn_sample fuel tg g t_end (-1) = Err OutOfFuel.
Proof.
  intros Ht Z. apply zeno_loop; auto; [apply sinv_init, NET|]. cbn. intros i d H. rewrite map_nth_error_iff in H. destruct (nth_error vs i); discriminate.
Qed.

(** the time of the first recorded transition *)
Lemma undef_all {A} (l : list A) i : i <= length l -> undef_before (map (fun _ => None) l) i = i.
Proof.
  unfold undef_before. revert i. induction l as [|a l IH]; intros [|i] H; try reflexivity; cbn [length] in H; [lia|].
  cbn [map firstn filter length]. f_equal. apply IH. lia.
Qed.
Lemma loop_prefix t_end max_tr fuel : forall st rows, sinv st -> sample_loop fuel tg g t_end max_tr st = Ok rows ->
  exists rest, map fst rows = map fst (rows_of st) ++ rest.
Proof.
  induction fuel as [|fuel IH]; intros st rows S H; [discriminate|]. cbn [sample_loop] in H.
  destruct (step_ok tg cards NET g RNG t_end max_tr st S) as [ds [k' [next [t [v [F1 [F2 [F3 [V [M1 [M2 [M3 Q]]]]]]]]]]]].
  destruct (stop_test t_end max_tr st t).
  - rewrite Q in H. cbn [bind] in H. injection H as <-. exists []. unfold finish, rows_of. rewrite !map_app, map_map, app_nil_r. reflexivity.
  - destruct Q as [st' [x [y [E [S' [T [D [Nt [X1 [X2 [X3 X4]]]]]]]]]]]. rewrite E in H. cbn [bind] in H.
    destruct (IH st' rows S' H) as [rest Hr]. exists (fst (st_row st') :: rest). rewrite Hr. unfold rows_of. rewrite D, !map_app. cbn [map].
    rewrite <- !app_assoc. reflexivity.
Qed.
Lemma first_event t_end max_tr fuel rows r : ctbn_sample fuel tg g t_end max_tr = Ok rows -> nth_error rows 1 = Some r ->
  exists i v q, nth_error vs i = Some v /\ leaving_rate tg (map (fun _ => 0) vs) v q
    /\ fst r = around4 (q * exp_draw g i)%Qc
    /\ forall j w q', nth_error vs j = Some w -> leaving_rate tg (map (fun _ => 0) vs) w q' -> (q * exp_draw g i <= q' * exp_draw g j)%Qc.
Proof.
  unfold ctbn_sample. intros H Hr. destruct fuel as [|fuel]; [discriminate|]. cbn [sample_loop] in H.
  pose proof (sinv_init tg cards NET) as S.
  destruct (step_ok tg cards NET g RNG t_end max_tr _ S) as [ds [k' [next [t [v [F1 [F2 [F3 [V [M1 [M2 [M3 Q]]]]]]]]]]]].
  destruct (stop_test t_end max_tr (sample_init tg) t).
  - rewrite Q in H. cbn [bind] in H. injection H as <-. discriminate.
  - destruct Q as [st' [x [y [E [S' [T [D [Nt [X1 [X2 [X3 X4]]]]]]]]]]]. rewrite E in H. cbn [bind] in H.
    destruct (loop_prefix t_end max_tr fuel st' rows S' H) as [rest Hp].
    assert (Ft : forall i w d, nth_error vs i = Some w -> nth_error ds i = Some d -> exists q, leaving_rate tg (map (fun _ => 0) vs) w q /\ d = (q * exp_draw g i)%Qc).
    { intros i w d Hw Hd. assert (Ho : nth_error (st_times (sample_init tg)) i = Some None) by (cbn; rewrite map_nth_error_iff, Hw; reflexivity).
      pose proof (F3 i w None d Hw Ho Hd) as [q [Hq Hd']]. exists q. split; [exact Hq|]. cbn [sample_init st_t st_ke st_times] in Hd'.
      rewrite undef_all in Hd' by (apply Nat.lt_le_incl, nth_error_Some; congruence). rewrite Hd'. cbn [Nat.add]. ring. }
    destruct (Ft next v t V M1) as [q [Hq Hqt]]. exists next, v, q. split; [exact V|]. split; [exact Hq|]. split.
    + assert (Er : nth_error (map fst rows) 1 = Some (fst r)) by (rewrite map_nth_error_iff, Hr; reflexivity).
      rewrite Hp in Er. unfold rows_of in Er. rewrite D in Er. cbn [sample_init st_done st_row app map nth_error] in Er. injection Er as <-.
      destruct S' as [_ [_ [_ [_ [S' _]]]]]. rewrite S', T, Hqt. reflexivity.
    + intros j w q' Hw Hq'. assert (Hj : j < length ds) by (rewrite F2; apply nth_error_Some; congruence).
      destruct (nth_error ds j) as [d|] eqn:Ed; [|apply nth_error_None in Ed; lia].
      destruct (Ft j w d Hw Ed) as [q'' [Hq'' ->]]. rewrite (leaving_rate_fun tg _ _ _ _ Hq' Hq''). rewrite <- Hqt. apply M2. eapply nth_error_In; eauto.
Qed.
End Net.

Lemma scale_vs_rate q e : (0 < q)%Qc -> ((q * e)%Qc = (e / q)%Qc <-> e = 0%Qc \/ q = 1%Qc).
Proof.
  intro Hq. pose proof (Qc_pos_neq q Hq) as Hn. split.
  - intro H. assert (K : (e * (q - 1) * (q + 1))%Qc = 0%Qc).
    { assert (A : (q * e * q)%Qc = e) by (rewrite H; apply Qcdiv_mult, Hn).
      replace (e * (q - 1) * (q + 1))%Qc with (q * e * q - e)%Qc by ring. rewrite A. ring. }
    apply Qcmult_integral in K as [K|K].
    + apply Qcmult_integral in K as [K|K]; [left; exact K|right; qclra].
    + exfalso. qclra.
  - intros [H0 | H0]; subst; field; [exact Hn|discriminate].
Qed.
