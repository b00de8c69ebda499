(** The race semantics of sampling. *)
From Verif Require Import Base Lib LibQc ModelStructure ModelGraph ModelCims ModelGenerator ModelSample SpecComb SpecGenerator SpecSample
  ProofSample ProofSample2 ProofSample3.
Open Scope nat_scope.

Lemma argmin_first l : forall i t, argmin l = Ok (i, t) -> nth_error l i = Some t /\ (forall d, In d l -> (t <= d)%Qc)
  /\ forall j d, j < i -> nth_error l j = Some d -> (t < d)%Qc.
Proof.
  induction l as [|a l IH]; intros i t H; [discriminate|]. destruct l as [|b l].
  - cbn in H. injection H as <- <-. split; [reflexivity|]. split; [intros d [->|[]]; apply Qcle_refl|]. lia.
  - change (argmin (a :: b :: l)) with (let* p := argmin (b :: l) in if qc_le a (snd p) then Ok (0, a) else Ok (S (fst p), snd p)) in H.
    apply bind_ok in H as [[i' t'] [H1 H]]. cbn [fst snd] in H. destruct (IH _ _ H1) as [E1 [E2 E3]].
    destruct (qc_le a t') eqn:C; injection H as <- <-.
    + apply qc_le_iff in C. split; [reflexivity|]. split; [|lia]. intros d [->|Hd]; [apply Qcle_refl|]. eapply Qcle_trans; [exact C|apply E2, Hd].
    + apply qc_le_false in C. split; [exact E1|]. split; [intros d [->|Hd]; [apply Qclt_le_weak, C|apply E2, Hd]|].
      intros [|j] d Hj Hd; [injection Hd as <-; exact C|]. apply (E3 j); [lia|exact Hd].
Qed.

Lemma step_inl tg g t_end max_tr st st' : sample_step tg g t_end max_tr st = Ok (inl st') ->
  exists ds k' next t v m x row,
    fill_times tg g (snd (st_row st)) (st_t st) (tg_vnames tg) (st_times st) (st_ke st) = Ok (ds, k')
    /\ argmin ds = Ok (next, t) /\ nth_error (tg_vnames tg) next = Some v
    /\ select_cim tg (snd (st_row st)) v = Ok m /\ value_of (tg_vnames tg) (snd (st_row st)) v = Ok x
    /\ nth_error m x = Some row
    /\ st' = MkSstate (st_done st ++ [st_row st]) (around4 t, set_at (snd (st_row st)) next (pick g (st_kp st) (set_at row x 0%Qc)))
                      (reset_times tg v next ds) t (S (st_ntr st)) k' (S (st_kp st)).
Proof.
  unfold sample_step. intro H. apply bind_ok in H as [[ds k'] [H1 H]]. cbn [fst snd] in H. apply bind_ok in H as [[next t] [H2 H]]. cbn [fst snd] in H.
  destruct (_ || _); [discriminate|]. apply bind_ok in H as [v [H3 H]]. apply bind_ok in H as [m [H4 H]]. apply bind_ok in H as [x [H5 H]].
  apply bind_ok in H as [y [H6 H]]. injection H as <-. unfold next_value in H6. apply bind_ok in H6 as [row [H7 H6]].
  destruct (Qc_eq_bool _ _); [discriminate|]. destruct (forallb _ _); [|discriminate]. injection H6 as <-.
  exists ds, k', next, t, v, m, x, row. repeat split; try assumption; apply nth_res_ok; assumption.
Qed.

Lemma undef_le os i j : i <= j -> undef_before os i <= undef_before os j.
Proof.
  unfold undef_before. revert i j. induction os as [|o os IH]; intros i j H; [rewrite !firstn_nil; cbn; lia|].
  destruct i as [|i]; [cbn [firstn filter length]; lia|]. destruct j as [|j]; [lia|]. cbn [firstn filter].
  pose proof (IH i j ltac:(lia)). destruct o; cbn [length]; lia.
Qed.
Lemma undef_step os i : nth_error os i = Some None -> undef_before os (S i) = S (undef_before os i).
Proof.
  unfold undef_before. revert i. induction os as [|o os IH]; intros [|i] H; try discriminate.
  - injection H as ->. reflexivity.
  - cbn [nth_error] in H. specialize (IH i H). cbn [firstn filter] in *. destruct o; cbn [length]; rewrite IH; reflexivity.
Qed.
Lemma undef_lt os i j : nth_error os i = Some None -> i < j -> undef_before os i < undef_before os j.
Proof. intros H L. pose proof (undef_step os i H). pose proof (undef_le os (S i) j L). lia. Qed.
Lemma undef_inj os i j : nth_error os i = Some None -> nth_error os j = Some None -> undef_before os i = undef_before os j -> i = j.
Proof.
  intros H1 H2 E. destruct (Nat.lt_trichotomy i j) as [H|[H|H]]; [|exact H|].
  - pose proof (undef_lt os i j H1 H). lia.
  - pose proof (undef_lt os j i H2 H). lia.
Qed.

(** extending the history does not disturb what it says about earlier entries *)
Lemma changed_app hist e m j : m < length hist -> (changed_at (hist ++ [e]) m j <-> changed_at hist m j).
Proof.
  intro H. unfold changed_at. split; intros [k [a [b [E [H1 [H2 H3]]]]]]; exists k, a, b; (split; [exact E|]).
  - rewrite nth_error_app1 in H1 by lia. rewrite nth_error_app1 in H2 by lia. auto.
  - rewrite !nth_error_app1 by lia. auto.
Qed.
Lemma restarts_app tg hist e i m : m < length hist -> (restarts tg (hist ++ [e]) i m <-> restarts tg hist i m).
Proof.
  intro H. unfold restarts. split; (intros [->|[j [H1 H2]]]; [left; reflexivity|right; exists j; split; [|exact H2]]); apply (changed_app hist e m j H); exact H1.
Qed.
Lemma last_restart_app tg hist e i k s : k < length hist -> (last_restart tg (hist ++ [e]) i k s <-> last_restart tg hist i k s).
Proof.
  intro H. unfold last_restart. split; intros [H1 [H2 H3]]; (split; [exact H1|]).
  - split; [apply (restarts_app tg hist e); [lia|exact H2]|]. intros m Hm R. apply (H3 m Hm). apply restarts_app; [lia|exact R].
  - split; [apply restarts_app; [lia|exact H2]|]. intros m Hm R. apply (H3 m Hm). apply (restarts_app tg hist e) in R; [exact R|lia].
Qed.
Lemma scheduled_app tg g draw hist e i k d : k < length hist -> (scheduled tg g draw (hist ++ [e]) i k d <-> scheduled tg g draw hist i k d).
Proof.
  intro H. unfold scheduled. split; intros [s [t [xs [v [q [H1 [H2 H3]]]]]]]; exists s, t, xs, v, q;
    pose proof H1 as [Hs _]; (split; [apply (last_restart_app tg hist e i k s H); exact H1|]).
  - rewrite nth_error_app1 in H2 by lia. auto.
  - rewrite nth_error_app1 by lia. auto.
Qed.
Lemma last_restart_fun tg hist i k s s' : last_restart tg hist i k s -> last_restart tg hist i k s' -> s = s'.
Proof.
  intros [A1 [A2 A3]] [B1 [B2 B3]]. destruct (Nat.lt_trichotomy s s') as [H|[H|H]]; [|exact H|].
  - exfalso. apply (A3 s'); [lia|exact B2].
  - exfalso. apply (B3 s); [lia|exact A2].
Qed.

Section Net.
Variables (tg : trajgen) (cards : list nat).
Hypothesis NET : sampling_net tg cards.
Variable g : rng.
Hypothesis RNG : rng_ok g.
Notation vs := (tg_vnames tg).
Notation sinv := (sinv tg cards).

Lemma scheduled_fun draw hist i k d d' : scheduled tg g draw hist i k d -> scheduled tg g draw hist i k d' -> d = d'.
Proof.
  intros [s [t [xs [v [q [A1 [A2 [A3 [A4 ->]]]]]]]]] [s' [t' [xs' [v' [q' [B1 [B2 [B3 [B4 ->]]]]]]]]].
  pose proof (last_restart_fun _ _ _ _ _ _ A1 B1) as <-. rewrite A2 in B2. injection B2 as <- <-. rewrite A3 in B3. injection B3 as <-.
  rewrite (leaving_rate_fun tg _ _ _ _ A4 B4). reflexivity.
Qed.

(** the loop state [st] represents the history [hist] *)
Definition rinv (draw : nat -> nat -> nat) (hist : list (Qc * list nat)) (st : sstate) : Prop :=
  follows_race tg g draw hist
  /\ hist <> [] /\ st_kp st = length hist - 1
  /\ (exists before, hist = before ++ [(st_t st, snd (st_row st))]
      /\ st_done st = map (fun e => (around4 (fst e), snd e)) before)
  /\ (forall i, i < length vs -> nth_error (st_times st) i = Some None -> restarts tg hist i (length hist - 1))
  /\ (forall i d, nth_error (st_times st) i = Some (Some d) -> ~ restarts tg hist i (length hist - 1) /\ scheduled tg g draw hist i (length hist - 1) d)
  /\ (forall i s, i < length vs -> S s < length hist -> restarts tg hist i s -> draw s i < st_ke st).

Lemma rinv_init : rinv (fun _ _ => 0) [(0%Qc, map (fun _ => 0) vs)] (sample_init tg).
Proof.
  split; [|split; [discriminate|split; [reflexivity|split; [exists []; split; reflexivity|split; [intros; left; reflexivity|split]]]]].
  - split; [reflexivity|]. split.
    + intros k t xs t' xs' _ H. destruct k; discriminate.
    + cbn [length]. lia.
  - cbn. intros i d H. rewrite map_nth_error_iff in H. destruct (nth_error vs i); discriminate.
  - cbn [length]. lia.
Qed.

Lemma parents_nth i v : nth_error vs i = Some v -> exists ps, nth_error (tg_parents tg) i = Some (v, ps) /\ dict_get (tg_parents tg) v = Ok ps.
Proof.
  pose proof NET as [N [_ [_ [P _]]]]. intro H. rewrite <- P in H. rewrite map_nth_error_iff in H.
  destruct (nth_error (tg_parents tg) i) as [[w ps]|] eqn:E; [|discriminate]. cbn in H. injection H as ->. exists ps. split; [reflexivity|].
  rewrite <- P in N. clear -N E. revert i E. induction (tg_parents tg) as [|[w qs] d IH]; intros i E; [destruct i; discriminate|].
  cbn [map fst] in N. apply NoDup_cons_iff in N as [N1 N2]. cbn [dict_get]. destruct i as [|i]; cbn [nth_error] in E.
  - injection E as -> ->. rewrite String.eqb_refl. reflexivity.
  - destruct (String.eqb_spec w v) as [->|]; [|eapply IH; eauto]. exfalso. apply N1. apply nth_error_In in E. apply (in_map fst) in E. exact E.
Qed.

Lemma set_at_changes (xs : list nat) next x y j : nth_error xs next = Some x -> x <> y -> (nth_error xs j <> nth_error (set_at xs next y) j <-> j = next).
Proof.
  intros H Hn. rewrite nth_error_set_at, (Nat.eqb_sym next j). destruct (Nat.eqb_spec j next) as [->|Hj].
  - assert (Hl : next < length xs) by (apply nth_error_Some; congruence). destruct (Nat.ltb_spec next (length xs)); [|lia]. cbn [andb].
    split; [reflexivity|]. intros _ E. rewrite H in E. injection E. exact Hn.
  - cbn [andb]. split; [congruence|contradiction].
Qed.

(** the new entry restarts exactly the variables whose time is reset *)
Lemma reset_iff hist t xs t' next v x y ds i : hist <> [] -> (exists before, hist = before ++ [(t, xs)]) ->
  nth_error vs next = Some v -> nth_error xs next = Some x -> x <> y -> length ds = length vs -> i < length vs ->
  (nth_error (reset_times tg v next ds) i = Some None <-> restarts tg (hist ++ [(t', set_at xs next y)]) i (length hist))
  /\ (nth_error (reset_times tg v next ds) i <> Some None -> nth_error (reset_times tg v next ds) i = option_map Some (nth_error ds i)).
Proof.
  intros Hne [before Hb] Hv Hx Hxy Hl Hi.
  destruct (nth_error vs i) as [vi|] eqn:Evi; [|apply nth_error_None in Evi; lia].
  destruct (parents_nth i vi Evi) as [ps [P1 P2]].
  destruct (nth_error ds i) as [d|] eqn:Ed; [|apply nth_error_None in Ed; lia].
  unfold reset_times. rewrite nth_error_mapi, Ed. cbn [option_map]. rewrite P1.
  assert (CH : forall j, changed_at (hist ++ [(t', set_at xs next y)]) (length hist) j <-> j = next).
  { intro j. rewrite <- (set_at_changes xs next x y j Hx Hxy). rewrite Hb, app_length. cbn [length]. rewrite Nat.add_1_r. unfold changed_at. split.
    - intros [k [a [b [Ek [H1 [H2 H3]]]]]]. injection Ek as <-. rewrite <- app_assoc in H1, H2. cbn [app] in H1, H2.
      rewrite nth_error_app2 in H1 by lia. rewrite Nat.sub_diag in H1. rewrite nth_error_app2 in H2 by lia.
      replace (S (length before) - length before) with 1 in H2 by lia. cbn in H1, H2. injection H1 as <-. injection H2 as <-. exact H3.
    - intro H. exists (length before), (t, xs), (t', set_at xs next y). split; [reflexivity|]. rewrite <- app_assoc. cbn [app].
      rewrite nth_error_app2 by lia. rewrite Nat.sub_diag. rewrite nth_error_app2 by lia.
      replace (S (length before) - length before) with 1 by lia. cbn. auto. }
  assert (B : ((i =? next) || lmem v ps = true) <-> restarts tg (hist ++ [(t', set_at xs next y)]) i (length hist)).
  { rewrite orb_true_iff, Nat.eqb_eq, lmem_In. split.
    - intros [->|Hp]; right; exists next; (split; [apply CH; reflexivity|]); [left; reflexivity|].
      right. exists vi, v, ps. auto.
    - intros [H|[j [H1 H2]]]; [destruct hist; [congruence|discriminate]|]. apply CH in H1. subst j. destruct H2 as [->|[v' [w [ps' [A1 [A2 [A3 A4]]]]]]]; [left; reflexivity|].
      right. rewrite Evi in A1. injection A1 as <-. rewrite Hv in A2. injection A2 as <-. rewrite P2 in A3. injection A3 as <-. exact A4. }
  destruct ((i =? next) || lmem v ps) eqn:Eb; split.
  - split; [intros _; apply B; reflexivity|reflexivity].
  - intro H. exfalso. apply H. reflexivity.
  - split; [discriminate|]. intro H. apply B in H. discriminate.
  - reflexivity.
Qed.

Lemma rinv_step t_end max_tr st st' draw hist : sinv st -> rinv draw hist st -> sample_step tg g t_end max_tr st = Ok (inl st') ->
  exists draw' e, rinv draw' (hist ++ [e]) st'.
Proof.
  intros SI [RA [Hne [Hkp [[before [Hb Hd]] [HN [HS HK]]]]]] HST.
  destruct (step_inl _ _ _ _ _ _ HST) as [ds [k' [next [t [v [m [x [row [F [A [V [Sel [X [Row ->]]]]]]]]]]]]]].
  set (xs := snd (st_row st)) in *. set (os := st_times st) in *. set (k := length hist - 1) in *.
  destruct SI as [SI1 [SI2 [SI3 [SI4 [SI5 SI6]]]]]. fold xs in SI1. fold os in SI2, SI4.
  destruct (fill_ok tg cards NET g xs (st_t st) SI1 vs os (st_ke st) (incl_refl _) SI2) as [ds' [F' [Fl Fe]]].
  rewrite F in F'. injection F' as <- ->.
  destruct (argmin_first _ _ _ A) as [A1 [A2 A3]].
  assert (Hk : S k = length hist) by (unfold k; destruct hist; [congruence|cbn [length]; lia]).
  assert (Hbk : length before = k) by (unfold k; rewrite Hb, app_length; cbn [length]; lia).
  assert (Hlast : nth_error hist k = Some (st_t st, xs)) by (rewrite Hb, nth_error_app2 by lia; rewrite <- Hbk, Nat.sub_diag; reflexivity).
  (* the new assignment of draws *)
  set (draw' := fun s i => if s =? k then match nth_error os i with Some None => st_ke st + undef_before os i | _ => draw s i end else draw s i).
  assert (DS : forall s i, s <> k -> draw' s i = draw s i) by (intros s i Hs; unfold draw'; destruct (Nat.eqb_spec s k); [contradiction|reflexivity]).
  assert (Sch_old : forall i k0 d, k0 < k -> (scheduled tg g draw' hist i k0 d <-> scheduled tg g draw hist i k0 d)).
  { intros i k0 d Hk0. unfold scheduled. split; intros [s [t0 [xs0 [v0 [q0 [B1 [B2 [B3 [B4 B5]]]]]]]]]; exists s, t0, xs0, v0, q0;
      (split; [exact B1|]; split; [exact B2|]; split; [exact B3|]; split; [exact B4|]); destruct B1 as [B1 _].
    - rewrite <- DS; [exact B5|]. lia.
    - rewrite DS; [exact B5|]. lia. }
  (* at entry k every variable is scheduled at the filled time *)
  assert (SF : forall i d, nth_error ds i = Some d -> scheduled tg g draw' hist i k d).
  { intros i d Hd'. assert (Hi : i < length vs) by (rewrite <- Fl; apply nth_error_Some; congruence).
    destruct (nth_error vs i) as [vi|] eqn:Ev; [|apply nth_error_None in Ev; lia].
    destruct (nth_error os i) as [o|] eqn:Eo; [|apply nth_error_None in Eo; lia].
    pose proof (Fe i vi o d Ev Eo Hd') as Fi. destruct o as [d0|]; cbn [filled_entry] in Fi.
    - subst d0. destruct (HS i d Eo) as [NR [s [t0 [xs0 [v0 [q0 [B1 [B2 [B3 [B4 B5]]]]]]]]]].
      exists s, t0, xs0, v0, q0. split; [exact B1|]. split; [exact B2|]. split; [exact B3|]. split; [exact B4|]. rewrite DS; [exact B5|]. intro Es. apply NR. rewrite <- Es. apply B1.
    - destruct Fi as [q [Hq ->]]. exists k, (st_t st), xs, vi, q. split.
      + split; [lia|]. split; [apply HN; assumption|]. intros m0 Hm. lia.
      + split; [exact Hlast|]. split; [exact Ev|]. split; [exact Hq|]. unfold draw'. rewrite Nat.eqb_refl, Eo. reflexivity. }
  set (y := pick g (st_kp st) (set_at row x 0%Qc)) in *.
  set (e := (t, set_at xs next y)).
  exists draw', e.
  assert (Hx : nth_error xs next = Some x).
  { pose proof (net_ND tg cards NET) as N. pose proof (net_len tg cards NET) as NL.
    destruct (card_of tg cards NET v (nth_error_In _ _ V)) as [c Hc].
    destruct (value_of_ok vs cards xs v c N NL SI1 Hc) as [x' [i [E1 [_ [E2 E3]]]]]. rewrite X in E1. injection E1 as <-.
    assert (i = next) by (eapply NoDup_nth_error; [exact N|apply nth_error_Some; congruence|congruence]). subst i. exact E3. }
  assert (Hxy : x <> y).
  { destruct (card_of tg cards NET v (nth_error_In _ _ V)) as [c Hc].
    destruct (select_ok tg cards NET xs v c SI1 Hc) as [m' [E1 U]]. rewrite Sel in E1. injection E1 as <-.
    assert (Hxc : x < c).
    { destruct (value_of_ok vs cards xs v c (net_ND tg cards NET) (net_len tg cards NET) SI1 Hc) as [x' [i [E1 [E2 _]]]].
      rewrite X in E1. injection E1 as <-. exact E2. }
    destruct (next_value_ok g RNG c m x (st_kp st) U Hxc) as [y' [E1 [_ E2]]]. unfold next_value in E1.
    rewrite (proj2 (nth_res_ok _ _ _) Row) in E1. cbn [bind] in E1. destruct (Qc_eq_bool _ _); [discriminate|]. destruct (forallb _ _); [|discriminate].
    injection E1 as E1. unfold y. congruence. }
  assert (RI : forall i, i < length vs ->
     (nth_error (reset_times tg v next ds) i = Some None <-> restarts tg (hist ++ [e]) i (length hist))
     /\ (nth_error (reset_times tg v next ds) i <> Some None -> nth_error (reset_times tg v next ds) i = option_map Some (nth_error ds i))).
  { intros i Hi. apply (reset_iff hist (st_t st) xs t next v x y ds i); try assumption. exists before. exact Hb. }
  destruct RA as [RA1 [RA2 RA3]].
  unfold rinv. cbn [st_kp st_t st_row st_done st_times st_ke snd]. rewrite app_length. cbn [length]. rewrite Nat.add_1_r. cbn [Nat.sub]. rewrite Nat.sub_0_r.
  split; [|split; [intro H; apply app_eq_nil in H as [_ H]; discriminate|split; [lia|split]]].
  - split; [rewrite nth_error_app1; [exact RA1|lia]|]. split.
    + intros k0 t0 xs0 t1 xs1 H0 H1.
      destruct (Nat.lt_ge_cases (S k0) (length hist)) as [Hlt|Hge].
      * rewrite nth_error_app1 in H0 by lia. rewrite nth_error_app1 in H1 by lia.
        destruct (RA2 k0 t0 xs0 t1 xs1 H0 H1) as [i [v0 [m0 [x0 [row0 [B1 [B2 [B3 [B4 B5]]]]]]]]].
        exists i, v0, m0, x0, row0. split; [exact B1|]. split; [exact B2|]. split; [|split; [|exact B5]].
        -- apply scheduled_app; [lia|]. apply Sch_old; [lia|exact B3].
        -- intros j d H. apply (proj1 (scheduled_app tg g draw' hist e j k0 d ltac:(lia))) in H. apply (proj1 (Sch_old j k0 d ltac:(lia))) in H. exact (B4 j d H).
      * assert (Hk0 : S k0 = length hist) by (assert (S k0 < length (hist ++ [e])) by (apply nth_error_Some; congruence); rewrite app_length in *; cbn [length] in *; lia).
        assert (Ek0 : k0 = k) by lia. subst k0. rewrite nth_error_app1 in H0 by lia. rewrite Hlast in H0. injection H0 as <- <-.
        rewrite nth_error_app2 in H1 by lia. rewrite Hk, Nat.sub_diag in H1. cbn in H1. injection H1 as <- <-.
        exists next, v, m, x, row. split; [exact V|]. split; [exact Hx|]. split; [apply scheduled_app; [lia|apply SF, A1]|]. split.
        -- intros j d H. apply (proj1 (scheduled_app tg g draw' hist e j k d ltac:(lia))) in H. pose proof H as [s0 [t0 [xs0 [v0 [q0 [_ [_ [Hj _]]]]]]]].
           destruct (nth_error ds j) as [d'|] eqn:Edj; [|apply nth_error_None in Edj; assert (j < length vs) by (apply nth_error_Some; congruence); lia].
           rewrite (scheduled_fun _ _ _ _ _ _ H (SF j d' Edj)). split; [apply A2; eapply nth_error_In; eauto|]. intro Hlt. eapply A3; eauto.
        -- split; [exact Sel|]. split; [exact Row|]. unfold y. rewrite Hkp. reflexivity.
    + intros i s i' s' Hi Hi' Hs Hs' R R' E.
      rewrite app_length in Hs, Hs'. cbn [length] in Hs, Hs'.
      apply (proj1 (restarts_app tg hist e i s ltac:(lia))) in R. apply (proj1 (restarts_app tg hist e i' s' ltac:(lia))) in R'.
      assert (DK : forall i, i < length vs -> restarts tg hist i k -> nth_error os i = Some None).
      { intros i0 Hi0 R0. destruct (nth_error os i0) as [[d0|]|] eqn:Eo; [|reflexivity|apply nth_error_None in Eo; lia].
        exfalso. apply (proj1 (HS i0 d0 Eo)). exact R0. }
      destruct (Nat.eq_dec s k) as [->|N1]; destruct (Nat.eq_dec s' k) as [->|N2].
      * pose proof (DK i Hi R) as O1. pose proof (DK i' Hi' R') as O2. unfold draw' in E. rewrite Nat.eqb_refl, O1, O2 in E.
        split; [|reflexivity]. eapply undef_inj; eauto. lia.
      * pose proof (DK i Hi R) as O1. rewrite (DS s' i' N2) in E. unfold draw' in E. rewrite Nat.eqb_refl, O1 in E.
        pose proof (HK i' s' Hi' ltac:(lia) R'). lia.
      * pose proof (DK i' Hi' R') as O1. rewrite (DS s i N1) in E. unfold draw' in E. rewrite Nat.eqb_refl, O1 in E.
        pose proof (HK i s Hi ltac:(lia) R). lia.
      * rewrite !DS in E by assumption. apply (RA3 i s i' s'); try assumption; lia.
  - exists hist. split; [reflexivity|]. rewrite Hd, Hb, map_app. cbn [map fst snd]. f_equal. rewrite (surjective_pairing (st_row st)), SI5. reflexivity.
  - split; [|split].
    + intros i Hi H. apply (RI i Hi), H.
    + intros i d H. assert (Hi : i < length vs).
      { rewrite <- Fl. assert (L : length (reset_times tg v next ds) = length ds) by (unfold reset_times; apply mapi_length). rewrite <- L. apply nth_error_Some. congruence. }
      destruct (RI i Hi) as [I1 I2].
      assert (NR : ~ restarts tg (hist ++ [e]) i (length hist)) by (intro R; apply I1 in R; congruence).
      rewrite I2 in H by congruence.
      destruct (nth_error ds i) as [d'|] eqn:Ed; [|discriminate]. cbn in H. injection H as ->.
      split; [exact NR|]. destruct (SF i d Ed) as [s [t0 [xs0 [v0 [q0 [B1 [B2 B3]]]]]]].
      exists s, t0, xs0, v0, q0. split.
      * apply (proj2 (last_restart_app tg hist e i k s ltac:(lia))) in B1. destruct B1 as [C1 [C2 C3]]. split; [lia|]. split; [exact C2|].
        intros m0 Hm R. destruct (Nat.eq_dec m0 (length hist)) as [->|Hne']; [exact (NR R)|]. apply (C3 m0); [lia|exact R].
      * split; [|exact B3]. rewrite nth_error_app1; [exact B2|]. apply nth_error_Some. congruence.
    + intros i s Hi Hs R. apply (proj1 (restarts_app tg hist e i s ltac:(lia))) in R. destruct (Nat.eq_dec s k) as [->|N1].
      * assert (O : nth_error os i = Some None).
        { destruct (nth_error os i) as [[d0|]|] eqn:Eo; [|reflexivity|apply nth_error_None in Eo; lia]. exfalso. apply (proj1 (HS i d0 Eo)). exact R. }
        unfold draw'. rewrite Nat.eqb_refl, O. pose proof (undef_lt os i (length os) O ltac:(lia)). lia.
      * rewrite DS by exact N1. pose proof (HK i s Hi ltac:(lia) R). lia.
Qed.

Lemma finish_shown draw hist st : sinv st -> rinv draw hist st -> shown hist (finish st).
Proof.
  intros [_ [_ [_ [_ [S5 _]]]]] [_ [_ [_ [[before [Hb Hd]] _]]]]. exists before, (st_t st, snd (st_row st)). split; [exact Hb|].
  unfold finish. rewrite Hd, map_map, S5. reflexivity.
Qed.
Lemma race_loop t_end max_tr fuel : forall st draw hist rows, sinv st -> rinv draw hist st ->
  sample_loop fuel tg g t_end max_tr st = Ok rows ->
  exists draw' hist', follows_race tg g draw' hist' /\ shown hist' rows.
Proof.
  induction fuel as [|fuel IH]; intros st draw hist rows SI R H; [discriminate|]. cbn [sample_loop] in H.
  destruct (step_ok tg cards NET g RNG t_end max_tr st SI) as [ds [k' [next [t [v [F1 [F2 [F3 [V [M1 [M2 [M3 Q]]]]]]]]]]]].
  destruct (stop_test t_end max_tr st t).
  - rewrite Q in H. cbn [bind] in H. injection H as <-. exists draw, hist. split; [apply R|eapply finish_shown; eauto].
  - destruct Q as [st' [x [y [E [S' _]]]]]. destruct (rinv_step t_end max_tr st st' draw hist SI R E) as [draw' [e R']].
    rewrite E in H. cbn [bind] in H. exact (IH st' draw' _ rows S' R' H).
Qed.
Lemma race t_end max_tr fuel rows : ctbn_sample fuel tg g t_end max_tr = Ok rows ->
  exists draw hist, follows_race tg g draw hist /\ shown hist rows.
Proof. intro H. eapply race_loop; [apply sinv_init, NET|apply rinv_init|exact H]. Qed.
End Net.
