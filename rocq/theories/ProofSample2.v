From Coq Require Import Qround Lqa.
From Verif Require Import Base Lib ModelStructure ModelGraph ModelCims ModelGenerator ModelSample
  SpecStructure SpecGraph SpecComb SpecGenerator SpecSample ProofComb ProofParams ProofParams2 LibQc ProofGenerator ProofGenerator2 ProofSample.
Open Scope nat_scope.

Lemma chain_snoc {A} (R : A -> A -> Prop) l a b : chain R (l ++ [a]) -> R a b -> chain R ((l ++ [a]) ++ [b]).
Proof.
  induction l as [|x l IH]; intros H1 H2; [cbn; auto|].
  destruct l as [|y l]; cbn [app chain] in *; [tauto|]. destruct H1 as [H1 H3]. split; [exact H1|]. apply IH; assumption.
Qed.
Lemma chain_prefix {A} (R : A -> A -> Prop) l m : chain R (l ++ m) -> chain R l.
Proof.
  induction l as [|x l IH]; intro H; [exact I|]. destruct l as [|y l]; [exact I|].
  cbn [app chain] in *. destruct H as [H1 H2]. split; [exact H1|apply IH, H2].
Qed.

Definition zrow (r : Qc * list nat) : list Z := map Z.of_nat (snd r).
Definition rows_of (st : sstate) := st_done st ++ [st_row st].

Section Net.
Variables (tg : trajgen) (cards : list nat).
Hypothesis NET : sampling_net tg cards.
Variable g : rng.
Hypothesis RNG : rng_ok g.
Notation vs := (tg_vnames tg).
Notation sinv := (sinv tg cards).

Definition hinv (st : sstate) : Prop :=
  (forall r, In r (rows_of st) -> vals_ok cards (snd r))
  /\ chain one_change (map zrow (rows_of st))
  /\ chain Qcle (map fst (rows_of st))
  /\ nth_error (rows_of st) 0 = Some (0%Qc, map (fun _ => 0) cards).

Lemma const_map {A B C} (c : C) (l : list A) (m : list B) : length l = length m -> map (fun _ => c) l = map (fun _ => c) m.
Proof. revert m. induction l as [|a l IH]; intros [|b m] H; try discriminate; [reflexivity|]. cbn [map]. f_equal. apply IH. cbn in H. lia. Qed.

Lemma sinv_init : sinv (sample_init tg).
Proof.
  pose proof NET as [N [Nn [L [Pk A]]]].
  split; [|split; [cbn; apply map_length|split; [apply Qcle_refl|split; [|split; [symmetry; apply around4_0|reflexivity]]]]].
  - cbn. rewrite (const_map 0 vs cards) by lia.
    assert (P : forall c, In c cards -> 0 < c).
    { intros c Hc. apply In_nth_error in Hc as [i Hi]. destruct (nth_error vs i) as [v|] eqn:E.
      - apply (A v c). exists i. auto.
      - apply nth_error_None in E. rewrite <- L in E. apply nth_error_None in E. congruence. }
    clear -P. unfold vals_ok. induction cards as [|c cs IH]; cbn [map]; constructor; [apply P; left; reflexivity|].
    apply IH. intros d Hd. apply P. right; exact Hd.
  - cbn. intros i d H. rewrite map_nth_error_iff in H. destruct (nth_error vs i); discriminate.
Qed.
Lemma hinv_init : hinv (sample_init tg).
Proof.
  pose proof sinv_init as [S1 _]. pose proof NET as [N [Nn [L _]]]. unfold hinv, rows_of. cbn [sample_init st_done st_row app].
  split; [|split; [exact I|split; [exact I|]]].
  - intros r [<-|[]]. exact S1.
  - cbn. do 2 f_equal. apply const_map. lia.
Qed.

Lemma one_change_set xs next x y : nth_error xs next = Some x -> x <> y ->
  one_change (map Z.of_nat xs) (map Z.of_nat (set_at xs next y)).
Proof.
  intros H Hxy. split; [rewrite !map_length, set_at_length; reflexivity|].
  exists next, (Z.of_nat x), (Z.of_nat y). rewrite !map_nth_error_iff, nth_error_set_at, H.
  assert (Hl : next < length xs) by (apply nth_error_Some; congruence).
  rewrite Nat.eqb_refl. destruct (Nat.ltb_spec next (length xs)); [|lia]. cbn [andb option_map].
  split; [reflexivity|]. split; [reflexivity|]. split; [lia|].
  intros j Hj. rewrite !map_nth_error_iff, nth_error_set_at. destruct (Nat.eqb_spec next j); [congruence|reflexivity].
Qed.

Lemma hinv_step st st' next x y : sinv st -> sinv st' -> hinv st ->
  st_done st' = st_done st ++ [st_row st] -> nth_error (snd (st_row st)) next = Some x -> x <> y ->
  snd (st_row st') = set_at (snd (st_row st)) next y -> (st_t st <= st_t st')%Qc -> hinv st'.
Proof.
  intros S S' [H1 [H2 [H3 H4]]] D Hx Hxy Hs Ht. unfold hinv, rows_of in *. rewrite D. split; [|split; [|split]].
  - intros r Hr. apply in_app_or in Hr as [Hr|[<-|[]]]; [apply H1, Hr|]. apply S'.
  - rewrite map_app in *. cbn [map] in *. rewrite map_app. cbn [map]. apply chain_snoc; [exact H2|].
    unfold zrow. rewrite Hs. eapply one_change_set; eauto.
  - rewrite map_app in *. cbn [map] in *. rewrite map_app. cbn [map]. apply chain_snoc; [exact H3|].
    destruct S as [_ [_ [_ [_ [S _]]]]]. destruct S' as [_ [_ [_ [_ [S' _]]]]]. rewrite S, S'. apply around4_mono, Ht.
  - rewrite nth_error_app1; [exact H4|]. rewrite app_length. cbn [length]. lia.
Qed.

Lemma finish_shape st : sinv st -> hinv st -> trajectory_shape cards (finish st).
Proof.
  intros S [H1 [H2 [H3 H4]]]. unfold rows_of in *.
  exists (map (fun r => (fst r, map Z.of_nat (snd r))) (st_done st)), (fst (st_row st), map (fun _ => (-1)%Z) (snd (st_row st))).
  split; [reflexivity|]. split.
  { cbn [snd]. apply const_map. destruct S as [S _]. eapply Forall2_length; exact S. }
  split.
  { intros r Hr. apply in_map_iff in Hr as [r' [<- Hr]]. cbn [snd].
    assert (V : vals_ok cards (snd r')) by (apply H1, in_or_app; auto).
    clear -V. unfold vals_ok in V. induction V; cbn [map]; constructor; [lia|assumption]. }
  split.
  { rewrite map_map. cbn [snd]. rewrite map_app in H2. apply chain_prefix in H2. exact H2. }
  split.
  { unfold finish. rewrite map_app, map_map. cbn [map fst]. rewrite map_app in H3. exact H3. }
  split.
  - intros r Hr. unfold finish in Hr. destruct (st_done st) as [|r0 dn] eqn:E; cbn [map app nth_error] in *.
    + injection Hr as <-. injection H4 as H4. cbn [fst]. rewrite H4. reflexivity.
    + injection Hr as <-. injection H4 as H4. cbn [fst]. rewrite H4. reflexivity.
  - intros r Hr. destruct (st_done st) as [|r0 dn] eqn:E; cbn [map app nth_error] in *; [discriminate|].
    injection Hr as <-. injection H4 as H4. cbn [snd]. rewrite H4. cbn [snd]. rewrite map_map. reflexivity.
Qed.

Lemma finish_length st : sinv st -> length (finish st) = S (st_ntr st).
Proof. intros S. unfold finish. rewrite app_length, map_length. cbn [length]. destruct S as [_ [_ [_ [_ [_ S]]]]]. lia. Qed.

(** the loop never raises; what it returns is well shaped and has a row per transition plus one *)
Definition stopped (t_end : Qc) (max_tr : Z) (rows : list (Qc * list Z)) : Prop :=
  (max_tr <> (-1)%Z /\ Z.of_nat (length rows) = (max_tr + 1)%Z) \/ t_end <> (- (1))%Qc.

Lemma loop_ok t_end max_tr fuel : forall st, sinv st -> hinv st ->
  sample_loop fuel tg g t_end max_tr st = Err OutOfFuel
  \/ exists rows, sample_loop fuel tg g t_end max_tr st = Ok rows /\ trajectory_shape cards rows /\ stopped t_end max_tr rows.
Proof.
  induction fuel as [|fuel IH]; intros st S H; [left; reflexivity|]. cbn [sample_loop].
  destruct (step_ok tg cards NET g RNG t_end max_tr st S) as [ds [k' [next [t [v [F1 [F2 [F3 [V [M1 [M2 [M3 Q]]]]]]]]]]]].
  destruct (stop_test t_end max_tr st t) eqn:St.
  - rewrite Q. cbn [bind]. right. exists (finish st). split; [reflexivity|]. split; [apply finish_shape; assumption|].
    unfold stop_test in St. apply orb_true_iff in St as [St|St]; apply andb_true_iff in St as [A B].
    + left. apply negb_true_iff, Z.eqb_neq in A. apply Z.eqb_eq in B. split; [exact A|]. rewrite finish_length by exact S. lia.
    + right. apply negb_true_iff, Qc_eq_bool_false in A. exact A.
  - destruct Q as [st' [x [y [E [S' [T [D [Nt [X1 [X2 [X3 X4]]]]]]]]]]]. rewrite E. cbn [bind].
    apply IH; [exact S'|]. apply (hinv_step st st' next x y); auto; rewrite T; exact M3.
Qed.

Lemma loop_max_tr t_end n fuel : forall st, sinv st -> hinv st -> st_ntr st <= n -> n - st_ntr st < fuel ->
  exists rows, sample_loop fuel tg g t_end (Z.of_nat n) st = Ok rows /\ length rows <= S n
    /\ (t_end = (- (1))%Qc -> length rows = S n).
Proof.
  induction fuel as [|fuel IH]; intros st S H Hn Hf; [lia|]. cbn [sample_loop].
  destruct (step_ok tg cards NET g RNG t_end (Z.of_nat n) st S) as [ds [k' [next [t [v [F1 [F2 [F3 [V [M1 [M2 [M3 Q]]]]]]]]]]]].
  destruct (stop_test t_end (Z.of_nat n) st t) eqn:St.
  - rewrite Q. cbn [bind]. exists (finish st). rewrite finish_length by exact S. split; [reflexivity|]. split; [lia|].
    intros ->. unfold stop_test in St. rewrite (proj2 (Qc_eq_bool_iff _ _) eq_refl) in St. cbn [negb andb] in St.
    rewrite orb_false_r in St. apply andb_true_iff in St as [_ St]. apply Z.eqb_eq in St. lia.
  - destruct Q as [st' [x [y [E [S' [T [D [Nt [X1 [X2 [X3 X4]]]]]]]]]]]. rewrite E. cbn [bind].
    assert (Hlt : st_ntr st <> n).
    { intro E0. unfold stop_test in St. rewrite E0, Z.eqb_refl in St. destruct (Z.eqb_spec (Z.of_nat n) (-1)); [lia|]. discriminate. }
    apply IH; [exact S'|apply (hinv_step st st' next x y); auto; rewrite T; exact M3|lia|lia].
Qed.

Lemma loop_t_end t_end max_tr fuel : t_end <> (- (1))%Qc -> forall st rows, sinv st ->
  (forall r, In r (rows_of st) -> (fst r <= around4 t_end)%Qc) ->
  sample_loop fuel tg g t_end max_tr st = Ok rows -> forall r, In r rows -> (fst r <= around4 t_end)%Qc.
Proof.
  intro Ht. induction fuel as [|fuel IH]; intros st rows S B H; [discriminate|]. cbn [sample_loop] in H.
  destruct (step_ok tg cards NET g RNG t_end max_tr st S) as [ds [k' [next [t [v [F1 [F2 [F3 [V [M1 [M2 [M3 Q]]]]]]]]]]]].
  destruct (stop_test t_end max_tr st t) eqn:St.
  - rewrite Q in H. cbn [bind] in H. injection H as <-. intros r Hr. unfold finish in Hr.
    apply in_app_or in Hr as [Hr|[<-|[]]].
    + apply in_map_iff in Hr as [r' [<- Hr]]. cbn [fst]. apply B. apply in_or_app; auto.
    + cbn [fst]. apply B. apply in_or_app; right; left; reflexivity.
  - destruct Q as [st' [x [y [E [S' [T [D [Nt [X1 [X2 [X3 X4]]]]]]]]]]]. rewrite E in H. cbn [bind] in H.
    eapply IH; [exact S'| |exact H]. intros r Hr. unfold rows_of in Hr. rewrite D in Hr.
    apply in_app_or in Hr as [Hr|[<-|[]]]; [apply B, Hr|].
    destruct S' as [_ [_ [_ [_ [S' _]]]]]. rewrite S', T. apply around4_mono.
    unfold stop_test in St. apply orb_false_iff in St as [_ St]. rewrite (proj2 (Qc_eq_bool_false _ _) Ht) in St. cbn [negb andb] in St.
    apply qc_le_false in St. apply Qclt_le_weak, St.
Qed.
End Net.

(** without limits no call ever returns, for any network whatsoever *)
Lemma no_limit_step tg g t_end max_tr st rows : no_limits t_end max_tr -> sample_step tg g t_end max_tr st <> Ok (inr rows).
Proof.
  intros [-> Hm] H. unfold sample_step in H. apply bind_ok in H as [fl [_ H]]. apply bind_ok in H as [nt [_ H]].
  rewrite (proj2 (Qc_eq_bool_iff _ _) eq_refl) in H. cbn [negb andb] in H. rewrite orb_false_r in H.
  destruct (Z.eqb_spec (Z.of_nat (st_ntr st)) max_tr); [lia|]. rewrite andb_false_r in H.
  apply bind_ok in H as [v [_ H]]. apply bind_ok in H as [m [_ H]]. apply bind_ok in H as [x [_ H]]. apply bind_ok in H as [y [_ H]]. discriminate.
Qed.
Lemma no_limit_loop tg g t_end max_tr fuel : no_limits t_end max_tr -> forall st rows, sample_loop fuel tg g t_end max_tr st <> Ok rows.
Proof.
  intro Hl. induction fuel as [|fuel IH]; intros st rows H; [discriminate|]. cbn [sample_loop] in H.
  apply bind_ok in H as [[st'|rows'] [H1 H]]; [exact (IH _ _ H)|]. exact (no_limit_step _ _ _ _ _ _ Hl H1).
Qed.

(** the result does not depend on the fuel *)
Lemma fuel_mono tg g t_end max_tr : forall f f' st rows, f <= f' -> sample_loop f tg g t_end max_tr st = Ok rows -> sample_loop f' tg g t_end max_tr st = Ok rows.
Proof.
  induction f as [|f IH]; intros f' st rows Hf H; [discriminate|]. destruct f' as [|f']; [lia|]. cbn [sample_loop] in *.
  apply bind_ok in H as [r [H1 H]]. rewrite H1. cbn [bind]. destruct r as [st'|rows']; [|exact H]. apply IH; [lia|exact H].
Qed.
