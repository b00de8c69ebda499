From Coq Require Import Qround Lqa.
From Verif Require Import Base Lib ModelStructure ModelGraph ModelCims ModelGenerator ModelSample
  SpecStructure SpecGraph SpecComb SpecGenerator SpecSample ProofComb ProofParams ProofParams2 LibQc ProofGenerator ProofGenerator2.
Open Scope nat_scope.

Definition vals_ok (cards : list nat) (xs : list nat) : Prop := Forall2 (fun x c => x < c) xs cards.

Lemma value_of_ok vs : forall cards xs v c, NoDup vs -> length cards = length vs -> vals_ok cards xs -> card_in vs cards v c ->
  exists x i, value_of vs xs v = Ok x /\ x < c /\ nth_error vs i = Some v /\ nth_error xs i = Some x.
Proof.
  intros cards xs v c N L H [i [H1 H2]].
  destruct (Forall2_nth_error_r _ _ _ H i c H2) as [x [Hx Hlt]].
  exists x, i. split; [|auto]. clear -N H1 Hx. revert i xs H1 Hx.
  induction vs as [|a vs IH]; intros [|i] [|x' xs] H1 Hx; try discriminate.
  - cbn in H1, Hx. injection H1 as ->. injection Hx as ->. cbn [value_of]. rewrite String.eqb_refl. reflexivity.
  - cbn [nth_error] in H1, Hx. apply NoDup_cons_iff in N as [N1 N2]. cbn [value_of].
    destruct (String.eqb_spec a v) as [->|]; [|apply (IH N2 i); assumption].
    exfalso. apply N1. eapply nth_error_In; eauto.
Qed.

Lemma parents_values vs cards xs : NoDup vs -> length cards = length vs -> vals_ok cards xs ->
  forall ps pcs, Forall2 (card_in vs cards) ps pcs -> exists u, res_map (value_of vs xs) ps = Ok u /\ config_ok pcs u.
Proof.
  intros N L H ps pcs F. induction F as [|p c ps pcs Hp _ [u [E1 E2]]].
  - exists []. split; [reflexivity|constructor].
  - destruct (value_of_ok vs cards xs p c N L H Hp) as [x [i [E3 [E4 _]]]].
    exists (x :: u). cbn [res_map]. rewrite E3. cbn [bind]. rewrite E1. split; [reflexivity|constructor; assumption].
Qed.

Lemma all_true_mask {A B} (ps : list A) (row : list B) : length row <= length ps -> mask_row (map (fun _ => true) ps) row = row.
Proof.
  unfold mask_row. revert row. induction ps as [|p ps IH]; intros [|r row] H; try reflexivity; cbn [length] in H; try lia.
  cbn [map combine filter fst snd]. f_equal. apply IH. lia.
Qed.
Lemma agrees_true_iff {A} (ps : list A) row comb : length row = length ps ->
  (agrees_on (map (fun _ => true) ps) row comb = true <-> row = comb).
Proof.
  intro H. rewrite <- agrees_mask, all_true_mask by lia. apply nat_list_eqb_eq.
Qed.

Lemma nth_error_hd {A} (l : list A) : l <> [] -> exists x, nth_error l 0 = Some x /\ In x l.
Proof. destruct l; [congruence|]. intros _. eexists. split; [reflexivity|left; reflexivity]. Qed.

Lemma config_singletons c p_combs : (forall u, config_ok [c] u -> In u p_combs) -> c <= length p_combs.
Proof.
  intro H. assert (I : incl (map (fun x => [x]) (seq 0 c)) p_combs).
  { intros u Hu. apply in_map_iff in Hu as [x [<- Hx]]. apply in_seq in Hx. apply H. constructor; [lia|constructor]. }
  apply NoDup_incl_length in I; [rewrite map_length, seq_length in I; exact I|].
  apply FinFun.Injective_map_NoDup; [intros a b E; congruence|apply seq_NoDup].
Qed.

Section Net.
Variables (tg : trajgen) (cards : list nat).
Hypothesis NET : sampling_net tg cards.
Notation vs := (tg_vnames tg).

Lemma net_ND : NoDup vs. Proof. apply NET. Qed.
Lemma net_len : length cards = length vs. Proof. apply NET. Qed.

Lemma card_of v : In v vs -> exists c, card_in vs cards v c.
Proof.
  intro H. apply In_nth_error in H as [i Hi].
  destruct (nth_error cards i) as [c|] eqn:E; [exists c, i; auto|].
  apply nth_error_None in E. rewrite net_len in E. apply nth_error_None in E. congruence.
Qed.

Lemma select_ok xs v c : vals_ok cards xs -> card_in vs cards v c ->
  exists m, select_cim tg xs v = Ok m /\ usable_matrix c m.
Proof.
  intros H Hv. destruct NET as [N [_ [L [_ A]]]]. destruct (A v c Hv) as [_ [ps [pcs [so [E1 [E2 [E3 [E4 [E5 E6]]]]]]]]].
  unfold select_cim. rewrite E1, E3. cbn [bind].
  destruct (parents_values vs cards xs N L H ps pcs E2) as [u [Hu Hu2]]. rewrite Hu. cbn [bind].
  rewrite filter_cims_spec by lia. cbn [bind]. rewrite map_length.
  pose proof (Forall2_length _ _ _ E2) as Lp.
  assert (Lu : length u = length pcs) by (eapply Forall2_length; exact Hu2).
  destruct (Nat.eqb_spec (length ps) 1) as [One|NotOne].
  - rewrite One. cbn [Nat.leb].
    destruct pcs as [|c1 [|]]; cbn [length] in *; try lia.
    inversion Hu2 as [|x y u' ? Hlt Hnil E E']; subst. inversion Hnil; subst. cbn [nth_res nth_error bind].
    pose proof (config_singletons c1 _ E5) as K.
    destruct (nth_res_lt (so_actual_cims so) x ltac:(lia)) as [m Hm]. exists m. split; [exact Hm|].
    apply E6. apply nth_res_ok in Hm. eapply nth_error_In; eauto.
  - assert (Ne : exists m, nth_res (if length ps <=? 1 then so_actual_cims so
        else map snd (filter (fun rc => agrees_on (map (fun _ => true) ps) (fst rc) u) (combine (so_p_combs so) (so_actual_cims so)))) 0 = Ok m
        /\ In m (so_actual_cims so)).
    { pose proof (E5 u Hu2) as Hin. apply In_nth_error in Hin as [k Hk].
      assert (Hk2 : k < length (so_actual_cims so)) by (rewrite <- E4; apply nth_error_Some; congruence).
      destruct (Nat.leb_spec (length ps) 1) as [Le|Gt].
      - destruct (nth_error_hd (so_actual_cims so)) as [m [Hm Hm2]]; [intro E; rewrite E in Hk2; cbn in Hk2; lia|].
        exists m. split; [apply nth_res_ok, Hm|exact Hm2].
      - destruct (nth_error (so_actual_cims so) k) as [m|] eqn:Em; [|apply nth_error_None in Em; lia].
        match goal with |- exists _, nth_res ?l 0 = _ /\ _ => set (L' := l) end.
        assert (Hm : In m L').
        { unfold L'. apply in_map_iff. exists (u, m). split; [reflexivity|]. apply filter_In. split.
          - apply nth_error_In with k. clear -Hk Em. revert k Hk Em. generalize (so_p_combs so), (so_actual_cims so).
            intros a b k. revert a b. induction k as [|k IH]; intros [|x a] [|y b] H1 H2; try discriminate; cbn in *.
            + congruence.
            + apply IH; assumption.
          - cbn [fst]. apply agrees_true_iff; [lia|reflexivity]. }
        destruct (nth_error_hd L') as [m' [Hm' Hm2]]; [intro E; rewrite E in Hm; exact Hm|].
        exists m'. split; [apply nth_res_ok, Hm'|]. unfold L' in Hm2. apply in_map_iff in Hm2 as [[r m''] [E Hf]].
        cbn [snd] in E. subst m''. apply filter_In in Hf as [Hf _]. eapply in_combine_r; eauto. }
    destruct Ne as [m [Hm Hm2]]. exists m. split; [exact Hm|apply E6, Hm2].
Qed.

Lemma leaving_rate_ok xs v : vals_ok cards xs -> In v vs -> exists q, leaving_rate tg xs v q /\ (0 <= q)%Qc.
Proof.
  intros H Hv. destruct (card_of v Hv) as [c Hc].
  destruct (select_ok xs v c H Hc) as [m [E1 [E2 E3]]].
  destruct (value_of_ok vs cards xs v c net_ND net_len H Hc) as [x [i [V1 [V2 _]]]].
  destruct (nth_error m x) as [row|] eqn:Er; [|apply nth_error_None in Er; lia].
  destruct (E3 x row Er) as [_ [[d [D1 D2]] _]].
  exists (- d)%Qc. split; [|qclra]. exists m, x, d. split; [exact E1|]. split; [exact V1|]. split; [|reflexivity].
  unfold mat_get. rewrite (proj2 (nth_res_ok _ _ _) Er). cbn [bind]. apply nth_res_ok, D1.
Qed.
Lemma leaving_rate_fun xs v q q' : leaving_rate tg xs v q -> leaving_rate tg xs v q' -> q = q'.
Proof.
  intros [m [x [d [A [B [C D]]]]]] [m' [x' [d' [A' [B' [C' D']]]]]].
  rewrite A in A'. injection A' as <-. rewrite B in B'. injection B' as <-. rewrite C in C'. injection C' as <-. congruence.
Qed.

Variable g : rng.
Hypothesis RNG : rng_ok g.

(** the times array after filling: entry i is unchanged when defined, otherwise clock + rate * draw, with a
    draw of its own *)
Definition filled_entry (xs : list nat) (t : Qc) (k : nat) (v : label) (o : option Qc) (d : Qc) : Prop :=
  match o with
  | Some d' => d = d'
  | None => exists q, leaving_rate tg xs v q /\ d = (t + q * exp_draw g k)%Qc
  end.
Lemma fill_ok xs t : vals_ok cards xs -> forall ws os k, incl ws vs -> length os = length ws ->
  exists ds, fill_times tg g xs t ws os k = Ok (ds, k + undef_before os (length os)) /\ length ds = length ws
    /\ forall i v o d, nth_error ws i = Some v -> nth_error os i = Some o -> nth_error ds i = Some d ->
         filled_entry xs t (k + undef_before os i) v o d.
Proof.
  intros H. induction ws as [|v ws IH]; intros os k I L.
  - destruct os; [|discriminate]. exists []. split; [cbn; rewrite Nat.add_0_r; reflexivity|]. split; [reflexivity|]. intros [|i]; discriminate.
  - destruct os as [|o os]; cbn [length] in L; [lia|].
    assert (I' : incl ws vs) by (intros a Ha; apply I; right; exact Ha).
    destruct o as [d|]; cbn [fill_times].
    + destruct (IH os k I' ltac:(lia)) as [ds [E1 [E2 E3]]]. rewrite E1. cbn [bind fst snd].
      exists (d :: ds). split; [reflexivity|]. split; [cbn [length]; lia|].
      intros [|i] v' o' d' A B C; cbn [nth_error] in *; [|exact (E3 i v' o' d' A B C)].
      injection B as <-. injection C as <-. reflexivity.
    + destruct (leaving_rate_ok xs v H (I v (or_introl eq_refl))) as [q [[m [x [d [A1 [A2 [A3 A4]]]]]] Hq]].
      rewrite A1. cbn [bind]. rewrite A2. cbn [bind]. rewrite A3. cbn [bind]. rewrite <- A4.
      rewrite (proj2 (qc_le_iff 0 q) Hq).
      destruct (IH os (S k) I' ltac:(lia)) as [ds [E1 [E2 E3]]]. rewrite E1. cbn [bind fst snd].
      eexists. split; [cbn [length]; change (undef_before (None :: os) (S (length os))) with (S (undef_before os (length os)));
        rewrite Nat.add_succ_r; reflexivity|]. split; [cbn [length]; lia|].
      intros [|i] v' o' d' A B C; cbn [nth_error] in *.
      * injection A as <-. injection B as <-. injection C as <-. exists q. split; [exists m, x, d; auto|].
        change (undef_before (None :: os) 0) with 0. rewrite Nat.add_0_r. reflexivity.
      * change (undef_before (None :: os) (S i)) with (S (undef_before os i)). rewrite Nat.add_succ_r. exact (E3 i v' o' d' A B C).
Qed.

Lemma argmin_ok l : l <> [] -> exists i t, argmin l = Ok (i, t) /\ nth_error l i = Some t /\ forall d, In d l -> (t <= d)%Qc.
Proof.
  induction l as [|a l IH]; intro H; [congruence|]. destruct l as [|b l].
  - exists 0, a. cbn. split; [reflexivity|]. split; [reflexivity|]. intros d [->|[]]. apply Qcle_refl.
  - destruct IH as [i [t [E1 [E2 E3]]]]; [discriminate|].
    change (argmin (a :: b :: l)) with (let* p := argmin (b :: l) in if qc_le a (snd p) then Ok (0, a) else Ok (S (fst p), snd p)).
    rewrite E1. cbn [bind fst snd]. destruct (qc_le a t) eqn:C.
    + apply qc_le_iff in C. exists 0, a. split; [reflexivity|]. split; [reflexivity|].
      intros d [->|Hd]; [apply Qcle_refl|]. eapply Qcle_trans; [exact C|apply E3, Hd].
    + apply qc_le_false in C. exists (S i), t. split; [reflexivity|]. split; [exact E2|].
      intros d [->|Hd]; [apply Qclt_le_weak, C|apply E3, Hd].
Qed.

Lemma Qcsum_pos l : (forall x, In x l -> (0 <= x)%Qc) -> (exists x, In x l /\ (0 < x)%Qc) -> (0 < Qcsum l)%Qc.
Proof.
  induction l as [|a l IH]; intros H [x [Hx Hp]]; [contradiction|]. rewrite Qcsum_cons.
  assert (Hs : (0 <= Qcsum l)%Qc) by (apply Qcsum_nonneg, Forall_forall; intros y Hy; apply H; right; exact Hy).
  pose proof (H a (or_introl eq_refl)) as Ha. destruct Hx as [->|Hx]; [qclra|].
  assert ((0 < Qcsum l)%Qc) by (apply IH; [intros y Hy; apply H; right; exact Hy|exists x; auto]). qclra.
Qed.
Lemma Qcsum_ge_elem l x : (forall y, In y l -> (0 <= y)%Qc) -> In x l -> (x <= Qcsum l)%Qc.
Proof.
  induction l as [|a l IH]; intros H Hx; [contradiction|]. rewrite Qcsum_cons.
  pose proof (H a (or_introl eq_refl)) as Ha.
  assert (Hs : (0 <= Qcsum l)%Qc) by (apply Qcsum_nonneg, Forall_forall; intros y Hy; apply H; right; exact Hy).
  destruct Hx as [->|Hx]; [qclra|]. assert ((x <= Qcsum l)%Qc) by (apply IH; [intros y Hy; apply H; right; exact Hy|exact Hx]). qclra.
Qed.
Lemma Qcdiv_le_1 a b : (0 < b)%Qc -> (a <= b)%Qc -> (a / b <= 1)%Qc.
Proof.
  intros H1 H2. replace 1%Qc with (b / b)%Qc by (field; apply Qc_pos_neq, H1).
  unfold Qcdiv. apply Qcmult_le_compat_r; [exact H2|]. apply Qclt_le_weak.
  replace (/ b)%Qc with (1 / b)%Qc by (unfold Qcdiv; ring). apply Qcdiv_pos; [reflexivity|exact H1].
Qed.

Lemma next_value_ok c m x k : usable_matrix c m -> x < c -> exists y, next_value g k m x = Ok y /\ y < c /\ y <> x.
Proof.
  intros [Lm Hm] Hx. unfold next_value.
  destruct (nth_error m x) as [row|] eqn:Er; [|apply nth_error_None in Er; lia].
  rewrite (proj2 (nth_res_ok _ _ _) Er). cbn [bind].
  destruct (Hm x row Er) as [Lr [_ [Hnn [j [w [Hj [Hw Hpos]]]]]]].
  set (W := set_at row x 0%Qc).
  assert (Wnth : forall i, nth_error W i = if i =? x then (if i <? c then Some 0%Qc else None) else nth_error row i).
  { intro i. unfold W. rewrite nth_error_set_at, Lr, (Nat.eqb_sym x i).
    destruct (i =? x); [|reflexivity]. destruct (Nat.ltb_spec i c) as [|G]; [reflexivity|]. apply nth_error_None. lia. }
  assert (Wnn : forall i q, nth_error W i = Some q -> (0 <= q)%Qc).
  { intros i q. rewrite Wnth. destruct (Nat.eqb_spec i x); [destruct (i <? c); [intro E; injection E as <-; apply Qcle_refl|discriminate]|].
    apply Hnn; assumption. }
  assert (Wnn' : forall q, In q W -> (0 <= q)%Qc) by (intros q Hq; apply In_nth_error in Hq as [i Hi]; eapply Wnn; eauto).
  assert (Wpos : exists i q, nth_error W i = Some q /\ (0 < q)%Qc).
  { exists j, w. rewrite Wnth. destruct (Nat.eqb_spec j x); [contradiction|]. auto. }
  assert (Spos : (0 < Qcsum W)%Qc).
  { apply Qcsum_pos; [exact Wnn'|]. destruct Wpos as [i [q [A B]]]. exists q. split; [eapply nth_error_In; eauto|exact B]. }
  rewrite (proj2 (Qc_eq_bool_false (Qcsum W) 0%Qc)) by (apply Qc_pos_neq, Spos).
  assert (F : forallb (fun a => qc_le 0 (a / Qcsum W)%Qc && qc_le (a / Qcsum W)%Qc 1) W = true).
  { apply forallb_forall. intros a Ha. apply andb_true_iff. split; apply qc_le_iff.
    - apply Qcdiv_nonneg; [apply Wnn', Ha|exact Spos].
    - apply Qcdiv_le_1; [exact Spos|apply Qcsum_ge_elem; assumption]. }
  rewrite F. eexists. split; [reflexivity|].
  destruct (proj2 RNG k W Wnn Wpos) as [q [Hq1 Hq2]]. rewrite Wnth in Hq1.
  destruct (Nat.eqb_spec (pick g k W) x) as [E|Ne].
  - destruct (_ <? c); [|discriminate]. injection Hq1 as <-. exfalso. exact (Qclt_not_eq _ _ Hq2 eq_refl).
  - split; [|exact Ne]. rewrite <- Lr. apply nth_error_Some. congruence.
Qed.

(** the loop invariant *)
Definition sinv (st : sstate) : Prop :=
  vals_ok cards (snd (st_row st)) /\ length (st_times st) = length vs
  /\ (0 <= st_t st)%Qc
  /\ (forall i d, nth_error (st_times st) i = Some (Some d) -> (st_t st <= d)%Qc)
  /\ fst (st_row st) = around4 (st_t st)
  /\ length (st_done st) = st_ntr st.

Definition stop_test (t_end : Qc) (max_tr : Z) (st : sstate) (t : Qc) : bool :=
  (negb (max_tr =? -1)%Z && (Z.of_nat (st_ntr st) =? max_tr)%Z)
     || (negb (Qc_eq_bool t_end (-(1))%Qc) && qc_le t_end t).

Lemma set_at_vals xs i y c : vals_ok cards xs -> nth_error cards i = Some c -> y < c -> vals_ok cards (set_at xs i y).
Proof.
  intros H Hc Hy. clear -H Hc Hy. unfold vals_ok in *. revert i Hc.
  induction H as [|x d xs ds Hx Hxs IH]; intros [|i] Hc; try discriminate; cbn [nth_error set_at] in *.
  - injection Hc as ->. constructor; assumption.
  - constructor; [exact Hx|apply IH; assumption].
Qed.

(** one iteration: either it stops, or one variable changes and the clock does not go back *)
Lemma step_ok t_end max_tr st : sinv st ->
  exists ds k' next t v,
    fill_times tg g (snd (st_row st)) (st_t st) vs (st_times st) (st_ke st) = Ok (ds, k')
    /\ length ds = length vs
    /\ (forall i v o d, nth_error vs i = Some v -> nth_error (st_times st) i = Some o -> nth_error ds i = Some d ->
          filled_entry (snd (st_row st)) (st_t st) (st_ke st + undef_before (st_times st) i) v o d)
    /\ nth_error vs next = Some v /\ nth_error ds next = Some t /\ (forall d, In d ds -> (t <= d)%Qc) /\ (st_t st <= t)%Qc
    /\ (if stop_test t_end max_tr st t
        then sample_step tg g t_end max_tr st = Ok (inr (finish st))
        else exists st' x y, sample_step tg g t_end max_tr st = Ok (inl st') /\ sinv st' /\ st_t st' = t
             /\ st_done st' = st_done st ++ [st_row st] /\ st_ntr st' = S (st_ntr st)
             /\ nth_error (snd (st_row st)) next = Some x /\ x <> y
             /\ snd (st_row st') = set_at (snd (st_row st)) next y
             /\ st_times st' = reset_times tg v next ds).
Proof.
  intros [I1 [I2 [I3 [I4 [I5 I6]]]]]. pose proof NET as [N [Nn [L [Pk A]]]].
  destruct (fill_ok (snd (st_row st)) (st_t st) I1 vs (st_times st) (st_ke st) (incl_refl _) I2) as [ds [F1 [F2 F3]]]. set (k' := st_ke st + _) in F1.
  destruct (argmin_ok ds) as [next [t [M1 [M2 M3]]]].
  { intro E. rewrite E in F2. cbn in F2. apply Nn. apply length_zero_iff_nil. lia. }
  assert (Hnext : next < length vs) by (rewrite <- F2; apply nth_error_Some; congruence).
  destruct (nth_error vs next) as [v|] eqn:Ev; [|apply nth_error_None in Ev; lia].
  assert (T : forall i d, nth_error ds i = Some d -> (st_t st <= d)%Qc).
  { intros i d Hd. assert (Hi : i < length vs) by (rewrite <- F2; apply nth_error_Some; congruence).
    destruct (nth_error vs i) as [w|] eqn:Ew; [|apply nth_error_None in Ew; lia].
    destruct (nth_error (st_times st) i) as [o|] eqn:Eo; [|apply nth_error_None in Eo; lia].
    pose proof (F3 i w o d Ew Eo Hd) as Fe. destruct o as [d'|]; cbn in Fe.
    - subst d'. eapply I4; eauto.
    - destruct Fe as [q [Hq ->]]. set (k := st_ke st + _).
      destruct (leaving_rate_ok (snd (st_row st)) w I1 (nth_error_In _ _ Ew)) as [q' [Hq' Hn]].
      rewrite (leaving_rate_fun _ _ _ _ Hq Hq'). pose proof (Qcmult_nonneg _ _ Hn (proj1 RNG k)) as P.
      generalize dependent (q' * exp_draw g k)%Qc. intros p P. qclra. }
  exists ds, k', next, t, v. split; [exact F1|]. split; [exact F2|]. split; [exact F3|]. split; [exact Ev|].
  split; [exact M2|]. split; [exact M3|]. split; [eapply T; eauto|].
  unfold sample_step. rewrite F1. cbn [bind fst snd]. rewrite M1. cbn [bind fst snd].
  fold (stop_test t_end max_tr st t). destruct (stop_test t_end max_tr st t); [reflexivity|].
  rewrite (proj2 (nth_res_ok vs next v) Ev). cbn [bind].
  destruct (nth_error cards next) as [c|] eqn:Ec; [|apply nth_error_None in Ec; lia].
  assert (Hc : card_in vs cards v c) by (exists next; auto).
  destruct (select_ok (snd (st_row st)) v c I1 Hc) as [m [S1 S2]]. rewrite S1. cbn [bind].
  destruct (value_of_ok vs cards (snd (st_row st)) v c N L I1 Hc) as [x [i [V1 [V2 [V3 V4]]]]]. rewrite V1. cbn [bind].
  assert (i = next) by (eapply NoDup_nth_error_inj; eauto). subst i.
  destruct (next_value_ok c m x (st_kp st) S2 V2) as [y [Y1 [Y2 Y3]]]. rewrite Y1. cbn [bind].
  eexists _, x, y. split; [reflexivity|]. cbn [st_row st_times st_t st_done st_ntr snd fst].
  split.
  { split; [cbn [st_row snd]; eapply set_at_vals; eauto|]. cbn [st_row st_times st_t st_done st_ntr snd fst].
    split; [unfold reset_times; rewrite mapi_length; exact F2|].
    split; [apply (Qcle_trans _ (st_t st)); [exact I3|eapply T; eauto]|].
    split; [|split; [reflexivity|rewrite app_length; cbn [length]; lia]].
    intros j d Hd. unfold reset_times in Hd. rewrite nth_error_mapi in Hd.
    destruct (nth_error ds j) as [d'|] eqn:Ed; [|discriminate]. cbn [option_map] in Hd.
    destruct (_ || _); [discriminate|]. injection Hd as <-. apply M3. eapply nth_error_In; eauto. }
  repeat split; auto.
Qed.
End Net.
