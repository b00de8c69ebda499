(** The float64 parameter estimation against the exact one (C69). *)
From Flocq Require Import Core BinarySingleNaN.
From Coq Require Import Reals Lra Psatz.
From Verif Require Import Base Lib ModelStructure ModelGraph ModelCims ModelData ModelParams ModelFamScore ModelFloating
  SpecStructure SpecComb SpecParams ProofGraph ProofComb ProofIndex ProofParams ProofParams3 ProofFamScore2 ProofIndep ProofFloating ProofFloating2.
Open Scope nat_scope.

(** ** Forall2 through the array operations *)
Lemma Forall2_firstn {A C} (R : A -> C -> Prop) n l l' : Forall2 R l l' -> Forall2 R (firstn n l) (firstn n l').
Proof. intros H. revert n. induction H; intros [|n]; cbn [firstn]; constructor; auto. Qed.
Lemma Forall2_skipn {A C} (R : A -> C -> Prop) n l l' : Forall2 R l l' -> Forall2 R (skipn n l) (skipn n l').
Proof. intros H. revert n. induction H; intros [|n]; cbn [skipn]; try constructor; auto. Qed.
Lemma Forall2_mapf {A A' C C'} (R : C -> C' -> Prop) (f : A -> C) (g : A' -> C') l l' : Forall2 (fun a b => R (f a) (g b)) l l' -> Forall2 R (map f l) (map g l').
Proof. induction 1; cbn [map]; constructor; auto. Qed.
Lemma Forall2_same {A} (R : A -> A -> Prop) l : (forall a, In a l -> R a a) -> Forall2 R l l.
Proof. induction l as [|a r IH]; intros H; constructor; [apply H; left; reflexivity|apply IH; intros b Hb; apply H; right; exact Hb]. Qed.
Lemma Forall2_impl {A C} (R S : A -> C -> Prop) l l' : (forall a b, R a b -> S a b) -> Forall2 R l l' -> Forall2 S l l'.
Proof. intros H. induction 1; constructor; auto. Qed.
Lemma reshape_rel {A C} (R : A -> C -> Prop) c l l' rows' : Forall2 R l l' -> reshape_rows c l' = Ok rows' ->
  exists rows, reshape_rows c l = Ok rows /\ Forall2 (Forall2 R) rows rows'.
Proof.
  intros H. unfold reshape_rows. rewrite (Forall2_length _ _ _ H). destruct (_ || _); [discriminate|]. intros E; injection E as <-.
  eexists. split; [reflexivity|]. apply Forall2_mapf, Forall2_same. intros r _. apply Forall2_firstn, Forall2_skipn, H.
Qed.
Lemma broadcast_rel {A C} (R : A -> C -> Prop) k l l' out' : Forall2 R l l' -> broadcast_rows k l' = Ok out' ->
  exists out, broadcast_rows k l = Ok out /\ Forall2 R out out'.
Proof.
  intros H. unfold broadcast_rows. rewrite (Forall2_length _ _ _ H). destruct (_ =? k); [intros E; injection E as <-; eauto|].
  destruct H as [|a b l l' H1 H2]; [discriminate|]. destruct H2; [|discriminate]. intros E; injection E as <-. eexists. split; [reflexivity|].
  clear - H1. induction k; cbn [repeat]; constructor; auto.
Qed.
Lemma Forall2_combine {A C A' C'} (R : A -> A' -> Prop) (S : C -> C' -> Prop) l l' m m' : Forall2 R l l' -> Forall2 S m m' ->
  Forall2 (fun p q => R (fst p) (fst q) /\ S (snd p) (snd q)) (combine l m) (combine l' m').
Proof. intros H. revert m m'. induction H; intros m m' HS; [constructor|]. destruct HS; cbn [combine]; constructor; auto. Qed.
Lemma Forall2_mapi_from {A A' C C'} (R : C -> C' -> Prop) (f : nat -> A -> C) (g : nat -> A' -> C') l l' : forall k,
  Forall2 (fun a b => forall i, R (f i a) (g i b)) l l' -> Forall2 R (mapi_from k f l) (mapi_from k g l').
Proof. intros k H. revert k. induction H as [|a b l l' H1 H2 IH]; intros k; cbn [mapi_from]; constructor; auto. Qed.

(** ** residence times *)
Definition good_time (n : nat) (x : f64) (q : Qc) : Prop := fclose (n + 1) x (Qc2R q) /\ (0 <= Qc2R q <= B 1000)%R.
Lemma Rtotal_filter_le (p : Z * R -> bool) (l : list (Z * R)) : Forall (fun y => (0 <= y)%R) (map snd l) ->
  (Rtotal (map snd (filter p l)) <= Rtotal (map snd l))%R.
Proof.
  unfold Rtotal. induction l as [|a l IH]; intros H; cbn [filter map fold_right]; [lra|]. inversion H; subst. specialize (IH H3).
  destruct (p a); cbn [map fold_right]; lra.
Qed.
Lemma combine_map_r {A C D} (f : C -> D) (l : list A) : forall m, combine l (map f m) = map (fun p => (fst p, f (snd p))) (combine l m).
Proof. induction l as [|a l IH]; intros [|b m]; cbn [map combine]; [reflexivity..|]. rewrite IH. reflexivity. Qed.
Lemma Rtotal_Qc l : Rtotal (map Qc2R l) = Qc2R (Qcsum l).
Proof. rewrite Qc2R_sum. reflexivity. Qed.

Lemma f_bincount_rel idx (w : list f64) (qs : list Qc) ml out' : Forall2 (fclose 1) w (map Qc2R qs) -> Forall (fun q => (0 <= Qc2R q)%R) qs ->
  (Qc2R (Qcsum qs) <= B 1000)%R -> (2 * INR (length w + 1) * u <= 1)%R -> bincount_weights idx qs ml = Ok out' ->
  exists out, f_bincount_weights idx w ml = Ok out /\ Forall2 (good_time (length w)) out out'.
Proof.
  intros HF HP HT Hu. unfold bincount_weights, f_bincount_weights. pose proof (Forall2_length _ _ _ HF) as HL. rewrite map_length in HL. rewrite HL.
  destruct (existsb _ idx); [discriminate|]. destruct (Nat.eqb_spec (length idx) (length qs)) as [El|]; [|discriminate]. cbn [negb]. intros E; injection E as <-.
  eexists. split; [reflexivity|]. apply Forall2_mapf, Forall2_same. intros k _. set (p := fun (q : Z * Qc) => Z.eqb (fst q) (Z.of_nat k)).
  assert (HS : Forall2 (fclose 1) (map snd (filter (fun q : Z * f64 => Z.eqb (fst q) (Z.of_nat k)) (combine idx w))) (map Qc2R (map snd (filter p (combine idx qs))))
     /\ length (map snd (filter (fun q : Z * f64 => Z.eqb (fst q) (Z.of_nat k)) (combine idx w))) <= length w).
  { clear - HF HL. subst p. revert idx. remember (map Qc2R qs) as ys eqn:Ey. revert qs Ey HL. induction HF as [|a y w ys H1 H2 IH]; intros qs Ey HL idx.
    - destruct qs; [|discriminate]. destruct idx; cbn; split; [constructor|lia|constructor|lia].
    - destruct qs as [|q qs]; [discriminate|]. cbn [map] in Ey. injection Ey as -> Ey. destruct idx as [|i idx]; [cbn; split; [constructor|lia]|].
      cbn [combine filter fst]. destruct (IH qs Ey ltac:(cbn [length] in HL; lia) idx) as [I1 I2]. destruct (i =? Z.of_nat k)%Z; cbn [map snd length]; (split; [try constructor; assumption|lia]). }
  destruct HS as [HS Hlen].
  assert (Q0 : Forall (fun y => (0 <= y)%R) (map Qc2R (map snd (filter p (combine idx qs))))).
  { apply Forall_forall. intros y Hy. apply in_map_iff in Hy as [q [<- Hq]]. apply in_map_iff in Hq as [[i q'] [Eq Hq]]. cbn [snd] in Eq; subst q'. apply filter_In in Hq as [Hq _]. apply in_combine_r in Hq. rewrite Forall_forall in HP. apply HP, Hq. }
  assert (Q1 : (Rtotal (map Qc2R (map snd (filter p (combine idx qs)))) <= Qc2R (Qcsum qs))%R).
  { rewrite <- Rtotal_Qc. set (pr := fun (q : Z * R) => Z.eqb (fst q) (Z.of_nat k)).
    replace (map Qc2R (map snd (filter p (combine idx qs)))) with (map snd (filter pr (combine idx (map Qc2R qs)))).
    - rewrite <- (map_snd_combine idx (map Qc2R qs)) at 2 by (rewrite map_length; exact El). apply Rtotal_filter_le.
      rewrite map_snd_combine by (rewrite map_length; exact El). apply Forall_forall. intros y Hy. apply in_map_iff in Hy as [q [<- Hq]]. rewrite Forall_forall in HP. apply HP, Hq.
    - rewrite combine_map_r. clear. induction (combine idx qs) as [|a l IH]; [reflexivity|]. cbn [map filter]. unfold pr, p in *. cbn [fst snd]. destruct (fst a =? Z.of_nat k)%Z; cbn [map snd]; rewrite IH; reflexivity. }
  pose proof u_pos as Up. pose proof (Rtotal_pos _ Q0) as Q2.
  split; rewrite <- Rtotal_Qc; [|lra]. eapply fclose_mono; [|apply f_sum_spec; [exact HS|exact Q0| |]].
  - lia.
  - apply Rle_trans with (B 1000); [lra|]. apply bpow_le. lia.
  - apply Rle_trans with (2 * INR (length w + 1) * u)%R; [|exact Hu]. apply Rmult_le_compat_r; [lra|]. apply Rmult_le_compat_l; [lra|]. apply le_INR. lia.
Qed.

Lemma f_res_time_rel (w : list f64) qs traj cols scalar k c T : Forall2 (fclose 1) w (map Qc2R qs) -> Forall (fun q => (0 <= Qc2R q)%R) qs ->
  (Qc2R (Qcsum qs) <= B 1000)%R -> (2 * INR (length w + 1) * u <= 1)%R ->
  (forall row sel, In row traj -> select_columns row cols = Ok sel -> f_scalar_index sel scalar = scalar_index sel scalar) ->
  compute_state_res_time_for_node qs traj cols scalar k c = Ok T ->
  exists Tf, f_compute_state_res_time_for_node w traj cols scalar k c = Ok Tf /\ Forall2 (Forall2 (good_time (length w))) Tf T.
Proof.
  intros H1 H2 H3 H4 HI. unfold compute_state_res_time_for_node, f_compute_state_res_time_for_node. destruct (_ =? 0)%Z; [discriminate|].
  intros E. apply bind_ok in E as [sel [E1 E]]. rewrite E1. cbn [bind].
  assert (EI : map (fun row => f_scalar_index row scalar) sel = map (fun row => scalar_index row scalar) sel).
  { apply map_ext_in. intros x Hx. apply In_nth_error in Hx as [i Hi]. pose proof (res_map_length _ _ _ E1) as El.
    destruct (nth_error traj i) as [row|] eqn:Er; [|apply nth_error_None in Er; assert (nth_error sel i <> None) by congruence; apply nth_error_Some in H; lia].
    apply (HI row x); [eapply nth_error_In; exact Er|].
    clear - E1 Er Hi. revert sel i E1 Er Hi. induction traj as [|r tr IH]; intros sel i E1 Er Hi; [destruct i; discriminate|]. cbn [res_map] in E1. apply bind_ok in E1 as [a [A1 E1]]. apply bind_ok in E1 as [b [A2 E1]]. injection E1 as <-.
    destruct i as [|i]; cbn [nth_error] in *; [congruence|]. eapply IH; eassumption. }
  rewrite EI. apply bind_ok in E as [b [E2 E]]. apply bind_ok in E as [rows [E3 E]].
  destruct (f_bincount_rel _ w qs _ b H1 H2 H3 H4 E2) as [bf [F1 F2]]. rewrite F1. cbn [bind].
  destruct (reshape_rel _ c bf b rows F2 E3) as [rf [G1 G2]]. rewrite G1. cbn [bind]. apply (broadcast_rel _ k rf rows T G2 E).
Qed.

Lemma f_trans_eq ni traj width cols scalar k c :
  (forall row z sel, In row traj -> nth_res row (width / 2 + ni) = Ok z -> (0 <= z)%Z -> select_columns row cols = Ok sel -> f_scalar_index sel scalar = scalar_index sel scalar) ->
  f_compute_state_transitions_for_a_node ni traj width cols scalar k c = compute_state_transitions_for_a_node ni traj width cols scalar k c.
Proof.
  intros HI. unfold f_compute_state_transitions_for_a_node, compute_state_transitions_for_a_node. destruct (_ =? 0)%Z; [reflexivity|].
  destruct (res_map (fun row => nth_res row (width / 2 + ni)) traj) as [next|] eqn:En; [|reflexivity]. cbn [bind].
  set (tmp := map fst (filter (fun rn => (0 <=? snd rn)%Z) (combine traj next))).
  assert (HT : forall row, In row tmp -> forall sel, select_columns row cols = Ok sel -> f_scalar_index sel scalar = scalar_index sel scalar).
  { intros row Hr sel Hs. unfold tmp in Hr. apply in_map_iff in Hr as [[r z] [Er Hr]]. cbn [fst] in Er; subst r. apply filter_In in Hr as [Hr Hz]. cbn [snd] in Hz. apply Z.leb_le in Hz.
    apply (HI row z sel); [eapply in_combine_l; exact Hr| |exact Hz|exact Hs].
    clear - En Hr. revert next En Hr. induction traj as [|r tr IH]; intros next En Hr; [destruct Hr|]. cbn [res_map] in En. apply bind_ok in En as [a [A1 En]]. apply bind_ok in En as [b [A2 En]]. injection En as <-.
    cbn [combine] in Hr. destruct Hr as [Q|Q]; [injection Q as <- <-; exact A1|]. eapply IH; eassumption. }
  destruct (res_map (fun row => select_columns row cols) tmp) as [sel|] eqn:Es; [|reflexivity]. cbn [bind].
  assert (EI : map (fun row => f_scalar_index row scalar) sel = map (fun row => scalar_index row scalar) sel).
  { clearbody tmp. clear - HT Es. revert sel Es. induction tmp as [|r tr IH]; intros sel Es; cbn [res_map] in Es; [injection Es as <-; reflexivity|]. apply bind_ok in Es as [a [A1 Es]]. apply bind_ok in Es as [b [A2 Es]]. injection Es as <-.
    cbn [map]. f_equal; [apply (HT r (or_introl eq_refl)), A1|]. apply IH; [intros r' Hr'; apply HT; right; exact Hr'|exact A2]. }
  rewrite EI. reflexivity.
Qed.

(** ** coefficients *)
Definition good_coef (n : nat) (x : f64) (q : Qc) : Prop := fclose (n + 3) x (Qc2R q).
Definition accurate (n : nat) (fc : fcim) (cm : cim) : Prop :=
  Forall2 (good_time n) (fc_times fc) (c_times cm) /\ fc_trans fc = c_trans cm /\ Forall2 (Forall2 (good_coef n)) (fc_cim fc) (c_cim cm).
Lemma f_coef_rel n (t : list f64) (q : list Qc) (m : list (list Z)) : (2 * INR (n + 2) * u <= 1)%R -> (forall row z, In row m -> In z row -> (0 <= z < 2 ^ 53)%Z) ->
  Forall2 (good_time n) t q -> accurate n (f_compute_cim_coefficients t m) (compute_cim_coefficients (new_cim q m)).
Proof.
  intros Hu Hm Ht. split; [exact Ht|]. split; [reflexivity|]. cbn [f_compute_cim_coefficients fc_cim compute_cim_coefficients new_cim c_cim c_times].
  set (S := fun (a : f64) (v : Qc) => exists z, (Z.abs (z + 1) <= 2 ^ 53)%Z /\ is_finite a = true /\ B2R a = IZR z /\ v = Qc_of_Z z).
  assert (HS : Forall2 (Forall2 S) (f_negate_diagonal (map (map f_of_Z) m)) (negate_diagonal (map (map Qc_of_Z) m))).
  { unfold f_negate_diagonal, negate_diagonal, mapi. apply Forall2_mapi_from, Forall2_mapf, Forall2_same. intros row Hr i. apply Forall2_mapi_from, Forall2_mapf, Forall2_same. intros z Hz j.
    pose proof (Hm row z Hr Hz) as Hb. destruct (f_of_Z_ok z ltac:(lia)) as [F E]. destruct (i =? j).
    - exists (- z)%Z. split; [lia|]. split; [rewrite is_finite_Bopp; exact F|]. split; [rewrite B2R_Bopp, E, opp_IZR; reflexivity|]. rewrite Qc_of_Z_opp. reflexivity.
    - exists z. split; [lia|]. auto. }
  apply Forall2_mapf. eapply Forall2_impl; [|apply (Forall2_combine _ _ _ _ _ _ HS Ht)].
  intros [ra x] [rq y] [H1 [H2 [H3 H4]]]. cbn [fst snd] in *. apply Forall2_mapf. eapply Forall2_impl; [|exact H1].
  intros a v [z [Z1 [Z2 [Z3 ->]]]]. unfold good_coef.
  assert (Y : (y + 1)%Qc <> 0%Qc).
  { intros K. assert (K' : Qc2R (y + 1)%Qc = 0%R) by (rewrite K; apply Qc2R_0). rewrite Qc2R_plus, Qc2R_1 in K'. lra. }
  rewrite Qc2R_div by exact Y. rewrite !Qc2R_plus, Qc2R_1, Qc2R_Z, <- plus_IZR. replace (n + 3) with (Datatypes.S (Datatypes.S (n + 1))) by lia.
  apply coefficient_close; [exact Z2|exact Z3|exact Z1| |split; assumption|exact H2]. replace (Datatypes.S (n + 1)) with (n + 2) by lia. exact Hu.
Qed.

(** ** scalar indexes *)
Lemma cumprod_div a l : forall acc, (a | acc)%Z -> (0 <= acc)%Z -> (forall z, In z l -> (0 <= z)%Z) -> forall b, In b (cumprod_from acc l) -> (0 <= b)%Z /\ (a | b)%Z.
Proof.
  induction l as [|z l IH]; intros acc Hd Hp Hl b Hb; [destruct Hb|]. cbn [cumprod_from] in Hb. pose proof (Hl z (or_introl eq_refl)) as Hz.
  assert (Hd' : (a | acc * z)%Z) by (apply Z.divide_mul_l, Hd). assert (Hp' : (0 <= acc * z)%Z) by nia.
  destruct Hb as [<-|Hb]; [split; assumption|]. apply (IH (acc * z)%Z); auto. intros w Hw; apply Hl; right; exact Hw.
Qed.
Lemma scalar_div c ps : forall b, In b (cumprod (map Z.of_nat (c :: ps))) -> (0 <= b)%Z /\ (Z.of_nat c | b)%Z.
Proof.
  intros b Hb. unfold cumprod in Hb. cbn [map cumprod_from] in Hb. rewrite Z.mul_1_l in Hb. destruct Hb as [<-|Hb]; [split; [lia|apply Z.divide_refl]|].
  apply (cumprod_div (Z.of_nat c) _ (Z.of_nat c) (Z.divide_refl _) ltac:(lia)) in Hb; [exact Hb|]. intros z Hz. apply in_map_iff in Hz as [y [<- _]]. lia.
Qed.
Lemma f_index_eq c ps ds N : 0 < c -> scalar_index (map Z.of_nat ds) (cumprod (map Z.of_nat (c :: ps))) = Z.of_nat N -> (Z.of_nat (c * N) <= 2 ^ 53)%Z -> (Z.of_nat c <= 2 ^ 53)%Z ->
  f_scalar_index (map Z.of_nat ds) (cumprod (map Z.of_nat (c :: ps))) = Z.of_nat N.
Proof.
  intros Hc E HN Hc53. assert (Hh : hd 0%Z (cumprod (map Z.of_nat (c :: ps))) = Z.of_nat c) by (unfold cumprod; cbn [map cumprod_from hd]; lia).
  rewrite <- E. apply f_index_exact; rewrite ?Hh; [lia|intros a Ha; apply in_map_iff in Ha as [y [<- _]]; lia| |rewrite ?Hh..]; [apply scalar_div| |exact Hc53].
  assert (D : (Z.of_nat c | dot (map Z.of_nat ds) (cumprod (map Z.of_nat (c :: ps))))%Z).
  { unfold dot. assert (HA : forall p, In p (combine (map Z.of_nat ds) (cumprod (map Z.of_nat (c :: ps)))) -> (Z.of_nat c | fst p * snd p)%Z).
    { intros [a b] Hp. apply in_combine_r in Hp. apply scalar_div in Hp as [_ Hp]. apply Z.divide_mul_r, Hp. }
    revert HA. induction (combine _ _) as [|p l IH]; intros HA; [exists 0%Z; reflexivity|]. cbn [map]. change (Zsum (?a :: ?r)) with (a + Zsum r)%Z.
    apply Z.divide_add_r; [apply HA; left; reflexivity|]. apply IH. intros q Hq; apply HA; right; exact Hq. }
  destruct D as [q Q]. unfold scalar_index in E. rewrite Hh, Q in E. rewrite Z.quot_mul in E by lia. rewrite Q, E. lia.
Qed.
