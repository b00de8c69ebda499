(** Residence times, transition counts, conservation, permutation invariance, CIM coefficients. *)
From Coq Require FinFun.
From Verif Require Import Base Lib ModelStructure ModelGraph ModelCims ModelData ModelParams
  SpecComb SpecParams ProofComb ProofIndex.


Lemma in_range_digits row cols cards : row_in_range row cols cards ->
  exists ds, config_ok cards ds /\ select_columns row cols = Ok (map Z.of_nat ds)
    /\ (forall vals, length vals = length cols -> (row_shows row cols vals = true <-> vals = ds)).
Proof.
  unfold row_in_range. induction 1 as [|col c cols cards [d [H1 H2]] H IH].
  - exists []. split; [constructor|]. split; [reflexivity|]. intros [|v vals] Hl; [|discriminate].
    unfold row_shows; simpl. tauto.
  - destruct IH as [ds [I1 [I2 I3]]]. exists (d :: ds). split; [constructor; assumption|]. split.
    + unfold select_columns in *. cbn [res_map]. unfold nth_res at 1. rewrite H1. cbn [bind]. rewrite I2. reflexivity.
    + intros [|v vals] Hl; [discriminate|]. unfold row_shows in *. cbn [combine forallb fst snd]. rewrite H1.
      rewrite andb_true_iff, Z.eqb_eq, I3 by (simpl in Hl; lia). split.
      * intros [E ->]. f_equal. lia.
      * intros E; injection E as -> ->. auto.
Qed.

Lemma config_ok_length cards u : config_ok cards u -> length u = length cards.
Proof. intros H. apply Forall2_length in H. exact H. Qed.

(** ** C10 *)
Lemma filter_combine_map {A} (f : A -> Z) (g : A -> bool) k (traj : list A) : forall (times : list Qc), length times = length traj ->
  (forall r, In r traj -> Z.eqb (f r) k = g r) ->
  map snd (filter (fun p => Z.eqb (fst p) k) (combine (map f traj) times))
  = map fst (filter (fun tr => g (snd tr)) (combine times traj)).
Proof.
  induction traj as [|r traj IH]; intros times Hl H; destruct times as [|t times]; try discriminate; [reflexivity|].
  cbn [map combine filter fst snd]. rewrite (H r (or_introl eq_refl)).
  destruct (g r); cbn [map fst snd]; rewrite IH; auto; intros q Hq; apply H; right; exact Hq.
Qed.

Lemma select_all traj cols cards : Forall (fun row => row_in_range row cols cards) traj ->
  res_map (fun row => select_columns row cols) traj
  = Ok (map (fun row => match select_columns row cols with Ok s => s | Err _ => [] end) traj).
Proof.
  intros H. apply res_map_pure. intros row Hr. rewrite Forall_forall in H.
  destruct (in_range_digits _ _ _ (H row Hr)) as [ds [_ [-> _]]]. reflexivity.
Qed.

Lemma required_index c ps x u : 0 < c -> compat c ps -> x < c -> config_ok ps u ->
  scalar_index (map Z.of_nat (x :: u)) (build_time_scalar_indexing_structure_for_a_node c ps)
  = Z.of_nat (config_rank (c :: ps) (x :: u)).
Proof.
  intros Hc Hp Hx Hu. cbn [map]. rewrite time_index by exact Hc.
  rewrite (wsum_required c ps 1 u (config_ok_length _ _ Hu) Hp Hu). cbn [config_rank].
  rewrite Nat2Z.inj_add, Z.mul_1_l. reflexivity.
Qed.

Lemma res_time_spec times traj ni pis c ps : 0 < c -> compat c ps -> length pis = length ps ->
  length times = length traj ->
  Forall (fun row => row_in_range row (ni :: pis) (c :: ps)) traj ->
  exists T, compute_state_res_time_for_node times traj (build_time_columns_filtering_for_a_node ni pis)
              (build_time_scalar_indexing_structure_for_a_node c ps) (nat_prod ps) c = Ok T
    /\ length T = nat_prod ps
    /\ forall u x, config_ok ps u -> x < c ->
        exists row, nth_error T (config_rank ps u) = Some row /\ length row = c
          /\ nth_error row x = Some (dwell_time times traj (ni :: pis) (x :: u)).
Proof.
  intros Hc Hp Hlen Hl Hr. unfold compute_state_res_time_for_node, build_time_columns_filtering_for_a_node.
  set (scal := build_time_scalar_indexing_structure_for_a_node c ps).
  assert (Hhd : hd 0%Z scal = Z.of_nat c) by (subst scal; unfold build_time_scalar_indexing_structure_for_a_node, cumprod; cbn [map cumprod_from hd]; lia).
  rewrite Hhd. destruct (Z.eqb_spec (Z.of_nat c) 0) as [K|_]; [lia|].
  rewrite (select_all _ _ _ Hr). cbn [bind]. rewrite map_map.
  set (f := fun row => scalar_index (match select_columns row (ni :: pis) with Ok s => s | Err _ => [] end) scal).
  assert (Hf : forall row, In row traj -> exists x u, x < c /\ config_ok ps u
     /\ f row = Z.of_nat (config_rank (c :: ps) (x :: u))
     /\ (forall x' u', length u' = length ps -> (row_shows row (ni :: pis) (x' :: u') = true <-> x' :: u' = x :: u))).
  { intros row Hin. rewrite Forall_forall in Hr. destruct (in_range_digits _ _ _ (Hr row Hin)) as [ds [D1 [D2 D3]]].
    inversion D1 as [|x cc u cs Hx Hu]; subst. exists x, u. split; [exact Hx|]. split; [exact Hu|]. split.
    - unfold f. rewrite D2. apply required_index; assumption.
    - intros x' u' Hlu. apply D3. simpl. lia. }
  assert (Hrange : forall i, In i (map f traj) -> (0 <= i)%Z /\ Z.to_nat i < nat_prod (c :: ps)).
  { intros i Hi. apply in_map_iff in Hi as [row [<- Hin]]. destruct (Hf row Hin) as [x [u [Hx [Hu [-> _]]]]].
    split; [lia|]. rewrite Nat2Z.id. apply config_rank_lt. constructor; assumption. }
  change (fun x : list Z => scalar_index match select_columns x (ni :: pis) with Ok s => s | Err _ => [] end scal) with f.
  unfold bincount_weights. rewrite existsb_neg_false by (intros i Hi; apply Hrange, Hi).
  rewrite map_length, Hl, Nat.eqb_refl. cbn [negb bind].
  assert (Hm : Z.to_nat (last scal 0%Z) = nat_prod (c :: ps)) by (apply last_scalar).
  rewrite Hm. rewrite bincount_length_exact by (intros i Hi; apply Hrange, Hi).
  set (b := map _ (seq 0 (nat_prod (c :: ps)))).
  assert (Hb : length b = nat_prod ps * c).
  { subst b. rewrite map_length, seq_length. unfold nat_prod; cbn [fold_right]. lia. }
  rewrite (reshape_rows_ok c b (nat_prod ps) Hc Hb). cbn [bind].
  unfold broadcast_rows. rewrite map_length, seq_length, Nat.eqb_refl.
  eexists. split; [reflexivity|]. split; [rewrite map_length, seq_length; reflexivity|].
  intros u x Hu Hx. pose proof (config_rank_lt _ _ Hu) as Hru.
  destruct (reshape_nth c b (nat_prod ps) (config_rank ps u) x Hx Hru) as [row [R1 R2]].
  exists row. split; [exact R1|]. split; [eapply reshape_row_length; [exact Hb|exact R1]|].
  rewrite R2. subst b. rewrite map_nth_error_iff, nth_error_seq'.
  assert (Hlt : x + c * config_rank ps u < nat_prod (c :: ps)) by (apply (config_rank_lt (c :: ps) (x :: u)); constructor; assumption).
  destruct (Nat.ltb_spec (x + c * config_rank ps u) (nat_prod (c :: ps))) as [_|K]; [|lia].
  cbn [option_map]. f_equal. unfold dwell_time. f_equal.
  apply (filter_combine_map f (fun r => row_shows r (ni :: pis) (x :: u))); [exact Hl|].
  intros r Hin. destruct (Hf r Hin) as [x' [u' [Hx' [Hu' [-> Hs]]]]].
  apply eq_true_iff_eq. rewrite Z.eqb_eq, Hs by (apply config_ok_length, Hu). split.
  - intros E. apply Nat2Z.inj in E. symmetry. apply (config_rank_inj (c :: ps)); [constructor; assumption..|exact E].
  - intros E. injection E as -> ->. reflexivity.
Qed.

(** ** C13 *)
Lemma Qcsum_app a b : Qcsum (a ++ b) = (Qcsum a + Qcsum b)%Qc.
Proof. induction a as [|x a IH]; cbn [Qcsum fold_right app]; [unfold Qcsum; simpl; ring|]. unfold Qcsum in *. rewrite IH. ring. Qed.
Lemma Qcsum_cons x a : Qcsum (x :: a) = (x + Qcsum a)%Qc. Proof. reflexivity. Qed.
Lemma Qcsum_add {A} (f g : A -> Qc) l : Qcsum (map (fun a => (f a + g a)%Qc) l) = (Qcsum (map f l) + Qcsum (map g l))%Qc.
Proof. induction l as [|a r IH]; cbn [map]; [unfold Qcsum; simpl; ring|]. rewrite !Qcsum_cons, IH. ring. Qed.
Lemma Qcsum_indicator i w n s : s <= i < s + n -> Qcsum (map (fun k => if i =? k then w else 0%Qc) (seq s n)) = w.
Proof.
  revert s; induction n as [|n IH]; intros s H; [lia|]. cbn [seq map]. rewrite Qcsum_cons.
  destruct (Nat.eqb_spec i s) as [->|Hn].
  - replace (Qcsum _) with 0%Qc; [ring|]. clear IH H.
    assert (Q : forall m a, s < a -> Qcsum (map (fun k => if s =? k then w else 0%Qc) (seq a m)) = 0%Qc).
    { induction m as [|m IHm]; intros a Ha; [reflexivity|]. cbn [seq map]. rewrite Qcsum_cons, IHm by lia.
      destruct (Nat.eqb_spec s a); [lia|ring]. }
    symmetry. apply Q. lia.
  - rewrite IH by lia. ring.
Qed.
Lemma bincount_total (ps : list (Z * Qc)) L : (forall p, In p ps -> (0 <= fst p)%Z /\ Z.to_nat (fst p) < L) ->
  Qcsum (map (fun k => Qcsum (map snd (filter (fun p => Z.eqb (fst p) (Z.of_nat k)) ps))) (seq 0 L)) = Qcsum (map snd ps).
Proof.
  induction ps as [|[i w] ps IH]; intros H.
  - cbn [filter map]. clear. induction (seq 0 L) as [|a r IHr]; [reflexivity|]. cbn [map]. rewrite Qcsum_cons, IHr. unfold Qcsum; simpl; ring.
  - cbn [map snd]. rewrite Qcsum_cons, <- IH by (intros p Hp; apply H; right; exact Hp).
    destruct (H (i, w) (or_introl eq_refl)) as [H1 H2]. cbn [fst] in *.
    match goal with |- ?lhs = (w + ?rest)%Qc =>
      transitivity (Qcsum (map (fun k => if Z.to_nat i =? k then w else 0%Qc) (seq 0 L)) + rest)%Qc;
      [|rewrite (Qcsum_indicator (Z.to_nat i) w L 0) by lia; reflexivity] end.
    rewrite <- Qcsum_add. f_equal. apply map_ext.
    intros k. cbn [filter fst].
    destruct (Z.eqb_spec i (Z.of_nat k)) as [E|E], (Nat.eqb_spec (Z.to_nat i) k) as [E'|E']; try lia; cbn [map snd].
    + rewrite Qcsum_cons. reflexivity.
    + ring.
Qed.

Lemma map_snd_combine {A B} (a : list A) : forall (b : list B), length a = length b -> map snd (combine a b) = b.
Proof. induction a as [|x a IH]; intros [|y b] H; try discriminate; [reflexivity|]. simpl. f_equal. apply IH. simpl in H; lia. Qed.
Lemma map_fst_combine {A B} (a : list A) : forall (b : list B), length a = length b -> map fst (combine a b) = a.
Proof. induction a as [|x a IH]; intros [|y b] H; try discriminate; [reflexivity|]. simpl. f_equal. apply IH. simpl in H; lia. Qed.
Lemma combine_fst_snd {A B} (l : list (A * B)) : combine (map fst l) (map snd l) = l.
Proof. induction l as [|[a b] l IH]; [reflexivity|]. simpl. f_equal. exact IH. Qed.

Lemma time_conserved times traj cols c ps T : Forall (fun p => 0 < p) ps ->
  compute_state_res_time_for_node times traj cols (build_time_scalar_indexing_structure_for_a_node c ps) (nat_prod ps) c = Ok T ->
  Qcsum (concat T) = Qcsum times.
Proof.
  intros Hp H. unfold compute_state_res_time_for_node in H.
  destruct (Z.eqb _ 0); [discriminate|]. apply bind_ok in H as [sel [_ H]]. apply bind_ok in H as [b [Hb H]].
  apply bind_ok in H as [rows [Hrows H]].
  unfold bincount_weights in Hb. destruct (existsb _ _) eqn:En in Hb; [discriminate|].
  destruct (Nat.eqb_spec (length (map (fun row => scalar_index row (build_time_scalar_indexing_structure_for_a_node c ps)) sel)) (length times)) as [El|El]; [|discriminate].
  cbn [negb] in Hb.
  assert (Hm : Z.to_nat (last (build_time_scalar_indexing_structure_for_a_node c ps) 0%Z) = nat_prod (c :: ps)) by apply last_scalar.
  rewrite Hm in Hb. apply (f_equal (fun r => match r with Ok a => a | Err _ => [] end)) in Hb. cbn beta iota in Hb.
  set (idx := map _ sel) in *.
  pose proof (proj1 (existsb_neg_iff idx) En) as Hpos.
  destruct (reshape_rows_inv _ _ _ Hrows) as [Hc [Hlb Er]].
  assert (Hsum : Qcsum b = Qcsum times).
  { subst b. rewrite bincount_total.
    - rewrite map_snd_combine by exact El. reflexivity.
    - intros [i w] Hin. cbn [fst]. apply in_combine_l in Hin. split; [apply Hpos, Hin|]. apply bincount_length_In, Hin. }
  assert (Hrl : length rows = nat_prod ps \/ nat_prod ps < length rows).
  { assert (nat_prod (c :: ps) <= length b).
    { subst b. rewrite map_length, seq_length. apply bincount_length_ge. }
    unfold nat_prod in *; cbn [fold_right] in *. nia. }
  unfold broadcast_rows in H. destruct (Nat.eqb_spec (length rows) (nat_prod ps)) as [E|E].
  - injection H as <-. rewrite Er, concat_reshape; [exact Hsum|exact Hlb].
  - destruct rows as [|r [|r2 rs]]; try discriminate. simpl in Hrl, E. exfalso.
    assert (0 < nat_prod ps) by (clear - Hp; induction Hp; unfold nat_prod in *; cbn [fold_right]; nia). lia.
Qed.

(** ** C11 *)
Lemma select_all' traj cols : (forall row, In row traj -> exists s, select_columns row cols = Ok s) ->
  res_map (fun row => select_columns row cols) traj
  = Ok (map (fun row => match select_columns row cols with Ok s => s | Err _ => [] end) traj).
Proof.
  intros H. apply res_map_pure. intros row Hr. destruct (H row Hr) as [s ->]. reflexivity.
Qed.

Lemma assign_at_length {A} ivs : forall (l : list A), length (assign_at l ivs) = length l.
Proof. induction ivs as [|iv r IH]; intros l; [reflexivity|]. unfold assign_at in *. cbn [fold_left]. rewrite IH. apply set_at_length. Qed.
Lemma assign_at_notin {A} ivs : forall (l : list A) j, (forall iv, In iv ivs -> fst iv <> j) ->
  nth_error (assign_at l ivs) j = nth_error l j.
Proof.
  unfold assign_at. induction ivs as [|iv r IH]; intros l j H; [reflexivity|]. cbn [fold_left].
  rewrite IH by (intros q Hq; apply H; right; exact Hq). rewrite nth_error_set_at.
  pose proof (H iv (or_introl eq_refl)). destruct (Nat.eqb_spec (fst iv) j); [contradiction|reflexivity].
Qed.
Lemma assign_at_in {A} ivs : forall (l : list A) i v, NoDup (map fst ivs) -> In (i, v) ivs -> i < length l ->
  nth_error (assign_at l ivs) i = Some v.
Proof.
  unfold assign_at. induction ivs as [|iv r IH]; intros l i v Hd Hin Hi; [destruct Hin|]. cbn [fold_left].
  cbn [map] in Hd. inversion Hd as [|? ? N1 N2]; subst. destruct Hin as [->|Hin].
  - change (nth_error (assign_at (set_at l (fst (i, v)) (snd (i, v))) r) i = Some v).
    rewrite (assign_at_notin r). 2:{ intros q Hq E. apply N1. cbn [fst]. rewrite <- E. apply in_map, Hq. }
    cbn [fst snd]. rewrite nth_error_set_at, Nat.eqb_refl. destruct (Nat.ltb_spec i (length l)); [reflexivity|lia].
  - apply IH; [exact N2|exact Hin|rewrite set_at_length; exact Hi].
Qed.

Lemma diag_index_nth k c y : y < k * c -> nth_error (diag_indices k c) y = Some (y * c + y mod c).
Proof.
  intros H. unfold diag_indices. rewrite map_nth_error_iff, nth_error_seq'. destruct (Nat.ltb_spec y (k * c)); [reflexivity|lia].
Qed.
Lemma diag_NoDup k c : 0 < c -> NoDup (diag_indices k c).
Proof.
  intros Hc. unfold diag_indices. apply FinFun.Injective_map_NoDup.
  - intros a b E. pose proof (Nat.mod_upper_bound a c). pose proof (Nat.mod_upper_bound b c). nia.
  - apply seq_NoDup.
Qed.

(** pure form of the zero-then-fill-diagonal step on the flat array *)
Lemma fix_diag_spec (m : list Z) k c : 0 < c -> length m = k * c * c ->
  let zeroed := assign_at m (map (fun i => (i, 0%Z)) (diag_indices k c)) in
  exists rows, reshape_rows c zeroed = Ok rows /\
   let final := assign_at zeroed (combine (diag_indices k c) (map Zsum rows)) in
   length final = k * c * c /\
   forall y j, y < k * c -> j < c ->
     nth_error final (j + c * y) =
       if j =? y mod c
       then Some (Zsum (map (fun j' => if j' =? y mod c then 0%Z else nth (j' + c * y) m 0%Z) (seq 0 c)))
       else nth_error m (j + c * y).
Proof.
  intros Hc Hm zeroed.
  assert (Hz : length zeroed = k * c * c) by (subst zeroed; rewrite assign_at_length; exact Hm).
  assert (Hzn : forall y j, y < k * c -> j < c ->
     nth_error zeroed (j + c * y) = if j =? y mod c then Some 0%Z else nth_error m (j + c * y)).
  { intros y j Hy Hj. subst zeroed. destruct (Nat.eqb_spec j (y mod c)) as [E|E].
    - apply assign_at_in.
      + rewrite map_map. cbn [fst]. rewrite map_id. apply diag_NoDup, Hc.
      + apply in_map_iff. exists (j + c * y). split; [reflexivity|]. apply nth_error_In with (n := y).
        rewrite diag_index_nth by exact Hy. f_equal. lia.
      + rewrite Hm. nia.
    - apply assign_at_notin. intros iv Hiv E2. apply in_map_iff in Hiv as [d [<- Hd]]. cbn [fst] in E2. subst d.
      unfold diag_indices in Hd. apply in_map_iff in Hd as [y' [E3 _]].
      pose proof (Nat.mod_upper_bound y' c ltac:(lia)). assert (y' = y) by nia. subst. lia. }
  eexists. split; [apply (reshape_rows_ok c zeroed (k * c) Hc Hz)|].
  set (rows := map _ (seq 0 (k * c))). intros final.
  assert (Hrl : length (map Zsum rows) = k * c) by (rewrite map_length; subst rows; rewrite map_length, seq_length; reflexivity).
  assert (Hdl : length (diag_indices k c) = k * c) by (unfold diag_indices; rewrite map_length, seq_length; reflexivity).
  split; [subst final; rewrite assign_at_length; exact Hz|].
  intros y j Hy Hj. subst final. destruct (Nat.eqb_spec j (y mod c)) as [E|E].
  - assert (Hrow : exists row, nth_error rows y = Some row /\ length row = c /\ forall x, x < c -> nth_error row x = nth_error zeroed (x + c * y)).
    { destruct (reshape_nth c zeroed (k * c) y 0 Hc Hy) as [row [R1 _]]. exists row. split; [exact R1|].
      split; [eapply reshape_row_length; [exact Hz|exact R1]|]. intros x Hx.
      destruct (reshape_nth c zeroed (k * c) y x Hx Hy) as [row' [R1' R2']]. fold rows in R1, R1'. congruence. }
    destruct Hrow as [row [R1 [R2 R3]]].
    assert (Es : Zsum row = Zsum (map (fun j' => if j' =? y mod c then 0%Z else nth (j' + c * y) m 0%Z) (seq 0 c))).
    { f_equal. apply list_ext. intros x. rewrite map_nth_error_iff, nth_error_seq'.
      destruct (Nat.ltb_spec x c) as [Hx|Hx].
      - rewrite R3, Hzn by assumption. simpl. destruct (Nat.eqb_spec x (y mod c)); [reflexivity|].
        apply nth_error_nth'. rewrite Hm. nia.
      - simpl. apply nth_error_None. lia. }
    rewrite <- Es. apply assign_at_in.
    + rewrite map_fst_combine by congruence. apply diag_NoDup, Hc.
    + assert (Q : nth_error (combine (diag_indices k c) (map Zsum rows)) y = Some (j + c * y, Zsum row)).
      { assert (Qg : forall (a : list nat) (b : list Z) n x1 x2, nth_error a n = Some x1 -> nth_error b n = Some x2 ->
           nth_error (combine a b) n = Some (x1, x2)).
        { induction a as [|p a IHa]; intros [|q b] [|n] x1 x2 A1 A2; simpl in *; try discriminate; [congruence|]. apply IHa; assumption. }
        apply Qg; [rewrite diag_index_nth by exact Hy; f_equal; lia|]. rewrite map_nth_error_iff, R1. reflexivity. }
      eapply nth_error_In; exact Q.
    + rewrite Hz. nia.
  - rewrite assign_at_notin; [rewrite Hzn by assumption; destruct (Nat.eqb_spec j (y mod c)); [contradiction|reflexivity]|].
    intros [d z] Hiv E2. cbn [fst] in E2. subst d. apply in_combine_l in Hiv.
    unfold diag_indices in Hiv. apply in_map_iff in Hiv as [y' [E3 _]].
    pose proof (Nat.mod_upper_bound y' c ltac:(lia)). assert (y' = y) by nia. subst. lia.
Qed.

(** reshape to matrices *)
Lemma reshape_mats_ok {A} (l : list A) k c : 0 < c -> length l = k * c * c ->
  exists mats, reshape_mats c l = Ok mats /\ length mats = k
   /\ concat (map (@concat A) mats) = l
   /\ forall r, r < k -> exists mat, nth_error mats r = Some mat /\ length mat = c
       /\ forall x, x < c -> exists row, nth_error mat x = Some row /\ length row = c
           /\ forall j, j < c -> nth_error row j = nth_error l (j + c * (x + c * r)).
Proof.
  intros Hc Hl. unfold reshape_mats.
  assert (Hl' : length l = k * (c * c)) by nia.
  rewrite (reshape_rows_ok (c * c) l k) by (try nia; exact Hl'). cbn [bind].
  set (ms := map (fun r => firstn (c * c) (skipn (r * (c * c)) l)) (seq 0 k)).
  assert (Hms : forall m, In m ms -> length m = c * c).
  { intros m Hm. apply In_nth_error in Hm as [r Hr]. eapply reshape_row_length; [exact Hl'|exact Hr]. }
  set (sp := fun m : list A => map (fun r => firstn c (skipn (r * c) m)) (seq 0 c)).
  rewrite (res_map_pure _ sp). 2:{ intros m Hm. apply reshape_rows_ok; [exact Hc|apply Hms, Hm]. }
  eexists. split; [reflexivity|]. split; [rewrite map_length; subst ms; rewrite map_length, seq_length; reflexivity|].
  split.
  - rewrite map_map. rewrite (map_ext_in _ (fun m => m)).
    + rewrite map_id. apply concat_reshape, Hl'.
    + intros m Hm. apply concat_reshape. rewrite (Hms m Hm). reflexivity.
  - intros r Hr. assert (Hcc : 0 < c * c) by nia.
    destruct (reshape_nth (c * c) l k r 0 Hcc Hr) as [m [M1 _]].
    assert (Hm : In m ms) by (eapply nth_error_In; exact M1).
    exists (sp m). split; [rewrite map_nth_error_iff; fold ms in M1; rewrite M1; reflexivity|].
    split; [subst sp; cbn; rewrite map_length, seq_length; reflexivity|].
    intros x Hx. assert (Hmx : length m = c * c) by (apply Hms, Hm).
    destruct (reshape_nth c m c x 0 Hc Hx) as [row [R1 _]]. exists row. split; [exact R1|].
    split; [eapply reshape_row_length; [exact Hmx|exact R1]|].
    intros j Hj. destruct (reshape_nth c m c x j Hj Hx) as [row' [R1' R2']].
    assert (row' = row) by congruence. subst row'. rewrite R2'.
    assert (Hjj : j + c * x < c * c) by nia.
    destruct (reshape_nth (c * c) l k r (j + c * x) Hjj Hr) as [m' [M1' M2']].
    assert (m' = m) by congruence. subst m'. rewrite M2'. f_equal. ring.
Qed.

Lemma filter_map_length {A} (f : A -> Z) (g : A -> bool) k l : (forall r, In r l -> Z.eqb k (f r) = g r) ->
  length (filter (Z.eqb k) (map f l)) = length (filter g l).
Proof.
  induction l as [|a r IH]; intros H; [reflexivity|]. cbn [map filter]. rewrite (H a (or_introl eq_refl)).
  destruct (g a); cbn [length]; rewrite IH; auto; intros q Hq; apply H; right; exact Hq.
Qed.

Lemma map_fst_filter_combine {A} (p : Z -> bool) (h : A -> Z) (l : list A) :
  map fst (filter (fun rn => p (snd rn)) (combine l (map h l))) = filter (fun r => p (h r)) l.
Proof. induction l as [|a r IH]; [reflexivity|]. cbn [map combine filter snd]. destruct (p (h a)); cbn [map fst]; rewrite IH; reflexivity. Qed.

Lemma trans_required_index c ps x' x u : 0 < c -> compat c ps -> x < c -> config_ok ps u ->
  scalar_index (map Z.of_nat (x' :: x :: u)) (build_transition_scalar_indexing_structure_for_a_node c ps)
  = Z.of_nat (config_rank (c :: c :: ps) (x' :: x :: u)).
Proof.
  intros Hc Hp Hx Hu. cbn [map]. rewrite trans_index by exact Hc.
  rewrite (wsum_required c ps 1 u (config_ok_length _ _ Hu) Hp Hu). cbn [config_rank].
  rewrite Z.mul_1_l, !Nat2Z.inj_add, !Nat2Z.inj_mul, Nat2Z.inj_add, Nat2Z.inj_mul. reflexivity.
Qed.

Lemma transitions_spec traj ni tot pis c ps : 0 < c -> compat c ps -> length pis = length ps ->
  Forall (transition_row_ok tot ni pis c ps) traj ->
  exists M, compute_state_transitions_for_a_node ni traj (tot + tot)
              (build_transition_filtering_for_a_node ni pis tot)
              (build_transition_scalar_indexing_structure_for_a_node c ps) (nat_prod ps) c = Ok M
    /\ length M = nat_prod ps
    /\ forall u x, config_ok ps u -> x < c ->
        exists mat row, nth_error M (config_rank ps u) = Some mat /\ length mat = c
          /\ nth_error mat x = Some row /\ length row = c
          /\ (forall x', x' < c -> x' <> x ->
                nth_error row x' = Some (row_count traj ((ni + tot) :: ni :: pis) (x' :: x :: u)))
          /\ nth_error row x = Some (Zsum (map (fun x' => if x' =? x then 0%Z
                else row_count traj ((ni + tot) :: ni :: pis) (x' :: x :: u)) (seq 0 c))).
Proof.
  intros Hc Hp Hlen Hr. unfold compute_state_transitions_for_a_node, build_transition_filtering_for_a_node.
  set (scal := build_transition_scalar_indexing_structure_for_a_node c ps).
  set (cols := (ni + tot) :: ni :: pis).
  assert (Hhd : hd 0%Z scal = Z.of_nat c) by (subst scal; unfold build_transition_scalar_indexing_structure_for_a_node, cumprod; cbn [map cumprod_from hd]; lia).
  rewrite Hhd. destruct (Z.eqb_spec (Z.of_nat c) 0) as [K|_]; [lia|].
  rewrite Forall_forall in Hr.
  set (h := fun row : list Z => nth (ni + tot) row 0%Z).
  replace ((tot + tot) / 2 + ni) with (ni + tot).
  2:{ replace (tot + tot) with (tot * 2) by lia. rewrite Nat.div_mul by lia. lia. }
  rewrite (res_map_pure _ h). 2:{ intros row Hin. destruct (Hr row Hin) as [z [E _]]. unfold nth_res, h. rewrite E. f_equal. symmetry. apply nth_error_nth, E. }
  cbn [bind]. rewrite (map_fst_filter_combine (fun z => (0 <=? z)%Z) h traj).
  set (trj := filter (fun r => (0 <=? h r)%Z) traj).
  assert (Hin : forall row, In row trj -> row_in_range row cols (c :: c :: ps)).
  { intros row Hrow. apply filter_In in Hrow as [H1 H2]. destruct (Hr row H1) as [z [E1 E2]]. apply E2.
    unfold h in H2. rewrite (nth_error_nth _ _ 0%Z E1) in H2. apply Z.leb_le, H2. }
  rewrite (select_all' trj cols). 2:{ intros row Hrow. destruct (in_range_digits _ _ _ (Hin row Hrow)) as [ds [_ [E _]]]. eauto. }
  cbn [bind]. rewrite map_map.
  set (f := fun row => scalar_index (match select_columns row cols with Ok s => s | Err _ => [] end) scal).
  assert (Hf : forall row, In row trj -> exists x' x u, x' < c /\ x < c /\ config_ok ps u
     /\ f row = Z.of_nat (config_rank (c :: c :: ps) (x' :: x :: u))
     /\ (forall y' y w, length w = length ps -> (row_shows row cols (y' :: y :: w) = true <-> y' :: y :: w = x' :: x :: u))).
  { intros row Hrow. destruct (in_range_digits _ _ _ (Hin row Hrow)) as [ds [D1 [D2 D3]]].
    inversion D1 as [|x' cc l1 cs Hx' Hl1]; subst. inversion Hl1 as [|x cc u cs Hx Hu]; subst.
    exists x', x, u. repeat (split; [assumption|]). split.
    - unfold f. rewrite D2. apply trans_required_index; assumption.
    - intros y' y w Hw. apply D3. subst cols. simpl. lia. }
  change (fun x : list Z => scalar_index match select_columns x cols with Ok s => s | Err _ => [] end scal) with f.
  set (N := nat_prod (c :: c :: ps)).
  assert (Hrange : forall i, In i (map f trj) -> (0 <= i)%Z /\ Z.to_nat i < N).
  { intros i Hi. apply in_map_iff in Hi as [row [<- Hrow]]. destruct (Hf row Hrow) as [x' [x [u [Hx' [Hx [Hu [-> _]]]]]]].
    split; [lia|]. rewrite Nat2Z.id. apply config_rank_lt. repeat constructor; assumption. }
  unfold bincount. rewrite existsb_neg_false by (intros i Hi; apply Hrange, Hi). cbn [bind].
  assert (Hm : Z.to_nat (last scal 0%Z) = N) by (apply (last_scalar c (c :: ps))).
  rewrite Hm, bincount_length_exact by (intros i Hi; apply Hrange, Hi).
  set (b := map _ (seq 0 N)).
  assert (HN : N = nat_prod ps * c * c) by (subst N; unfold nat_prod; cbn [fold_right]; nia).
  assert (Hb : length b = nat_prod ps * c * c) by (subst b; rewrite map_length, seq_length; exact HN).
  destruct (reshape_mats_ok b (nat_prod ps) c Hc Hb) as [mats [-> [Lm [Cm _]]]]. cbn [bind].
  unfold broadcast_rows. rewrite Lm, Nat.eqb_refl. cbn [bind]. rewrite Cm.
  destruct (fix_diag_spec b (nat_prod ps) c Hc Hb) as [rows [-> [Lf Ff]]]. cbn [bind].
  set (final := assign_at _ (combine _ _)) in *.
  destruct (reshape_mats_ok final (nat_prod ps) c Hc Lf) as [M [-> [LM [_ FM]]]].
  exists M. split; [reflexivity|]. split; [exact LM|].
  intros u x Hu Hx. pose proof (config_rank_lt _ _ Hu) as Hru.
  destruct (FM _ Hru) as [mat [A1 [A2 A3]]]. destruct (A3 x Hx) as [row [B1 [B2 B3]]].
  exists mat, row. repeat (split; [assumption|]).
  set (y := x + c * config_rank ps u).
  assert (Hy : y < nat_prod ps * c) by (subst y; nia).
  assert (Hmod : y mod c = x).
  { subst y. rewrite Nat.mul_comm, Nat.mod_add by lia. apply Nat.mod_small, Hx. }
  assert (Hbn : forall x', x' < c -> nth_error b (x' + c * y) = Some (row_count traj cols (x' :: x :: u))).
  { intros x' Hx'. subst b. rewrite map_nth_error_iff, nth_error_seq'.
    destruct (Nat.ltb_spec (x' + c * y) N) as [_|K]; [|nia].
    cbn [option_map]. f_equal. unfold row_count. f_equal.
    rewrite (filter_map_length f (fun r => row_shows r cols (x' :: x :: u))).
    - subst trj. f_equal. clear - Hr Hx'. induction traj as [|r t IH]; [reflexivity|].
      cbn [filter]. destruct (Z.leb_spec 0 (h r)) as [K|K].
      + cbn [filter]. destruct (row_shows r cols (x' :: x :: u)); [f_equal|]; apply IH; intros q Hq; apply Hr; right; exact Hq.
      + assert (E : row_shows r cols (x' :: x :: u) = false).
        { unfold row_shows, cols. cbn [combine forallb fst snd]. destruct (Hr r (or_introl eq_refl)) as [z [E1 _]].
          rewrite E1. unfold h in K. rewrite (nth_error_nth _ _ 0%Z E1) in K.
          destruct (Z.eqb_spec z (Z.of_nat x')); [lia|reflexivity]. }
        rewrite E. apply IH; intros q Hq; apply Hr; right; exact Hq.
    - intros r Hrow. destruct (Hf r Hrow) as [y' [y0 [w [Hy' [Hy0 [Hw [-> Hs]]]]]]].
      apply eq_true_iff_eq. rewrite Z.eqb_eq, Hs by (apply config_ok_length, Hu). split.
      + intros E. apply Nat2Z.inj in E. apply (config_rank_inj (c :: c :: ps)); [repeat constructor; assumption..|].
        cbn [config_rank]. cbn [config_rank] in E. exact E.
      + intros E. injection E as -> -> ->. reflexivity. }
  split.
  - intros x' Hx' Hne. rewrite B3 by exact Hx'. fold y. rewrite Ff by assumption. rewrite Hmod.
    destruct (Nat.eqb_spec x' x); [contradiction|]. apply Hbn, Hx'.
  - rewrite B3 by exact Hx. fold y. rewrite Ff by assumption. rewrite Hmod, Nat.eqb_refl. do 2 f_equal.
    apply map_ext_in. intros j Hj. apply in_seq in Hj. destruct (j =? x); [reflexivity|].
    apply nth_error_nth with (d := 0%Z), Hbn. lia.
Qed.

(** ** C15 *)
Lemma Qc_of_Z_add a b : Qc_of_Z (a + b) = (Qc_of_Z a + Qc_of_Z b)%Qc.
Proof. unfold Qc_of_Z. apply Qc_is_canon. unfold Qcplus, Q2Qc; cbn [this]. rewrite !Qred_correct, inject_Z_plus. reflexivity. Qed.
Lemma Qc_of_Z_opp a : Qc_of_Z (- a) = (- Qc_of_Z a)%Qc.
Proof. unfold Qc_of_Z. apply Qc_is_canon. unfold Qcopp, Q2Qc; cbn [this]. rewrite !Qred_correct, inject_Z_opp. reflexivity. Qed.
Lemma Qc_of_Z_sum l : Qc_of_Z (Zsum l) = Qcsum (map Qc_of_Z l).
Proof. induction l as [|a r IH]; [reflexivity|]. cbn [map]. rewrite Qcsum_cons, <- IH. apply Qc_of_Z_add. Qed.

Lemma cim_entry t m i j T z : nth_error t i = Some T ->
  (exists row, nth_error m i = Some row /\ nth_error row j = Some z) ->
  exists qrow, nth_error (c_cim (compute_cim_coefficients (new_cim t m))) i = Some qrow
   /\ nth_error qrow j = Some (if i =? j then ((1 - Qc_of_Z z) / (T + 1))%Qc else ((Qc_of_Z z + 1) / (T + 1))%Qc).
Proof.
  intros Ht [row [Hr Hz]]. unfold compute_cim_coefficients, new_cim; cbn [c_cim c_times].
  assert (Q : nth_error (combine (negate_diagonal (map (map Qc_of_Z) m)) t) i
     = Some (mapi (fun j v => if i =? j then (- v)%Qc else v) (map Qc_of_Z row), T)).
  { assert (Qg : forall A B (a : list A) (b : list B) n x1 x2, nth_error a n = Some x1 -> nth_error b n = Some x2 ->
        nth_error (combine a b) n = Some (x1, x2)).
    { intros A B; induction a as [|p a IHa]; intros [|q b] [|n] x1 x2 A1 A2; simpl in *; try discriminate; [congruence|]. apply IHa; assumption. }
    apply Qg; [|exact Ht]. unfold negate_diagonal. rewrite nth_error_mapi, map_nth_error_iff, Hr. reflexivity. }
  rewrite map_nth_error_iff, Q. cbn [option_map fst snd]. eexists; split; [reflexivity|].
  rewrite map_nth_error_iff, nth_error_mapi, map_nth_error_iff, Hz. cbn [option_map]. f_equal.
  destruct (i =? j); [f_equal; ring|reflexivity].
Qed.
