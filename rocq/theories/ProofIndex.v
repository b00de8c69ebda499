(** Scalar index vectors, bincount and reshape. *)
From Verif Require Import Base Lib ModelGraph ModelCims ModelParams SpecComb SpecParams ProofComb.

(** ** Scalar indexes *)
Lemma last_cons_ne {A} (l : list A) a d : l <> [] -> last (a :: l) d = last l d.
Proof. destruct l; [congruence|reflexivity]. Qed.
Lemma cumprod_from_last l : forall acc d, last (cumprod_from acc l) d = match l with [] => d | _ => (acc * fold_right Z.mul 1 l)%Z end.
Proof.
  induction l as [|a r IH]; intros acc d; [reflexivity|].
  cbn [cumprod_from]. destruct r as [|b r]; [simpl; ring|].
  rewrite last_cons_ne by discriminate. rewrite IH. simpl. ring.
Qed.
Lemma fold_Zmul_nat l : fold_right Z.mul 1%Z (map Z.of_nat l) = Z.of_nat (nat_prod l).
Proof. induction l as [|a r IH]; [reflexivity|]. simpl. rewrite IH. unfold nat_prod; simpl. lia. Qed.
Lemma last_scalar c ps d : Z.to_nat (last (cumprod (map Z.of_nat (c :: ps))) d) = nat_prod (c :: ps).
Proof.
  unfold cumprod. rewrite cumprod_from_last. cbn [map]. rewrite Z.mul_1_l.
  change (fold_right Z.mul 1%Z (Z.of_nat c :: map Z.of_nat ps)) with (fold_right Z.mul 1%Z (map Z.of_nat (c :: ps))).
  rewrite fold_Zmul_nat. apply Nat2Z.id.
Qed.

(** the weights the code uses for the parents: running product of the parents' cardinalities *)
Fixpoint wsum (acc : Z) (ps : list nat) (us : list Z) : Z :=
  match ps, us with
  | p :: ps', u :: us' => (u * (acc * Z.of_nat p) + wsum (acc * Z.of_nat p) ps' us')%Z
  | _, _ => 0%Z
  end.
Lemma dot_cumprod c ps : forall acc us, dot us (cumprod_from (acc * c) (map Z.of_nat ps)) = (c * wsum acc ps us)%Z.
Proof.
  induction ps as [|p ps IH]; intros acc us; destruct us as [|u us]; cbn [map cumprod_from wsum]; try (unfold dot; simpl; lia).
  unfold dot. cbn [combine map]. unfold Zsum; cbn [fold_right fst snd].
  replace (acc * c * Z.of_nat p)%Z with (acc * Z.of_nat p * c)%Z by ring.
  change (fold_right Z.add 0%Z (map (fun q => (fst q * snd q)%Z) (combine us (cumprod_from (acc * Z.of_nat p * c) (map Z.of_nat ps)))))
    with (dot us (cumprod_from (acc * Z.of_nat p * c) (map Z.of_nat ps))).
  rewrite IH. ring.
Qed.

Lemma time_index c ps x us : 0 < c ->
  scalar_index (x :: us) (build_time_scalar_indexing_structure_for_a_node c ps) = (x + wsum 1 ps us)%Z.
Proof.
  intros Hc. unfold scalar_index, build_time_scalar_indexing_structure_for_a_node, cumprod.
  cbn [map cumprod_from hd]. unfold dot; cbn [combine map fst snd]. unfold Zsum; cbn [fold_right].
  change (fold_right Z.add 0%Z (map (fun q => (fst q * snd q)%Z) (combine us (cumprod_from (1 * Z.of_nat c) (map Z.of_nat ps)))))
    with (dot us (cumprod_from (1 * Z.of_nat c) (map Z.of_nat ps))).
  rewrite dot_cumprod. rewrite Z.mul_1_l.
  replace (x * Z.of_nat c + Z.of_nat c * wsum 1 ps us)%Z with ((x + wsum 1 ps us) * Z.of_nat c)%Z by ring.
  apply Z.quot_mul. lia.
Qed.

Lemma trans_index c ps x' x us : 0 < c ->
  scalar_index (x' :: x :: us) (build_transition_scalar_indexing_structure_for_a_node c ps)
  = (x' + Z.of_nat c * (x + wsum 1 ps us))%Z.
Proof.
  intros Hc. unfold scalar_index, build_transition_scalar_indexing_structure_for_a_node, cumprod.
  cbn [map cumprod_from hd]. unfold dot; cbn [combine map fst snd]. unfold Zsum; cbn [fold_right].
  change (fold_right Z.add 0%Z (map (fun q => (fst q * snd q)%Z) (combine us (cumprod_from (1 * Z.of_nat c * Z.of_nat c) (map Z.of_nat ps)))))
    with (dot us (cumprod_from (1 * Z.of_nat c * Z.of_nat c) (map Z.of_nat ps))).
  replace (1 * Z.of_nat c * Z.of_nat c)%Z with (1 * (Z.of_nat c * Z.of_nat c))%Z by ring.
  rewrite dot_cumprod. rewrite Z.mul_1_l.
  replace (x' * Z.of_nat c + (x * (1 * (Z.of_nat c * Z.of_nat c)) + Z.of_nat c * Z.of_nat c * wsum 1 ps us))%Z
    with ((x' + Z.of_nat c * (x + wsum 1 ps us)) * Z.of_nat c)%Z by ring.
  apply Z.quot_mul. lia.
Qed.

(** equal cardinalities: the weights are the required ones *)
Lemma wsum_equal c n : forall acc us, length us = n ->
  wsum acc (repeat c n) (map Z.of_nat us) = (acc * Z.of_nat (c * config_rank (repeat c n) us))%Z.
Proof.
  induction n as [|n IH]; intros acc us Hl; destruct us as [|u us]; try discriminate; cbn [repeat wsum map config_rank].
  - rewrite Nat.mul_0_r. lia.
  - rewrite IH by (simpl in Hl; lia). lia.
Qed.

(** required index minus used index *)
Lemma wsum_required (c : nat) ps : forall acc us, length us = length ps -> (forall p, In p ps -> 2 <= p -> p = c) ->
  config_ok ps us -> wsum acc ps (map Z.of_nat us) = (acc * Z.of_nat (c * config_rank ps us))%Z.
Proof.
  induction ps as [|p ps IH]; intros acc us Hl H Hok; destruct us as [|u us]; try discriminate; cbn [wsum map config_rank].
  - rewrite Nat.mul_0_r; lia.
  - inversion Hok as [|? ? ? ? Hu Hr]; subst. rewrite IH; [|simpl in Hl; lia|intros q Hq; apply H; right; exact Hq|exact Hr].
    destruct (Nat.le_gt_cases 2 p) as [K|K].
    + rewrite (H p (or_introl eq_refl) K). lia.
    + assert (u = 0) by lia. assert (p = 1) by lia. subst. lia.
Qed.

(** C12, index part *)
Lemma wsum_zero ps : forall acc n, wsum acc ps (map Z.of_nat (repeat 0 n)) = 0%Z.
Proof. induction ps as [|p ps IH]; intros acc [|n]; simpl; try reflexivity. apply IH. Qed.
Lemma rank_zero ps : forall n, config_rank ps (repeat 0 n) = 0.
Proof. induction ps as [|p ps IH]; intros [|n]; simpl; try reflexivity. rewrite IH. lia. Qed.
Lemma zeros_config_ok ps : Forall (fun c => 0 < c) ps -> config_ok ps (repeat 0 (length ps)).
Proof. induction 1; simpl; constructor; assumption. Qed.

Lemma index_agree_iff c ps : 0 < c -> Forall (fun p => 0 < p) ps ->
  ((forall x u, x < c -> config_ok ps u ->
      scalar_index (Z.of_nat x :: map Z.of_nat u) (build_time_scalar_indexing_structure_for_a_node c ps)
      = Z.of_nat (config_rank (c :: ps) (x :: u)))
   <-> (forall p, In p ps -> 2 <= p -> p = c)).
Proof.
  intros Hc Hp. split.
  - intros H. assert (K : forall u, config_ok ps u -> wsum 1 ps (map Z.of_nat u) = (1 * Z.of_nat (c * config_rank ps u))%Z).
    { intros u Hu. specialize (H 0 u Hc Hu). rewrite time_index in H by exact Hc. cbn [config_rank] in H. lia. }
    clear H. revert K. assert (Hacc : (0 < 1)%Z) by lia. revert Hacc. generalize 1%Z as acc.
    induction Hp as [|q ps Hq Hp IH]; intros acc Hacc K p Hin H2; [destruct Hin|].
    assert (Z0 := zeros_config_ok ps Hp).
    destruct Hin as [->|Hin].
    + specialize (K (1 :: repeat 0 (length ps))). cbn [wsum map config_rank] in K. rewrite wsum_zero, rank_zero in K.
      assert (Q : config_ok (p :: ps) (1 :: repeat 0 (length ps))) by (constructor; [lia|exact Z0]).
      specialize (K Q). nia.
    + apply (IH (acc * Z.of_nat q)%Z); [nia| |exact Hin|exact H2].
      intros u Hu. specialize (K (0 :: u)). cbn [wsum map config_rank] in K.
      assert (Q : config_ok (q :: ps) (0 :: u)) by (constructor; [lia|exact Hu]).
      specialize (K Q).
      replace (acc * Z.of_nat q * Z.of_nat (c * config_rank ps u))%Z
        with (acc * Z.of_nat (c * (0 + q * config_rank ps u)))%Z
        by (rewrite Nat.add_0_l, !Nat2Z.inj_mul; ring).
      rewrite <- K. ring.
  - intros H x u Hx Hu. rewrite time_index by exact Hc.
    assert (Hl : length u = length ps) by (apply Forall2_length in Hu; exact Hu).
    rewrite (wsum_required c ps 1 u Hl H Hu). cbn [config_rank]. lia.
Qed.

(** ** bincount *)
Lemma bincount_length_cons i idx m : bincount_length (i :: idx) m = Nat.max (S (Z.to_nat i)) (bincount_length idx m).
Proof. reflexivity. Qed.
Lemma bincount_length_ge idx m : m <= bincount_length idx m.
Proof. induction idx as [|i r IH]; [apply le_n|]. rewrite bincount_length_cons. lia. Qed.
Lemma bincount_length_In idx m i : In i idx -> Z.to_nat i < bincount_length idx m.
Proof.
  induction idx as [|j r IH]; [intros []|]. rewrite bincount_length_cons.
  intros [->|H]; [lia|]. specialize (IH H). lia.
Qed.
Lemma bincount_length_exact idx m : (forall i, In i idx -> Z.to_nat i < m) -> bincount_length idx m = m.
Proof.
  induction idx as [|i r IH]; intros H; [reflexivity|]. rewrite bincount_length_cons.
  rewrite IH by (intros j Hj; apply H; right; exact Hj). specialize (H i (or_introl eq_refl)). lia.
Qed.
Lemma existsb_neg_false idx : (forall i, In i idx -> (0 <= i)%Z) -> existsb (fun i => (i <? 0)%Z) idx = false.
Proof.
  induction idx as [|i r IH]; simpl; intros H; [reflexivity|].
  rewrite IH by (intros j Hj; apply H; right; exact Hj). specialize (H i (or_introl eq_refl)).
  destruct (Z.ltb_spec i 0); [lia|reflexivity].
Qed.
Lemma existsb_neg_iff idx : existsb (fun i => (i <? 0)%Z) idx = false <-> (forall i, In i idx -> (0 <= i)%Z).
Proof.
  split; [|apply existsb_neg_false]. intros H i Hi. destruct (Z.ltb_spec i 0); [|assumption].
  assert (K : existsb (fun i => (i <? 0)%Z) idx = true) by (apply existsb_exists; exists i; split; [exact Hi|apply Z.ltb_lt; assumption]).
  congruence.
Qed.

(** ** reshape *)
Lemma skipn_skipn' {A} (l : list A) a b : skipn a (skipn b l) = skipn (b + a) l.
Proof. revert b; induction l as [|x r IH]; intros b; [rewrite !skipn_nil; reflexivity|]. destruct b; [reflexivity|]. simpl. apply IH. Qed.
Lemma nth_error_firstn' {A} (l : list A) n i : i < n -> nth_error (firstn n l) i = nth_error l i.
Proof. revert n i; induction l as [|x r IH]; intros n i H; [rewrite firstn_nil; reflexivity|]. destruct n; [lia|]. destruct i; [reflexivity|]. simpl. apply IH. lia. Qed.
Lemma nth_error_skipn' {A} (l : list A) n i : nth_error (skipn n l) i = nth_error l (n + i).
Proof. revert n; induction l as [|x r IH]; intros n; [rewrite skipn_nil; destruct i, n; reflexivity|]. destruct n; [reflexivity|]. simpl. apply IH. Qed.

Lemma reshape_rows_ok {A} c (l : list A) k : 0 < c -> length l = k * c ->
  reshape_rows c l = Ok (map (fun r => firstn c (skipn (r * c) l)) (seq 0 k)).
Proof.
  intros Hc Hl. unfold reshape_rows. rewrite Hl.
  destruct (Nat.eqb_spec c 0); [lia|]. rewrite Nat.mod_mul, Nat.div_mul by lia. reflexivity.
Qed.
Lemma reshape_rows_inv {A} c (l : list A) rows : reshape_rows c l = Ok rows ->
  0 < c /\ length l = length rows * c /\ rows = map (fun r => firstn c (skipn (r * c) l)) (seq 0 (length rows)).
Proof.
  unfold reshape_rows. destruct (Nat.eqb_spec c 0); [discriminate|]. cbn [orb].
  destruct (Nat.eqb_spec (length l mod c) 0) as [E|E]; [|discriminate]. cbn [negb]. intros H; injection H as <-.
  rewrite map_length, seq_length. split; [lia|]. split; [|reflexivity].
  pose proof (Nat.div_mod (length l) c ltac:(lia)). lia.
Qed.
Lemma reshape_nth {A} c (l : list A) k r x : x < c -> r < k ->
  exists row, nth_error (map (fun r => firstn c (skipn (r * c) l)) (seq 0 k)) r = Some row
   /\ nth_error row x = nth_error l (x + c * r).
Proof.
  intros Hx Hr. rewrite map_nth_error_iff, nth_error_seq'. destruct (Nat.ltb_spec r k); [|lia]. simpl.
  eexists; split; [reflexivity|]. rewrite nth_error_firstn', nth_error_skipn' by exact Hx. f_equal. lia.
Qed.
Lemma reshape_row_length {A} c (l : list A) k r row : length l = k * c ->
  nth_error (map (fun r => firstn c (skipn (r * c) l)) (seq 0 k)) r = Some row -> length row = c.
Proof.
  intros Hl. rewrite map_nth_error_iff, nth_error_seq'. destruct (Nat.ltb_spec r k); [|discriminate]. simpl.
  intros H1; injection H1 as <-. rewrite firstn_length, skipn_length. nia.
Qed.
Lemma concat_reshape {A} c (l : list A) k : length l = k * c ->
  concat (map (fun r => firstn c (skipn (r * c) l)) (seq 0 k)) = l.
Proof.
  revert l; induction k as [|k IH]; intros l Hl.
  - destruct l; [reflexivity|simpl in Hl; lia].
  - cbn [seq map concat]. rewrite <- seq_shift, map_map. simpl (skipn (0 * c) l).
    transitivity (firstn c l ++ skipn c l); [f_equal|apply firstn_skipn].
    rewrite <- (IH (skipn c l)) by (rewrite skipn_length; lia).
    f_equal. apply map_ext. intros r. rewrite skipn_skipn'. do 2 f_equal.
Qed.
