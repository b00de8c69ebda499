(** Generated trajectories: how many transitions reach the learner (C67). *)
From Verif Require Import Base Lib LibQc ModelStructure ModelGraph ModelCims ModelData ModelParams ModelGenerator ModelSample
  SpecStructure SpecGraph SpecComb SpecParams SpecData SpecGenerator SpecSample SpecInvariance SpecConserve ProofInvariance ProofConserve.
Open Scope nat_scope.

Lemma one_change_counted a b cards : Forall2 (fun x c => (0 <= x < Z.of_nat c)%Z) b cards -> one_change a b -> forall ta tb,
  Zsum (map (fun i => if changes_state i ((ta, a), (tb, b)) then 1%Z else 0%Z) (seq 0 (length cards))) = 1%Z.
Proof.
  intros F [HL [i [x [y [H1 [H2 [H3 H4]]]]]]] ta tb. pose proof (Forall2_length _ _ _ F) as LB.
  apply (Zsum_unique (fun i => changes_state i ((ta, a), (tb, b))) 1%Z _ i); [apply seq_NoDup| |].
  - apply in_seq. assert (i < length b) by (apply nth_error_Some; congruence). lia.
  - intros j Hj. unfold changes_state. cbn [fst snd]. split.
    + destruct (Nat.eq_dec j i) as [E|E]; [auto|]. rewrite (H4 j E). destruct (nth_error b j); [|discriminate]. rewrite Z.eqb_refl, andb_false_r. discriminate.
    + intros ->. rewrite H1, H2. destruct (Forall2_nth_error _ _ _ F i y H2) as [c [_ K]]. destruct (Z.leb_spec 0 y); [|lia].
      destruct (Z.eqb_spec x y); [contradiction|reflexivity].
Qed.
Lemma marker_not_counted a (cards : list nat) i ta tb : changes_state i ((ta, a), (tb, map (fun _ => (-1)%Z) cards)) = false.
Proof.
  unfold changes_state. cbn [fst snd]. destruct (nth_error a i) as [x|]; [|reflexivity]. destruct (nth_error (map (fun _ : nat => (-1)%Z) cards) i) as [y|] eqn:E; [|reflexivity].
  apply nth_error_In, in_map_iff in E as [w [<- _]]. reflexivity.
Qed.
Lemma shape_changes cards rows : trajectory_shape cards rows ->
  Zsum (map (fun i => observed_changes [rows] i) (seq 0 (length cards))) = Z.of_nat (length rows - 2).
Proof.
  intros [done [lst [-> [H1 [H2 [H3 _]]]]]].
  transitivity (Zsum (map (fun ab => Zsum (map (fun i => if changes_state i ab then 1%Z else 0%Z) (seq 0 (length cards)))) (steps (done ++ [lst])))).
  { rewrite <- Zsum_swap. apply Zsum_ext. intros i _. unfold observed_changes. cbn [map]. rewrite Zsum_cons, filter_length_sum. cbn. lia. }
  rewrite app_length. cbn [length]. destruct lst as [tl_ xl]. cbn [snd] in H1. subst xl. unfold steps.
  induction done as [|[td xd] done IH]; [reflexivity|]. destruct done as [|[td' xd'] done].
  - cbn [app tl combine map length]. rewrite Zsum_cons. rewrite Zsum_zero; [reflexivity|]. intros i _. rewrite marker_not_counted. reflexivity.
  - change (combine (((td, xd) :: (td', xd') :: done) ++ [(tl_, map (fun _ : nat => (-1)%Z) cards)]) (tl (((td, xd) :: (td', xd') :: done) ++ [(tl_, map (fun _ : nat => (-1)%Z) cards)])))
      with (((td, xd), (td', xd')) :: combine (((td', xd') :: done) ++ [(tl_, map (fun _ : nat => (-1)%Z) cards)]) (tl (((td', xd') :: done) ++ [(tl_, map (fun _ : nat => (-1)%Z) cards)]))).
    rewrite map_cons, Zsum_cons, IH.
    + rewrite (one_change_counted xd xd' cards).
      * cbn [length]. lia.
      * apply (H2 (td', xd')). right. left. reflexivity.
      * apply H3.
    + intros r Hr. apply H2. right. exact Hr.
    + apply H3.
Qed.
Lemma shape_all_changes cards rs : Forall (trajectory_shape cards) rs ->
  Zsum (map (fun i => observed_changes rs i) (seq 0 (length cards))) = Zsum (map (fun r => Z.of_nat (length r - 2)) rs).
Proof.
  induction 1 as [|r rs Hr F IH].
  - apply Zsum_zero. reflexivity.
  - cbn [map]. rewrite Zsum_cons, <- (shape_changes cards r Hr), <- IH. rewrite <- (Zsum_add _ _ (fun i => observed_changes [r] i + observed_changes rs i)%Z) by reflexivity.
    apply Zsum_ext. intros i _. unfold observed_changes. cbn [map]. rewrite !Zsum_cons. cbn. lia.
Qed.
