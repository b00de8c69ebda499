From Verif Require Import Base Lib ModelGraph ModelCims SpecComb.

(** little-endian enumeration of all configurations *)
Definition le_enum (shape : list nat) : list (list nat) := map (@rev nat) (c_order (rev shape)).

Lemma swap01_invol {A} (l : list A) : swap01 (swap01 l) = l.
Proof. destruct l as [|a [|b r]]; reflexivity. Qed.

Lemma p_comb_le cards : build_p_comb_structure_for_a_node cards = le_enum (swap01 cards).
Proof.
  destruct cards as [|a [|b r]]; [reflexivity| |].
  - unfold build_p_comb_structure_for_a_node, meshgrid_T_reshape, le_enum. cbn [swap01 rev app].
    apply map_ext_in. intros u Hu. cbn [c_order] in Hu. apply in_flat_map in Hu as [i [_ Hu]].
    apply in_map_iff in Hu as [w [<- Hw]]. destruct Hw as [<-|[]]. reflexivity.
  - unfold build_p_comb_structure_for_a_node, meshgrid_T_reshape, le_enum.
    rewrite map_map. apply map_ext. intros u. apply swap01_invol.
Qed.

Lemma flat_map_flat_map {A B C} (f : A -> list B) (g : B -> list C) l :
  flat_map g (flat_map f l) = flat_map (fun a => flat_map g (f a)) l.
Proof. induction l as [|a r IH]; simpl; [reflexivity|]. rewrite flat_map_app, IH. reflexivity. Qed.
Lemma map_flat_map {A B C} (f : A -> list B) (g : B -> C) l :
  map g (flat_map f l) = flat_map (fun a => map g (f a)) l.
Proof. induction l as [|a r IH]; simpl; [reflexivity|]. rewrite map_app, IH. reflexivity. Qed.
Lemma flat_map_map {A B C} (f : A -> B) (g : B -> list C) l :
  flat_map g (map f l) = flat_map (fun a => g (f a)) l.
Proof. induction l as [|a r IH]; simpl; [reflexivity|]. rewrite IH. reflexivity. Qed.
Lemma flat_map_ext_in {A B} (f g : A -> list B) l : (forall a, In a l -> f a = g a) -> flat_map f l = flat_map g l.
Proof.
  induction l as [|a r IH]; simpl; intros H; [reflexivity|].
  rewrite (H a (or_introl eq_refl)), IH; [reflexivity|]. intros b Hb; apply H; right; exact Hb.
Qed.

Lemma c_order_snoc l s : c_order (l ++ [s]) = flat_map (fun ix => map (fun i => ix ++ [i]) (seq 0 s)) (c_order l).
Proof.
  induction l as [|n r IH]; simpl.
  - rewrite app_nil_r. induction (seq 0 s) as [|i q IHq]; simpl; [reflexivity|]. rewrite IHq. reflexivity.
  - rewrite flat_map_flat_map. apply flat_map_ext_in. intros i _. rewrite IH, map_flat_map, flat_map_map.
    apply flat_map_ext_in. intros ix _. rewrite map_map. reflexivity.
Qed.

Lemma le_enum_cons s sh : le_enum (s :: sh) = flat_map (fun u => map (fun i => i :: u) (seq 0 s)) (le_enum sh).
Proof.
  unfold le_enum. cbn [rev]. rewrite c_order_snoc, map_flat_map, flat_map_map.
  apply flat_map_ext_in. intros ix _. rewrite map_map. apply map_ext. intros i. rewrite rev_app_distr. reflexivity.
Qed.

Lemma flat_map_length_const {A B} (f : A -> list B) c l : (forall a, In a l -> length (f a) = c) ->
  length (flat_map f l) = length l * c.
Proof.
  induction l as [|a r IH]; simpl; intros H; [reflexivity|].
  rewrite app_length, IH, (H a (or_introl eq_refl)); [reflexivity|]. intros b Hb; apply H; right; exact Hb.
Qed.
Lemma le_enum_length shape : length (le_enum shape) = nat_prod shape.
Proof.
  induction shape as [|s sh IH]; [reflexivity|]. rewrite le_enum_cons.
  rewrite (flat_map_length_const _ s). 2:{ intros; rewrite map_length, seq_length; reflexivity. }
  rewrite IH. unfold nat_prod; simpl. lia.
Qed.

Lemma nth_error_flat_map_const {A B} (f : A -> list B) c l i j a :
  (forall x, In x l -> length (f x) = c) -> nth_error l i = Some a -> j < c ->
  nth_error (flat_map f l) (j + c * i) = nth_error (f a) j.
Proof.
  revert i; induction l as [|x r IH]; intros i H Hi Hj; [destruct i; discriminate|]. simpl.
  pose proof (H x (or_introl eq_refl)) as Hx.
  destruct i as [|i]; simpl in Hi.
  - injection Hi as ->. rewrite Nat.mul_0_r, Nat.add_0_r. apply nth_error_app1. lia.
  - rewrite nth_error_app2 by nia. replace (j + c * S i - length (f x)) with (j + c * i) by nia.
    apply IH; [|exact Hi|exact Hj]. intros y Hy; apply H; right; exact Hy.
Qed.

Lemma le_enum_rank shape : table_matches_storage shape (le_enum shape).
Proof.
  unfold table_matches_storage. induction shape as [|s sh IH]; intros u Hu.
  - inversion Hu; subst. reflexivity.
  - inversion Hu as [|d c ds cs Hd Hr]; subst. cbn [config_rank]. rewrite le_enum_cons.
    rewrite (nth_error_flat_map_const _ s _ _ _ ds).
    + rewrite map_nth_error_iff, nth_error_seq'. destruct (Nat.ltb_spec d s); [reflexivity|lia].
    + intros; rewrite map_length, seq_length; reflexivity.
    + apply IH, Hr.
    + exact Hd.
Qed.

Lemma le_enum_ok shape u : In u (le_enum shape) <-> config_ok shape u.
Proof.
  revert u; induction shape as [|s sh IH]; intros u.
  - unfold le_enum; simpl. split; [intros [<-|[]]; constructor|]. intros H; inversion H; auto.
  - rewrite le_enum_cons, in_flat_map. split.
    + intros [w [Hw Hu]]. apply in_map_iff in Hu as [i [<- Hi]]. apply in_seq in Hi.
      constructor; [lia|apply IH, Hw].
    + intros H. inversion H as [|d c ds cs Hd Hr]; subst. exists ds. split; [apply IH, Hr|].
      apply in_map_iff. exists d. split; [reflexivity|apply in_seq; lia].
Qed.

Lemma config_rank_lt shape u : config_ok shape u -> config_rank shape u < nat_prod shape.
Proof.
  intros H. apply le_enum_rank in H. rewrite <- le_enum_length. apply nth_error_Some. congruence.
Qed.

Lemma config_rank_inj shape u w : config_ok shape u -> config_ok shape w ->
  config_rank shape u = config_rank shape w -> u = w.
Proof.
  intros H1 H2 E. apply le_enum_rank in H1, H2. rewrite E in H1. congruence.
Qed.

Lemma le_enum_nth shape k u : nth_error (le_enum shape) k = Some u -> config_ok shape u /\ config_rank shape u = k.
Proof.
  revert k u; induction shape as [|s sh IH]; intros k u H.
  - unfold le_enum in H; simpl in H. destruct k as [|k]; [|destruct k; discriminate]. injection H as <-.
    split; [constructor|reflexivity].
  - assert (Hk : k < length (le_enum (s :: sh))) by (apply nth_error_Some; congruence).
    rewrite le_enum_length in Hk. unfold nat_prod in Hk; simpl in Hk. fold (nat_prod sh) in Hk.
    assert (Hs : s <> 0) by (intros ->; simpl in Hk; lia).
    pose proof (Nat.div_mod k s Hs) as Ek. pose proof (Nat.mod_upper_bound k s Hs) as Em.
    assert (Hq : k / s < length (le_enum sh)).
    { rewrite le_enum_length. apply Nat.div_lt_upper_bound; [exact Hs|exact Hk]. }
    destruct (nth_error (le_enum sh) (k / s)) as [w|] eqn:Ew; [|apply nth_error_None in Ew; lia].
    rewrite le_enum_cons in H. replace k with (k mod s + s * (k / s)) in H by lia.
    rewrite (nth_error_flat_map_const _ s _ _ _ w) in H; [| |exact Ew|exact Em].
    2:{ intros; rewrite map_length, seq_length; reflexivity. }
    rewrite map_nth_error_iff, nth_error_seq' in H. destruct (Nat.ltb_spec (k mod s) s); [|lia].
    simpl in H. injection H as <-. apply IH in Ew as [E1 E2]. split; [constructor; [lia|exact E1]|].
    cbn [config_rank]. rewrite E2. lia.
Qed.

(** C08 *)
Lemma p_comb_length cards : length (build_p_comb_structure_for_a_node cards) = nat_prod cards.
Proof.
  rewrite p_comb_le, le_enum_length. destruct cards as [|a [|b r]]; try reflexivity.
  unfold nat_prod; simpl. lia.
Qed.

Lemma swap01_fix (cards : list nat) : length cards < 2 \/ (exists c r, cards = c :: c :: r) -> swap01 cards = cards.
Proof. intros [H|[c [r ->]]]; [|reflexivity]. destruct cards as [|a [|b r]]; try reflexivity. simpl in H; lia. Qed.

Lemma zeros_ok r : Forall (fun c => 0 < c) r -> config_ok r (map (fun _ => 0) r).
Proof. induction 1; simpl; constructor; assumption. Qed.

Lemma p_comb_unequal a b r : a <> b -> 0 < a -> 0 < b -> Forall (fun c => 0 < c) r ->
  (exists u, config_ok (a :: b :: r) u /\ ~ In u (build_p_comb_structure_for_a_node (a :: b :: r)))
  /\ (exists u, In u (build_p_comb_structure_for_a_node (a :: b :: r)) /\ ~ config_ok (a :: b :: r) u).
Proof.
  intros Hab Ha Hb Hr. rewrite p_comb_le. cbn [swap01].
  assert (Z := zeros_ok r Hr).
  split.
  - destruct (Nat.lt_ge_cases b a) as [K|K].
    + exists ((a - 1) :: 0 :: map (fun _ => 0) r). split; [repeat constructor; try lia; exact Z|].
      rewrite le_enum_ok. intros Q. inversion Q; subst; lia.
    + exists (0 :: (b - 1) :: map (fun _ => 0) r). split; [repeat constructor; try lia; exact Z|].
      rewrite le_enum_ok. intros Q. inversion Q as [|? ? ? ? ? Q2]; subst. inversion Q2; subst; lia.
  - destruct (Nat.lt_ge_cases a b) as [K|K].
    + exists ((b - 1) :: 0 :: map (fun _ => 0) r). split.
      * apply le_enum_ok. repeat constructor; try lia; exact Z.
      * intros Q. inversion Q; subst; lia.
    + exists (0 :: (a - 1) :: map (fun _ => 0) r). split.
      * apply le_enum_ok. repeat constructor; try lia; exact Z.
      * intros Q. inversion Q as [|? ? ? ? ? Q2]; subst. inversion Q2; subst; lia.
Qed.

Lemma p_comb_iff cards : Forall (fun c => 0 < c) cards ->
  (table_matches_storage cards (build_p_comb_structure_for_a_node cards)
   <-> (length cards < 2 \/ exists c r, cards = c :: c :: r)).
Proof.
  intros H. split.
  - intros T. destruct cards as [|a [|b r]]; [left; simpl; lia|left; simpl; lia|].
    destruct (Nat.eq_dec a b) as [->|Hab]; [right; eauto|]. exfalso.
    inversion H as [|? ? Ha H']; subst. inversion H' as [|? ? Hb Hr]; subst.
    destruct (proj1 (p_comb_unequal a b r Hab Ha Hb Hr)) as [u [U1 U2]].
    apply U2. eapply nth_error_In. apply T, U1.
  - intros K. rewrite p_comb_le, swap01_fix by exact K. apply le_enum_rank.
Qed.

Lemma p_comb_rows cards k u : (length cards < 2 \/ exists c r, cards = c :: c :: r) ->
  nth_error (build_p_comb_structure_for_a_node cards) k = Some u -> config_ok cards u /\ config_rank cards u = k.
Proof. intros K H. rewrite p_comb_le, swap01_fix in H by exact K. apply le_enum_nth, H. Qed.

(** C09 *)
Lemma nat_list_eqb_eq a b : nat_list_eqb a b = true <-> a = b.
Proof.
  revert b; induction a as [|x a IH]; intros [|y b]; simpl; try (split; congruence).
  rewrite andb_true_iff, IH, Nat.eqb_eq. split; [intros [-> ->]; reflexivity|]. intros E; injection E; auto.
Qed.
Lemma agrees_mask mask : forall row comb, nat_list_eqb (mask_row mask row) comb = agrees_on mask row comb.
Proof.
  unfold mask_row. induction mask as [|m mask IH]; intros row comb; simpl; [destruct comb; reflexivity|].
  destruct row as [|x row]; [destruct m, comb; reflexivity|]. simpl. destruct m; simpl.
  - destruct comb as [|y comb]; [reflexivity|]. rewrite IH. reflexivity.
  - apply IH.
Qed.

Lemma filter_indices_gen {C} (rows : list (list nat)) (cs : list C) mask comb pre :
  length rows <= length cs ->
  res_map (nth_res (pre ++ cs)) (map fst (filter (fun ir : nat * list nat => nat_list_eqb (mask_row mask (snd ir)) comb)
      (combine (seq (length pre) (length rows)) rows)))
  = Ok (map snd (filter (fun rc => agrees_on mask (fst rc) comb) (combine rows cs))).
Proof.
  revert cs pre; induction rows as [|r rows IH]; intros cs pre H; [reflexivity|].
  destruct cs as [|c cs]; [simpl in H; lia|]. cbn [length seq combine filter fst snd].
  rewrite agrees_mask. specialize (IH cs (pre ++ [c]) ltac:(simpl in H; lia)).
  rewrite <- app_assoc in IH. cbn [app] in IH. rewrite app_length in IH. simpl in IH. rewrite Nat.add_1_r in IH.
  destruct (agrees_on mask r comb); cbn [map fst snd res_map].
  - unfold nth_res at 1. rewrite nth_error_app2 by lia. rewrite Nat.sub_diag. cbn [nth_error bind].
    rewrite IH. reflexivity.
  - exact IH.
Qed.

Lemma filter_cims_spec {C} (s : set_of_cims C) mask comb :
  length (so_p_combs s) <= length (so_actual_cims s) ->
  filter_cims_with_mask s mask comb =
  Ok (if length mask <=? 1 then so_actual_cims s
      else map snd (filter (fun rc => agrees_on mask (fst rc) comb) (combine (so_p_combs s) (so_actual_cims s)))).
Proof.
  intros H. unfold filter_cims_with_mask. destruct (length mask <=? 1); [reflexivity|].
  exact (filter_indices_gen (so_p_combs s) (so_actual_cims s) mask comb [] H).
Qed.
