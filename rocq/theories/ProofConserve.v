(** Every observed change is counted exactly once, whatever the parents (C68). *)
From Verif Require Import Base Lib LibQc ModelStructure ModelGraph ModelCims ModelData ModelParams
  SpecStructure SpecGraph SpecComb SpecParams SpecData SpecInvariance SpecConserve
  ProofStructure ProofGraph ProofComb ProofParams ProofParams2 ProofParams3 ProofData ProofData2 ProofData3 ProofFamScore2 ProofCtpc4 ProofInvariance.
Open Scope nat_scope.

Lemma Zsum_app a b : Zsum (a ++ b) = (Zsum a + Zsum b)%Z.
Proof. unfold Zsum. induction a as [|x a IH]; [reflexivity|]. cbn [app fold_right]. rewrite IH. lia. Qed.
Lemma Zsum_cons x l : Zsum (x :: l) = (x + Zsum l)%Z.
Proof. reflexivity. Qed.
Lemma Zsum_zero {A} (f : A -> Z) l : (forall x, In x l -> f x = 0%Z) -> Zsum (map f l) = 0%Z.
Proof. induction l as [|a l IH]; intros H; [reflexivity|]. cbn [map]. rewrite Zsum_cons, (H a) by (left; reflexivity). rewrite IH by (intros; apply H; right; assumption). reflexivity. Qed.
Lemma Zsum_ext {A} (f g : A -> Z) l : (forall x, In x l -> f x = g x) -> Zsum (map f l) = Zsum (map g l).
Proof. intros H. f_equal. apply map_ext_in, H. Qed.
Lemma Zsum_swap {A B} (f : A -> B -> Z) l r : Zsum (map (fun a => Zsum (map (f a) r)) l) = Zsum (map (fun b => Zsum (map (fun a => f a b) l)) r).
Proof.
  induction l as [|a l IH].
  - cbn [map]. symmetry. apply Zsum_zero. reflexivity.
  - cbn [map]. rewrite Zsum_cons, IH. symmetry. rewrite (Zsum_add (fun b => f a b) (fun b => Zsum (map (fun a0 => f a0 b) l))); [reflexivity|].
    intros b. apply Zsum_cons.
Qed.
Lemma Zsum_unique {A} (P : A -> bool) (k : Z) l w : NoDup l -> In w l -> (forall x, In x l -> P x = true <-> x = w) ->
  Zsum (map (fun x => if P x then k else 0%Z) l) = k.
Proof.
  induction l as [|a l IH]; intros N I H; [destruct I|]. inversion N as [|? ? Na N']; subst. cbn [map]. rewrite Zsum_cons. destruct I as [->|I].
  - rewrite (proj2 (H w (or_introl eq_refl)) eq_refl). rewrite Zsum_zero; [lia|]. intros x Hx.
    destruct (P x) eqn:E; [|reflexivity]. apply (H x (or_intror Hx)) in E. subst x. contradiction.
  - destruct (P a) eqn:E.
    + apply (H a (or_introl eq_refl)) in E. subst a. contradiction.
    + rewrite IH; [reflexivity|assumption..|]. intros x Hx. apply H. right. exact Hx.
Qed.
Lemma Qcsum_zero {A} (f : A -> Qc) l : (forall x, In x l -> f x = 0%Qc) -> Qcsum (map f l) = 0%Qc.
Proof. induction l as [|a l IH]; intros H; [reflexivity|]. cbn [map]. rewrite Qcsum_cons, (H a) by (left; reflexivity). rewrite IH by (intros; apply H; right; assumption). ring. Qed.
Lemma Qcsum_add {A} (f g : A -> Qc) l : Qcsum (map (fun x => f x + g x)%Qc l) = (Qcsum (map f l) + Qcsum (map g l))%Qc.
Proof. induction l as [|x l IH]; [cbn; ring|]. cbn [map]. rewrite !Qcsum_cons, IH. ring. Qed.
Lemma Qcsum_swap {A B} (f : A -> B -> Qc) l r : Qcsum (map (fun a => Qcsum (map (f a) r)) l) = Qcsum (map (fun b => Qcsum (map (fun a => f a b) l)) r).
Proof.
  induction l as [|a l IH].
  - cbn [map]. symmetry. apply Qcsum_zero. reflexivity.
  - cbn [map]. rewrite Qcsum_cons, IH, <- Qcsum_add. reflexivity.
Qed.
Lemma Qcsum_unique {A} (P : A -> bool) (k : Qc) l w : NoDup l -> In w l -> (forall x, In x l -> P x = true <-> x = w) ->
  Qcsum (map (fun x => if P x then k else 0%Qc) l) = k.
Proof.
  induction l as [|a l IH]; intros N I H; [destruct I|]. inversion N as [|? ? Na N']; subst. cbn [map]. rewrite Qcsum_cons. destruct I as [->|I].
  - rewrite (proj2 (H w (or_introl eq_refl)) eq_refl). rewrite Qcsum_zero; [ring|]. intros x Hx.
    destruct (P x) eqn:E; [|reflexivity]. apply (H x (or_intror Hx)) in E. subst x. contradiction.
  - destruct (P a) eqn:E.
    + apply (H a (or_introl eq_refl)) in E. subst a. contradiction.
    + rewrite IH; [ring|assumption..|]. intros x Hx. apply H. right. exact Hx.
Qed.
Lemma filter_length_sum {A} (P : A -> bool) l : Z.of_nat (length (filter P l)) = Zsum (map (fun x => if P x then 1%Z else 0%Z) l).
Proof. induction l as [|a l IH]; [reflexivity|]. cbn [map filter]. rewrite Zsum_cons, <- IH. destruct (P a); [idtac|]; cbn [length]; lia. Qed.
Lemma filter_Qcsum {A} (P : A -> bool) (f : A -> Qc) l : Qcsum (map f (filter P l)) = Qcsum (map (fun x => if P x then f x else 0%Qc) l).
Proof. induction l as [|a l IH]; [reflexivity|]. cbn [map filter]. rewrite Qcsum_cons, <- IH. destruct (P a); [rewrite <- Qcsum_cons; reflexivity|ring]. Qed.

(** a row in range shows exactly one configuration *)
Lemma shown_once row cols cards : row_in_range row cols cards -> exists w, config_ok cards w /\ row_shows row cols w = true
  /\ forall u, config_ok cards u -> row_shows row cols u = true -> u = w.
Proof.
  unfold row_in_range. induction 1 as [|i c cols cards [d [D1 D2]] F [w [W1 [W2 W3]]]].
  - exists []. split; [constructor|]. split; [reflexivity|]. intros u Hu _. inversion Hu. reflexivity.
  - exists (d :: w). split; [constructor; assumption|]. unfold row_shows in *. cbn [combine forallb fst snd]. rewrite D1, Z.eqb_refl. split; [exact W2|].
    intros u Hu. inversion Hu as [|a ? b ? Ha Hb]; subst. cbn [combine forallb fst snd]. rewrite D1. intro K. apply andb_true_iff in K as [K1 K2].
    apply Z.eqb_eq in K1. f_equal; [lia|]. apply W3; assumption.
Qed.

(** one step: [a] and [b] are consecutive rows *)
Lemma step_counted_once a b ni pis c ps :
  row_in_range a (ni :: pis) (c :: ps) -> (exists z, nth_error b ni = Some z /\ (z < Z.of_nat c)%Z) -> forall ta tb,
  Zsum (map (fun w => Zsum (map (fun y => if y =? hd 0 w then 0%Z
                      else if row_shows a (ni :: pis) w && row_shows b [ni] [y] then 1%Z else 0%Z) (seq 0 c))) (le_enum (c :: ps)))
  = if changes_state ni ((ta, a), (tb, b)) then 1%Z else 0%Z.
Proof.
  intros Ha [z [Hz Hc]] ta tb. destruct (shown_once _ _ _ Ha) as [w0 [W1 [W2 W3]]].
  transitivity (Zsum (map (fun w => if row_shows a (ni :: pis) w then Zsum (map (fun y => if y =? hd 0 w0 then 0%Z else if row_shows b [ni] [y] then 1%Z else 0%Z) (seq 0 c)) else 0%Z) (le_enum (c :: ps)))).
  { apply Zsum_ext. intros w Hw. apply le_enum_ok in Hw. destruct (row_shows a (ni :: pis) w) eqn:E.
    - rewrite (W3 w Hw E). reflexivity.
    - apply Zsum_zero. intros y _. destruct (y =? hd 0 w); reflexivity. }
  rewrite (Zsum_unique _ _ _ w0); [|apply le_enum_NoDup|apply le_enum_ok, W1|].
  2:{ intros w Hw. apply le_enum_ok in Hw. split; [apply W3, Hw|intros ->; exact W2]. }
  inversion W1 as [|x0 ? u0 ? X1 X2]; subst. cbn [hd].
  assert (Hx : nth_error a ni = Some (Z.of_nat x0)).
  { unfold row_shows in W2. cbn [combine forallb fst snd] in W2. apply andb_true_iff in W2 as [W2 _]. destruct (nth_error a ni); [|discriminate]. apply Z.eqb_eq in W2. congruence. }
  unfold changes_state. cbn [fst snd]. rewrite Hx, Hz.
  assert (SB : forall y, row_shows b [ni] [y] = (z =? Z.of_nat y)%Z) by (intros y; unfold row_shows; cbn; rewrite Hz, andb_true_r; reflexivity).
  destruct (Z.leb_spec 0 z) as [Hp|Hp]; cbn [andb].
  - destruct (Z.eqb_spec (Z.of_nat x0) z) as [E|E]; cbn [negb].
    + apply Zsum_zero. intros y _. destruct (Nat.eqb_spec y x0) as [|D]; [reflexivity|]. rewrite SB. destruct (Z.eqb_spec z (Z.of_nat y)); [lia|reflexivity].
    + transitivity (Zsum (map (fun y => if row_shows b [ni] [y] then 1%Z else 0%Z) (seq 0 c))).
      * apply Zsum_ext. intros y _. destruct (Nat.eqb_spec y x0) as [->|D]; [|reflexivity]. rewrite SB. destruct (Z.eqb_spec z (Z.of_nat x0)); [lia|reflexivity].
      * apply (Zsum_unique (fun y => row_shows b [ni] [y]) 1%Z _ (Z.to_nat z)); [apply seq_NoDup|apply in_seq; lia|].
        intros y _. rewrite SB, Z.eqb_eq. lia.
  - apply Zsum_zero. intros y _. destruct (y =? x0); [reflexivity|]. rewrite SB. destruct (Z.eqb_spec z (Z.of_nat y)); [lia|reflexivity].
Qed.

(** sums over configurations and states *)
Lemma Zsum_flat {A} (f : A -> list Z) l : Zsum (concat (map f l)) = Zsum (map (fun x => Zsum (f x)) l).
Proof. induction l as [|a l IH]; [reflexivity|]. cbn [map concat]. rewrite Zsum_app, IH. reflexivity. Qed.
Lemma Zsum_configs (f : list nat -> Z) c ps : Zsum (map (fun u => Zsum (map (fun x => f (x :: u)) (seq 0 c))) (le_enum ps)) = Zsum (map f (le_enum (c :: ps))).
Proof.
  rewrite le_enum_cons. rewrite flat_map_concat_map, concat_map, !map_map, Zsum_flat. f_equal. apply map_ext. intros u. rewrite map_map. reflexivity.
Qed.
Lemma Qcsum_flat {A} (f : A -> list Qc) l : Qcsum (concat (map f l)) = Qcsum (map (fun x => Qcsum (f x)) l).
Proof. induction l as [|a l IH]; [reflexivity|]. cbn [map concat]. rewrite Qcsum_app, IH. reflexivity. Qed.
Lemma Qcsum_configs (f : list nat -> Qc) c ps : Qcsum (map (fun u => Qcsum (map (fun x => f (x :: u)) (seq 0 c))) (le_enum ps)) = Qcsum (map f (le_enum (c :: ps))).
Proof.
  rewrite le_enum_cons. rewrite flat_map_concat_map, concat_map, !map_map, Qcsum_flat. f_equal. apply map_ext. intros u. rewrite map_map. reflexivity.
Qed.

(** all the steps *)
Section data.
Variables (rs : list raw) (ni : nat) (pis : list nat) (c : nat) (ps : list nat).
Hypothesis Ha : forall r ab, In r rs -> In ab (steps r) -> row_in_range (snd (fst ab)) (ni :: pis) (c :: ps).
Hypothesis Hb : forall r ab, In r rs -> In ab (steps r) -> exists z, nth_error (snd (snd ab)) ni = Some z /\ (z < Z.of_nat c)%Z.

Lemma jumps_counted_once :
  Zsum (map (fun u => Zsum (map (fun x => Zsum (map (fun y => if y =? x then 0%Z else raw_jumps rs ni y (ni :: pis) (x :: u)) (seq 0 c))) (seq 0 c))) (le_enum ps))
  = observed_changes rs ni.
Proof.
  rewrite (Zsum_configs (fun w => Zsum (map (fun y => if y =? hd 0 w then 0%Z else raw_jumps rs ni y (ni :: pis) w) (seq 0 c)))).
  transitivity (Zsum (map (fun w => Zsum (map (fun r => Zsum (map (fun ab => Zsum (map (fun y => if y =? hd 0 w then 0%Z
      else if row_shows (snd (fst ab)) (ni :: pis) w && row_shows (snd (snd ab)) [ni] [y] then 1%Z else 0%Z) (seq 0 c))) (steps r))) rs)) (le_enum (c :: ps)))).
  { apply Zsum_ext. intros w _.
    transitivity (Zsum (map (fun y => Zsum (map (fun r => Zsum (map (fun ab => if y =? hd 0 w then 0%Z
      else if row_shows (snd (fst ab)) (ni :: pis) w && row_shows (snd (snd ab)) [ni] [y] then 1%Z else 0%Z) (steps r))) rs)) (seq 0 c))).
    { apply Zsum_ext. intros y _. destruct (y =? hd 0 w).
      - symmetry. apply Zsum_zero. intros r _. apply Zsum_zero. reflexivity.
      - unfold raw_jumps. apply Zsum_ext. intros r _. apply filter_length_sum. }
    rewrite Zsum_swap. apply Zsum_ext. intros r _. rewrite Zsum_swap. reflexivity. }
  rewrite Zsum_swap. unfold observed_changes. apply Zsum_ext. intros r Hr. rewrite Zsum_swap, filter_length_sum. apply Zsum_ext.
  intros [[ta a] [tb b]] Hab. cbn [fst snd]. apply step_counted_once; [exact (Ha r _ Hr Hab)|exact (Hb r _ Hr Hab)].
Qed.

Lemma telescope (r : raw) : Qcsum (map (fun ab => (fst (snd ab) - fst (fst ab))%Qc) (steps r)) = duration r.
Proof.
  unfold duration, steps. destruct r as [|o r]; [reflexivity|]. cbn [tl]. revert o. induction r as [|o' r IH]; intros o; [cbn; ring|].
  change (combine (o :: o' :: r) (o' :: r)) with ((o, o') :: combine (o' :: r) r). rewrite map_cons, Qcsum_cons, IH. cbn [fst snd]. change (last (o :: o' :: r) o) with (last (o' :: r) o).
  assert (E : forall d d', last (o' :: r) d = last (o' :: r) d') by (clear; intros d d'; revert o'; induction r as [|a r IH]; intros o'; [reflexivity|]; exact (IH a)).
  rewrite (E o o'). ring.
Qed.
Lemma dwell_conserved :
  Qcsum (map (fun u => Qcsum (map (fun x => raw_dwell rs (ni :: pis) (x :: u)) (seq 0 c))) (le_enum ps)) = Qcsum (map duration rs).
Proof.
  rewrite (Qcsum_configs (fun w => raw_dwell rs (ni :: pis) w)). unfold raw_dwell. rewrite Qcsum_swap. f_equal. apply map_ext_in. intros r Hr. rewrite <- telescope.
  transitivity (Qcsum (map (fun w => Qcsum (map (fun ab => if row_shows (snd (fst ab)) (ni :: pis) w then (fst (snd ab) - fst (fst ab))%Qc else 0%Qc) (steps r))) (le_enum (c :: ps)))).
  { f_equal. apply map_ext. intros w. apply filter_Qcsum. }
  rewrite Qcsum_swap. f_equal. apply map_ext_in. intros ab Hab. destruct (shown_once _ _ _ (Ha r ab Hr Hab)) as [w0 [W1 [W2 W3]]].
  apply (Qcsum_unique (fun w => row_shows (snd (fst ab)) (ni :: pis) w) _ _ w0); [apply le_enum_NoDup|apply le_enum_ok, W1|].
  intros w Hw. apply le_enum_ok in Hw. split; [apply W3, Hw|intros ->; exact W2].
Qed.
End data.

Lemma raw_cim_diagonal rs ni pis c u :
  diagonal_counts (raw_cim rs ni pis c u) = Zsum (map (fun x => Zsum (map (fun y => if y =? x then 0%Z else raw_jumps rs ni y (ni :: pis) (x :: u)) (seq 0 c))) (seq 0 c)).
Proof.
  unfold diagonal_counts, raw_cim. cbn [compute_cim_coefficients new_cim c_trans].
  rewrite (mapi_seq _ ([] : list Z)), map_length, seq_length. apply Zsum_ext. intros x Hx. apply in_seq in Hx.
  assert (NM : forall B (f : nat -> B) (d : B), nth x (map f (seq 0 c)) d = f x).
  { intros B f d. rewrite (nth_indep _ d (f 0)) by (rewrite map_length, seq_length; lia). rewrite map_nth, seq_nth by lia. reflexivity. }
  rewrite !NM, Nat.eqb_refl. reflexivity.
Qed.
Lemma raw_cim_jumps rs ni pis c u : jump_counts (raw_cim rs ni pis c u) = diagonal_counts (raw_cim rs ni pis c u).
Proof.
  unfold jump_counts. rewrite raw_cim_diagonal. unfold raw_cim. cbn [compute_cim_coefficients new_cim c_trans]. rewrite map_map.
  match goal with |- (?a - Zsum (map ?f _) = _)%Z => enough (a = Zsum (map (fun x => f x + f x)%Z (seq 0 c)))%Z as X by (rewrite X, (Zsum_add f f) by reflexivity; lia) end.
  apply Zsum_ext. intros x Hx. set (D := Zsum (map (fun y => if y =? x then 0%Z else raw_jumps rs ni y (ni :: pis) (x :: u)) (seq 0 c))).
  cbn beta. transitivity (Zsum (map (fun x' : nat => (if (x' =? x)%nat then D else 0) + (if (x' =? x)%nat then 0 else raw_jumps rs ni x' (ni :: pis) (x :: u)))%Z (seq 0 c))).
  { apply Zsum_ext. intros y _. destruct (y =? x); lia. }
  rewrite (Zsum_add (fun x' => if x' =? x then D else 0%Z) (fun x' => if x' =? x then 0%Z else raw_jumps rs ni x' (ni :: pis) (x :: u))).
  - f_equal. apply (Zsum_unique (fun x' => x' =? x) D _ x); [apply seq_NoDup|exact Hx|]. intros y _. apply Nat.eqb_eq.
  - reflexivity.
Qed.

Lemma legal_step_rows vars cards prior rs es v c ni pis ps : legal_input vars cards rs ->
  node_view (struct_of vars cards prior) es v c ni pis ps -> forall r ab, In r rs -> In ab (steps r) ->
  row_in_range (snd (fst ab)) (ni :: pis) (c :: ps) /\ exists z, nth_error (snd (snd ab)) ni = Some z /\ (z < Z.of_nat c)%Z.
Proof.
  intros HL [V1 [V2 [V3 V4]]] r ab Hr Hab. pose proof HL as [_ [_ [Hc [Hok _]]]]. rewrite Forall_forall in Hok. destruct (Hok r Hr) as [Hst _]. destruct (Hst ab Hab) as [F1 F2].
  assert (P : forall l i k, structure_get_node_indx (struct_of vars cards prior) l = Ok i -> structure_get_states_number (struct_of vars cards prior) l = Ok k ->
     nth_error cards i = Some k).
  { intros l i k Hi Hk. unfold structure_get_node_indx in Hi. unfold structure_get_states_number in Hk. cbn [nodes_labels nodes_indexes nodes_values struct_of] in *.
    apply bind_ok in Hi as [q [Q1 Q2]]. rewrite Q1 in Hk. cbn [bind] in Hk. apply nth_res_ok in Q2, Hk. rewrite nth_error_seq' in Q2.
    destruct (q <? length vars); [injection Q2 as <-; exact Hk|discriminate]. }
  assert (R : forall l i k, structure_get_node_indx (struct_of vars cards prior) l = Ok i -> structure_get_states_number (struct_of vars cards prior) l = Ok k ->
     exists d, nth_error (snd (fst ab)) i = Some (Z.of_nat d) /\ d < k).
  { intros l i k Hi Hk. destruct (Forall2_nth_error_r _ _ _ F1 i k (P l i k Hi Hk)) as [z [Z1 Z2]]. exists (Z.to_nat z). rewrite Z2Nat.id by lia. split; [exact Z1|lia]. }
  split.
  - constructor; [exact (R v ni c V2 V1)|]. revert V3 V4. generalize (filter (fun l => emem (l, v) es) (nodes_labels (struct_of vars cards prior))). intros qs V3. revert ps.
    induction V3 as [|q i qs pis Hq V3 IH]; intros ps V4; inversion V4; subst; constructor; [eapply R; eassumption|apply IH; assumption].
  - destruct (Forall2_nth_error_r _ _ _ F2 ni c (P v ni c V2 V1)) as [z [Z1 Z2]]. exists z. auto.
Qed.
