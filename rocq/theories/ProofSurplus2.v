(** C99: the score under two declarations of the same data. *)
From Coq Require Import Reals Lra.
From Verif Require Import Base Lib LibQc ModelStructure ModelGraph ModelCims ModelData ModelParams ModelFamScore
  SpecStructure SpecGraph SpecComb SpecParams SpecData SpecFloating SpecInvariance SpecSearch SpecFamScore SpecSurplus
  ProofStructure ProofGraph ProofComb ProofParams ProofParams2 ProofParams3 ProofFamScore ProofFamScore2 ProofData ProofInvariance ProofFloating5 ProofCoding3 ProofSpare ProofSpare2 ProofSurplus.
Open Scope nat_scope.

Lemma times_ok vars rs : Forall clock_ok rs -> Forall (fun q => 0 <= q)%Qc (t_times (traj_of vars rs)).
Proof.
  intros HT. cbn [t_times traj_of]. pose proof (raw_times_nonneg rs HT) as H. apply Forall_forall. intros q Hq. rewrite Forall_forall in H. specialize (H q Hq).
  destruct (Qclt_le_dec q 0) as [N|N]; [|exact N]. exfalso. assert (Qc2R q < Qc2R 0)%R by (apply Qreals.Qlt_Rlt; exact N). rewrite Qc2R_0 in H0. lra.
Qed.
Lemma ok_repeat k n u : config_ok (repeat k n) u <-> length u = n /\ Forall (fun d => d < k) u.
Proof.
  unfold config_ok. revert u. induction n as [|n IH]; intros [|d u]; cbn [repeat]; split.
  - intros _. auto.
  - constructor.
  - intros H. inversion H.
  - intros [H _]. discriminate.
  - intros H. inversion H.
  - intros [H _]. discriminate.
  - intros H. inversion H; subst. apply IH in H5 as [A B]. split; [cbn [length]; lia|constructor; assumption].
  - intros [A B]. inversion B; subst. constructor; [assumption|]. apply IH. split; [cbn in A; lia|assumption].
Qed.

Lemma NoDup_two {A} (l l' : list A) : NoDup l -> NoDup l' -> (forall x, In x l -> In x l' -> False) -> NoDup (l ++ l').
Proof.
  induction 1 as [|x l Hx Hl IH]; intros N D; [exact N|]. cbn [app]. constructor; [|apply IH; [exact N|intros y Y1 Y2; exact (D y (or_intror Y1) Y2)]].
  rewrite in_app_iff. intros [Y|Y]; [contradiction|exact (D x (or_introl eq_refl) Y)].
Qed.

Lemma two_scores lg tau alpha (vars : list label) (cards cards' : list nat) prior rs k k' s t s' t' es v us : log_gamma_equation lg -> (0 < tau)%R -> (0 < alpha)%R ->
  legal_input vars cards rs -> Forall clock_ok rs -> equal_cards cards k -> equal_cards cards' k' -> length cards' = length vars -> 2 <= k -> k <= k' ->
  imports_to vars cards prior rs s t -> imports_to vars cards' prior rs s' t' ->
  edges_within vars es -> edges_within vars (match prior with None => [] | Some q => q end) -> In v vars ->
  let n := length (filter (fun l => emem (l, v) (es ++ match prior with None => [] | Some q => q end)) vars) in
  NoDup us -> (forall u, In u us <-> length u = n /\ Forall (fun d => d < k) u) ->
  exists ni pis, node_view s (es ++ edges_list s) v k ni pis (repeat k n)
   /\ score_of (fun cims => get_fam_score lg cims tau alpha) t s v es = Ok (total_loglik tau alpha k (data_histories t (length vars) ni pis k us))
   /\ score_of (fun cims => get_fam_score lg cims tau alpha) t' s' v es = Ok (total_loglik tau alpha k' (data_histories t (length vars) ni pis k us)).
Proof.
  intros Hlg Ht Ha HL HT HE HE' L H2 Hk I I' He Hp Hv n Nu Hu. pose proof (legal_more vars cards cards' rs k k' HL HE HE' L Hk) as HL'.
  destruct (imports_det vars cards prior rs s t HL I) as [-> ->]. destruct (imports_det vars cards' prior rs s' t' HL' I') as [-> ->].
  set (E := es ++ match prior with None => [] | Some q => q end) in *.
  destruct (view_of vars cards prior rs k HL HE E v Hv) as [ni [pis [V [V1 [V2 [V3 V4]]]]]].
  destruct (view_of vars cards' prior rs k' HL' HE' E v Hv) as [ni' [pis' [V' [V1' [V2' [V3' V4']]]]]].
  assert (En : ni' = ni).
  { change (structure_get_node_indx (struct_of vars cards' prior) v) with (structure_get_node_indx (struct_of vars cards prior) v) in V1'. congruence. }
  assert (Ep : pis' = pis) by (subst; reflexivity).
  rewrite En, Ep in V'. fold n in V, V'.
  assert (Lp : length pis = n) by (rewrite V3, map_length; reflexivity).
  assert (C : forall k0, compat k0 (repeat k0 n)) by (intros k0 p Hq _; exact (repeat_spec _ _ _ Hq)).
  assert (P0 : forall k0, 0 < k0 -> Forall (fun p => 0 < p) (repeat k0 n)) by (intros k0 H; apply Forall_forall; intros p Hq; rewrite (repeat_spec _ _ _ Hq); exact H).
  exists ni, pis. split; [exact V|]. split.
  - apply (node_score lg Hlg tau alpha Ht Ha (struct_of vars cards prior) (traj_of vars rs) es v k ni pis (repeat k n) us (legal_wf _ _ _ _ HL) (legal_data _ _ _ _ HL) (times_ok vars rs HT) He Hp V H2 (C k) (P0 k ltac:(lia)) Nu).
    intros u. rewrite Hu, ok_repeat. tauto.
  - set (rest := filter (fun u => negb (forallb (fun d => d <? k) u)) (le_enum (repeat k' n))).
    assert (FB : forall u, forallb (fun d => d <? k) u = true <-> Forall (fun d => d < k) u).
    { intros u. rewrite forallb_forall, Forall_forall. split; intros H d Hd; specialize (H d Hd); [apply Nat.ltb_lt, H|apply Nat.ltb_lt, H]. }
    assert (HR : forall u, In u rest <-> (length u = n /\ Forall (fun d => d < k') u) /\ ~ Forall (fun d => d < k) u).
    { intros u. unfold rest. rewrite filter_In, le_enum_ok, ok_repeat, negb_true_iff, <- FB. destruct (forallb _ u); split; intros [A B]; (split; [exact A|]); try discriminate; try reflexivity; congruence. }
    assert (X := node_score lg Hlg tau alpha Ht Ha (struct_of vars cards' prior) (traj_of vars rs) es v k' ni pis (repeat k' n) (us ++ rest) (legal_wf _ _ _ _ HL') (legal_data _ _ _ _ HL') (times_ok vars rs HT) He Hp V' ltac:(lia) (C k') (P0 k' ltac:(lia))).
    rewrite X.
    + f_equal. cbn [total_variables_number struct_of]. apply (surplus_total vars cards prior rs k k' HL HE Hk E v ni pis (repeat k n) V).
      * apply Forall_forall. intros u Hi. apply Hu in Hi. lia.
      * apply Forall_forall. intros u Hi. apply HR in Hi. split; [lia|apply Hi].
    + apply NoDup_two; [exact Nu|apply NoDup_filter', le_enum_NoDup|]. intros u A B. apply Hu in A. apply HR in B. tauto.
    + intros u. rewrite in_app_iff, Hu, HR, ok_repeat. split.
      * intros [[A B]|[A _]]; [|exact A]. split; [exact A|]. eapply Forall_impl; [|exact B]. cbn beta. intros; lia.
      * intros A. destruct (forallb (fun d => d <? k) u) eqn:F; [left; split; [apply A|apply FB, F]|right; split; [exact A|]]. rewrite <- FB, F. discriminate.
Qed.

(** a change of [v] in the data is a transition in the histories *)
Lemma pick_states row cols k : Forall (fun i => exists d, nth_error row i = Some (Z.of_nat d) /\ d < k) cols ->
  exists vals, length vals = length cols /\ Forall (fun d => d < k) vals /\ row_shows row cols vals = true.
Proof.
  induction 1 as [|i cols [d [D1 D2]] _ [vals [A [B C]]]]; [exists []; repeat split; constructor|]. exists (d :: vals). cbn [length]. split; [lia|]. split; [constructor; assumption|].
  unfold row_shows in *. cbn [combine forallb fst snd]. rewrite D1, Z.eqb_refl. exact C.
Qed.
Lemma change_is_transition (vars : list label) (cards : list nat) prior rs k E v ni pis ps us : legal_input vars cards rs -> equal_cards cards k ->
  node_view (struct_of vars cards prior) E v k ni pis ps -> (forall u, length u = length pis -> Forall (fun d => d < k) u -> In u us) ->
  (exists r ab x y, In r rs /\ In ab (steps r) /\ nth_error (snd (fst ab)) ni = Some (Z.of_nat x) /\ nth_error (snd (snd ab)) ni = Some (Z.of_nat y) /\ x <> y) ->
  some_transition (data_histories (traj_of vars rs) (length vars) ni pis k us).
Proof.
  intros HL HE V HU [r [ab [x [y [Hr [Hab [Hx [Hy N]]]]]]]].
  assert (Hin : In ab (flat_map steps rs)) by (apply in_flat_map; exists r; auto).
  pose proof (legal_len vars cards rs HL ab Hin) as Len.
  set (row := snd (fst ab) ++ snd (snd ab)).
  assert (HRow : In ((fst (snd ab) - fst (fst ab))%Qc, row) (combine (t_times (traj_of vars rs)) (t_rows (traj_of vars rs)))).
  { unfold traj_of, ProofData3.raw_times, ProofData3.raw_rows. cbn [t_times t_rows]. clear - Hin. unfold row. clear row. revert Hin. generalize (flat_map steps rs). intros L. induction L as [|q l IH]; intros Hin; [contradiction|]. cbn [map combine]. destruct Hin as [E|Hin]; [left; rewrite E; reflexivity|right; exact (IH Hin)]. }
  pose proof (view_columns vars cards prior rs k HL HE E v ni pis ps V) as VC.
  assert (RO : Forall (fun i => exists d, nth_error row i = Some (Z.of_nat d) /\ d < k) pis).
  { apply Forall_inv_tail in VC. eapply Forall_impl; [|exact VC]. intros i [l [L1 L2]]. destruct (legal_data vars cards prior rs HL) as [_ [_ [_ HD]]].
    destruct (HD row (in_combine_r _ _ _ _ HRow) l i k L1 L2) as [_ [D _]]. exact D. }
  destruct (pick_states row pis k RO) as [u [U1 [U2 U3]]].
  assert (Hxk : x < k) by exact (ranged_shown vars cards rs k HL HE r ab ni x Hr Hab Hx).
  assert (Hni : ni < length vars) by (rewrite <- Len; apply nth_error_Some; congruence).
  assert (Rx : nth_error row ni = Some (Z.of_nat x)) by (unfold row; rewrite nth_error_app1 by lia; exact Hx).
  assert (Ry : nth_error row (ni + length vars) = Some (Z.of_nat y)) by (unfold row; rewrite nth_error_app2 by lia; replace (ni + length vars - length (snd (fst ab))) with ni by lia; exact Hy).
  exists (map (data_visits (traj_of vars rs) (length vars) ni pis u) (seq 0 k)), (data_visits (traj_of vars rs) (length vars) ni pis u x).
  split; [unfold data_histories; apply in_map_iff; exists u; split; [reflexivity|apply HU; assumption]|]. split; [apply in_map, in_seq; lia|].
  intros D. assert (K : In y (destinations (data_visits (traj_of vars rs) (length vars) ni pis u x))); [|rewrite D in K; exact K].
  unfold destinations, data_visits. apply in_flat_map. exists (row_visit (length vars) ni x ((fst (snd ab) - fst (fst ab))%Qc, row)). split.
  - apply in_map, filter_In. split; [exact HRow|]. cbn [snd]. unfold row_shows in *. cbn [combine forallb fst snd]. rewrite Rx, Z.eqb_refl. exact U3.
  - unfold row_visit. cbn [fst snd]. rewrite Ry. destruct (0 <=? Z.of_nat y)%Z eqn:A; [|lia]. destruct (Z.eqb_spec (Z.of_nat y) (Z.of_nat x)); [lia|]. cbn [negb andb]. left. lia.
Qed.
