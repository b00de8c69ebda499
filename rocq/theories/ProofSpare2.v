(** C98: the parameters when more states are declared. *)
From Coq Require Import Reals Lra.
From Verif Require Import Base Lib LibQc ModelStructure ModelGraph ModelCims ModelData ModelParams ModelCache ModelCtpc ModelFamScore ModelIndep
  SpecStructure SpecGraph SpecComb SpecParams SpecData SpecCtpc SpecFloating SpecInvariance SpecFamScore SpecIndep SpecCoding SpecSpare
  ProofStructure ProofGraph ProofComb ProofParams ProofParams2 ProofParams3 ProofCtpc ProofData ProofInvariance ProofSpare.
Open Scope nat_scope.

Lemma cards_repeat (cards : list nat) k : (forall c, In c cards -> c = k) -> cards = repeat k (length cards).
Proof. induction cards as [|c l IH]; intros H; [reflexivity|]. cbn [length repeat]. rewrite (H c (or_introl eq_refl)), <- IH; [reflexivity|]. intros x Hx. apply H. right. exact Hx. Qed.
Lemma raw_ok_more n k k' r : k <= k' -> raw_ok (repeat k n) r -> raw_ok (repeat k' n) r.
Proof.
  intros Hk [A B]. split.
  - intros ab Hab. destruct (A ab Hab) as [A1 A2]. split.
    + clear - A1 Hk. revert A1. generalize (snd (fst ab)). induction n as [|n IH]; intros l H; inversion H; subst; constructor; [lia|auto].
    + clear - A2 Hk. revert A2. generalize (snd (snd ab)). induction n as [|n IH]; intros l H; inversion H; subst; constructor; [lia|auto].
  - intros o Ho. rewrite repeat_length. rewrite (B o Ho). apply repeat_length.
Qed.
Lemma legal_more (vars : list label) (cards cards' : list nat) rs k k' : legal_input vars cards rs -> equal_cards cards k -> equal_cards cards' k' -> length cards' = length vars -> k <= k' ->
  legal_input vars cards' rs.
Proof.
  intros [H1 [H2 [H3 [H4 H5]]]] [_ E] [_ E'] L Hk. split; [exact H1|]. split; [exact H2|]. split; [exact L|]. split; [|exact H5].
  rewrite (cards_repeat cards k E) in H4. rewrite (cards_repeat cards' k' E'), L. rewrite H3 in H4. eapply Forall_impl; [|exact H4]. intros r. apply raw_ok_more, Hk.
Qed.

Section view.
Variables (vars : list label) (cards : list nat) (prior : option (list edge)) (rs : list raw) (k : nat).
Hypothesis HL : legal_input vars cards rs.
Hypothesis HE : equal_cards cards k.
Let s := struct_of vars cards prior.
Lemma view_of E v : In v vars -> exists ni pis, node_view s E v k ni pis (repeat k (length (filter (fun l => emem (l, v) E) vars)))
  /\ structure_get_node_indx s v = Ok ni /\ ni < length vars /\ pis = map (idx_of s) (filter (fun l => emem (l, v) E) vars) /\ Forall (fun i => i < length vars) pis.
Proof.
  intros Hv. pose proof (legal_wf vars cards prior rs HL) as W. fold s in W.
  assert (HV : forall l, In l vars -> structure_get_states_number s l = Ok k /\ structure_get_node_indx s l = Ok (idx_of s l) /\ idx_of s l < length vars).
  { intros l Hl. destruct (wf_lookup s l W Hl) as [i [_ [_ [W1 [W2 W3]]]]]. split; [|split; [exact W2|eapply struct_of_indx; exact W2]].
    rewrite W3. f_equal. apply (proj2 HE). exact (nth_error_In _ _ W1). }
  exists (idx_of s v), (map (idx_of s) (filter (fun l => emem (l, v) E) vars)). destruct (HV v Hv) as [V1 [V2 V3]].
  assert (HP : forall l, In l (filter (fun l => emem (l, v) E) vars) -> In l vars) by (intros l Hl; apply filter_In in Hl; apply Hl).
  assert (HF : Forall (fun i => i < length vars) (map (idx_of s) (filter (fun l => emem (l, v) E) vars))).
  { apply Forall_forall. intros i Hi. apply in_map_iff in Hi as [l [<- Hl]]. apply HV, HP, Hl. }
  split; [|split; [exact V2|split; [exact V3|split; [reflexivity|exact HF]]]].
  split; [exact V1|]. split; [exact V2|]. cbn [nodes_labels s struct_of]. revert HP. generalize (filter (fun l => emem (l, v) E) vars). intros l HP.
  split; induction l as [|p l IH]; cbn [map length repeat]; constructor; try (apply HV, HP; left; reflexivity); apply IH; intros q Hq; apply HP; right; exact Hq.
Qed.
End view.

(** states and configurations beyond the observed range *)
Lemma ranged_shown vars cards rs k : legal_input vars cards rs -> equal_cards cards k ->
  forall r ab j d, In r rs -> In ab (steps r) -> nth_error (snd (fst ab)) j = Some (Z.of_nat d) -> d < k.
Proof.
  intros [H1 [H2 [H3 [H4 H5]]]] [_ E] r ab j d Hr Hab Hj. rewrite Forall_forall in H4. destruct (H4 r Hr) as [A _]. destruct (A ab Hab) as [A1 _].
  revert Hj. revert j. clear - A1 E. revert E. induction A1 as [|z c l cs H _ IH]; intros E [|j] Hj; try discriminate.
  - injection Hj as ->. rewrite (E c (or_introl eq_refl)) in H. lia.
  - exact (IH (fun c' Hc' => E c' (or_intror Hc')) j Hj).
Qed.
Lemma ranged_next vars cards rs k : legal_input vars cards rs -> equal_cards cards k ->
  forall r ab j d, In r rs -> In ab (steps r) -> nth_error (snd (snd ab)) j = Some (Z.of_nat d) -> d < k.
Proof.
  intros [H1 [H2 [H3 [H4 H5]]]] [_ E] r ab j d Hr Hab Hj. rewrite Forall_forall in H4. destruct (H4 r Hr) as [A _]. destruct (A ab Hab) as [_ A1].
  revert Hj. revert j. clear - A1 E. revert E. induction A1 as [|z c l cs H _ IH]; intros E [|j] Hj; try discriminate.
  - injection Hj as ->. rewrite (E c (or_introl eq_refl)) in H. lia.
  - exact (IH (fun c' Hc' => E c' (or_intror Hc')) j Hj).
Qed.
Lemma shows_forall row (cols vals : list nat) : row_shows row cols vals = true -> length cols = length vals ->
  Forall2 (fun j d => nth_error row j = Some (Z.of_nat d)) cols vals.
Proof.
  revert vals. induction cols as [|j cols IH]; intros [|d vals] H L; try discriminate; constructor.
  - unfold row_shows in H. cbn [combine forallb fst snd] in H. destruct (nth_error row j) as [z|]; [|discriminate]. apply andb_true_iff in H as [H _]. apply Z.eqb_eq in H. congruence.
  - apply IH; [|injection L as L; exact L]. unfold row_shows in *. cbn [combine forallb] in H. apply andb_true_iff in H as [_ H]. exact H.
Qed.

Section cims.
Variables (vars : list label) (cards : list nat) (rs : list raw) (k k' : nat).
Hypothesis HL : legal_input vars cards rs.
Hypothesis HE : equal_cards cards k.
Hypothesis Hk : k <= k'.
Variables (ni : nat) (pis : list nat).

Lemma next_zero y cols vals : k <= y -> raw_jumps rs ni y cols vals = 0%Z.
Proof.
  intros Hy. apply jumps_none. intros r ab Hr Hab. apply andb_false_iff. right. destruct (row_shows (snd (snd ab)) [ni] [y]) eqn:E; [|reflexivity].
  apply shows_forall in E; [|reflexivity]. inversion E; subst. pose proof (ranged_next vars cards rs k HL HE r ab ni y Hr Hab H2). lia.
Qed.
Lemma rj_more u x y : x < k -> y < k' -> rj rs ni pis k' u x y = rj rs ni pis k u x y.
Proof.
  intros Hx Hy. unfold rj. destruct (y =? x); [|reflexivity]. replace k' with (k + (k' - k)) by lia. rewrite seq_app, map_app. cbn [Nat.add].
  assert (E : forall a b, Zsum (a ++ b) = (Zsum a + Zsum b)%Z) by (induction a as [|q a IH]; intros b; [reflexivity|]; unfold Zsum in *; cbn [app fold_right]; rewrite IH; lia).
  rewrite E, (Zsum_zero _ (seq k (k' - k))); [lia|]. intros z Hz. apply in_seq in Hz. destruct (z =? x); [reflexivity|]. apply next_zero. lia.
Qed.
Lemma extended u x : x < k -> extended_state k k' (raw_cim rs ni pis k u) (raw_cim rs ni pis k' u) x.
Proof.
  intros Hx. exists (raw_dwell rs (ni :: pis) (x :: u)). split; [apply raw_cim_times; exact Hx|]. split; [apply raw_cim_times; lia|]. split.
  - intros y Hy. do 2 eexists. split; [apply raw_cim_trans; assumption|]. split; [rewrite raw_cim_trans by lia; rewrite rj_more by lia; reflexivity|].
    split; [apply raw_cim_rate; assumption|]. rewrite raw_cim_rate by lia. rewrite rj_more by lia. reflexivity.
  - intros y Hy. assert (Z : rj rs ni pis k' u x y = 0%Z).
    { unfold rj. destruct (Nat.eqb_spec y x) as [E|_]; [lia|]. apply next_zero. lia. }
    rewrite raw_cim_trans, raw_cim_rate by lia. rewrite Z. split; [reflexivity|]. destruct (Nat.eqb_spec x y) as [E|_]; [lia|]. reflexivity.
Qed.
Lemma blank u x : length pis = length u -> x < k' -> ~ Forall (fun d => d < k) (x :: u) -> blank_state k' (raw_cim rs ni pis k' u) x.
Proof.
  intros Lu Hx HN.
  assert (S0 : forall r ab, In r rs -> In ab (steps r) -> row_shows (snd (fst ab)) (ni :: pis) (x :: u) = false).
  { intros r ab Hr Hab. destruct (row_shows (snd (fst ab)) (ni :: pis) (x :: u)) eqn:E; [|reflexivity]. exfalso. apply HN.
    apply shows_forall in E; [|cbn [length]; lia]. revert E. generalize (ni :: pis) (x :: u). intros c v E. induction E as [|j d c v H _ IH]; constructor; [|exact IH].
    exact (ranged_shown vars cards rs k HL HE r ab j d Hr Hab H). }
  assert (J : forall y, raw_jumps rs ni y (ni :: pis) (x :: u) = 0%Z) by (intros y; apply jumps_none; intros r ab Hr Hab; rewrite (S0 r ab Hr Hab); reflexivity).
  assert (Z : forall y, rj rs ni pis k' u x y = 0%Z).
  { intros y. unfold rj. destruct (y =? x); [|apply J]. apply Zsum_zero. intros z _. destruct (z =? x); [reflexivity|apply J]. }
  assert (D : raw_dwell rs (ni :: pis) (x :: u) = 0%Qc) by (apply dwell_none; exact S0).
  split; [rewrite raw_cim_times by exact Hx; rewrite D; reflexivity|]. intros y Hy. rewrite raw_cim_trans, raw_cim_rate by assumption. rewrite Z, D. split; [reflexivity|].
  destruct (x =? y); vm_compute; reflexivity.
Qed.
End cims.

Lemma spare_parameters (vars : list label) (cards cards' : list nat) prior rs k k' s t s' t' es v : legal_input vars cards rs ->
  equal_cards cards k -> equal_cards cards' k' -> length cards' = length vars -> k <= k' ->
  imports_to vars cards prior rs s t -> imports_to vars cards' prior rs s' t' ->
  edges_within vars es -> edges_within vars (match prior with None => [] | Some ps => ps end) -> In v vars ->
  t' = t /\ exists g soc g' soc' n,
    ng_fast_init (fresh_graph s es) v = Ok g /\ compute_parameters_for_node t g v = Ok soc
    /\ ng_fast_init (fresh_graph s' es) v = Ok g' /\ compute_parameters_for_node t' g' v = Ok soc'
    /\ n = length (filter (fun l => emem (l, v) (es ++ match prior with None => [] | Some ps => ps end)) vars)
    /\ forall u x, config_ok (repeat k' n) u -> x < k' -> exists cm', nth_error (so_actual_cims soc') (config_rank (repeat k' n) u) = Some cm'
        /\ (Forall (fun d => d < k) (x :: u) -> exists cm, nth_error (so_actual_cims soc) (config_rank (repeat k n) u) = Some cm /\ extended_state k k' cm cm' x)
        /\ (~ Forall (fun d => d < k) (x :: u) -> blank_state k' cm' x).
Proof.
  intros HL HE HE' L Hk I I' He Hp Hv. pose proof (legal_more vars cards cards' rs k k' HL HE HE' L Hk) as HL'.
  destruct (imports_det vars cards prior rs s t HL I) as [-> ->]. destruct (imports_det vars cards' prior rs s' t' HL' I') as [-> ->]. split; [reflexivity|].
  set (E := es ++ match prior with None => [] | Some ps => ps end). set (n := length (filter (fun l => emem (l, v) E) vars)).
  destruct (view_of vars cards prior rs k HL HE E v Hv) as [ni [pis [V [V1 [V2 [V3 V4]]]]]].
  destruct (view_of vars cards' prior rs k' HL' HE' E v Hv) as [ni' [pis' [V' [V1' [V2' [V3' V4']]]]]].
  assert (En : ni' = ni).
  { change (structure_get_node_indx (struct_of vars cards' prior) v) with (structure_get_node_indx (struct_of vars cards prior) v) in V1'. congruence. }
  assert (Ep : pis' = pis). { subst. reflexivity. }
  rewrite En, Ep in V'. fold n in V, V'.
  assert (C : forall k0, compat k0 (repeat k0 n)) by (intros k0 p Hq _; exact (repeat_spec _ _ _ Hq)).
  destruct (raw_params vars cards prior rs es v k ni pis (repeat k n) HL He Hp V (proj1 HE) (C k)) as [g [G1 G2]].
  destruct (raw_params vars cards' prior rs es v k' ni pis (repeat k' n) HL' He Hp V' (proj1 HE') (C k')) as [g' [G1' G2']].
  exists g. eexists. exists g'. eexists. exists n. split; [exact G1|]. split; [exact G2|]. split; [exact G1'|]. split; [exact G2'|]. split; [reflexivity|].
  intros u x Hu Hx. cbn [so_actual_cims]. exists (raw_cim rs ni pis k' u).
  split; [rewrite map_nth_error_iff, (le_enum_rank (repeat k' n) u Hu); reflexivity|]. split.
  - intros HF. pose proof (Forall_inv HF) as Hxk. pose proof (Forall_inv_tail HF) as Huk. cbn beta in Hxk.
    assert (Hu' : config_ok (repeat k n) u).
    { clear - Hu Huk. revert Hu Huk. unfold config_ok. generalize n. induction u as [|d u IH]; intros [|m] Hu Huk; inversion Hu; subst; inversion Huk; subst; cbn [repeat]; constructor; auto. }
    exists (raw_cim rs ni pis k u).
    split; [rewrite map_nth_error_iff, (le_enum_rank (repeat k n) u Hu'); reflexivity|]. apply (extended vars cards rs k k' HL HE Hk). exact Hxk.
  - intros HF. apply (blank vars cards rs k k' HL HE); try assumption. rewrite V3, map_length. fold n.
    unfold config_ok in Hu. apply Forall2_length in Hu. rewrite repeat_length in Hu. unfold n in *. congruence.
Qed.

(** with more states declared than the data can have, some state is never observed *)
Lemma step_of (r : raw) o : 2 <= length r -> In o r -> exists ab, In ab (steps r) /\ (o = fst ab \/ o = snd ab).
Proof.
  unfold steps. destruct r as [|a l]; [cbn; lia|]. cbn [tl]. revert a. induction l as [|b l IH]; intros a L H; [cbn in L; lia|].
  destruct H as [<-|H]; [exists (a, b); split; [left; reflexivity|left; reflexivity]|]. destruct l as [|c l].
  - destruct H as [<-|[]]. exists (a, b). split; [left; reflexivity|right; reflexivity].
  - destruct (IH b) as [ab [A B]]; [cbn; lia|exact H|]. exists ab. split; [right; exact A|exact B].
Qed.
Lemma beyond_range vars cards rs k j : legal_input vars cards rs -> equal_cards cards k -> never_observed rs j k.
Proof.
  intros HL HE r o Hr L Ho E. destruct (step_of r o L Ho) as [ab [A [-> | ->]]].
  - pose proof (ranged_shown vars cards rs k HL HE r ab j k Hr A E). lia.
  - pose proof (ranged_next vars cards rs k HL HE r ab j k Hr A E). lia.
Qed.
