(** Which candidates become protected, and histories over binary variables (C83). *)
From Verif Require Import Base Lib LibQc ModelStructure ModelGraph ModelCims ModelData ModelParams ModelCache ModelCtpc
  SpecStructure SpecGraph SpecComb SpecParams SpecData SpecCtpc SpecRecover SpecAlgorithm SpecHistory
  ProofStructure ProofGraph ProofComb ProofParams ProofParams2 ProofParams3 ProofCache
  ProofCtpc ProofCtpc2 ProofCtpc3 ProofCtpc4 ProofCtpc5 ProofCtpc6 ProofCtpc7 ProofAlgorithm ProofAlgorithm2 ProofAlgorithm3 ProofHistory.

Lemma try_gave_up ask p : forall seps, snd (try_all ask p seps) = true -> exists sep, In sep seps /\ snd (ask p sep) = true.
Proof.
  induction seps as [|a seps IH]; cbn [try_all]; [discriminate|]. destruct (fst (ask p a)).
  - cbn [snd]. intros H. exists a. split; [left; reflexivity|exact H].
  - cbn [snd]. intros H. apply orb_true_iff in H as [H|H]; [exists a; split; [left; reflexivity|exact H]|]. destruct (IH H) as [sep [A B]]. exists sep. split; [right; exact A|exact B].
Qed.
Definition gave_up (ask : label -> list label -> bool * bool) (cands : list label) (x : label) : Prop :=
  exists sep, In x cands /\ NoDup (x :: sep) /\ incl sep cands /\ snd (ask x sep) = true.
Lemma round_gave_up ask b cands : forall post pre pr, NoDup (pre ++ post) -> incl (pre ++ post) cands ->
  forall x, In x (snd (one_round ask b pr pre post)) -> In x pr \/ gave_up ask cands x.
Proof.
  induction post as [|p post IH]; intros pre pr Hn Hi x; cbn [one_round snd]; [auto|].
  assert (E : (pre ++ [p]) ++ post = pre ++ p :: post) by (rewrite <- app_assoc; reflexivity).
  destruct (lmem p pr); [apply IH; rewrite E; assumption|].
  assert (HI : incl (pre ++ post) cands) by (intros q Hq; apply Hi; apply in_app_iff in Hq; apply in_app_iff; destruct Hq; [left|right; right]; assumption).
  pose proof (NoDup_remove_1 _ _ _ Hn) as N1. pose proof (NoDup_remove_2 _ _ _ Hn) as N2.
  assert (K : forall y, In y (if snd (try_all ask p (combinations b (pre ++ post))) then p :: pr else pr) -> In y pr \/ gave_up ask cands y).
  { intros y. destruct (snd (try_all ask p (combinations b (pre ++ post)))) eqn:ES; [|auto]. intros [<-|Hy]; [|auto]. right.
    apply try_gave_up in ES as [sep [A B]]. apply combinations_sub in A. exists sep. split; [apply Hi, in_app_iff; right; left; reflexivity|].
    split; [constructor; [intros Q; apply N2; exact (sublist_In _ _ _ A Q)|exact (sublist_NoDup _ _ A N1)]|]. split; [|exact B].
    intros q Hq. apply HI. exact (sublist_In _ _ _ A Hq). }
  destruct (fst (try_all ask p (combinations b (pre ++ post)))); intros Hx.
  - apply IH in Hx; [|exact N1|exact HI]. destruct Hx as [Hx|Hx]; [apply (K x Hx)|auto].
  - apply IH in Hx; [|rewrite E; assumption|rewrite E; assumption]. destruct Hx as [Hx|Hx]; [apply (K x Hx)|auto].
Qed.
Lemma rounds_gave_up ask cands : forall fuel b pr u, NoDup u -> incl u cands -> forall x, In x (rounds_protected ask fuel b pr u) -> In x pr \/ gave_up ask cands x.
Proof.
  induction fuel as [|fuel IH]; intros b pr u Hn Hi x; cbn [rounds_protected]; [auto|]. destruct (b <? length u); [|auto].
  pose proof (round_sub ask b u [] pr Hn) as [A [B _]]. pose proof (round_gave_up ask b cands u [] pr Hn Hi) as K. cbn [app] in B.
  destruct (one_round ask b pr [] u) as [kept pr']. cbn [fst snd] in *. intros Hx. apply IH in Hx; [|exact A|intros q Hq; apply Hi, B, Hq].
  destruct Hx as [Hx|Hx]; [apply K, Hx|auto].
Qed.
Lemma round_keeps ask b : forall post pre pr x, In x pr -> In x (snd (one_round ask b pr pre post)).
Proof.
  induction post as [|p post IH]; intros pre pr x Hx; cbn [one_round snd]; [exact Hx|]. destruct (lmem p pr); [apply IH, Hx|].
  apply IH. destruct (snd (try_all ask p _)); [right|]; exact Hx.
Qed.
Lemma rounds_keep ask : forall fuel b pr u x, In x pr -> In x (rounds_protected ask fuel b pr u).
Proof.
  induction fuel as [|fuel IH]; intros b pr u x Hx; cbn [rounds_protected]; [exact Hx|]. destruct (b <? length u); [|exact Hx].
  pose proof (round_keeps ask b u [] pr x Hx) as K. destruct (one_round ask b pr [] u) as [kept pr']. apply IH, K.
Qed.

Lemma verdict_unmarked e tot v q S cs b mk : cs <= 2 -> verdict e tot v q S cs = Ok (b, mk) -> mk = false.
Proof.
  intros Hc EV. destruct mk; [exfalso|reflexivity]. revert EV. unfold verdict. intros EV.
  apply bind_ok in EV as [so2 [_ EV]]. apply bind_ok in EV as [so1 [_ EV]]. apply bind_ok in EV as [th [_ EV]].
  assert (TF : forall c1, too_few e cs th c1 = false).
  { intros c1. unfold too_few. destruct (Nat.ltb_spec 2 cs); [lia|reflexivity]. }
  revert EV. induction (combine (so_actual_cims so1) (so_p_combs so1)) as [|[c1 pc] l IH]; cbn [verdict_configs]; [discriminate|].
  intros EV. apply bind_ok in EV as [cc [_ EV]].
  assert (snd (verdict_cims e cs c1 th cc) = false).
  { clear EV. induction cc as [|c2 cc IHc]; cbn [verdict_cims]; [reflexivity|]. rewrite TF. destruct (e_tests e cs c1 c2); [exact IHc|reflexivity]. }
  destruct (verdict_cims e cs c1 th cc) as [[] mk]; [apply IH, EV|]. injection EV as _ ->. discriminate.
Qed.

Section binary.
Variables (s : structure) (t : trajectory) (thr : Qc) (tests : nat -> cim -> cim -> bool) (tot k : nat).
Let e := MkEnv (clean_structure_edges s) t thr tests.
Hypothesis Hwf : wf_structure s.
Hypothesis Hnd : NoDup (nodes_indexes s).
Hypothesis Hlt : forall i, In i (nodes_indexes s) -> i < tot.
Hypothesis Htot : total_variables_number s = tot.
Hypothesis Hd : data_ok s t.
Hypothesis Hk : 0 < k.
Hypothesis HU : forall x, In x (nodes_values s) -> x = k.
Hypothesis H2 : k <= 2.

Lemma binary_unmarked m mp : square tot m -> exists es g, cb_estimate_structure (at_matrix s t thr tests tot m) mp = Ok (es, MkCbEst e tot (MkState m empty_cache) g).
Proof.
  intros Sm. pose proof (has_protection s t thr tests tot Hwf Hlt m Sm) as HP. set (pr := fun v => _) in HP.
  destruct (estimate_step s t thr tests tot k Hwf Hnd Hlt Htot Hd Hk HU m pr mp Sm HP) as [es [m' [g [E [_ [S' [K [_ [_ P]]]]]]]]].
  exists es, g. rewrite E. assert (m' = m); [|subst; reflexivity].
  apply (open_ext s tot Hwf Hlt m m' Sm S' K). intros [p v] Hx. apply pairs_In in Hx as [Hv Hp].
  unfold open_pair. cbn [fst snd]. rewrite (P v Hv p Hp : mat_get m' (idx_of s p) (idx_of s v) = _). rewrite (HP v Hv p Hp : mat_get m (idx_of s p) (idx_of s v) = _).
  f_equal. destruct mp; [|reflexivity]. apply eq_true_iff_eq. rewrite !lmem_In. split; [|apply rounds_keep].
  intros Hin. apply (rounds_gave_up _ (others s v)) in Hin; [|apply NoDup_filter', Hwf|intros q Hq; exact Hq]. destruct Hin as [Hin|[sep [A1 [A2 [A3 A4]]]]]; [exact Hin|exfalso].
  assert (Ht : test_ok s v p sep).
  { apply others_In in A1 as [B1 B2]. split; [exact Hv|]. split; [exact B1|]. split.
    - constructor; [|exact A2]. intros [Q|Q]; [congruence|]. apply A3, others_In in Q. tauto.
    - intros q Hq. apply A3, others_In in Hq. tauto. }
  pose proof (ask_ok s t thr tests tot k Hwf Htot Hd Hk HU v p sep Ht) as EV. destruct (wf_lookup s v Hwf Hv) as [x [_ [_ [W _]]]].
  assert (EK : val_of s v = k) by (apply HU; exact (nth_error_In _ _ W)). fold e in EV, A4.
  destruct (the_ask e tot v k p sep) as [b mk]. cbn [snd] in A4. subst mk. apply verdict_unmarked in EV; [discriminate|lia].
Qed.
Lemma binary_calls est m modes ess est' : is_at s t thr tests tot est m -> calls est modes = Ok (ess, est') -> forall a b, In a ess -> In b ess -> a = b.
Proof.
  intros HI H a b Ha Hb. pose proof HI as [_ [_ [_ Sm]]]. destruct (binary_unmarked m true Sm) as [es [g E]].
  pose proof (calls_fixed s t thr tests tot k Hwf Hnd Hlt Htot Hd Hk HU m es _ g Sm E eq_refl modes est ess est' HI H) as K. rewrite (K a Ha), (K b Hb). reflexivity.
Qed.
End binary.
