(** C88: the statements about whole runs. *)
From Coq Require Import Reals Lra Classical_Prop.
From Verif Require Import Base Lib LibQc ModelStructure ModelGraph ModelCims ModelData ModelParams ModelCache ModelCtpc ModelSearch ModelFamScore ModelEstimators
  SpecStructure SpecGraph SpecComb SpecParams SpecData SpecCtpc SpecSearch SpecLocalOpt SpecFamScore SpecEstimators SpecInvariance SpecBias SpecEnough SpecFloating
  ProofStructure ProofGraph ProofCache ProofSearch ProofSearch3 ProofEstimators2 ProofInvariance ProofBias ProofEnough2 ProofEnough3 ProofEnough4 ProofEnough5 ProofConserve ProofParams ProofCtpc ProofCost2 ProofEstimators3 PropsReturns.
Close Scope R_scope. Open Scope nat_scope.

Lemma matrix_index vars cards prior ds l : legal_input vars cards ds -> In l vars -> idx_of (struct_of vars cards prior) l < length vars.
Proof.
  intros HL Hl. destruct (wf_lookup _ l (legal_wf vars cards prior ds HL) Hl) as [i [E1 [E2 _]]]. cbn [struct_of nodes_indexes nodes_labels] in E2.
  apply nth_error_In in E2. apply in_seq in E2. lia.
Qed.
Section data.
Variables (vars : list label) (cards : list nat) (k : nat) (rs : list raw).
Hypothesis HL : legal_input vars cards rs.
Hypothesis HE : equal_cards cards k.
Hypothesis Hk : 2 <= k.
Hypothesis HC : Forall clock_strict rs.
Variables (lg : R -> R) (tau alpha : R).
Hypothesis Hlg : log_gamma_equation lg.
Hypothesis Ht : (0 < tau)%R.
Hypothesis Ha : (0 < alpha)%R.
Notation score := (fun cims => get_fam_score lg cims tau alpha).
Notation run prior n known p draws dm pn es := (exists s t est pr est',
  imports_to vars cards prior (copies n rs) s t /\ new_sb_estimator s t (length vars) known = Ok est
  /\ sb_estimate_structure R score score_gt est draws p dm pn = Ok (es, pr, est')).
Notation eventually P := (exists N, forall n : nat, N <= n -> P n).

Lemma search_result' : exists N, 1 <= N /\ forall n, N <= n -> forall prior known p draws dm pn es v, thorough (length vars - 1) p -> run prior n known p draws dm pn es ->
  In v vars -> exists X, NoDup X /\ incl X vars /\ (forall a, In a X <-> In (a, v) es) /\ (forall a, In (a, v) known -> In a X) /\ (~ In (v, v) known -> ~ In v X)
  /\ (forall a, In a vars -> a <> v -> ~ In a X -> ~ depends vars rs v X a)
  /\ (forall a K, In a X -> a <> v -> ~ In (a, v) known -> (forall b, In b K <-> In b X /\ b <> a) -> depends vars rs v K a \/ ~ varies vars rs v K a).
Proof.
  destruct (good_all vars cards k rs HL HE Hk HC tau alpha Ht Ha) as [N [N1 H]]. exists N. split; [exact N1|].
  intros n Hn prior known p draws dm pn es v HT [s [t [est [pr [est' [HI [HN HRn]]]]]]] Hv.
  apply (imports_det vars cards prior _ s t (copies_legal vars cards n rs ltac:(lia) HL)) in HI as [-> ->].
  destruct (estimate_optimal vars cards k rs HL Hk lg tau alpha n prior known est draws p dm pn es pr est' v ltac:(lia) HN HT HRn Hv) as [m [esv [X [HR [LO [NX [IX [EX [XI [KX SX]]]]]]]]]].
  exists X. split; [exact NX|]. split; [exact IX|]. split; [exact XI|]. split; [exact KX|]. split; [exact SX|]. split.
  - intros a Ha1 Ha2 Ha3. apply (result_complete vars cards k rs HL HE Hk HC lg tau alpha Hlg Ht Ha n known m v esv X ltac:(lia) (H n Hn) HR LO NX IX EX a); auto.
  - intros a K Ha1 Ha2 Ha3 HK. apply (result_minimal vars cards k rs HL HE Hk HC lg tau alpha Hlg Ht Ha n known m v esv X ltac:(lia) (H n Hn) HR LO NX IX EX a K); auto.
Qed.
Lemma search_result : eventually (fun n => forall prior known p draws dm pn es v S, thorough (length vars - 1) p -> run prior n known p draws dm pn es ->
  In v vars -> (forall a, In a S <-> In (a, v) es) ->
  (forall a, In a vars -> a <> v -> ~ In a S -> ~ depends vars rs v S a)
  /\ (forall a K, In a S -> a <> v -> ~ In (a, v) known -> (forall b, In b K <-> In b S /\ b <> a) -> depends vars rs v K a \/ ~ varies vars rs v K a)).
Proof.
  destruct search_result' as [N [N1 H]]. exists N. intros n Hn prior known p draws dm pn es v X' HT HRn Hv HS.
  destruct (H n Hn prior known p draws dm pn es v HT HRn Hv) as [X [NX [IX [XI [_ [_ [A B]]]]]]]. assert (SS : forall a, In a X' <-> In a X) by (intros a; rewrite HS, XI; tauto). split.
  - intros a A1 A2 A3 D. apply (A a A1 A2); [rewrite <- SS; exact A3|]. apply (depends_ext vars cards k rs HL HE v X' X a Hv A1); [intros l Hl; apply IX, SS, Hl|exact SS|exact D].
  - intros a K A1 A2 A3 A4. apply B; [apply SS, A1|exact A2|exact A3|]. intros b. rewrite A4, SS. tauto.
Qed.
Lemma unique_best v Pa : In v vars -> NoDup Pa -> parents_in_data vars rs v Pa ->
  eventually (fun n => forall K, NoDup K -> incl K vars -> ~ In v K -> ~ same_set K Pa -> 
   forall s t, imports_to vars cards None (copies n rs) s t ->
    exists a b, score_of score t s v (edges_into v K) = Ok a /\ score_of score t s v (edges_into v Pa) = Ok b /\ (a < b)%R).
Proof.
  intros Hv NP HP. destruct (good_all vars cards k rs HL HE Hk HC tau alpha Ht Ha) as [N [N1 H]]. exists N. intros n Hn K NK HK HvK NS s t HI.
  apply (imports_det vars cards None _ s t (copies_legal vars cards n rs ltac:(lia) HL)) in HI as [-> ->]. destruct (n_ready vars cards rs HL v Hv) as [m HR].
  eexists _, _. split; [apply (n_score vars cards k rs HL HE Hk HC lg tau alpha Hlg Ht Ha n v [] m _ K HR); auto; [lia|tauto]|].
  split; [apply (n_score vars cards k rs HL HE Hk HC lg tau alpha Hlg Ht Ha n v [] m _ Pa HR); auto; [lia|exact (proj1 HP)|tauto]|].
  apply (best vars cards k rs Hk tau alpha n v Pa (H n Hn) Hv HP K); assumption.
Qed.
Lemma exact_parents v Pa : In v vars -> parents_in_data vars rs v Pa ->
  eventually (fun n => forall prior known p draws dm pn es, thorough (length vars - 1) p -> (forall a, In (a, v) known -> In a Pa) ->
    run prior n known p draws dm pn es -> forall a, In (a, v) es <-> In a Pa).
Proof.
  intros Hv [P1 [P2 [P3 P4]]]. destruct search_result' as [N [N1 H]]. exists N. intros n Hn prior known p draws dm pn es HT HK HRn a.
  destruct (H n Hn prior known p draws dm pn es v HT HRn Hv) as [X [NX [IX [XI [KX [VX [A B]]]]]]]. assert (NV : ~ In v X) by (apply VX; intros I; apply P2, HK, I).
  assert (PX : incl Pa X).
  { intros q Hq. destruct (in_dec string_dec q X) as [I|I]; [exact I|exfalso]. destruct (P3 X q IX NV Hq I) as [r [R1 [R2 R3]]]. apply (A r); auto. intros ->. contradiction. }
  rewrite <- XI. split; [|apply PX]. intros Hx. destruct (in_dec string_dec a Pa) as [I|I]; [exact I|exfalso].
  set (K := filter (fun x => negb (String.eqb x a)) X). assert (HK' : forall x, In x K <-> In x X /\ x <> a) by (intros x; unfold K; rewrite filter_In, negb_true_iff, String.eqb_neq; tauto).
  assert (av : a <> v) by (intros ->; contradiction).
  destruct (P4 K a) as [D V]; [intros x Hx'; apply IX, HK', Hx'|intros Hx'; apply HK' in Hx'; tauto|intros x Hx'; apply HK'; split; [apply PX, Hx'|intros ->; contradiction]|apply IX, Hx|exact av|intros Hx'; apply HK' in Hx'; tauto|].
  destruct (B a K Hx av) as [C|C]; [intros Ik; apply I, HK, Ik|exact HK'|contradiction|contradiction].
Qed.
Lemma exact_network net : edges_within vars net -> (forall v, In v vars -> exists Pa, parents_in_data vars rs v Pa /\ forall a, In (a, v) net <-> In a Pa) ->
  eventually (fun n => forall prior known p draws dm pn, thorough (length vars - 1) p -> incl known net -> (dm = false -> pn <> Some 0) ->
    (forall v, In v vars -> exists a, In a vars /\ a <> v /\ ~ In (a, v) known) ->
    (exists es, run prior n known p draws dm pn es) /\ forall es, run prior n known p draws dm pn es -> forall e, In e es <-> In e net).
Proof.
  intros HW HP.
  destruct (all_eventually (fun v n => forall prior known p draws dm pn es, thorough (length vars - 1) p -> (forall a, In (a, v) known -> In (a, v) net) ->
    run prior n known p draws dm pn es -> forall a, In (a, v) es <-> In (a, v) net) vars) as [N H].
  { intros v Hv. destruct (HP v Hv) as [Pa [P1 P2]]. destruct (exact_parents v Pa Hv P1) as [N H]. exists N. intros n Hn prior known p draws dm pn es HT HK HRn a.
    rewrite (H n Hn prior known p draws dm pn es HT) by (auto; intros b Hb; apply P2, HK, Hb). symmetry. apply P2. }
  exists (S N). intros n Hn prior known p draws dm pn HT HK Hpn HCd. assert (HL' : legal_input vars cards (copies n rs)) by (apply copies_legal; [lia|exact HL]).
  pose proof (legal_wf vars cards prior _ HL') as W. assert (KW : edges_within vars known) by (intros e He; apply HW, HK, He). split.
  - destruct (removable_matrix (struct_of vars cards prior) (length vars) known W (fun l Hl => matrix_index vars cards prior _ l HL' Hl)) as [RM _]. destruct (RM KW) as [m [Em _]].
    assert (HN : exists est, new_sb_estimator (struct_of vars cards prior) (traj_of vars (copies n rs)) (length vars) known = Ok est).
    { unfold new_sb_estimator. rewrite Em. eexists. reflexivity. }
    destruct HN as [est HN].
    assert (U : usable_params p).
    { destruct HL as [_ [HV _]]. assert (L2 : 1 <= length vars - 1).
      { destruct vars as [|v r]; [contradiction|]. destruct (HCd v (or_introl eq_refl)) as [a [A1 [A2 _]]]. destruct A1 as [A1|A1]; [congruence|]. destruct r; [destruct A1|cbn; lia]. }
      destruct HT as [T1 [T2 [T3 [T4 _]]]]. split; [congruence|]. intros _. split; intros X; [specialize (T3 0 X)|specialize (T4 0 X)]; lia. }
    destruct (C33_score_based_returns vars cards prior k (copies n rs) _ _ known est lg tau alpha draws p dm pn HL' HE Hk (copies_clock n rs (strict_ok rs HC)) (imports_exists vars cards prior _ HL') Hlg Ht Ha HN Hpn (or_intror (conj U HCd))) as [es [pr [est' E]]].
    exists es, (struct_of vars cards prior), (traj_of vars (copies n rs)), est, pr, est'. split; [apply imports_exists, HL'|]. split; [exact HN|exact E].
  - intros es HRn [a v]. destruct (in_dec string_dec v vars) as [Hv|Hv].
    + apply (H n ltac:(lia) v Hv prior known p draws dm pn es HT); [intros b Hb; apply HK, Hb|exact HRn].
    + split; intros I; exfalso; apply Hv; [|exact (proj2 (HW _ I))]. destruct HRn as [s [t [est [pr [est' [HI [HN E]]]]]]].
      apply (imports_det vars cards prior _ s t HL') in HI as [-> ->]. destruct (new_sb_ready _ _ known est W eq_refl HN) as [Hr [Es Et]].
      destruct (sb_shape R score score_gt est draws p known Hr dm pn es pr est' E a v I) as [_ [I2 _]]. rewrite Es in I2. exact I2.
Qed.
(** it suffices to look at the sublists of [vars] *)
Lemma data_parents v Pa : In v vars -> incl Pa vars -> ~ In v Pa ->
  (forall K, In K (all_sub vars) -> ~ In v K -> forall q, In q Pa -> ~ In q K -> exists p, In p Pa /\ ~ In p K /\ depends vars rs v K p) ->
  (forall K, In K (all_sub vars) -> ~ In v K -> incl Pa K -> forall p, In p vars -> p <> v -> ~ In p K -> ~ depends vars rs v K p /\ varies vars rs v K p) -> parents_in_data vars rs v Pa.
Proof.
  intros Hv H1 H2 H3 H4. split; [exact H1|]. split; [exact H2|].
  assert (G : forall K, incl K vars -> exists K', In K' (all_sub vars) /\ same_set K' K).
  { intros K HK. exists (parents_in (struct_of vars cards None) K). split; [apply all_sub_In, sublist_filter|]. apply (norm_same vars cards K HK). }
  split.
  - intros K q HK NV Hq NK. destruct (G K HK) as [K' [S1 S2]]. destruct (H3 K' S1 ltac:(intros I; apply NV, S2, I) q Hq ltac:(intros I; apply NK, S2, I)) as [p [A [B C]]].
    exists p. split; [exact A|]. split; [intros I; apply B, S2, I|]. apply (depends_ext vars cards k rs HL HE v K' K p Hv (H1 p A)); [intros l Hl; apply HK, S2, Hl|exact S2|exact C].
  - intros K p HK NV HI Hp Npv NK. destruct (G K HK) as [K' [S1 S2]]. assert (HK' : incl K' vars) by (intros l Hl; apply HK, S2, Hl).
    destruct (H4 K' S1 ltac:(intros I; apply NV, S2, I) ltac:(intros l Hl; apply S2, HI, Hl) p Hp Npv ltac:(intros I; apply NK, S2, I)) as [D V]. split.
    + intros D'. apply D. apply (depends_ext vars cards k rs HL HE v K K' p Hv Hp HK); [intros x; symmetry; apply S2|exact D'].
    + apply (varies_ext vars cards k rs HL HE v K' K p Hv Hp HK' S2 V).
Qed.
End data.
(** no step shows it *)
Lemma jumps_none rs ni x' cols vals : (forall ab, step_in rs ab -> row_shows (snd (fst ab)) cols vals = true -> row_shows (snd (snd ab)) [ni] [x'] = true -> False) -> raw_jumps rs ni x' cols vals = 0%Z.
Proof.
  intros H. unfold raw_jumps. assert (G : forall l, (forall r, In r l -> In r rs) -> Zsum (map (fun r => Z.of_nat (length (filter (fun ab => row_shows (snd (fst ab)) cols vals && row_shows (snd (snd ab)) [ni] [x']) (steps r)))) l) = 0%Z).
  { induction l as [|r l IH]; intros HI; [reflexivity|]. cbn [map]. rewrite Zsum_cons, IH by (intros a Ha; apply HI; right; exact Ha).
    replace (filter _ (steps r)) with (@nil ((Qc * list Z) * (Qc * list Z))); [reflexivity|]. symmetry. apply filter_false. intros ab Hab. apply not_true_is_false. intros X. apply andb_prop in X as [X1 X2].
    apply (H ab); auto. exists r. split; [apply HI; left; reflexivity|exact Hab]. }
  apply G. auto.
Qed.
