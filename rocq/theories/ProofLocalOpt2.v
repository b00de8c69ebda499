(** How many iterations a tabu search needs to reach a local optimum (C63). *)
From Verif Require Import Base Lib ModelStructure ModelGraph ModelCims ModelData ModelParams ModelCtpc ModelSearch
  SpecStructure SpecGraph SpecParams SpecCtpc SpecSearch SpecLocalOpt ProofStructure ProofGraph ProofIndex ProofCtpc2 ProofSearch ProofSearch2 ProofSearch3 ProofLocalOpt ProofCache ProofCost2.

Definition accepts {Sc} (tr : list (step_log Sc)) : nat := length (filter sl_accepted tr).
(** every improvement comes after fewer than [c] rejections in a row *)
Fixpoint gaps {Sc} (c r : nat) (tr : list (step_log Sc)) : Prop :=
  match tr with [] => True | e :: l => if sl_accepted e then r < c /\ gaps c 0 l else gaps c (S r) l end.
(** rejections at the end, [r] before *)
Fixpoint ending {Sc} (r : nat) (tr : list (step_log Sc)) : nat :=
  match tr with [] => r | e :: l => ending (if sl_accepted e then 0 else S r) l end.
Lemma gaps_length {Sc} c (tr : list (step_log Sc)) : forall r, gaps c r tr -> length tr + r <= c * accepts tr + ending r tr.
Proof.
  induction tr as [|e l IH]; intros r H; cbn [gaps ending length] in *; [unfold accepts; cbn; lia|]. unfold accepts in *. cbn [filter]. destruct (sl_accepted e).
  - destruct H as [H1 H2]. apply IH in H2. cbn [length]. lia.
  - apply IH in H. lia.
Qed.
Lemma ending_snoc {Sc} (tr : list (step_log Sc)) e : forall r, ending r (tr ++ [e]) = if sl_accepted e then 0 else S (ending r tr).
Proof. induction tr as [|x l IH]; intros r; cbn [app ending]; [destruct (sl_accepted e); reflexivity|apply IH]. Qed.
Lemma ending_trailing {Sc} (tr : list (step_log Sc)) : ending 0 tr = trailing_rejections tr.
Proof.
  induction tr as [|e l IH] using rev_ind; [reflexivity|]. rewrite ending_snoc. unfold trailing_rejections. rewrite rev_app_distr. cbn [rev app rejected_prefix]. destruct (sl_accepted e); [reflexivity|].
  rewrite IH. reflexivity.
Qed.

Section run.
Variables (Sc : Type) (gt : Sc -> Sc -> bool) (v : label) (cands labels : list label) (psc : list label -> result Sc).
Hypothesis Hord : strict_order gt.
Hypothesis Hext : forall P Q, same_set P Q -> psc P = psc Q.
Hypothesis Hcl : incl cands labels.
Hypothesis HN : NoDup cands.
Definition scored (e : step_log Sc) : Prop := forall Q, incl Q labels -> (forall x, In x (sl_edges e) <-> In x (edges_into v Q)) -> psc Q = Ok (sl_score e).
Notation path := (search_path (Sc := Sc) v cands None).
Lemma next_in P c Q : incl P labels -> In c cands -> neighbour None P c Q -> incl Q labels.
Proof.
  intros HP Hc HQ x Hx. destruct HQ as [[_ HQ]|[[_ [_ HQ]]|[_ [H _]]]]; [| |exfalso; apply H; exact I].
  - apply HP, HQ, Hx.
  - apply HQ in Hx as [Hx| ->]; [apply HP, Hx|apply Hcl, Hc].
Qed.
Lemma same_in P P' : same_set P P' -> incl P labels -> incl P' labels.
Proof. intros HS HP x Hx. apply HP, HS, Hx. Qed.
Lemma next_same P P' c Q Q' : same_set P P' -> neighbour None P c Q -> neighbour None P' c Q' -> same_set Q Q'.
Proof.
  intros HS HQ HQ' x. destruct HQ as [[A HQ]|[[A [_ HQ]]|[_ [H _]]]]; [| |exfalso; apply H; exact I]; destruct HQ' as [[A' HQ']|[[A' [_ HQ']]|[_ [H _]]]]; try (exfalso; apply H; exact I).
  - rewrite HQ, HQ', (HS x). tauto.
  - exfalso. apply A', HS, A.
  - exfalso. apply A, HS, A'.
  - rewrite HQ, HQ', (HS x). tauto.
Qed.
Lemma same_tr (P Q W : list label) : same_set P Q -> same_set Q W -> same_set P W.
Proof. intros A B x. rewrite (A x). apply B. Qed.
Lemma same_sy (P Q : list label) : same_set P Q -> same_set Q P.
Proof. intros A x. symmetry. apply A. Qed.

(** ** the number of improvements *)
Definition canon (P : list label) : list label := filter (fun c => lmem c P) cands.
Lemma canon_In P c : In c (canon P) <-> In c cands /\ In c P.
Proof. unfold canon. rewrite filter_In, lmem_In. tauto. Qed.
Lemma improvements K0 P tr R : (forall c, In c cands -> ~ In c K0) -> path P tr R -> forall b b', improving gt b tr b' -> Forall scored tr -> incl P labels -> psc P = Ok b ->
  same_set P (K0 ++ canon P) ->
  exists L, length L = S (accepts tr) /\ NoDup L /\ incl L (all_sub cands) /\ forall X, In X L -> exists sc, psc (K0 ++ X) = Ok sc /\ (sc = b \/ gt sc b = true).
Proof.
  intros HK H. destruct Hord as [OI OT].
  assert (ONE : forall P b, psc P = Ok b -> same_set P (K0 ++ canon P) -> exists sc, psc (K0 ++ canon P) = Ok sc /\ (sc = b \/ gt sc b = true)).
  { intros P0 b E HS. exists b. rewrite <- (Hext _ _ HS). auto. }
  induction H as [P R N S|P e Q tr R N C A Hn D E H IH|P e Q P' tr R N C A Hn D E S H IH]; intros b b' HI HF HP HB HS.
  - exists [canon P]. split; [reflexivity|]. split; [repeat constructor; intros []|]. split; [intros X [<-|[]]; apply all_sub_In, sublist_filter|]. intros X [<-|[]]. apply ONE; assumption.
  - inversion HI as [|b0 e0 tr0 b1 A0 G0 H0|b0 e0 tr0 b1 A0 G0 H0]; subst; [|congruence]. pose proof (Forall_inv HF) as HE. apply Forall_inv_tail in HF.
    pose proof (next_in P _ Q HP C Hn) as HQ. specialize (HE Q HQ E).
    assert (SQ : same_set Q (K0 ++ canon Q)).
    { intros x. rewrite in_app_iff, canon_In. specialize (HS x). rewrite in_app_iff, canon_In in HS. destruct Hn as [[B W]|[[B [_ W]]|[_ [Z _]]]]; [| |exfalso; apply Z; exact I]; rewrite W, HS.
      - split; [intros [[Z|Z] Z']; [left; exact Z|right; tauto]|]. intros [Z|[Z [Z1 Z2]]]; [|tauto]. split; [left; exact Z|]. intros ->. exact (HK _ C Z).
      - split; [intros [[Z|Z]| ->]; [left; exact Z|right; tauto|right; tauto]|]. tauto. }
    destruct (IH _ _ H0 HF HQ HE SQ) as [L [L1 [L2 [L3 L4]]]]. exists (canon P :: L). split; [unfold accepts in *; cbn [filter]; rewrite A; cbn [length]; lia|]. split; [|split].
    + constructor; [|exact L2]. intros Hin. destruct (L4 _ Hin) as [sc [F1 F2]]. rewrite <- (Hext _ _ HS), HB in F1. injection F1 as <-. destruct F2 as [->|F2]; [congruence|]. pose proof (OT _ _ _ G0 F2) as F3. congruence.
    + intros X [<-|HX]; [apply all_sub_In, sublist_filter|apply L3, HX].
    + intros X [<-|HX]; [apply ONE; assumption|]. destruct (L4 X HX) as [sc [F1 F2]]. exists sc. split; [exact F1|]. right. destruct F2 as [->|F2]; [exact G0|exact (OT _ _ _ F2 G0)].
  - inversion HI as [|b0 e0 tr0 b1 A0 G0 H0|b0 e0 tr0 b1 A0 G0 H0]; subst; [congruence|]. apply Forall_inv_tail in HF.
    assert (CE : canon P' = canon P) by (apply filter_ext_In; intros c _; apply eq_true_iff_eq; rewrite !lmem_In; symmetry; apply S).
    destruct (IH _ _ H0 HF (same_in _ _ S HP) ltac:(rewrite <- (Hext _ _ S); exact HB) ltac:(rewrite CE; exact (same_tr _ _ _ (same_sy _ _ S) HS))) as [L [L1 L2]].
    exists L. split; [|exact L2]. unfold accepts in *. cbn [filter]. rewrite A. exact L1.
Qed.

(** ** no improvement after a full cycle *)
Definition tried (P : list label) (b : Sc) (e : step_log Sc) : Prop :=
  gt (sl_score e) b = false /\ exists P1 Q1, same_set P1 P /\ neighbour None P1 (sl_candidate e) Q1 /\ psc Q1 = Ok (sl_score e).
Lemma cycle_gaps P tr R : path P tr R -> forall b b' hist w, improving gt b tr b' -> Forall scored tr -> incl P labels ->
  Forall (tried P b) w -> (forall i, i + length cands < length hist + length w + length tr -> nth_error (map sl_candidate (hist ++ w ++ tr)) (i + length cands) = nth_error (map sl_candidate (hist ++ w ++ tr)) i) ->
  gaps (length cands) (length w) tr.
Proof.
  intros H. induction H as [P R N S|P e Q tr R N C A Hn D E H IH|P e Q P' tr R N C A Hn D E S H IH]; intros b b' hist w HI HF HP HW HR; [exact I| |]; cbn [gaps]; rewrite A.
  - inversion HI as [|b0 e0 tr0 b1 A0 G0 H0|b0 e0 tr0 b1 A0 G0 H0]; subst; [|congruence]. pose proof (Forall_inv HF) as HE. apply Forall_inv_tail in HF. pose proof (next_in P _ Q HP C Hn) as HQ. split.
    + destruct (Nat.lt_ge_cases (length w) (length cands)) as [|G]; [assumption|]. exfalso.
      assert (CP : 0 < length cands) by (destruct cands; [destruct C|cbn; lia]).
      specialize (HR (length hist + (length w - length cands)) ltac:(cbn [length]; lia)). replace (length hist + (length w - length cands) + length cands) with (length hist + length w) in HR by lia.
      rewrite app_assoc, map_app in HR. rewrite nth_error_app2 in HR by (rewrite map_length, app_length; lia). rewrite map_length, app_length, Nat.sub_diag in HR. cbn [map nth_error] in HR.
      rewrite nth_error_app1 in HR by (rewrite map_length, app_length; lia). rewrite map_app in HR. rewrite nth_error_app2 in HR by (rewrite map_length; lia). rewrite map_length in HR.
      replace (length hist + (length w - length cands) - length hist) with (length w - length cands) in HR by lia. symmetry in HR. apply nth_error_In, in_map_iff in HR as [e' [Ec He']].
      rewrite Forall_forall in HW. destruct (HW e' He') as [G1 [P1 [Q1 [S1 [N1 E1]]]]]. rewrite Ec in N1. rewrite (Hext Q1 Q (next_same _ _ _ _ _ S1 N1 Hn)), (HE Q HQ E) in E1. injection E1 as E1. congruence.
    + apply (IH _ _ (hist ++ w ++ [e]) [] H0 HF HQ ltac:(constructor)). intros i Hi. specialize (HR i). rewrite !app_length in Hi. cbn [length] in Hi, HR. specialize (HR ltac:(lia)).
      cbn [app]. rewrite <- !app_assoc. cbn [app]. exact HR.
  - inversion HI as [|b0 e0 tr0 b1 A0 G0 H0|b0 e0 tr0 b1 A0 G0 H0]; subst; [congruence|]. pose proof (Forall_inv HF) as HE. apply Forall_inv_tail in HF.
    replace (Datatypes.S (length w)) with (length (w ++ [e])) by (rewrite app_length; cbn; lia). apply (IH _ _ hist (w ++ [e]) H0 HF (same_in _ _ S HP)).
    + apply Forall_app. split.
      * eapply Forall_impl; [|exact HW]. intros e' [G1 [P1 [Q1 [S1 X]]]]. split; [exact G1|]. exists P1, Q1. split; [exact (same_tr _ _ _ S1 S)|exact X].
      * constructor; [|constructor]. split; [exact G0|]. exists P, Q. split; [exact S|]. split; [exact Hn|]. apply HE; [exact (next_in P _ Q HP C Hn)|exact E].
    + intros i Hi. specialize (HR i). rewrite app_length in Hi. cbn [length] in Hi, HR. specialize (HR ltac:(lia)). rewrite <- !app_assoc. cbn [app]. exact HR.
Qed.
End run.

Section tabu.
Variables (Sc : Type) (score : list cim -> result Sc) (gt : Sc -> Sc -> bool) (t : trajectory) (draws : nat -> nat).
Variables (s : structure) (known : list edge) (m : list (list bool)) (v : label).
Hypothesis Hok : search_ready s known m v.
Variables (n : nat) (pat len dur : option nat) (es : list edge).
Variable tr : list (step_log Sc * (list label * list label)).
Hypothesis Hrun : tabu_search Sc score gt t draws s m v None n pat len dur = Ok (es, tr).
Notation cs := (candidate_parents s known v).
Hypothesis Hlen : length cs <= opt_default len (length cs).
Hypothesis Hdur : length cs <= opt_default dur (length cs).
Hypothesis Hord : strict_order gt.
Lemma tabu_enough : (forall p, pat = Some p -> length cs <= S p) -> length cs * 2 ^ length cs <= n -> locally_optimal score gt t s v None cs es.
Proof.
  intros Hpat Hn. destruct (Nat.lt_ge_cases (length tr) n) as [G|G].
  { destruct (tabu_outcome Sc score gt t draws s known m v Hok None n pat len dur es tr Hrun) as [HO _]. destruct HO as [K [R [sc0 [sc [_ [_ [_ [_ [_ [_ [_ [_ [_ [_ [[_ [S2 _]] _]]]]]]]]]]]]]]].
    rewrite map_length in S2. destruct S2 as [S2|[p [S2 S3]]]; [lia|]. exact (tabu_early_stop Sc score gt t draws s known m v Hok None n pat len dur es tr Hrun Hlen Hdur p S2 (Hpat p S2) G). }
  apply (tabu_locally_optimal Sc score gt t draws s known m v Hok None n pat len dur es tr Hrun Hlen Hdur).
  pose proof (tabu_round_robin Sc score gt t draws s known m v Hok None n pat len dur es tr Hrun Hlen Hdur) as RR.
  destruct (tabu_outcome Sc score gt t draws s known m v Hok None n pat len dur es tr Hrun) as [HO _]. set (l := map fst tr) in *.
  destruct HO as [K [R [sc0 [sc [HK [NK [NR [WR [Ne [He [Hp [Hi [E0 [E1 [HS Hl]]]]]]]]]]]]]]].
  assert (Hcl : incl cs (nodes_labels s)) by (intros c Hc; apply (candidates_In s known v) in Hc; tauto).
  assert (HN : NoDup cs) by (apply NoDup_filter; apply Hok).
  set (psc := pscore Sc score t s v).
  assert (Hext : forall P Q, same_set P Q -> psc P = psc Q) by (intros; apply pscore_ext; assumption).
  assert (Hsc : Forall (scored Sc v (nodes_labels s) psc) l).
  { eapply Forall_impl; [|exact Hl]. intros e Ee Q HQ HE. cbn beta in Ee. rewrite (score_of_pscore Sc score t s known m v Hok _ (nodup string_dec Q) (NoDup_nodup _ _)) in Ee.
    - rewrite <- Ee. apply Hext. intros x. symmetry. apply nodup_In.
    - intros p Hp'. apply nodup_In in Hp'. apply HQ, Hp'.
    - intros x. rewrite HE, !edges_into_In, nodup_In. tauto. }
  assert (KL : incl K (nodes_labels s)) by (intros x Hx; apply HK in Hx; unfold known_parents in Hx; apply filter_In in Hx; tauto).
  assert (KC : forall c, In c cs -> ~ In c K) by (intros c Hc Hx; apply HK in Hx; apply (known_parents_In s known m v Hok) in Hx; apply (candidates_In s known v) in Hc; tauto).
  assert (EK : psc K = Ok sc0).
  { rewrite (score_of_pscore Sc score t s known m v Hok _ K NK KL) in E0; [exact E0|]. intros e. rewrite !edges_into_In, (HK (fst e)). tauto. }
  assert (CK : canon cs K = []).
  { destruct (canon cs K) as [|c r] eqn:EC; [reflexivity|]. assert (I : In c (canon cs K)) by (rewrite EC; left; reflexivity). apply canon_In in I as [I1 I2]. exfalso. exact (KC c I1 I2). }
  destruct (improvements Sc gt v cs (nodes_labels s) psc Hord Hext Hcl K K l R KC Hp sc0 sc Hi Hsc KL EK ltac:(rewrite CK, app_nil_r; intros x; reflexivity)) as [L [L1 [L2 [L3 _]]]].
  pose proof (NoDup_incl_length L2 L3) as LL. rewrite all_sub_length, L1 in LL.
  assert (RR' : forall i, i + length cs < length l -> nth_error (map sl_candidate l) (i + length cs) = nth_error (map sl_candidate l) i).
  { intros i Hi'. replace (map sl_candidate l) with (map (fun x => sl_candidate (fst x)) tr) by (unfold l; rewrite map_map; reflexivity). apply RR. unfold l in Hi'. rewrite map_length in *. exact Hi'. }
  pose proof (cycle_gaps Sc gt v cs (nodes_labels s) psc Hext Hcl HN K l R Hp sc0 sc [] [] Hi Hsc KL ltac:(constructor) ltac:(intros i Hi'; cbn [app length Nat.add] in *; apply RR'; lia)) as GP.
  apply gaps_length in GP. cbn [length] in GP. rewrite ending_trailing in GP. assert (LN : length l = length tr) by apply map_length. nia.
Qed.
End tabu.
