(** Score-based search when the labels are listed in another order (C80): for every run on one listing there is a run on
    the other listing that takes the same decisions. *)
From Verif Require Import Base Lib ModelStructure ModelGraph ModelCims ModelData ModelParams ModelCache ModelCtpc ModelSearch ModelEstimators
  SpecStructure SpecGraph SpecParams SpecCtpc SpecSearch SpecEstimators ProofStructure ProofGraph ProofParams ProofCtpc ProofCtpc2
  ProofSearch ProofSearch2 ProofSearch3 ProofEstimators2 ProofInvariance ProofCtpc7 SpecUnit.

Lemma same_set_sym a b : same_set a b -> same_set b a. Proof. intros H x. symmetry. apply H. Qed.
Lemma same_set_trans a b c : same_set a b -> same_set b c -> same_set a c. Proof. intros H1 H2 x. rewrite (H1 x). apply H2. Qed.

(** an index for every element *)
Lemma choice_at {A} (x : A) l : In x l -> exists i, forall d k, d k = i -> rand_choice d k l = Ok x.
Proof.
  intros H. apply In_nth_error in H as [i Hi]. exists i. intros d k E. unfold rand_choice. rewrite E.
  assert (i < length l) by (apply nth_error_Some; congruence). rewrite Nat.mod_small by assumption. unfold nth_res. rewrite Hi. reflexivity.
Qed.
Lemma choice_nil {A} d k : rand_choice d k (@nil A) = Err IndexError.
Proof. unfold rand_choice, nth_res. destruct (d k mod length []); reflexivity. Qed.
Lemma choice_err {A} d k (l : list A) x : rand_choice d k l = Err x -> l = [] /\ x = IndexError.
Proof.
  destruct l as [|a r]; [rewrite choice_nil; intros H; split; [reflexivity|congruence]|]. intros H.
  destruct (choice_ok d k (a :: r)) as [y [E _]]; [discriminate|congruence].
Qed.
Lemma undo_set_ext P P' c added ev Q Q' : same_set P P' -> same_set Q Q' -> undo_set P c added ev Q -> undo_set P' c added ev Q'.
Proof.
  intros H1 H2. unfold undo_set. destruct added; [destruct ev as [q|]|]; intros U.
  - intros R HR x. rewrite <- (H1 x). apply U. intros y. rewrite HR, <- (H2 y). tauto.
  - intros x. rewrite <- (H1 x), <- (H2 x). apply U.
  - intros x. rewrite <- (H1 x), <- (H2 x). apply U.
Qed.

(** only the numbers from the current position on matter *)
Lemma propose_ext d d' v mp g k c : (forall m, k <= m -> d m = d' m) -> propose d v mp g k c = propose d' v mp g k c.
Proof.
  intros H. unfold propose. destruct (ng_has_edge g (c, v)); [reflexivity|]. destruct mp as [n|]; [|reflexivity].
  destruct (ng_get_parents_by_id g v) as [ps|x]; cbn [bind]; [|reflexivity]. destruct (n <=? length ps); [|reflexivity].
  unfold rand_choice. rewrite (H k) by lia. reflexivity.
Qed.
Lemma propose_pos d v mp g k c g1 added ev k1 : propose d v mp g k c = Ok (g1, added, ev, k1) -> k <= k1.
Proof.
  unfold propose. destruct (ng_has_edge g (c, v)); [intros H; injection H as _ _ _ <-; lia|]. destruct mp as [n|]; cbn [bind].
  - destruct (ng_get_parents_by_id g v) as [ps|x]; cbn [bind]; [|discriminate]. destruct (n <=? length ps); cbn [bind].
    + destruct (rand_choice d k ps); cbn [bind]; [|discriminate]. intros H. injection H as _ _ _ <-. lia.
    + intros H. injection H as _ _ _ <-. lia.
  - intros H. injection H as _ _ _ <-. lia.
Qed.
Section ext.
Variables (Sc : Type) (score : list cim -> result Sc) (gt : Sc -> Sc -> bool) (t : trajectory) (v : label) (cands : list label) (mp pat : option nat).
Lemma hill_ext n : forall d d' g best c k, (forall m, k <= m -> d m = d' m) ->
  hill_loop Sc score gt t d n v cands mp pat g best c k = hill_loop Sc score gt t d' n v cands mp pat g best c k.
Proof.
  induction n as [|n IH]; intros d d' g best c k H; [reflexivity|]. cbn [hill_loop].
  assert (E : rand_choice d k cands = rand_choice d' k cands) by (unfold rand_choice; rewrite (H k) by lia; reflexivity). rewrite E.
  destruct (rand_choice d' k cands) as [cand|x]; cbn [bind]; [|reflexivity].
  rewrite (propose_ext d d' v mp g (S k) cand) by (intros m Hm; apply H; lia).
  destruct (propose d' v mp g (S k) cand) as [[[[g1 added] ev] k1]|x] eqn:Ep; cbn [bind]; [|reflexivity]. apply propose_pos in Ep.
  destruct (get_score_from_graph Sc score t g1 v) as [[sc g2]|x]; cbn [bind]; [|reflexivity]. destruct (out_of_patience pat _); [reflexivity|].
  rewrite (IH d d') by (intros m Hm; apply H; lia). reflexivity.
Qed.
Lemma tabu_pick_ext d d' q ts k : (forall m, k <= m -> d m = d' m) -> tabu_pick d cands q ts k = tabu_pick d' cands q ts k.
Proof.
  intros H. unfold tabu_pick. destruct (0 <? _); [|reflexivity]. unfold rand_choice. rewrite (H k) by lia. reflexivity.
Qed.
Lemma tabu_pick_pos d q ts k c q1 s1 k0 : tabu_pick d cands q ts k = Ok (c, q1, s1, k0) -> k <= k0.
Proof.
  unfold tabu_pick. destruct (0 <? _).
  - destruct (rand_choice d k _); cbn [bind]; [|discriminate]. intros H. injection H as _ _ _ <-. lia.
  - destruct (queue_get q) as [[a b]|]; cbn [bind]; [|discriminate]. destruct (set_remove a ts); cbn [bind]; [|discriminate]. intros H. injection H as _ _ _ <-. lia.
Qed.
Lemma tabu_ext len dur n : forall d d' g best c k q ts tc, (forall m, k <= m -> d m = d' m) ->
  tabu_loop Sc score gt t d n v cands mp pat len dur g best c k q ts tc = tabu_loop Sc score gt t d' n v cands mp pat len dur g best c k q ts tc.
Proof.
  induction n as [|n IH]; intros d d' g best c k q ts tc H; [reflexivity|]. cbn [tabu_loop]. rewrite (tabu_pick_ext d d' q ts k H).
  destruct (tabu_pick d' cands q ts k) as [[[[cand q1] s1] k0]|x] eqn:Et; cbn [bind]; [|reflexivity]. apply tabu_pick_pos in Et.
  rewrite (propose_ext d d' v mp g k0 cand) by (intros m Hm; apply H; lia).
  destruct (propose d' v mp g k0 cand) as [[[[g1 added] ev] k1]|x] eqn:Ep; cbn [bind]; [|reflexivity]. apply propose_pos in Ep.
  destruct (get_score_from_graph Sc score t g1 v) as [[sc g2]|x]; cbn [bind]; [|reflexivity].
  destruct (tabu_update len dur cand q1 s1 tc) as [[[q2 s2] tc2]|x]; cbn [bind]; [|reflexivity]. destruct (out_of_patience pat _); [reflexivity|].
  rewrite (IH d d') by (intros m Hm; apply H; lia). reflexivity.
Qed.
End ext.

Section sim.
Variables (Sc : Type) (score : list cim -> result Sc) (gt : Sc -> Sc -> bool).
Variables (t t' : trajectory) (s s' : structure) (v : label).
Hypothesis Hwf : wf_structure s.
Hypothesis Hwf' : wf_structure s'.
Hypothesis Hed : edges_list s = [].
Hypothesis Hed' : edges_list s' = [].
Hypothesis Hlab : same_set (nodes_labels s) (nodes_labels s').
Hypothesis Hv : In v (nodes_labels s).
Hypothesis HP : forall K, (forall l, In l K -> In l (nodes_labels s)) -> pscore Sc score t s v K = pscore Sc score t' s' v K.

Let Hv' : In v (nodes_labels s').
Proof. apply Hlab, Hv. Qed.

Lemma propose_sim draws mp g P g' P' k k' c : rep s v g P -> rep s' v g' P' -> same_set P P' -> In c (nodes_labels s) ->
  match propose draws v mp g k c with
  | Ok (g1, added, ev, k1) => exists Q Q' g1' k1' d, rep s v g1 Q /\ rep s' v g1' Q' /\ same_set Q Q' /\ k' <= k1'
       /\ undo_set P c added ev Q /\ undo_set P' c added ev Q' /\ (forall q, ev = Some q -> In q (nodes_labels s))
       /\ forall draws', (forall m, k' <= m < k1' -> draws' m = d) -> propose draws' v mp g' k' c = Ok (g1', added, ev, k1')
  | Err x => forall draws', propose draws' v mp g' k' c = Err x
  end.
Proof.
  intros R R' HPP Hc. assert (Hc' : In c (nodes_labels s')) by (apply Hlab, Hc). unfold propose.
  rewrite (rep_has_edge s v g P c (proj2 R)), (rep_has_edge s' v g' P' c (proj2 R')).
  assert (EL : lmem c P' = lmem c P) by (apply eq_true_iff_eq; rewrite !lmem_In; symmetry; apply HPP). rewrite EL.
  destruct (lmem c P) eqn:Ec.
  - destruct (rep_remove s v g P c R) as [Q [RQ HQ]]. destruct (rep_remove s' v g' P' c R') as [Q' [RQ' HQ']].
    apply lmem_In in Ec. assert (SQ : same_set Q Q') by (intros x; rewrite HQ, HQ', (HPP x); tauto).
    exists Q, Q', (ng_remove_edges g' [(c, v)]), k', 0. split; [exact RQ|]. split; [exact RQ'|]. split; [exact SQ|]. split; [lia|].
    assert (U : undo_set P c false None Q) by (intros x; rewrite HQ; destruct (string_dec x c) as [->|Hx]; tauto).
    split; [exact U|]. split; [exact (undo_set_ext _ _ _ _ _ _ _ HPP SQ U)|]. split; [discriminate|]. reflexivity.
  - apply lmem_false in Ec.
    assert (ADD : forall g0 P0 g0' P0', rep s v g0 P0 -> rep s' v g0' P0' -> same_set P0 P0' ->
       exists Q Q', rep s v (ng_add_edges g0 [(c, v)]) Q /\ rep s' v (ng_add_edges g0' [(c, v)]) Q' /\ same_set Q Q' /\ forall x, In x Q <-> In x P0 \/ x = c).
    { intros g0 P0 g0' P0' R0 R0' H0. destruct (rep_add s v Hv g0 P0 c R0 Hc) as [Q [RQ HQ]]. destruct (rep_add s' v Hv' g0' P0' c R0' Hc') as [Q' [RQ' HQ']].
      exists Q, Q'. split; [exact RQ|]. split; [exact RQ'|]. split; [|exact HQ]. intros x. rewrite HQ, HQ', (H0 x). tauto. }
    assert (NOEV : exists Q Q' g1' k1' d, rep s v (ng_add_edges g [(c, v)]) Q /\ rep s' v g1' Q' /\ same_set Q Q' /\ k' <= k1'
       /\ undo_set P c true None Q /\ undo_set P' c true None Q' /\ (forall q : label, None = Some q -> In q (nodes_labels s))
       /\ g1' = ng_add_edges g' [(c, v)] /\ k1' = k' /\ d = 0).
    { destruct (ADD g P g' P' R R' HPP) as [Q [Q' [RQ [RQ' [SQ HQ]]]]]. exists Q, Q', (ng_add_edges g' [(c, v)]), k', 0.
      assert (U : undo_set P c true None Q) by (intros x; rewrite HQ; split; [intros K; split; [auto|intros ->; contradiction]|intros [[K|K] K']; [exact K|contradiction]]).
      split; [exact RQ|]. split; [exact RQ'|]. split; [exact SQ|]. split; [lia|]. split; [exact U|]. split; [exact (undo_set_ext _ _ _ _ _ _ _ HPP SQ U)|]. split; [discriminate|auto]. }
    destruct mp as [n|]; cbn [bind].
    2:{ destruct NOEV as [Q [Q' [g1' [k1' [d [A1 [A2 [A3 [A4 [A5 [A6 [A7 [A8 [A9 _]]]]]]]]]]]]]]. subst. exists Q, Q', (ng_add_edges g' [(c, v)]), k', 0. auto 10. }
    destruct (rep_parents s v Hv g P R) as [ps [E [N [S L]]]]. destruct (rep_parents s' v Hv' g' P' R') as [ps' [E' [N' [S' L']]]]. rewrite E, E'. cbn [bind].
    assert (SP : same_set ps ps') by (intros x; rewrite (S x), (S' x); apply HPP).
    assert (LP : length ps' = length ps) by (symmetry; apply same_set_length; assumption). rewrite LP.
    destruct (n <=? length ps) eqn:EN; cbn [bind].
    2:{ destruct NOEV as [Q [Q' [g1' [k1' [d [A1 [A2 [A3 [A4 [A5 [A6 [A7 [A8 [A9 _]]]]]]]]]]]]]]. subst. exists Q, Q', (ng_add_edges g' [(c, v)]), k', 0. auto 10. }
    destruct (rand_choice draws k ps) as [q|x] eqn:Eq; cbn [bind].
    + apply choice_In in Eq. destruct (choice_at q ps' (proj1 (SP q) Eq)) as [i Hi].
      destruct (rep_remove s v g P q R) as [P1 [R1 H1]]. destruct (rep_remove s' v g' P' q R') as [P1' [R1' H1']].
      assert (S1 : same_set P1 P1') by (intros x; rewrite H1, H1', (HPP x); tauto).
      destruct (ADD _ P1 _ P1' R1 R1' S1) as [Q [Q' [RQ [RQ' [SQ HQ]]]]]. apply S in Eq.
      assert (U : undo_set P c true (Some q) Q).
      { intros T HT x. rewrite HT, HQ, H1. split.
        - intros K. destruct (string_dec x q) as [->|Hx]; [auto|]. left. split; [left; auto|intros ->; contradiction].
        - intros [[[[K _]|K] K']|K]; [exact K|contradiction|subst; exact Eq]. }
      exists Q, Q', (ng_add_edges (ng_remove_edges g' [(q, v)]) [(c, v)]), (Datatypes.S k'), i. split; [exact RQ|]. split; [exact RQ'|]. split; [exact SQ|]. split; [lia|].
      split; [exact U|]. split; [exact (undo_set_ext _ _ _ _ _ _ _ HPP SQ U)|].
      split; [intros q0 K; injection K as <-; apply (proj2 R), Eq|]. intros draws' Hd. rewrite (Hi draws' k') by (apply Hd; lia). reflexivity.
    + destruct (choice_err _ _ _ _ Eq) as [Z1 Z2]. subst. destruct ps' as [|a r]; [|discriminate LP]. intros draws'. rewrite choice_nil. reflexivity.
Qed.

(** two end states *)
Definition same_end {L L'} (r : result (netgraph * L)) (r' : result (netgraph * L')) : Prop :=
  match r, r' with
  | Ok (g, _), Ok (g', _) => exists P P', rep0 s v g P /\ rep0 s' v g' P' /\ same_set P P'
  | Err x, Err y => x = y
  | _, _ => False
  end.
Lemma step_end g1 Q g1' Q' P P' c added ev best : rep s v g1 Q -> rep s' v g1' Q' -> same_set Q Q' -> same_set P P' ->
  undo_set P c added ev Q -> undo_set P' c added ev Q' -> (forall q, ev = Some q -> In q (nodes_labels s)) -> In c (nodes_labels s) ->
  match get_score_from_graph Sc score t g1 v, get_score_from_graph Sc score t' g1' v with
  | Ok (sc, g2), Ok (sc', g2') => sc' = sc /\ exists T T', rep s v (if gt sc best then g2 else undo v g2 c added ev) T
        /\ rep s' v (if gt sc best then g2' else undo v g2' c added ev) T' /\ same_set T T'
  | Err x, Err y => x = y
  | _, _ => False
  end.
Proof.
  intros R R' SQ SP U U' Hev Hc.
  pose proof (rep_score Sc score t s v Hwf Hed Hv g1 Q (proj2 R)) as HS. pose proof (rep_score Sc score t' s' v Hwf' Hed' Hv' g1' Q' (proj2 R')) as HS'.
  assert (EQ : pscore Sc score t' s' v Q' = pscore Sc score t s v Q).
  { rewrite (HP Q) by (apply R). apply pscore_ext, same_set_sym, SQ. }
  rewrite EQ in HS'. destruct (pscore Sc score t s v Q) as [sc|x].
  - destruct HS as [g2 [-> R2]]. destruct HS' as [g2' [-> R2']]. split; [reflexivity|]. destruct (gt sc best); [exists Q, Q'; auto|].
    destruct (undo_spec s v Hv g2 P Q c added ev R2 U Hc Hev) as [T [RT ST]].
    destruct (undo_spec s' v Hv' g2' P' Q' c added ev R2' U' (proj1 (Hlab c) Hc) (fun q Hq => proj1 (Hlab q) (Hev q Hq))) as [T' [RT' ST']].
    exists T, T'. split; [exact RT|]. split; [exact RT'|]. intros x. rewrite <- (ST x), <- (ST' x). apply SP.
  - rewrite HS, HS'. reflexivity.
Qed.

Variables (cands cands' : list label) (mp pat : option nat).
Hypothesis HC : same_set cands cands'.
Hypothesis Hcands : forall c, In c cands -> In c (nodes_labels s).

Lemma hill_other n : forall draws g P g' P' best c k k', rep s v g P -> rep s' v g' P' -> same_set P P' -> exists draws',
  same_end (hill_loop Sc score gt t draws n v cands mp pat g best c k) (hill_loop Sc score gt t' draws' n v cands' mp pat g' best c k').
Proof.
  induction n as [|n IH]; intros draws g P g' P' best c k k' R R' SP.
  { exists draws. cbn [hill_loop same_end]. exists P, P'. split; [apply R|]. split; [apply R'|exact SP]. }
  cbn [hill_loop]. destruct (rand_choice draws k cands) as [cand|x] eqn:Ec; cbn [bind].
  2:{ destruct (choice_err _ _ _ _ Ec) as [Z1 Z2]. subst. exists draws.
      assert (Z : cands' = []) by (destruct cands' as [|a r]; [reflexivity|exfalso; destruct (proj2 (HC a) (or_introl eq_refl))]).
      rewrite Z. rewrite choice_nil. reflexivity. }
  apply choice_In in Ec. destruct (choice_at cand cands' (proj1 (HC cand) Ec)) as [i Hi].
  pose proof (propose_sim draws mp g P g' P' (S k) (S k') cand R R' SP (Hcands _ Ec)) as PS.
  destruct (propose draws v mp g (S k) cand) as [[[[g1 added] ev] k1]|x]; cbn [bind].
  2:{ exists (fun _ => i). rewrite Hi by reflexivity. cbn [bind]. rewrite PS. reflexivity. }
  destruct PS as [Q [Q' [g1' [k1' [d [RQ [RQ' [SQ [Hk [U [U' [Hev PS]]]]]]]]]]]].
  pose proof (step_end g1 Q g1' Q' P P' cand added ev best RQ RQ' SQ SP U U' Hev (Hcands _ Ec)) as SE.
  set (dr := fun rest m => if m <? k1' then (if m =? k' then i else d) else rest m : nat).
  assert (D1 : forall rest, rand_choice (dr rest) k' cands' = Ok cand).
  { intros rest. apply Hi. unfold dr. destruct (Nat.ltb_spec k' k1'); [|lia]. rewrite Nat.eqb_refl. reflexivity. }
  assert (D2 : forall rest, propose (dr rest) v mp g' (S k') cand = Ok (g1', added, ev, k1')).
  { intros rest. apply PS. intros m Hm. unfold dr. destruct (Nat.ltb_spec m k1'); [|lia]. destruct (Nat.eqb_spec m k'); [lia|reflexivity]. }
  destruct (get_score_from_graph Sc score t g1 v) as [[sc g2]|x], (get_score_from_graph Sc score t' g1' v) as [[sc' g2']|y] eqn:Es'; try contradiction; cbn [bind].
  2:{ subst. exists (dr (fun _ => 0)). rewrite D1. cbn [bind]. rewrite D2. cbn [bind]. rewrite Es'. reflexivity. }
  destruct SE as [-> [T [T' [RT [RT' ST]]]]].
  destruct (out_of_patience pat (if gt sc best then 0 else S c)) eqn:Eo.
  { exists (dr (fun _ => 0)). rewrite D1. cbn [bind]. rewrite D2. cbn [bind]. rewrite Es'. cbn [bind]. rewrite Eo. exists T, T'. split; [apply RT|]. split; [apply RT'|exact ST]. }
  destruct (IH draws _ T _ T' (if gt sc best then sc else best) (if gt sc best then 0 else S c) k1 k1' RT RT' ST) as [rest HR].
  exists (dr rest). rewrite D1. cbn [bind]. rewrite D2. cbn [bind]. rewrite Es'. cbn [bind]. rewrite Eo.
  rewrite (hill_ext Sc score gt t' v cands' mp pat n (dr rest) rest) by (intros m Hm; unfold dr; destruct (Nat.ltb_spec m k1'); [lia|reflexivity]).
  unfold same_end in HR |- *.
  destruct (hill_loop Sc score gt t draws n v cands mp pat _ _ _ k1) as [[h1 tr1]|y], (hill_loop Sc score gt t' rest n v cands' mp pat _ _ _ k1') as [[h2 tr2]|y'];
    try contradiction; cbn [bind]; exact HR.
Qed.

Lemma tabu_other len dur n : forall draws g P g' P' best c k k' q ts tc, rep s v g P -> rep s' v g' P' -> same_set P P' -> tinv cands q ts -> length q <= len -> exists draws',
  same_end (tabu_loop Sc score gt t draws n v cands mp pat len dur g best c k q ts tc) (tabu_loop Sc score gt t' draws' n v cands' mp pat len dur g' best c k' q ts tc).
Proof.
  induction n as [|n IH]; intros draws g P g' P' best c k k' q ts tc R R' SP HT HL.
  { exists draws. cbn [tabu_loop same_end]. exists P, P'. split; [apply R|]. split; [apply R'|exact SP]. }
  cbn [tabu_loop].
  assert (PK : match tabu_pick draws cands q ts k with
               | Ok (cand, q1, s1, k0) => exists k0' i, k' <= k0' /\ forall d, (forall m, k' <= m < k0' -> d m = i) -> tabu_pick d cands' q ts k' = Ok (cand, q1, s1, k0')
               | Err x => forall d, tabu_pick d cands' q ts k' = Err x end).
  { unfold tabu_pick. set (po := filter (fun x => negb (lmem x ts)) cands). set (po' := filter (fun x => negb (lmem x ts)) cands').
    assert (SPo : same_set po po') by (intros x; unfold po, po'; rewrite !filter_In, (HC x); tauto).
    assert (EL : (0 <? length po') = (0 <? length po)).
    { destruct po as [|a r], po' as [|a' r']; try reflexivity; [destruct (proj2 (SPo a') (or_introl eq_refl))|destruct (proj1 (SPo a) (or_introl eq_refl))]. }
    rewrite EL. destruct (0 <? length po) eqn:E0.
    - destruct (rand_choice draws k po) as [cand|x] eqn:Ec; cbn [bind].
      + apply choice_In in Ec. destruct (choice_at cand po' (proj1 (SPo cand) Ec)) as [i Hi]. exists (S k'), i. split; [lia|]. intros d Hd. rewrite Hi by (apply Hd; lia). reflexivity.
      + destruct (choice_err _ _ _ _ Ec) as [Z _]. rewrite Z in E0. discriminate.
    - destruct (queue_get q) as [[a b]|x]; cbn [bind]; [|reflexivity]. destruct (set_remove a ts); cbn [bind]; [|reflexivity]. exists k', 0. split; [lia|reflexivity]. }
  pose proof (tabu_pick_spec draws s cands Hcands len q ts k HT) as HK.
  destruct (tabu_pick draws cands q ts k) as [[[[cand q1] s1] k0]|x]; cbn [bind].
  2:{ exists draws. rewrite PK. reflexivity. }
  destruct PK as [k0' [i [Hk0 PK]]]. destruct HK as [Hc1 [Hc2 [T1 [HA HB]]]].
  assert (L1 : length q1 <= len).
  { destruct (Forall_Exists_dec (fun y => In y q) (fun y => in_dec string_dec y q) cands) as [HF|HE].
    - rewrite Forall_forall in HF. rewrite (HB HF) in HL. simpl in HL. lia.
    - apply Exists_exists in HE as [y [K1 K2]]. destruct HA as [_ ->]; [exists y; auto|exact HL]. }
  pose proof (propose_sim draws mp g P g' P' k0 k0' cand R R' SP (Hcands _ Hc1)) as PS.
  destruct (propose draws v mp g k0 cand) as [[[[g1 added] ev] k1]|x]; cbn [bind].
  2:{ exists (fun _ => i). rewrite PK by (intros; reflexivity). cbn [bind]. rewrite PS. reflexivity. }
  destruct PS as [Q [Q' [g1' [k1' [d [RQ [RQ' [SQ [Hk [U [U' [Hev PS]]]]]]]]]]]].
  pose proof (step_end g1 Q g1' Q' P P' cand added ev best RQ RQ' SQ SP U U' Hev (Hcands _ Hc1)) as SE.
  set (dr := fun rest m => if m <? k1' then (if m <? k0' then i else d) else rest m : nat).
  assert (D1 : forall rest, tabu_pick (dr rest) cands' q ts k' = Ok (cand, q1, s1, k0')).
  { intros rest. apply PK. intros m Hm. unfold dr. destruct (Nat.ltb_spec m k1'); [|lia]. destruct (Nat.ltb_spec m k0'); [reflexivity|lia]. }
  assert (D2 : forall rest, propose (dr rest) v mp g' k0' cand = Ok (g1', added, ev, k1')).
  { intros rest. apply PS. intros m Hm. unfold dr. destruct (Nat.ltb_spec m k1'); [|lia]. destruct (Nat.ltb_spec m k0'); [lia|reflexivity]. }
  destruct (get_score_from_graph Sc score t g1 v) as [[sc g2]|x], (get_score_from_graph Sc score t' g1' v) as [[sc' g2']|y] eqn:Es'; try contradiction; cbn [bind].
  2:{ subst. exists (dr (fun _ => 0)). rewrite D1. cbn [bind]. rewrite D2. cbn [bind]. rewrite Es'. reflexivity. }
  destruct SE as [-> [T [T' [RT [RT' ST]]]]].
  pose proof (tabu_update_spec draws cands len dur cand q1 s1 tc T1 Hc2 Hc1 L1) as HU.
  destruct (tabu_update len dur cand q1 s1 tc) as [[[q2 s2] tc2]|x] eqn:Eu; cbn [bind].
  2:{ exists (dr (fun _ => 0)). rewrite D1. cbn [bind]. rewrite D2. cbn [bind]. rewrite Es'. cbn [bind]. rewrite Eu. reflexivity. }
  destruct HU as [T2 [L2 _]].
  destruct (out_of_patience pat (if gt sc best then 0 else S c)) eqn:Eo.
  { exists (dr (fun _ => 0)). rewrite D1. cbn [bind]. rewrite D2. cbn [bind]. rewrite Es'. cbn [bind]. rewrite Eu. cbn [bind]. rewrite Eo. exists T, T'. split; [apply RT|]. split; [apply RT'|exact ST]. }
  destruct (IH draws _ T _ T' (if gt sc best then sc else best) (if gt sc best then 0 else S c) k1 k1' q2 s2 tc2 RT RT' ST T2 L2) as [rest HR].
  exists (dr rest). rewrite D1. cbn [bind]. rewrite D2. cbn [bind]. rewrite Es'. cbn [bind]. rewrite Eu. cbn [bind]. rewrite Eo.
  rewrite (tabu_ext Sc score gt t' v cands' mp pat len dur n (dr rest) rest) by (intros m Hm; unfold dr; destruct (Nat.ltb_spec m k1'); [lia|reflexivity]).
  unfold same_end in HR |- *.
  destruct (tabu_loop Sc score gt t draws n v cands mp pat len dur _ _ _ k1 q2 s2 tc2) as [[h1 tr1]|y], (tabu_loop Sc score gt t' rest n v cands' mp pat len dur _ _ _ k1' q2 s2 tc2) as [[h2 tr2]|y'];
    try contradiction; cbn [bind]; exact HR.
Qed.
End sim.

Section est.
Variables (Sc : Type) (score : list cim -> result Sc) (gt : Sc -> Sc -> bool).
Variables (t t' : trajectory) (s s' : structure) (known : list edge) (m m' : list (list bool)).
Hypothesis Hlab : same_set (nodes_labels s) (nodes_labels s').

Lemma est_other v g g' draws p : search_ready s known m v -> search_ready s' known m' v ->
  (forall K, (forall l, In l K -> In l (nodes_labels s)) -> pscore Sc score t s v K = pscore Sc score t' s' v K) ->
  exists draws', match estimate_parents Sc score gt (MkSbEst s t m g) draws v p, estimate_parents Sc score gt (MkSbEst s' t' m' g') draws' v p with
                 | Ok es, Ok es' => forall e, In e es <-> In e es'
                 | Err x, Err y => x = y
                 | _, _ => False
                 end.
Proof.
  intros Hok Hok' HP. destruct (start_spec s known m v Hok) as [g0 [P [ES [R HK]]]]. destruct (start_spec s' known m' v Hok') as [g0' [P' [ES' [R' HK']]]].
  pose proof Hok as [Hwf [_ [Hed [_ [_ Hv]]]]]. pose proof Hok' as [Hwf' [_ [Hed' [_ [_ Hv']]]]].
  assert (SP : same_set P P').
  { intros x. rewrite (HK x), (HK' x). unfold known_parents. rewrite !filter_In, (Hlab x). tauto. }
  assert (SC : same_set (candidate_parents s known v) (candidate_parents s' known v)).
  { intros x. unfold candidate_parents. rewrite !filter_In, (Hlab x). tauto. }
  assert (LC : length (candidate_parents s' known v) = length (candidate_parents s known v)).
  { symmetry. apply same_set_length; [apply NoDup_filter', Hwf|apply NoDup_filter', Hwf'|exact SC]. }
  assert (Hc : forall c, In c (candidate_parents s known v) -> In c (nodes_labels s)) by (intros c K; unfold candidate_parents in K; apply filter_In in K; tauto).
  pose proof (rep_score Sc score t s v Hwf Hed Hv g0 P R) as HS. pose proof (rep_score Sc score t' s' v Hwf' Hed' Hv' g0' P' R') as HS'.
  assert (EQ : pscore Sc score t' s' v P' = pscore Sc score t s v P).
  { rewrite (HP P) by (apply R). apply pscore_ext, same_set_sym, SP. }
  rewrite EQ in HS'. unfold estimate_parents. cbn [sb_struct sb_traj sb_matrix].
  assert (FIN : forall L L' (r : result (netgraph * L)) (r' : result (netgraph * L')), same_end s s' v r r' ->
    match (let* (es, _) := (let* (g2, tr) := r in Ok (ng_edges g2, tr)) in Ok es), (let* (es, _) := (let* (g2, tr) := r' in Ok (ng_edges g2, tr)) in Ok es) with
    | Ok es, Ok es' => forall e : edge, In e es <-> In e es' | Err x, Err y => x = y | _, _ => False end).
  { intros L L' [[h1 tr1]|x] [[h2 tr2]|y] H; cbn [bind same_end] in *; try contradiction; [|exact H]. destruct H as [T [T' [RT [RT' ST]]]].
    intros e. rewrite (proj2 (rep_edges s v h1 T RT) e), (proj2 (rep_edges s' v h2 T' RT') e). unfold edges_into. rewrite !in_map_iff.
    split; intros [x [A B]]; exists x; (split; [exact A|apply ST, B]). }
  destruct (String.eqb (sp_optimizer p) "tabu").
  - unfold tabu_search. rewrite ES, ES'. cbn [bind]. rewrite (cands_set s known m v Hok), (cands_set s' known m' v Hok'), LC.
    destruct (pscore Sc score t s v P) as [sc|x]; [|exists draws; rewrite HS, HS'; reflexivity].
    destruct HS as [g1 [-> R1]]. destruct HS' as [g1' [-> R1']]. cbn [bind].
    destruct (tabu_other Sc score gt t t' s s' v Hwf Hwf' Hed Hed' Hlab Hv HP (candidate_parents s known v) (candidate_parents s' known v) (sp_max_parents p) (sp_patience p) SC Hc
      (opt_default (sp_tabu_length p) (length (candidate_parents s known v))) (opt_default (sp_tabu_duration p) (length (candidate_parents s known v)))
      (sp_iterations p) draws g1 P g1' P' sc 0 0 0 [] [] 0 R1 R1' SP) as [draws' HE]; [split; [constructor|split; [intros x; simpl; tauto|intros y []]]|simpl; lia|].
    exists draws'. apply (FIN _ _ _ _ HE).
  - unfold hill_climbing. rewrite ES, ES'. cbn [bind].
    destruct (pscore Sc score t s v P) as [sc|x]; [|exists draws; rewrite HS, HS'; reflexivity].
    destruct HS as [g1 [-> R1]]. destruct HS' as [g1' [-> R1']]. cbn [bind].
    destruct (hill_other Sc score gt t t' s s' v Hwf Hwf' Hed Hed' Hlab Hv HP (candidate_parents s known v) (candidate_parents s' known v) (sp_max_parents p) (sp_patience p) SC Hc
      (sp_iterations p) draws g1 P g1' P' sc 0 0 0 R1 R1' SP) as [draws' HE].
    exists draws'. apply (FIN _ _ _ _ HE).
Qed.

End est.

Lemma pool_ok {A} (f : label -> result A) l r : pool_map f l = Ok r -> Forall2 (fun v a => f v = Ok a) l r.
Proof. unfold pool_map. destruct (existsb _ l); [discriminate|]. apply res_map_ok. Qed.
Lemma ok_pool {A} (f : label -> result A) l r : Forall2 (fun v a => f v = Ok a) l r -> pool_map f l = Ok r.
Proof.
  intros H. unfold pool_map. replace (existsb _ l) with false; [apply res_map_ok, H|]. symmetry. induction H as [|v a l r Hv H IH]; [reflexivity|].
  cbn [existsb]. rewrite Hv, IH. reflexivity.
Qed.

Lemma sb_other Sc score gt t t' s s' known m m' g g' draws p dm pn es pr est : same_set (nodes_labels s) (nodes_labels s') ->
  sb_ready (MkSbEst s t m g) known -> sb_ready (MkSbEst s' t' m' g') known ->
  (forall v K, In v (nodes_labels s) -> (forall l, In l K -> In l (nodes_labels s)) ->
     pscore Sc score t (clean_structure_edges s) v K = pscore Sc score t' (clean_structure_edges s') v K) ->
  sb_estimate_structure Sc score gt (MkSbEst s t m g) draws p dm pn = Ok (es, pr, est) ->
  exists draws' es' pr' est', sb_estimate_structure Sc score gt (MkSbEst s' t' m' g') draws' p dm pn = Ok (es', pr', est')
    /\ forall e, In e es <-> In e es'.
Proof.
  intros Hlab Hr Hr' HP H. unfold sb_estimate_structure in *. cbn [sb_struct sb_traj sb_matrix sb_graph] in *.
  set (s0 := clean_structure_edges s) in *. set (s0' := clean_structure_edges s') in *.
  change (nodes_labels s0) with (nodes_labels s) in *. change (nodes_labels s0') with (nodes_labels s') in *.
  apply bind_ok in H as [ess [E H]]. set (f := fun v => estimate_parents Sc score gt (MkSbEst s0 t m g) (draws v) v p) in *.
  assert (HF : Forall2 (fun v a => f v = Ok a) (nodes_labels s) ess).
  { destruct dm; [apply res_map_ok, E|]. destruct pn as [[|n]|]; [discriminate| |]; apply pool_ok, E. }
  assert (HD : forall ns, NoDup ns -> (forall v, In v ns -> In v (nodes_labels s)) -> exists D, forall v, In v ns ->
     match f v, estimate_parents Sc score gt (MkSbEst s0' t' m' g') (D v) v p with Ok a, Ok a' => forall e, In e a <-> In e a' | Err x, Err y => x = y | _, _ => False end).
  { induction ns as [|v ns IH]; intros N Hns; [exists draws; intros v []|]. apply NoDup_cons_iff in N as [N1 N2].
    destruct (IH N2 (fun x Hx => Hns x (or_intror Hx))) as [D HD]. pose proof (Hns v (or_introl eq_refl)) as Hv.
    assert (K1 : search_ready s0 known m v) by exact (sb_search_ready (MkSbEst s t m g) known v Hr Hv).
    assert (K2 : search_ready s0' known m' v) by exact (sb_search_ready (MkSbEst s' t' m' g') known v Hr' (proj1 (Hlab v) Hv)).
    destruct (est_other Sc score gt t t' s0 s0' known m m' Hlab v g g' (draws v) p K1 K2 (fun K HK => HP v K Hv HK)) as [d Hd].
    exists (fun x => if String.eqb x v then d else D x). intros x [<-|Hx].
    - rewrite String.eqb_refl. exact Hd.
    - destruct (String.eqb_spec x v) as [->|_]; [contradiction|]. apply HD, Hx. }
  destruct (HD (nodes_labels s) (proj1 (proj1 Hr)) (fun v Hv => Hv)) as [D HD']. clear HD.
  set (f' := fun v => estimate_parents Sc score gt (MkSbEst s0' t' m' g') (D v) v p).
  assert (HA : forall v, In v (nodes_labels s) -> exists a a', f v = Ok a /\ In a ess /\ f' v = Ok a' /\ forall e, In e a <-> In e a').
  { intros v Hv. specialize (HD' v Hv). fold (f' v) in HD'.
    assert (K : exists a, f v = Ok a /\ In a ess).
    { clear - HF Hv. induction HF as [|x a l r Hx HF IH]; [contradiction|]. destruct Hv as [->|Hv]; [exists a; split; [exact Hx|left; reflexivity]|].
      destruct (IH Hv) as [b [B1 B2]]. exists b. split; [exact B1|right; exact B2]. }
    destruct K as [a [K1 K2]]. rewrite K1 in HD'. destruct (f' v) as [a'|x]; [|contradiction]. exists a, a'. auto. }
  assert (HF' : exists ess', Forall2 (fun v a => f' v = Ok a) (nodes_labels s') ess').
  { assert (X : forall ns, (forall v, In v ns -> In v (nodes_labels s)) -> exists r, Forall2 (fun v a => f' v = Ok a) ns r).
    { induction ns as [|v ns IH]; intros Hns; [exists []; constructor|]. destruct IH as [r Hr0]; [intros; apply Hns; right; assumption|].
      destruct (HA v (Hns v (or_introl eq_refl))) as [_ [a' [_ [_ [K _]]]]]. exists (a' :: r). constructor; assumption. }
    apply X. intros v Hv. apply Hlab, Hv. }
  destruct HF' as [ess' HF']. exists D, (edge_set_of (concat ess')). do 2 eexists. split.
  - fold f'. assert (E' : (if dm then res_map f' (nodes_labels s') else match pn with Some 0 => Err ValueError | _ => pool_map f' (nodes_labels s') end) = Ok ess').
    { destruct dm; [apply res_map_ok, HF'|]. destruct pn as [[|n]|]; [discriminate| |]; apply ok_pool, HF'. }
    rewrite E'. reflexivity.
  - assert (Ees : es = edge_set_of (concat ess)) by congruence. subst es. intros e. rewrite !(proj2 (edge_set_spec _)). rewrite !in_concat.
    assert (HI : forall a, In a ess -> exists v, In v (nodes_labels s) /\ f v = Ok a).
    { clear - HF. induction HF as [|x a l r Hx HF IH]; [intros a []|]. intros b [<-|Hb]; [exists x; split; [left; reflexivity|exact Hx]|].
      destruct (IH b Hb) as [w [W1 W2]]. exists w. split; [right; exact W1|exact W2]. }
    assert (HI' : forall a, In a ess' -> exists v, In v (nodes_labels s') /\ f' v = Ok a).
    { clear - HF'. induction HF' as [|x a l r Hx HF IH]; [intros a []|]. intros b [<-|Hb]; [exists x; split; [left; reflexivity|exact Hx]|].
      destruct (IH b Hb) as [w [W1 W2]]. exists w. split; [right; exact W1|exact W2]. }
    assert (HO : forall v, In v (nodes_labels s') -> exists a, f' v = Ok a /\ In a ess').
    { clear - HF'. intros v Hv. induction HF' as [|x a l r Hx HF IH]; [contradiction|]. destruct Hv as [->|Hv]; [exists a; split; [exact Hx|left; reflexivity]|].
      destruct (IH Hv) as [b [B1 B2]]. exists b. split; [exact B1|right; exact B2]. }
    split; intros [a [A1 A2]].
    + destruct (HI a A1) as [v [V1 V2]]. destruct (HA v V1) as [b [b' [B1 [B2 [B3 B4]]]]]. destruct (HO v (proj1 (Hlab v) V1)) as [a' [O1 O2]].
      exists a'. split; [exact O2|]. assert (a' = b') by congruence. assert (b = a) by congruence. subst. apply B4, A2.
    + destruct (HI' a A1) as [v [V1 V2]]. destruct (HA v (proj2 (Hlab v) V1)) as [b [b' [B1 [B2 [B3 B4]]]]].
      exists b. split; [exact B2|]. assert (b' = a) by congruence. subst. apply B4, A2.
Qed.
