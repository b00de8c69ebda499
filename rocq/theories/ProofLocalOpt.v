(** Local optimality of the score-based search (C63). *)
From Verif Require Import Base Lib ModelStructure ModelGraph ModelCims ModelData ModelParams ModelCtpc ModelSearch
  SpecStructure SpecGraph SpecParams SpecCtpc SpecSearch SpecLocalOpt ProofStructure ProofGraph ProofIndex ProofCtpc2 ProofSearch ProofSearch2 ProofSearch3.

Section tail.
Variables (Sc : Type) (gt : Sc -> Sc -> bool) (v : label) (cands : list label) (mp : option nat).

Lemma path_app P pre post R : search_path (Sc := Sc) v cands mp P (pre ++ post) R -> exists P1, search_path v cands mp P1 post R.
Proof.
  revert P. induction pre as [|e pre IH]; intros P H; [exists P; exact H|]. cbn [app] in H.
  inversion H as [|P0 e0 Q tr0 R0 N C A Hn D E K|P0 e0 Q P' tr0 R0 N C A Hn D E S K]; subst; eapply IH; exact K.
Qed.
Lemma improving_app b pre post b' : improving gt b (pre ++ post) b' -> exists b1, improving gt b1 post b'.
Proof.
  revert b. induction pre as [|e pre IH]; intros b H; [exists b; exact H|]. cbn [app] in H.
  inversion H; subst; eapply IH; eassumption.
Qed.
Lemma path_tail P post R : search_path v cands mp P post R -> (forall e, In e post -> sl_accepted e = false) ->
  forall e : step_log Sc, In e post -> exists P1 Q, NoDup P1 /\ same_set P1 R /\ neighbour mp P1 (sl_candidate e) Q
    /\ forall x, In x (sl_edges e) <-> In x (edges_into v Q).
Proof.
  intros H. pose proof H as H0. revert H0. induction H as [P R N S|P e Q tr R N C A Hn D E H IH|P e Q P' tr R N C A Hn D E S H IH]; intros H0 HA e1 He1.
  - destruct He1.
  - specialize (HA e (or_introl eq_refl)). congruence.
  - destruct He1 as [<-|He1]; [|apply IH; [exact H|intros; apply HA; right; assumption|exact He1]].
    exists P, Q. split; [exact N|]. split; [exact (path_all_rejected _ _ _ _ _ _ H0 HA)|]. auto.
Qed.
Lemma improving_tail b post b' : improving gt b post b' -> (forall e, In e post -> sl_accepted e = false) ->
  b = b' /\ forall e, In e post -> gt (sl_score e) b' = false.
Proof.
  induction 1 as [b|b e tr b' A G H IH|b e tr b' A G H IH]; intros HA.
  - split; [reflexivity|intros e []].
  - specialize (HA e (or_introl eq_refl)). congruence.
  - destruct IH as [-> IH]; [intros; apply HA; right; assumption|]. split; [reflexivity|]. intros e1 [<-|He1]; auto.
Qed.
End tail.

Section opt.
Variables (Sc : Type) (score : list cim -> result Sc) (gt : Sc -> Sc -> bool) (t : trajectory).
Variables (s : structure) (known : list edge) (m : list (list bool)) (v : label).
Hypothesis Hok : search_ready s known m v.
Variables (mp : option nat) (n : nat) (pat : option nat) (es : list edge) (tr : list (step_log Sc)).
Hypothesis Hout : search_outcome Sc score gt t s known v mp n pat es tr.

Lemma tail_optimal pre post : tr = pre ++ post -> (forall e, In e post -> sl_accepted e = false) ->
  locally_optimal score gt t s v mp (map sl_candidate post) es.
Proof.
  intros -> HA c es' sc sc' Hc HT HM E1 E2.
  destruct Hout as [K [R [sc0 [sc1 [_ [_ [NR [WR [Ne [He [Hp [Hi [_ [E1' [_ Hl]]]]]]]]]]]]]]].
  assert (sc1 = sc) by congruence. subst sc1. apply in_map_iff in Hc as [e [Ec He0]].
  destruct (path_app _ _ _ _ _ _ _ _ Hp) as [P1 Hp1]. destruct (path_tail _ _ _ _ _ _ _ Hp1 HA e He0) as [P [Q [NP [HS [Hn HQ]]]]]. rewrite Ec in Hn.
  destruct (improving_app _ _ _ _ _ _ Hi) as [b1 Hi1]. destruct (improving_tail _ _ _ _ _ Hi1 HA) as [_ HG].
  rewrite Forall_forall in Hl. specialize (Hl e ltac:(apply in_app_iff; auto)).
  assert (HcR : In (c, v) es <-> In c P) by (rewrite He, edges_into_In; cbn [fst snd]; rewrite <- (HS c); tauto).
  assert (HL : length P = length es).
  { transitivity (length (map (fun p => (p, v)) R)); [rewrite map_length; apply same_set_length; assumption|].
    apply Permutation_length, NoDup_Permutation; [|exact Ne|intros x; symmetry; apply He].
    apply FinFun.Injective_map_NoDup; [intros a b Hab; congruence|exact NR]. }
  assert (Hcl : In c (nodes_labels s)).
  { assert (K2 : In (sl_candidate e) (candidate_parents s known v)).
    { clear - Hp1 He0. induction Hp1 as [|P e1 Q tr R N C A Hn D E H IH|P e1 Q P' tr R N C A Hn D E S H IH]; [destruct He0| |];
      (destruct He0 as [<-|He0]; [exact C|exact (IH He0)]). }
    rewrite Ec in K2. apply (candidates_In s known v) in K2. tauto. }
  assert (HE' : forall x, In x es' <-> In x (edges_into v Q)).
  { intros x. rewrite edges_into_In.
    assert (Hx : In x es <-> In (fst x) P /\ snd x = v) by (rewrite He, edges_into_In, (HS (fst x)); tauto).
    assert (Hxc : x = (c, v) <-> fst x = c /\ snd x = v) by (destruct x; cbn; split; [intros [= -> ->]; auto|intros [-> ->]; reflexivity]).
    destruct HT as [[T1 T2]|[T1 T2]]; rewrite T2, Hx, Hxc; destruct Hn as [[N1 N2]|[[N1 [N2 N3]]|[N1 [N2 _]]]].
    - rewrite N2. split; [intros [[A ->] B]; split; [|reflexivity]; split; [exact A|intros Z; apply B; auto]|]. intros [[A B] ->]. split; [auto|]. intros [Z _]. auto.
    - exfalso. apply N1, HcR, T1.
    - exfalso. apply N1, HcR, T1.
    - exfalso. apply T1, HcR, N1.
    - rewrite N3. split; [intros [[A ->]|[A ->]]; auto|]. intros [[A|A] ->]; auto.
    - exfalso. apply N2. destruct HM as [HM|HM]; [exfalso; apply N1, HcR, HM|]. unfold room. destruct mp as [k|]; [|exact I]. rewrite HL. exact HM. }
  assert (HQ' : forall p, In p (nodup string_dec Q) -> In p (nodes_labels s)).
  { intros p Hpq. apply nodup_In in Hpq. destruct Hn as [[N1 N2]|[[N1 [N2 N3]]|[N1 [N2 [q [_ N3]]]]]].
    - apply N2 in Hpq as [A _]. apply WR, HS, A.
    - apply N3 in Hpq as [A| ->]; [apply WR, HS, A|exact Hcl].
    - apply N3 in Hpq as [[A _]| ->]; [apply WR, HS, A|exact Hcl]. }
  assert (HE2 : forall l, (forall x, In x l <-> In x (edges_into v Q)) -> forall x, In x l <-> In x (edges_into v (nodup string_dec Q))).
  { intros l H x. rewrite H, !edges_into_In, nodup_In. tauto. }
  rewrite (score_of_pscore Sc score t s known m v Hok es' (nodup string_dec Q) (NoDup_nodup _ _) HQ' (HE2 _ HE')) in E2.
  rewrite (score_of_pscore Sc score t s known m v Hok _ (nodup string_dec Q) (NoDup_nodup _ _) HQ' (HE2 _ HQ)) in Hl.
  assert (sc' = sl_score e) by congruence. subst sc'. apply HG, He0.
Qed.
End opt.

(** ** the tabu list as a round robin *)
Section rr.
Variables (draws : nat -> nat) (cands : list label) (len dur : nat).
Hypothesis HN : NoDup cands.
Notation N := (length cands).
Hypothesis Hlen : N <= len.
Hypothesis Hdur : N <= dur.

Definition window (hist : list label) : list label := skipn (length hist - N) hist.
Definition rinv (hist q : list label) (tc : nat) : Prop :=
  incl hist cands /\
  ((length hist < N /\ NoDup hist /\ q = hist /\ tc = length hist)
   \/ (N <= length hist /\ NoDup (window hist) /\ (q = window hist \/ exists h, window hist = h :: q))).

Lemma update_shape c q ts tc q2 s2 tc2 : length q < N -> tabu_update len dur c q ts tc = Ok (q2, s2, tc2) ->
  0 < dur /\ ((q2 = q ++ [c] /\ tc2 = S tc /\ S tc mod dur <> 0) \/ (S tc mod dur = 0 /\ exists h, q ++ [c] = h :: q2)).
Proof.
  intros HL H. unfold tabu_update in H. destruct (Nat.leb_spec len (length q)) as [K|K]; [lia|]. cbn [bind] in H.
  destruct (Nat.eqb_spec dur 0) as [E|E]; [discriminate|]. split; [lia|].
  destruct (Nat.eqb_spec (S tc mod dur) 0) as [E2|E2].
  - right. split; [exact E2|]. destruct (Nat.ltb_spec 0 (length (q ++ [c]))) as [K2|K2]; [|rewrite app_length in K2; simpl in K2; lia].
    destruct (q ++ [c]) as [|h q3]; [simpl in K2; lia|]. cbn [queue_get bind] in H. apply bind_ok in H as [s3 [_ H]]. injection H as <- <- <-. eauto.
  - left. injection H as <- <- <-. auto.
Qed.

Lemma full_window hist : incl hist cands -> N <= length hist -> NoDup (window hist) -> length (window hist) = N /\ forall y, In y cands -> In y (window hist).
Proof.
  intros Hi HL Hw. assert (L : length (window hist) = N) by (unfold window; rewrite skipn_length; lia). split; [exact L|].
  intros y Hy. assert (K : incl cands (window hist)); [|exact (K y Hy)]. apply NoDup_length_incl; [exact Hw|lia|].
  intros x Hx. apply Hi. unfold window in Hx. rewrite <- (firstn_skipn (length hist - N) hist). apply in_app_iff. auto.
Qed.

Lemma rr_step hist q ts k tc c q1 s1 k1 q2 s2 tc2 : tinv cands q ts -> rinv hist q tc -> round_robin N hist ->
  tabu_pick draws cands q ts k = Ok (c, q1, s1, k1) -> tabu_update len dur c q1 s1 tc = Ok (q2, s2, tc2) ->
  rinv (hist ++ [c]) q2 tc2 /\ round_robin N (hist ++ [c]).
Proof.
  intros T [Hi HR] [R1 R2] Ep Eu. pose proof (tabu_pick_spec draws (MkStructure cands [] [] [] 0) cands (fun c H => H) 0 q ts k T) as HK. rewrite Ep in HK.
  destruct HK as [Hc [Hc1 [_ [HA HB]]]].
  assert (Hi' : incl (hist ++ [c]) cands) by (intros x Hx; apply in_app_iff in Hx as [Hx|[<-|[]]]; auto).
  destruct HR as [[L [Nh [-> ->]]]|[L [Nw Hq]]].
  - (* not every candidate has been tried *)
    assert (Hex : exists y, In y cands /\ ~ In y hist).
    { destruct (Forall_Exists_dec (fun y => In y hist) (fun y => in_dec string_dec y hist) cands) as [HF|HE].
      - exfalso. rewrite Forall_forall in HF. assert (N <= length hist) by (apply NoDup_incl_length; [exact HN|exact HF]). lia.
      - apply Exists_exists in HE. exact HE. }
    destruct (HA Hex) as [Hn ->]. destruct (update_shape c hist s1 (length hist) q2 s2 tc2 L Eu) as [D0 HU].
    assert (Nc : NoDup (hist ++ [c])) by (apply NoDup_snoc; assumption).
    assert (Lc : length (hist ++ [c]) = S (length hist)) by (rewrite app_length; simpl; lia).
    split.
    + split; [exact Hi'|]. destruct HU as [[-> [-> Hm]]|[Hm [h Hh]]].
      * destruct (Nat.eq_dec (S (length hist)) N) as [E|E].
        -- right. unfold window. rewrite Lc, E, Nat.sub_diag. cbn [skipn]. split; [lia|]. auto.
        -- left. rewrite Lc. split; [lia|]. auto.
      * right. assert (S (length hist) = N).
        { apply Nat.mod_divides in Hm as [z Hz]; [|lia]. destruct z as [|z]; [lia|]. assert (dur <= S (length hist)) by (rewrite Hz; nia). lia. }
        unfold window. rewrite Lc, H, Nat.sub_diag. cbn [skipn]. split; [lia|]. split; [exact Nc|]. right. exists h. exact Hh.
    + split; [rewrite firstn_all2 by lia; exact Nc|]. intros i Hi2. lia.
  - (* every candidate is in the window *)
    destruct (full_window hist Hi L Nw) as [Lw Fw].
    assert (EW : window hist = c :: q1).
    { destruct Hq as [->|[h Hh]].
      - apply HB, Fw.
      - assert (Hhn : ~ In h q) by (rewrite Hh in Nw; apply NoDup_cons_iff in Nw; tauto).
        assert (Hex : exists y, In y cands /\ ~ In y q).
        { exists h. split; [|exact Hhn]. apply Hi. rewrite <- (firstn_skipn (length hist - N) hist). apply in_app_iff. right. fold (window hist). rewrite Hh. left; reflexivity. }
        destruct (HA Hex) as [Hn ->]. pose proof (Fw c Hc) as Hcw. rewrite Hh in Hcw |- *. destruct Hcw as [->|Hcw]; [reflexivity|contradiction]. }
    assert (L1 : S (length q1) = N) by (rewrite <- Lw, EW; reflexivity).
    destruct (update_shape c q1 s1 tc q2 s2 tc2 ltac:(lia) Eu) as [D0 HU].
    assert (Lc : length (hist ++ [c]) = S (length hist)) by (rewrite app_length; simpl; lia).
    assert (EW' : window (hist ++ [c]) = q1 ++ [c]).
    { unfold window in *. rewrite Lc. replace (S (length hist) - N) with (S (length hist - N)) by lia.
      assert (E : hist = firstn (length hist - N) hist ++ c :: q1) by (rewrite <- EW; symmetry; apply firstn_skipn).
      rewrite E at 2. rewrite <- app_assoc. cbn [app]. rewrite skipn_app, firstn_length.
      rewrite skipn_all2 by (rewrite firstn_length; lia). replace (S (length hist - N) - Nat.min (length hist - N) (length hist)) with 1 by lia. reflexivity. }
    split.
    + split; [exact Hi'|]. right. rewrite Lc, EW'. split; [lia|]. split; [apply NoDup_snoc; [rewrite EW in Nw; apply NoDup_cons_iff in Nw; tauto|exact Hc1]|].
      destruct HU as [[-> _]|[_ [h Hh]]]; [auto|]. right. exists h. exact Hh.
    + split.
      * rewrite firstn_app. replace (N - length hist) with 0 by lia. cbn [firstn]. rewrite app_nil_r. exact R1.
      * intros i Hi2. rewrite Lc in Hi2. destruct (Nat.eq_dec (i + N) (length hist)) as [E|E].
        -- rewrite nth_error_app2 by lia. rewrite E, Nat.sub_diag. cbn [nth_error]. rewrite nth_error_app1 by lia.
           assert (E2 : nth_error (window hist) 0 = Some c) by (rewrite EW; reflexivity).
           unfold window in E2. replace i with (length hist - N) by lia.
           rewrite <- E2. rewrite <- (firstn_skipn (length hist - N) hist) at 3. rewrite nth_error_app2 by (rewrite firstn_length; lia).
           rewrite firstn_length. f_equal. lia.
        -- rewrite !nth_error_app1 by lia. apply R2. lia.
Qed.

Lemma rr_nil : round_robin N ([] : list label).
Proof. split; [rewrite firstn_nil; constructor|]. intros i Hi. simpl in Hi. lia. Qed.
Lemma rinv_nil : rinv [] [] 0.
Proof.
  split; [intros x []|]. destruct cands as [|y l] eqn:E.
  - right. simpl. split; [lia|]. unfold window. simpl. split; [constructor|auto].
  - left. simpl. split; [lia|]. split; [constructor|auto].
Qed.

Variables (Sc : Type) (score : list cim -> result Sc) (gt : Sc -> Sc -> bool) (t : trajectory).
Lemma tabu_rr v mp pat : forall n g best c k q ts tc g' tr hist, tinv cands q ts -> rinv hist q tc -> round_robin N hist ->
  tabu_loop Sc score gt t draws n v cands mp pat len dur g best c k q ts tc = Ok (g', tr) ->
  round_robin N (hist ++ map (fun x => sl_candidate (fst x)) tr).
Proof.
  induction n as [|n IH]; intros g best c k q ts tc g' tr hist T HI HR H; cbn [tabu_loop] in H.
  - injection H as <- <-. cbn [map]. rewrite app_nil_r. exact HR.
  - apply bind_ok in H as [[[[cand q1] s1] k0] [Ec H]]. apply bind_ok in H as [[[[g1 added] ev] k1] [Ep H]].
    apply bind_ok in H as [[sc g2] [Es H]]. apply bind_ok in H as [[[q2 s2] tc2] [Eu H]].
    destruct (rr_step hist q ts k tc cand q1 s1 k0 q2 s2 tc2 T HI HR Ec Eu) as [HI2 HR2].
    assert (T2 : tinv cands q2 s2).
    { pose proof (tabu_pick_spec draws (MkStructure cands [] [] [] 0) cands (fun c H => H) 0 q ts k T) as HK. rewrite Ec in HK. destruct HK as [Hc1 [Hc2 [T1 [HA HB]]]].
      assert (L1 : length q1 <= len).
      { transitivity (length cands); [|exact Hlen]. apply NoDup_incl_length; [apply T1|exact (proj2 (proj2 T1))]. }
      pose proof (tabu_update_spec draws cands len dur cand q1 s1 tc T1 Hc2 Hc1 L1) as HU. rewrite Eu in HU. apply HU. }
    destruct (out_of_patience pat _).
    + injection H as <- <-. exact HR2.
    + apply bind_ok in H as [[g4 tr4] [H E]]. injection E as <- <-. cbn [map fst sl_candidate].
      replace (hist ++ cand :: map _ tr4) with ((hist ++ [cand]) ++ map (fun x => sl_candidate (fst x)) tr4) by (rewrite <- app_assoc; reflexivity).
      eapply IH; [exact T2|exact HI2|exact HR2|exact H].
Qed.
End rr.

Lemma window_shift N (cs : list label) k y : round_robin N cs -> S k + N <= length cs ->
  In y (firstn N (skipn k cs)) -> In y (firstn N (skipn (S k) cs)).
Proof.
  intros [_ HR] HL Hy. apply In_nth_error in Hy as [j Hj].
  assert (HJ : j < N). { assert (j < length (firstn N (skipn k cs))) by (apply nth_error_Some; congruence). rewrite firstn_length in H. lia. }
  rewrite nth_error_firstn' in Hj by exact HJ.
  assert (NS : forall a i (l : list label), nth_error (skipn a l) i = nth_error l (a + i)).
  { induction a as [|a IH]; intros i l; [reflexivity|]. destruct l as [|z l]; [cbn; destruct i; reflexivity|]. cbn [skipn Nat.add nth_error]. apply IH. }
  rewrite NS in Hj. destruct j as [|j].
  - rewrite Nat.add_0_r in Hj. apply (nth_error_In _ (N - 1)). rewrite nth_error_firstn' by lia. rewrite NS.
    replace (S k + (N - 1)) with (k + N) by lia. rewrite HR by lia. exact Hj.
  - apply (nth_error_In _ j). rewrite nth_error_firstn' by lia. rewrite NS. rewrite <- Hj. f_equal. lia.
Qed.
Lemma window_covers N (cs : list label) k y : round_robin N cs -> k + N <= length cs -> In y (firstn N cs) -> In y (firstn N (skipn k cs)).
Proof.
  intros HR. induction k as [|k IH]; intros HL Hy; [exact Hy|]. apply window_shift; [exact HR|lia|]. apply IH; [lia|exact Hy].
Qed.

Lemma trailing_rejected {Sc} (tr : list (step_log Sc)) N : N <= trailing_rejections tr ->
  N <= length tr /\ forall e, In e (skipn (length tr - N) tr) -> sl_accepted e = false.
Proof.
  unfold trailing_rejections. intros H.
  assert (K : forall N (l : list (step_log Sc)), N <= rejected_prefix l -> N <= length l /\ forall e, In e (firstn N l) -> sl_accepted e = false).
  { clear. induction N as [|N IH]; intros l H; [split; [lia|intros e []]|]. destruct l as [|x l]; cbn [rejected_prefix] in H; [lia|].
    destruct (sl_accepted x) eqn:E; [lia|]. destruct (IH l ltac:(lia)) as [A B]. split; [simpl; lia|]. intros e [<-|He]; auto. }
  destruct (K N (rev tr) H) as [A B]. rewrite rev_length in A. split; [exact A|]. intros e He. apply B.
  apply in_rev. rewrite <- (rev_involutive tr) in He. rewrite skipn_rev, !rev_length in He.
  replace (length tr - (length tr - N)) with N in He by lia. exact He.
Qed.

Section tabu.
Variables (Sc : Type) (score : list cim -> result Sc) (gt : Sc -> Sc -> bool) (t : trajectory) (draws : nat -> nat).
Variables (s : structure) (known : list edge) (m : list (list bool)) (v : label).
Hypothesis Hok : search_ready s known m v.
Variables (mp : option nat) (n : nat) (pat len dur : option nat) (es : list edge).
Variable tr : list (step_log Sc * (list label * list label)).
Hypothesis Hrun : tabu_search Sc score gt t draws s m v mp n pat len dur = Ok (es, tr).
Notation cs := (candidate_parents s known v).
Hypothesis Hlen : length cs <= opt_default len (length cs).
Hypothesis Hdur : length cs <= opt_default dur (length cs).

Lemma tabu_round_robin : round_robin (length cs) (map (fun x => sl_candidate (fst x)) tr).
Proof.
  pose proof Hrun as H. unfold tabu_search in H. destruct (start_spec s known m v Hok) as [g [P [ES [R HK]]]]. rewrite ES in H. cbn [bind] in H.
  rewrite (cands_set s known m v Hok) in H. apply bind_ok in H as [[best g1] [_ H]]. apply bind_ok in H as [[g2 tr2] [H E]]. injection E as _ <-.
  assert (HN : NoDup cs) by (apply NoDup_filter; apply Hok).
  assert (T0 : tinv cs [] []) by (split; [constructor|split; [intros x; simpl; tauto|intros y []]]).
  exact (tabu_rr draws cs _ _ HN Hlen Hdur Sc score gt t v mp pat n _ _ _ _ _ _ _ _ _ [] T0 (rinv_nil cs _ _ HN Hlen Hdur) (rr_nil cs _ _ Hlen Hdur) H).
Qed.

Lemma tabu_candidates x : In x tr -> In (sl_candidate (fst x)) cs.
Proof.
  intros Hx. destruct (tabu_outcome Sc score gt t draws s known m v Hok mp n pat len dur es tr Hrun) as [_ HF].
  rewrite Forall_forall in HF. apply (HF x Hx).
Qed.

Lemma tabu_locally_optimal : length cs <= trailing_rejections (map fst tr) ->
  locally_optimal score gt t s v mp cs es.
Proof.
  intros HT. destruct (tabu_outcome Sc score gt t draws s known m v Hok mp n pat len dur es tr Hrun) as [HO _].
  destruct (trailing_rejected _ _ HT) as [HL HA]. set (l := map fst tr) in *.
  pose proof (tail_optimal Sc score gt t s known m v Hok mp n pat es l HO (firstn (length l - length cs) l) (skipn (length l - length cs) l)
    (eq_sym (firstn_skipn _ _)) HA) as HOpt.
  intros c es' sc sc' Hc. apply HOpt. pose proof tabu_round_robin as RR.
  assert (E : map (fun x => sl_candidate (fst x)) tr = map sl_candidate l) by (unfold l; rewrite map_map; reflexivity). rewrite E in RR.
  assert (LL : length (map sl_candidate l) = length l) by apply map_length.
  assert (HF : In c (firstn (length cs) (map sl_candidate l))).
  { assert (K : incl cs (firstn (length cs) (map sl_candidate l))); [|exact (K c Hc)]. apply NoDup_length_incl; [apply RR|rewrite firstn_length; lia|].
    intros y Hy. assert (Hy' : In y (map sl_candidate l)) by (rewrite <- (firstn_skipn (length cs)); apply in_app_iff; auto).
    rewrite <- E in Hy'. apply in_map_iff in Hy' as [x [<- Hx]]. apply tabu_candidates, Hx. }
  pose proof (window_covers (length cs) _ (length l - length cs) c RR ltac:(lia) HF) as W.
  rewrite skipn_map in W. rewrite firstn_all2 in W by (rewrite map_length, skipn_length; lia). exact W.
Qed.

Lemma tabu_early_stop p : pat = Some p -> length cs <= S p -> length tr < n -> locally_optimal score gt t s v mp cs es.
Proof.
  intros Hp HL HE. apply tabu_locally_optimal. destruct (tabu_outcome Sc score gt t draws s known m v Hok mp n pat len dur es tr Hrun) as [HO _].
  destruct HO as [K [R [sc0 [sc [_ [_ [_ [_ [_ [_ [_ [_ [_ [_ [[_ [S2 _]] _]]]]]]]]]]]]]]].
  rewrite map_length in S2. destruct S2 as [S2|[p' [S2 S3]]]; [lia|]. rewrite S3. congruence.
Qed.
End tabu.
