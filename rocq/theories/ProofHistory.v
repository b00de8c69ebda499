(** Several calls of estimate_structure on one constraint-based estimator (C81, C83). *)
From Verif Require Import Base Lib LibQc ModelStructure ModelGraph ModelCims ModelData ModelParams ModelCache ModelCtpc
  SpecStructure SpecGraph SpecComb SpecParams SpecData SpecCtpc SpecRecover SpecAlgorithm SpecHistory
  ProofStructure ProofGraph ProofComb ProofParams ProofParams2 ProofParams3 ProofCache
  ProofCtpc ProofCtpc2 ProofCtpc3 ProofCtpc4 ProofCtpc5 ProofCtpc6 ProofCtpc7 ProofAlgorithm ProofAlgorithm2 ProofAlgorithm3.

Lemma filter_length_le {A} (f : A -> bool) l : length (filter f l) <= length l.
Proof. induction l as [|a l IH]; cbn [filter length]; [lia|]. destruct (f a); cbn [length]; lia. Qed.
Definition prod_eq_dec_nat : forall a b : nat * nat, {a = b} + {a <> b}.
Proof. repeat decide equality. Defined.

Lemma filter_fewer {A} (f g : A -> bool) l : (forall x, In x l -> f x = true -> g x = true) -> length (filter f l) <= length (filter g l)
  /\ (length (filter f l) = length (filter g l) -> forall x, In x l -> f x = g x).
Proof.
  induction l as [|a l IH]; intros H; cbn [filter length]; [split; [lia|intros _ x []]|].
  destruct (IH (fun x Hx => H x (or_intror Hx))) as [I1 I2]. pose proof (H a (or_introl eq_refl)) as Ha.
  destruct (f a) eqn:Fa, (g a) eqn:Ga; cbn [length]; try (specialize (Ha eq_refl); discriminate).
  - split; [lia|]. intros E x [<-|Hx]; [congruence|apply I2; [lia|exact Hx]].
  - split; [lia|]. intros E. exfalso. lia.
  - split; [exact I1|]. intros E x [<-|Hx]; [congruence|apply I2; assumption].
Qed.
Lemma matrix_ext (m m' : list (list bool)) : map (@length bool) m' = map (@length bool) m -> (forall i j, mat_get m' i j = mat_get m i j) -> m' = m.
Proof.
  intros HL' HG. apply list_ext. intros i. assert (HLi : nth_error (map (@length bool) m') i = nth_error (map (@length bool) m) i) by congruence.
  rewrite !nth_error_map in HLi. destruct (nth_error m' i) as [r'|] eqn:E', (nth_error m i) as [r|] eqn:E; cbn [option_map] in HLi; try discriminate; [|reflexivity].
  f_equal. injection HLi as HLi. apply list_ext. intros j. specialize (HG i j). unfold mat_get in HG.
  rewrite (proj2 (nth_res_ok _ _ _) E'), (proj2 (nth_res_ok _ _ _) E) in HG. cbn [bind] in HG.
  destruct (nth_error r' j) as [b'|] eqn:F', (nth_error r j) as [b|] eqn:F; try reflexivity.
  - apply nth_res_ok in F', F. congruence.
  - apply nth_error_None in F. assert (j < length r') by (apply nth_error_Some; congruence). lia.
  - apply nth_error_None in F'. assert (j < length r) by (apply nth_error_Some; congruence). lia.
Qed.

Section env.
Variables (s : structure) (t : trajectory) (thr : Qc) (tests : nat -> cim -> cim -> bool) (tot k : nat).
Let e := MkEnv (clean_structure_edges s) t thr tests.
Hypothesis Hwf : wf_structure s.
Hypothesis Hnd : NoDup (nodes_indexes s).
Hypothesis Hlt : forall i, In i (nodes_indexes s) -> i < tot.
Hypothesis Htot : total_variables_number s = tot.
Hypothesis Hd : data_ok s t.
Hypothesis Hk : 0 < k.
Hypothesis HU : forall x, In x (nodes_values s) -> x = k.
Let labels := nodes_labels s.
Let ask v := the_ask e tot v k.
Let ans v pr := ctpc_parents (ask v) pr (others s v).
Let next v pr := ctpc_protected (ask v) pr (others s v).

(** the estimator with removable matrix [m] *)
Definition at_matrix (m : list (list bool)) : cb_estimator := MkCbEst e tot (MkState m empty_cache) empty_digraph.
Definition square (m : list (list bool)) : Prop := length m = tot /\ forall row, In row m -> length row = tot.
Lemma at_ok m : square m -> estimator_ok (at_matrix m).
Proof. intros [A B]. unfold estimator_ok. cbn. auto 10. Qed.
Lemma at_uniform m : uniform_data (at_matrix m) k.
Proof. split; [exact Hk|]. split; [exact HU|]. split; [exact Htot|exact Hd]. Qed.

Definition protected_by (m : list (list bool)) (pr : label -> list label) : Prop := forall v, In v labels -> protects e v m (pr v).
Definition keeps_off (m m' : list (list bool)) : Prop :=
  map (@length bool) m' = map (@length bool) m
  /\ forall i j, ~ (exists p v, In v labels /\ In p (others s v) /\ i = idx_of s p /\ j = idx_of s v) -> mat_get m' i j = mat_get m i j.
Lemma keeps_square m m' : map (@length bool) m' = map (@length bool) m -> square m -> square m'.
Proof.
  intros A [B C]. split.
  - rewrite <- B, <- (map_length (@length bool) m'), <- (map_length (@length bool) m), A. reflexivity.
  - intros row Hr. apply (in_map (@length bool)) in Hr. rewrite A in Hr. apply in_map_iff in Hr as [r [<- Hr]]. apply C, Hr.
Qed.

Lemma ask_ok v q S : test_ok s v q S -> verdict e tot v q S (val_of s v) = Ok (ask v q S).
Proof.
  intros Ht. destruct Ht as [Hv Ht']. destruct (wf_lookup s v Hwf Hv) as [x [_ [_ [W _]]]].
  assert (EK : val_of s v = k) by (apply HU; exact (nth_error_In _ _ W)). rewrite EK.
  destruct (verdict_meaning e tot k v q S Hwf Hd Htot Hk HU (conj Hv Ht')) as [b [mk [E _]]]. unfold ask, the_ask. rewrite E. reflexivity.
Qed.

Lemma seq_marks : forall ns, NoDup ns -> incl ns labels -> forall m pr ess st', protected_by m pr ->
  sequential_run e tot (MkState m empty_cache) ns = Ok (ess, st') ->
  st_cache st' = empty_cache /\ protected_by (st_matrix st') (fun v => if lmem v ns then next v (pr v) else pr v) /\ keeps_off m (st_matrix st').
Proof.
  induction ns as [|w ns IH]; intros Hn Hi m pr ess st' HP H; cbn [sequential_run] in H.
  - injection H as _ <-. cbn [st_cache st_matrix]. split; [reflexivity|]. split; [exact HP|split; reflexivity].
  - apply bind_ok in H as [[es st1] [H1 H]]. apply bind_ok in H as [[ess2 st2] [H2 H]]. injection H as _ <-.
    apply NoDup_cons_iff in Hn as [Hw Hn]. assert (Hwl : In w labels) by (apply Hi; left; reflexivity).
    destruct (optimize_marks e tot w (ask w) Hwf Hnd Hwl (ask_ok w) m (pr w) es st1 (HP w Hwl) H1) as [_ [P1 [[K0 K1] C1]]].
    change (others (e_struct e) w) with (others s w) in P1, K1. change (idx_of (e_struct e)) with (idx_of s) in K1.
    destruct st1 as [m1 c1]. cbn [st_cache st_matrix] in *. subst c1.
    assert (HP1 : protected_by m1 (fun v => if String.eqb v w then next v (pr v) else pr v)).
    { intros v Hv. destruct (String.eqb_spec v w) as [->|N]; [exact P1|]. intros p Hp. cbv beta. rewrite K1; [exact (HP v Hv p Hp)|].
      intros [J _]. apply N. exact (idx_inj e Hwf Hnd v w Hv Hwl J). }
    destruct (IH Hn (fun x Hx => Hi x (or_intror Hx)) m1 _ ess2 st2 HP1 H2) as [C2 [P2 [L2 K2]]]. split; [exact C2|]. split.
    + intros v Hv p Hp. rewrite (P2 v Hv p Hp). f_equal. f_equal. f_equal. unfold lmem at 2. cbn [existsb]. fold (lmem v ns).
      destruct (String.eqb_spec v w) as [->|N]; cbn [orb]; [|reflexivity]. destruct (lmem w ns) eqn:EL; [apply lmem_In in EL; contradiction|reflexivity].
    + split; [congruence|]. intros i j Hij. rewrite K2 by exact Hij. apply K1. intros [-> [p [Hp ->]]]. apply Hij. exists p, w. auto.
Qed.

Lemma estimate_step m pr mp : square m -> protected_by m pr -> exists es m' g,
  cb_estimate_structure (at_matrix m) mp = Ok (es, MkCbEst e tot (MkState m' empty_cache) g)
  /\ (forall v p, In v labels -> (In (p, v) es <-> In p (ans v (pr v))))
  /\ square m' /\ keeps_off m m' /\ marks_grow m m' /\ (mp = false -> m' = m)
  /\ protected_by m' (fun v => if mp then next v (pr v) else pr v).
Proof.
  intros Hm HP. destruct (estimate_total (at_matrix m) (at_ok m Hm) mp k (at_uniform m)) as [es [est' H]].
  pose proof (estimate_char (at_matrix m) (at_ok m Hm) mp es est' H) as [_ [A2 [_ [A4 [A5 [A6 [A7 [A8 _]]]]]]]].
  change (cleaned (at_matrix m)) with e in *. cbn [at_matrix cb_tot cb_st st_matrix] in *.
  destruct est' as [e' tot' [m' c'] g']. cbn [cb_e cb_tot cb_st st_matrix st_cache] in *. subst e' tot' c'.
  assert (HX : keeps_off m m' /\ protected_by m' (fun v => if mp then next v (pr v) else pr v)).
  { destruct mp.
    - unfold cb_estimate_structure in H. change (MkEnv (clean_structure_edges (e_struct (cb_e (at_matrix m)))) (e_traj (cb_e (at_matrix m))) (e_threshold (cb_e (at_matrix m))) (e_tests (cb_e (at_matrix m)))) with e in H.
      change (nodes_labels (e_struct e)) with labels in H. cbn [at_matrix cb_tot cb_st] in H.
      apply bind_ok in H as [[ess st'] [H E]]. assert (Em : m' = st_matrix st') by (injection E as _ Em _; rewrite Em; reflexivity). clear E. subst m'.
      destruct (seq_marks labels (proj1 Hwf) (fun x Hx => Hx) m pr ess st' HP H) as [_ [P K]]. split; [exact K|].
      intros v Hv. specialize (P v Hv). cbv beta in P. replace (lmem v labels) with true in P by (symmetry; apply lmem_In, Hv). exact P.
    - specialize (A8 eq_refl). injection A8 as ->. split; [split; reflexivity|exact HP]. }
  destruct HX as [HX1 HX2]. exists es, m', g'. split; [exact H|]. split.
  { intros v p Hv. destruct (A2 v Hv) as [esv [stv [B1 [B2 _]]]]. rewrite B2.
    destruct (optimize_marks e tot v (ask v) Hwf Hnd Hv (ask_ok v) m (pr v) esv stv (HP v Hv) B1) as [B3 _]. rewrite B3. unfold ans. change (others (e_struct e) v) with (others s v). tauto. }
  split; [exact (keeps_square _ _ (proj1 HX1) Hm)|]. split; [exact HX1|]. split; [exact A7|]. split; [|exact HX2].
  intros ->. specialize (A8 eq_refl). congruence.
Qed.

(** ** Histories *)
Lemma same_estimate est m mp : cleaned est = e -> cb_tot est = tot -> cb_st est = MkState m empty_cache ->
  cb_estimate_structure est mp = cb_estimate_structure (at_matrix m) mp.
Proof. intros A B C. unfold cb_estimate_structure. fold (cleaned est). rewrite A, B, C. reflexivity. Qed.

(** the protection after the calls *)
Definition after (pr : label -> list label) (modes : list bool) (v : label) : list label := protected_after (ask v) (others s v) (pr v) modes.

Lemma calls_char : forall modes est m pr, cleaned est = e -> cb_tot est = tot -> cb_st est = MkState m empty_cache -> square m -> protected_by m pr ->
  exists ess est', calls est modes = Ok (ess, est') /\ length ess = length modes
    /\ forall n es, nth_error ess n = Some es -> forall v p, In v labels -> (In (p, v) es <-> In p (ans v (after pr (firstn n modes) v))).
Proof.
  induction modes as [|mp modes IH]; intros est m pr A B C Hm HP; cbn [calls].
  - exists [], est. split; [reflexivity|]. split; [reflexivity|]. intros [|n] es H; discriminate.
  - rewrite (same_estimate est m mp A B C). destruct (estimate_step m pr mp Hm HP) as [es [m' [g [E [E1 [E2 [_ [_ [_ E3]]]]]]]]]. rewrite E. cbn [bind].
    destruct (IH (MkCbEst e tot (MkState m' empty_cache) g) m' _ eq_refl eq_refl eq_refl E2 E3) as [ess [est' [H [HL' HA]]]]. rewrite H. cbn [bind].
    exists (es :: ess), est'. split; [reflexivity|]. split; [cbn [length]; congruence|]. intros [|n] es0 H0 v p Hv; cbn [nth_error firstn] in *.
    + injection H0 as <-. apply E1, Hv.
    + rewrite (HA n es0 H0 v p Hv). unfold after. cbn [protected_after]. destruct mp; reflexivity.
Qed.

(** ** The marks run out *)
Definition pairs : list edge := flat_map (fun v => map (fun p => (p, v)) (others s v)) labels.
Definition open_pair (m : list (list bool)) (x : edge) : bool := match mat_get m (idx_of s (fst x)) (idx_of s (snd x)) with Ok b => b | Err _ => false end.
Definition n_open (m : list (list bool)) : nat := length (filter (open_pair m) pairs).
Lemma pairs_In p v : In (p, v) pairs <-> In v labels /\ In p (others s v).
Proof.
  clear. unfold pairs. rewrite in_flat_map. split.
  - intros [w [Hw H]]. apply in_map_iff in H as [q [E H]]. injection E as -> ->. auto.
  - intros [A B]. exists v. split; [exact A|]. apply in_map_iff. exists p. auto.
Qed.
Lemma n_open_le m : n_open m <= length labels * (length labels - 1).
Proof.
  clear. unfold n_open. eapply Nat.le_trans; [apply filter_length_le|]. unfold pairs.
  assert (K : forall l, incl l labels -> length (flat_map (fun v => map (fun p => (p, v)) (others s v)) l) <= length l * (length labels - 1)).
  { induction l as [|v l IH]; intros Hl; cbn [flat_map length]; [lia|]. rewrite app_length, map_length. cbn [Nat.mul].
    assert (length (others s v) <= length labels - 1).
    { assert (In v labels) by (apply Hl; left; reflexivity). destruct (in_split v labels H) as [a [b E]]. unfold others. fold labels. rewrite E, filter_app, !app_length. cbn [filter length].
      rewrite String.eqb_refl. cbn [negb]. pose proof (filter_length_le (fun l0 => negb (String.eqb l0 v)) a). pose proof (filter_length_le (fun l0 => negb (String.eqb l0 v)) b). lia. }
    pose proof (IH (fun x Hx => Hl x (or_intror Hx))). lia. }
  apply K. intros x Hx. exact Hx.
Qed.
Lemma in_range p v m : square m -> In v labels -> In p labels -> exists b, mat_get m (idx_of s p) (idx_of s v) = Ok b.
Proof.
  clear Hnd Htot Hk HU Hd. clear ask ans next. clear e. intros [A B] Hv Hp. destruct (wf_lookup s v Hwf Hv) as [a [_ [Ia _]]]. destruct (wf_lookup s p Hwf Hp) as [c [_ [Ic _]]].
  apply nth_error_In, Hlt in Ia, Ic. rewrite <- A in Ic. destruct (nth_error m (idx_of s p)) as [r|] eqn:Er; [|apply nth_error_None in Er; lia].
  unfold mat_get. rewrite (proj2 (nth_res_ok _ _ _) Er). cbn [bind]. pose proof (B r (nth_error_In _ _ Er)) as Lr. rewrite <- Lr in Ia.
  destruct (nth_error r (idx_of s v)) as [b|] eqn:Eb; [|apply nth_error_None in Eb; lia]. exists b. apply nth_res_ok, Eb.
Qed.
Lemma others_label p v : In p (others s v) -> In p labels.
Proof. clear. intros H. apply others_In in H. tauto. Qed.
Lemma open_ext m m' : square m -> square m' -> keeps_off m m' -> (forall x, In x pairs -> open_pair m' x = open_pair m x) -> m' = m.
Proof.
  clear Hnd Htot Hk HU Hd. clear ask ans next. clear e. intros S1 S2 [K1 K2] HO. apply matrix_ext; [exact K1|]. intros i j.
  destruct (in_dec (prod_eq_dec_nat) (i, j) (map (fun x => (idx_of s (fst x), idx_of s (snd x))) pairs)) as [Hin|Hin].
  - apply in_map_iff in Hin as [[p v] [E Hin]]. injection E as <- <-. cbn [fst snd]. pose proof (HO _ Hin) as HO'. unfold open_pair in HO'. cbn [fst snd] in HO'.
    apply pairs_In in Hin as [Hv Hp]. apply others_label in Hp. destruct (in_range p v m S1 Hv Hp) as [b Eb]. destruct (in_range p v m' S2 Hv Hp) as [b' Eb']. rewrite Eb, Eb' in *. congruence.
  - apply K2. intros [p [v [Hv [Hp [-> ->]]]]]. apply Hin, in_map_iff. exists (p, v). split; [reflexivity|]. apply pairs_In. auto.
Qed.
Lemma open_less m m' : square m -> square m' -> keeps_off m m' -> marks_grow m m' -> n_open m' <= n_open m /\ (n_open m' = n_open m -> m' = m).
Proof.
  clear Hnd Htot Hk HU Hd. clear ask ans next. clear e. intros S1 S2 K [_ G]. destruct (filter_fewer (open_pair m') (open_pair m) pairs) as [A B].
  - intros [p v] Hin H. apply pairs_In in Hin as [Hv Hp]. apply others_label in Hp. unfold open_pair in *. cbn [fst snd] in *.
    destruct (in_range p v m S1 Hv Hp) as [b Eb]. destruct (G _ _ _ Eb) as [b' [Eb' X]]. rewrite Eb' in H. rewrite Eb. exact (X H).
  - split; [exact A|]. intros E. apply open_ext; try assumption. exact (B E).
Qed.
Lemma has_protection m : square m -> protected_by m (fun v => filter (fun p => negb (open_pair m (p, v))) (others s v)).
Proof.
  clear Hnd Htot Hk HU Hd. clear ask ans next. intros Sm v Hv p Hp. destruct (in_range p v m Sm Hv (others_label p v Hp)) as [b Eb]. change (idx_of (e_struct e)) with (idx_of s). rewrite Eb. f_equal.
  assert (X : open_pair m (p, v) = b) by (unfold open_pair; cbn [fst snd]; rewrite Eb; reflexivity).
  rewrite <- (negb_involutive b). f_equal. symmetry. apply eq_true_iff_eq. rewrite lmem_In, filter_In, X. tauto.
Qed.
Lemma step_any m mp : square m -> exists es m' g,
  cb_estimate_structure (at_matrix m) mp = Ok (es, MkCbEst e tot (MkState m' empty_cache) g)
  /\ square m' /\ (mp = false -> m' = m) /\ n_open m' <= n_open m /\ (n_open m' = n_open m -> m' = m).
Proof.
  intros Sm. destruct (estimate_step m _ mp Sm (has_protection m Sm)) as [es [m' [g [E [_ [S' [K [G [P _]]]]]]]]].
  destruct (open_less m m' Sm S' K G) as [A B]. exists es, m', g. auto.
Qed.
(** the edges returned do not depend on the mode *)
Lemma modes_agree m es1 est1 es2 est2 : square m -> cb_estimate_structure (at_matrix m) true = Ok (es1, est1) -> cb_estimate_structure (at_matrix m) false = Ok (es2, est2) -> es1 = es2.
Proof. intros Sm H1 H2. pose proof (estimate_modes_agree (at_matrix m) (at_ok m Sm)) as K. rewrite H1, H2 in K. exact K. Qed.

Definition is_at (est : cb_estimator) (m : list (list bool)) : Prop := cleaned est = e /\ cb_tot est = tot /\ cb_st est = MkState m empty_cache /\ square m.
Lemma at_is m g : square m -> is_at (MkCbEst e tot (MkState m empty_cache) g) m.
Proof. intros Sm. split; [reflexivity|]. split; [reflexivity|]. split; [reflexivity|exact Sm]. Qed.
(** no call leaves a mark: all answers are the same *)
Lemma calls_fixed m es0 est0 g : square m -> cb_estimate_structure (at_matrix m) true = Ok (es0, MkCbEst e tot (MkState m empty_cache) g) ->
  est0 = MkCbEst e tot (MkState m empty_cache) g ->
  forall modes est ess est', is_at est m -> calls est modes = Ok (ess, est') -> forall es, In es ess -> es = es0.
Proof.
  intros Sm HF _. induction modes as [|mp modes IH]; intros est ess est' [A [B [C _]]] H es Hes; cbn [calls] in H; [injection H as <- _; contradiction|].
  rewrite (same_estimate est m mp A B C) in H. destruct (step_any m mp Sm) as [es1 [m1 [g1 [E1 [S1 [P1 _]]]]]]. rewrite E1 in H. cbn [bind] in H.
  apply bind_ok in H as [[ess2 est2] [H2 H]]. injection H as <- _.
  assert (X : es1 = es0 /\ m1 = m).
  { destruct mp; [rewrite HF in E1; injection E1 as <- <- _; auto|]. split; [|exact (P1 eq_refl)]. symmetry. exact (modes_agree m _ _ _ _ Sm HF E1). }
  destruct X as [-> ->]. destruct Hes as [<-|Hes]; [reflexivity|]. exact (IH _ _ _ (at_is m g1 Sm) H2 es Hes).
Qed.
Lemma stable : forall modes est m ess est', is_at est m -> calls est modes = Ok (ess, est') ->
  forall n n' a b, n_open m <= length (filter (fun x => x) (firstn n modes)) -> n <= n' -> nth_error ess n = Some a -> nth_error ess n' = Some b -> a = b.
Proof.
  induction modes as [|mp modes IH]; intros est m ess est' HI H n n' a b Hn Hle Ha Hb; cbn [calls] in H.
  - injection H as <- _. destruct n; discriminate.
  - pose proof HI as [A [B [C Sm]]]. pose proof H as HC. rewrite (same_estimate est m mp A B C) in H.
    destruct (step_any m true Sm) as [es0 [m0 [g0 [E0 [S0 [_ [L0 Q0]]]]]]].
    destruct (Nat.eq_dec (n_open m0) (n_open m)) as [X|X].
    { specialize (Q0 X). subst m0. pose proof (calls_fixed m es0 _ g0 Sm E0 eq_refl (mp :: modes) est ess est' HI HC) as K.
      rewrite (K a (nth_error_In _ _ Ha)), (K b (nth_error_In _ _ Hb)). reflexivity. }
    destruct (step_any m mp Sm) as [es1 [m1 [g1 [E1 [S1 [P1 [L1 _]]]]]]]. rewrite E1 in H. cbn [bind] in H. apply bind_ok in H as [[ess2 est2] [H2 H]]. injection H as <- _.
    destruct n as [|n]; [cbn [firstn filter length] in Hn; lia|]. destruct n' as [|n']; [lia|]. cbn [nth_error firstn filter] in *.
    apply (IH _ m1 ess2 est2 (at_is m1 g1 S1) H2 n n' a b); try assumption; [|lia].
    destruct mp; cbn [length] in Hn; [|lia]. rewrite E0 in E1. injection E1 as _ <- _. lia.
Qed.
Lemma few_changes : forall modes est m ess est', is_at est m -> calls est modes = Ok (ess, est') -> changes ess <= n_open m.
Proof.
  induction modes as [|mp modes IH]; intros est m ess est' HI H; cbn [calls] in H.
  - injection H as <- _. cbn [changes]. lia.
  - pose proof HI as [A [B [C Sm]]]. rewrite (same_estimate est m mp A B C) in H.
    destruct (step_any m mp Sm) as [es1 [m1 [g1 [E1 [S1 [P1 [L1 Q1]]]]]]]. rewrite E1 in H. cbn [bind] in H. apply bind_ok in H as [[ess2 est2] [H2 H]]. injection H as <- _.
    pose proof (IH _ m1 ess2 est2 (at_is m1 g1 S1) H2) as K. cbn [changes]. destruct modes as [|mp2 modes].
    { cbn [calls] in H2. injection H2 as <- _. cbn [changes] in *. lia. }
    cbn [calls] in H2. rewrite (same_estimate (MkCbEst e tot (MkState m1 empty_cache) g1) m1 mp2 eq_refl eq_refl eq_refl) in H2. apply bind_ok in H2 as [[es2 est3] [F2 H2]]. apply bind_ok in H2 as [[ess3 est4] [H3 H2]]. injection H2 as <- _.
    destruct (list_eq_dec edge_dec es1 es2) as [Y|Y]; [lia|]. assert (n_open m1 <> n_open m); [|lia]. intros X. specialize (Q1 X). subst m1. apply Y.
    destruct mp, mp2; [rewrite E1 in F2; congruence| | |rewrite E1 in F2; congruence].
    + exact (modes_agree m _ _ _ _ Sm E1 F2).
    + symmetry. exact (modes_agree m _ _ _ _ Sm F2 E1).
Qed.
(** a call in a pool changes nothing *)
Lemma pool_then : forall modes est m ess est', is_at est m -> calls est modes = Ok (ess, est') ->
  forall n a b, nth_error modes n = Some false -> nth_error ess n = Some a -> nth_error ess (S n) = Some b -> a = b.
Proof.
  induction modes as [|mp modes IH]; intros est m ess est' HI H n a b Hn Ha Hb; [destruct n; discriminate|]. cbn [calls] in H.
  pose proof HI as [A [B [C Sm]]]. rewrite (same_estimate est m mp A B C) in H.
  destruct (step_any m mp Sm) as [es1 [m1 [g1 [E1 [S1 [P1 _]]]]]]. rewrite E1 in H. cbn [bind] in H. apply bind_ok in H as [[ess2 est2] [H2 H]]. injection H as <- _.
  destruct n as [|n]; [|exact (IH _ m1 ess2 est2 (at_is m1 g1 S1) H2 n a b Hn Ha Hb)]. cbn [nth_error] in *. injection Hn as ->. injection Ha as <-. specialize (P1 eq_refl). subst m1.
  destruct modes as [|mp2 modes]; [cbn [calls] in H2; injection H2 as <- _; discriminate|]. cbn [calls] in H2. rewrite (same_estimate (MkCbEst e tot (MkState m empty_cache) g1) m mp2 eq_refl eq_refl eq_refl) in H2.
  apply bind_ok in H2 as [[es2 est3] [F2 H2]]. apply bind_ok in H2 as [[ess3 est4] [H3 H2]]. injection H2 as <- _. cbn [nth_error] in Hb. injection Hb as <-.
  destruct mp2; [symmetry; exact (modes_agree m _ _ _ _ Sm F2 E1)|rewrite E1 in F2; congruence].
Qed.
End env.
