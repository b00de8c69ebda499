(** Histories of calls on estimators that share one SamplePath: what the objects are, what they remember (C84). *)
From Verif Require Import Base Lib ModelStructure ModelGraph ModelCims ModelData ModelParams ModelCache ModelCtpc ModelSearch ModelEstimators ModelShared
  SpecStructure SpecGraph SpecComb SpecParams SpecCtpc SpecHistory SpecEstimators SpecShared ProofComb ProofGraph ProofParams3 ProofCtpc7 ProofEstimators ProofEstimators2 ProofShared.

Section shared2.
Variable Sc : Type.
Variable gt : Sc -> Sc -> bool.
Notation serve := (serve Sc gt).
Notation serve_all := (serve_all Sc gt).
Notation shared := (shared Sc).
Notation request := (request Sc).

(** ** what the i-th object is *)
Definition comes_from (s : structure) (tot : nat) (r : request) (o : object Sc) : Prop :=
  match r with
  | NewCb known thr tests => match build_removable_edges_matrix s tot known with Ok _ => exists st g, o = Cb thr tests st g | Err _ => o = Failed end
  | NewSb known score => match build_removable_edges_matrix s tot known with Ok m => exists g, o = Sb score m g | Err _ => o = Failed end
  | _ => True
  end.
Lemma comes_alike (s s' : structure) tot r o : clean_structure_edges s = clean_structure_edges s' -> comes_from s tot r o -> comes_from s' tot r o.
Proof. intros E H. destruct r; cbn [comes_from] in *; try exact I; rewrite (matrix_clean s'), <- E, <- matrix_clean; exact H. Qed.
Lemma Forall2_set {A B} (P : A -> B -> Prop) : forall l l' i a b, Forall2 P l l' -> nth_error l i = Some a -> P a b -> Forall2 P l (set_at l' i b).
Proof.
  intros l l' i a b H. revert i. induction H as [|x y l l' Hxy H IH]; intros i Hi Hp; [destruct i; discriminate|].
  destruct i as [|i]; cbn [nth_error set_at] in *; [injection Hi as ->; constructor; assumption|constructor; [exact Hxy|apply IH; assumption]].
Qed.
Lemma comes_serve s tot w r a w1 made : clean_structure_edges (sh_struct w) = clean_structure_edges s -> sh_tot w = tot -> serve w r = Some (a, w1) ->
  Forall2 (comes_from s tot) made (sh_objects w) -> Forall2 (comes_from s tot) (made ++ (if creates r then [r] else [])) (sh_objects w1).
Proof.
  intros A C H F. destruct r as [known thr tests|known score|i draws p mp pn|i|i|i|x]; cbn [ModelShared.serve creates] in *; rewrite ?app_nil_r.
  - unfold new_cb_estimator in H. rewrite (matrix_clean (sh_struct w)), A, <- matrix_clean, C in H.
    destruct (build_removable_edges_matrix s tot known) as [m|x] eqn:E; cbn [bind] in H; injection H as _ <-; cbn [add_object sh_objects];
      apply Forall2_app; [exact F|constructor; [|constructor]; cbn [comes_from]; rewrite E; eauto|exact F|constructor; [|constructor]; cbn [comes_from]; rewrite E; reflexivity].
  - unfold new_sb_estimator in H. rewrite (matrix_clean (sh_struct w)), A, <- matrix_clean, C in H.
    destruct (build_removable_edges_matrix s tot known) as [m|x] eqn:E; cbn [bind] in H; injection H as _ <-; cbn [add_object sh_objects];
      apply Forall2_app; [exact F|constructor; [|constructor]; cbn [comes_from]; rewrite E; eexists; reflexivity|exact F|constructor; [|constructor]; cbn [comes_from]; rewrite E; reflexivity].
  - destruct (nth_error (sh_objects w) i) as [o|] eqn:Eo; [|discriminate].
    assert (G : exists q, nth_error made i = Some q /\ comes_from s tot q o).
    { destruct (nth_error made i) as [q|] eqn:Eq.
      - destruct (Forall2_nth_error _ _ _ F i q Eq) as [o' [Ho' K]]. exists q. split; [reflexivity|]. congruence.
      - apply nth_error_None in Eq. apply Forall2_length in F. assert (i < length (sh_objects w)) by (apply nth_error_Some; congruence). lia. }
    destruct G as [q [Hq Kq]]. destruct o as [thr tests st g|score m g|]; [| |discriminate].
    + unfold estimate_cb in H.
      assert (K : (exists st' g', w1 = put_object Sc (erase Sc w) i (Cb thr tests st' g')) \/ w1 = erase Sc w).
      { destruct mp, pn as [[|n]|]; cb_cases H; try discriminate; injection H as _ <-; eauto. }
      clear H. destruct K as [[st' [g' ->]]| ->]; [|exact F]. cbn [put_object erase sh_objects]. apply (Forall2_set _ _ _ _ q _ F Hq).
      destruct q; cbn [comes_from] in *; try exact I; destruct (build_removable_edges_matrix s tot known); try discriminate; try (destruct Kq as [? Kq]; discriminate).
      destruct Kq as [st0 [g0 Kq]]. injection Kq as <- <- _ _. eauto.
    + unfold estimate_sb in H.
      assert (K : (exists g', w1 = put_object Sc (erase Sc w) i (Sb score m g')) \/ w1 = erase Sc w).
      { destruct (sb_estimate_structure Sc score gt (sb_of Sc w m g) draws p mp pn) as [[[es pr] est]|y] eqn:EB.
        - apply sb_char in EB as [ess [_ [_ [_ ->]]]]. injection H as _ <-. left. eauto.
        - right. destruct y; try discriminate; injection H as _ <-; reflexivity. }
      clear H. destruct K as [[g' ->]| ->]; [|exact F]. cbn [put_object erase sh_objects]. apply (Forall2_set _ _ _ _ q _ F Hq).
      destruct q; cbn [comes_from] in *; try exact I; destruct (build_removable_edges_matrix s tot known); try discriminate; try (destruct Kq as [? [? Kq]]; discriminate).
      destruct Kq as [g0 Kq]. injection Kq as <- <- _. eauto.
  - destruct (nth_error (sh_objects w) i) as [o|]; [|discriminate]. destruct (graph_of Sc o); [|discriminate]. unfold replied in H. injection H as _ <-. exact F.
  - destruct (nth_error (sh_objects w) i) as [o|]; [|discriminate]. destruct (graph_of Sc o); [|discriminate]. unfold replied in H. injection H as _ <-. exact F.
  - destruct (nth_error (sh_objects w) i) as [o|]; [|discriminate]. destruct (graph_of Sc o); [|discriminate]. injection H as _ <-. exact F.
  - unfold replied in H. injection H as _ <-. exact F.
Qed.
Lemma comes_all s tot : forall rs w outs w' made, clean_structure_edges (sh_struct w) = clean_structure_edges s -> sh_tot w = tot -> serve_all w rs = Some (outs, w') ->
  Forall2 (comes_from s tot) made (sh_objects w) -> Forall2 (comes_from s tot) (made ++ filter creates rs) (sh_objects w').
Proof.
  induction rs as [|r rs IH]; intros w outs w' made A C H F; cbn [ModelShared.serve_all filter] in *; [injection H as _ <-; rewrite app_nil_r; exact F|].
  destruct (serve w r) as [[a w1]|] eqn:E1; [|discriminate]. destruct (serve_all w1 rs) as [[l w2]|] eqn:E2; [|discriminate]. injection H as _ <-.
  pose proof (comes_serve s tot w r a w1 made A C E1 F) as F1. destruct (serve_struct Sc gt w r a w1 E1) as [ES [_ ET]].
  assert (A1 : clean_structure_edges (sh_struct w1) = clean_structure_edges s) by (rewrite ES; destruct (is_estimate r); exact A).
  pose proof (IH w1 l w2 _ A1 (eq_trans ET C) E2 F1) as K. destruct (creates r); [rewrite <- app_assoc in K; exact K|rewrite app_nil_r in K; exact K].
Qed.
Lemma filter_firstn {A} (f : A -> bool) l n i x : nth_error (filter f (firstn n l)) i = Some x -> nth_error (filter f l) i = Some x.
Proof.
  intros H. rewrite <- (firstn_skipn n l), filter_app. rewrite nth_error_app1; [exact H|apply nth_error_Some; congruence].
Qed.
(** the score-based object at an estimate *)
Lemma sb_object rs w0 outs w' i n known score l wn w1 d p mp pn a : sh_objects w0 = [] -> serve_all w0 rs = Some (outs, w') ->
  nth_error (filter creates rs) i = Some (NewSb known score) -> serve_all w0 (firstn n rs) = Some (l, wn) -> serve wn (Estimate i d p mp pn) = Some (a, w1) ->
  exists m g, build_removable_edges_matrix (sh_struct w0) (sh_tot w0) known = Ok m /\ nth_error (sh_objects wn) i = Some (Sb score m g).
Proof.
  intros E0 H Hi Hn Hs. assert (F0 : Forall2 (comes_from (sh_struct w0) (sh_tot w0)) [] (sh_objects w0)) by (rewrite E0; constructor).
  pose proof (comes_all (sh_struct w0) (sh_tot w0) (firstn n rs) w0 l wn [] eq_refl eq_refl Hn F0) as F. cbn [app] in F. cbn [ModelShared.serve] in Hs.
  destruct (nth_error (sh_objects wn) i) as [o|] eqn:Eo; [|discriminate].
  assert (Hl : i < length (filter creates (firstn n rs))) by (apply Forall2_length in F; rewrite F; apply nth_error_Some; congruence).
  destruct (nth_error (filter creates (firstn n rs)) i) as [q|] eqn:Eq; [|apply nth_error_None in Eq; lia].
  pose proof (filter_firstn _ _ _ _ _ Eq) as K. rewrite Hi in K. injection K as <-.
  destruct (Forall2_nth_error _ _ _ F i _ Eq) as [o' [Ho' K]]. rewrite Eo in Ho'. injection Ho' as <-. cbn [comes_from] in K.
  destruct (build_removable_edges_matrix (sh_struct w0) (sh_tot w0) known) as [m|]; [|subst o; discriminate]. destruct K as [g ->]. eauto.
Qed.
Lemma struct_clean rs w outs w' : serve_all w rs = Some (outs, w') -> clean_structure_edges (sh_struct w') = clean_structure_edges (sh_struct w).
Proof. intros H. destruct (serve_all_struct Sc gt _ _ _ _ H) as [-> _]. destruct (existsb is_estimate rs); reflexivity. Qed.
Lemma sb_memoryless rs w0 outs w' i n n' known score d p mp pn mp' pn' es pr es' pr' : sh_objects w0 = [] -> serve_all w0 rs = Some (outs, w') ->
  nth_error (filter creates rs) i = Some (NewSb known score) ->
  nth_error rs n = Some (Estimate i d p mp pn) -> nth_error rs n' = Some (Estimate i d p mp' pn') ->
  nth_error outs n = Some (Edges es pr) -> nth_error outs n' = Some (Edges es' pr') -> es = es'.
Proof.
  intros E0 H Hi Hn Hn' Ho Ho'.
  destruct (serve_nth Sc gt rs w0 outs w' n _ _ H Hn Ho) as [l [wn [w1 [A B]]]]. destruct (serve_nth Sc gt rs w0 outs w' n' _ _ H Hn' Ho') as [l' [wn' [w1' [A' B']]]].
  destruct (sb_object rs w0 outs w' i n known score l wn w1 d p mp pn _ E0 H Hi A B) as [m [g [Em Eg]]].
  destruct (sb_object rs w0 outs w' i n' known score l' wn' w1' d p mp' pn' _ E0 H Hi A' B') as [m' [g' [Em' Eg']]].
  rewrite Em in Em'. injection Em' as <-. destruct (serve_all_struct Sc gt _ _ _ _ A) as [S1 [T1 _]]. destruct (serve_all_struct Sc gt _ _ _ _ A') as [S2 [T2 _]].
  cbn [ModelShared.serve] in B, B'. rewrite Eg in B. rewrite Eg' in B'. unfold estimate_sb, sb_of in B, B'.
  pose proof (struct_clean _ _ _ _ A) as C1.
  pose proof (struct_clean _ _ _ _ A') as C2.
  destruct (sb_estimate_structure Sc score gt (MkSbEst (sh_struct wn) (sh_traj wn) m g) d p mp pn) as [[[e1 p1] s1]|y] eqn:X1; [|destruct y; discriminate].
  destruct (sb_estimate_structure Sc score gt (MkSbEst (sh_struct wn') (sh_traj wn') m g') d p mp' pn') as [[[e2 p2] s2]|y] eqn:X2; [|destruct y; discriminate].
  apply sb_char in X1 as [ess1 [R1 [Q1 _]]]. apply sb_char in X2 as [ess2 [R2 [Q2 _]]].
  unfold sb_cleaned in R1, R2. cbn [sb_struct sb_traj sb_matrix sb_graph] in R1, R2.
  change (nodes_labels (sh_struct wn)) with (nodes_labels (clean_structure_edges (sh_struct wn))) in R1. change (nodes_labels (sh_struct wn')) with (nodes_labels (clean_structure_edges (sh_struct wn'))) in R2.
  rewrite C1, T1 in R1. rewrite C2, T2 in R2.
  assert (R : forall v, estimate_parents Sc score gt (MkSbEst (clean_structure_edges (sh_struct w0)) (sh_traj w0) m g) (d v) v p = estimate_parents Sc score gt (MkSbEst (clean_structure_edges (sh_struct w0)) (sh_traj w0) m g') (d v) v p) by reflexivity.
  assert (ess1 = ess2) by (cut (Ok ess1 = Ok ess2); [intros K; injection K as ->; reflexivity|]; rewrite <- R1, <- R2; reflexivity).
  congruence.
Qed.

(** ** what an object remembers: the graph of its last answer *)
Definition shows (i : nat) (es : list edge) (w : shared) : Prop :=
  exists o, nth_error (sh_objects w) i = Some o /\ graph_of Sc o = Some (g_add_edges_from empty_digraph es).
Definition answers (i : nat) (r : request) (a : reply) : Prop := is_estimate r = true /\ on_object i r = true /\ exists es pr, a = Edges es pr.
Lemma shows_after i d p mp pn w es pr w1 : serve w (Estimate i d p mp pn) = Some (Edges es pr, w1) -> shows i es w1.
Proof.
  cbn [ModelShared.serve]. destruct (nth_error (sh_objects w) i) as [o|] eqn:Eo; [|discriminate]. assert (Hlt : i < length (sh_objects w)) by (apply nth_error_Some; congruence).
  assert (G : forall o', graph_of Sc o' = Some (g_add_edges_from empty_digraph es) -> shows i es (put_object Sc (erase Sc w) i o')).
  { intros o' Ho'. exists o'. split; [|exact Ho']. cbn [put_object erase sh_objects]. rewrite nth_error_set_at, Nat.eqb_refl. apply Nat.ltb_lt in Hlt. rewrite Hlt. reflexivity. }
  destruct o as [thr tests st g|score m g|]; [| |discriminate]; intros H.
  - unfold estimate_cb in H.
    assert (K : exists est, cb_estimate_structure (cb_of Sc w thr tests st g) mp = Ok (es, est) /\ w1 = put_object Sc (erase Sc w) i (Cb thr tests (cb_st est) (cb_graph est))).
    { destruct (cb_estimate_structure (cb_of Sc w thr tests st g) mp) as [[es0 est]|y]; destruct mp, pn as [[|n]|]; try discriminate; injection H as <- _ <-; eauto. }
    destruct K as [est [K ->]]. apply G. cbn [graph_of]. unfold cb_estimate_structure in K. apply bind_ok in K as [[ess st'] [_ K]]. injection K as <- <-. reflexivity.
  - unfold estimate_sb in H. destruct (sb_estimate_structure Sc score gt (sb_of Sc w m g) d p mp pn) as [[[es0 pr0] est]|y] eqn:X; [|destruct y; discriminate].
    injection H as <- _ <-. apply G. apply sb_char in X as [ess [_ [_ [_ ->]]]]. reflexivity.
Qed.
Lemma shows_kept i es w r a w1 : serve w r = Some (a, w1) -> ~ answers i r a -> shows i es w -> shows i es w1.
Proof.
  intros H Hn [o [Ho Hg]]. destruct (creates r) eqn:EC.
  - exists o. split; [|exact Hg]. destruct r; try discriminate; cbn [ModelShared.serve] in H; (destruct (new_cb_estimator _ _ _ _ _ _) || destruct (new_sb_estimator _ _ _ _));
      injection H as _ <-; cbn [add_object sh_objects]; (rewrite nth_error_app1; [exact Ho|apply nth_error_Some; congruence]).
  - destruct (serve_other Sc gt w r a w1 EC H) as [_ [_ K]]. destruct (on_object i r) eqn:EO; [|exists o; rewrite (K i EO); auto].
    destruct r as [| |j d p mp pn|j|j|j|]; try discriminate; cbn [on_object] in EO; pose proof EO as EO'; apply Nat.eqb_eq in EO'; subst j; cbn [ModelShared.serve] in H; rewrite Ho in H.
    + destruct o as [thr tests st g|score m g|]; [| |discriminate].
      * assert (w1 = erase Sc w).
        { unfold estimate_cb in H. destruct (cb_estimate_structure (cb_of Sc w thr tests st g) mp) as [[es0 est]|y]; destruct mp, pn as [[|n]|]; try discriminate; injection H as <- <-; try reflexivity;
            destruct Hn; (split; [reflexivity|]; split; [exact EO|]; eauto). }
        subst w1. exists (Cb thr tests st g). auto.
      * assert (w1 = erase Sc w).
        { unfold estimate_sb in H. destruct (sb_estimate_structure Sc score gt (sb_of Sc w m g) d p mp pn) as [[[es0 pr0] est]|y].
          - injection H as <- <-. destruct Hn. split; [reflexivity|]. split; [exact EO|]. eauto.
          - destruct y; try discriminate; injection H as _ <-; reflexivity. }
        subst w1. exists (Sb score m g). auto.
    + rewrite Hg in H. unfold replied in H. injection H as _ <-. exists o. auto.
    + rewrite Hg in H. injection H as _ <-. exists o. auto.
Qed.
Lemma shows_run i es : forall rs w outs w', serve_all w rs = Some (outs, w') ->
  (forall m r a, nth_error rs m = Some r -> nth_error outs m = Some a -> ~ answers i r a) -> shows i es w -> shows i es w'.
Proof.
  induction rs as [|r rs IH]; intros w outs w' H Hn Hs; cbn [ModelShared.serve_all] in H; [injection H as _ <-; exact Hs|].
  destruct (serve w r) as [[a w1]|] eqn:E1; [|discriminate]. destruct (serve_all w1 rs) as [[l w2]|] eqn:E2; [|discriminate]. injection H as <- <-.
  apply (IH w1 l w2 E2); [intros m r' a' Hm Ha; exact (Hn (S m) r' a' Hm Ha)|]. exact (shows_kept i es w r a w1 E1 (Hn 0 r a eq_refl eq_refl) Hs).
Qed.
Lemma serve_app : forall rs rs' w outs w', serve_all w (rs ++ rs') = Some (outs, w') ->
  exists l w1 l', serve_all w rs = Some (l, w1) /\ serve_all w1 rs' = Some (l', w') /\ outs = l ++ l'.
Proof.
  induction rs as [|r rs IH]; intros rs' w outs w' H; [exists [], w, outs; auto|]. cbn [app ModelShared.serve_all] in *.
  destruct (serve w r) as [[a w1]|]; [|discriminate]. destruct (serve_all w1 (rs ++ rs')) as [[l w2]|] eqn:E; [|discriminate]. injection H as <- <-.
  destruct (IH rs' w1 l w2 E) as [l1 [w3 [l2 [A [B ->]]]]]. exists (a :: l1), w3, l2. rewrite A. auto.
Qed.
Lemma serve_length : forall rs w outs w', serve_all w rs = Some (outs, w') -> length outs = length rs.
Proof.
  induction rs as [|r rs IH]; intros w outs w' H; cbn [ModelShared.serve_all] in H; [injection H as <- _; reflexivity|].
  destruct (serve w r) as [[a w1]|]; [|discriminate]. destruct (serve_all w1 rs) as [[l w2]|] eqn:E; [|discriminate]. injection H as <- _. cbn [length]. f_equal. exact (IH _ _ _ E).
Qed.
(** the state before request n', when the last answer of object i was the one to request n *)
Lemma latest rs w outs w' i n n' d p mp pn es pr r a : serve_all w rs = Some (outs, w') ->
  nth_error rs n = Some (Estimate i d p mp pn) -> nth_error outs n = Some (Edges es pr) -> n < n' ->
  (forall m r0 a0, n < m < n' -> nth_error rs m = Some r0 -> nth_error outs m = Some a0 -> ~ answers i r0 a0) ->
  nth_error rs n' = Some r -> nth_error outs n' = Some a -> exists l wn w1, serve_all w (firstn n' rs) = Some (l, wn) /\ serve wn r = Some (a, w1) /\ shows i es wn.
Proof.
  intros H Hn Ho Hlt Hq Hr Ha. destruct (serve_nth Sc gt rs w outs w' n' r a H Hr Ha) as [l [wn [w1 [A B]]]]. exists l, wn, w1. split; [exact A|]. split; [exact B|].
  assert (Ln' : n' < length rs) by (apply nth_error_Some; congruence).
  rewrite <- (firstn_skipn n' rs) in H. destruct (serve_app _ _ _ _ _ H) as [o1 [v1 [o2 [P1 [P2 P3]]]]]. rewrite A in P1. injection P1 as <- <-.
  pose proof (serve_length _ _ _ _ A) as Ll. rewrite firstn_length_le in Ll by lia.
  assert (Rn : nth_error (firstn n' rs) n = Some (Estimate i d p mp pn)) by (rewrite <- Hn; rewrite <- (firstn_skipn n' rs) at 2; rewrite nth_error_app1; [reflexivity|rewrite firstn_length_le; lia]).
  assert (On : nth_error l n = Some (Edges es pr)) by (rewrite P3, nth_error_app1 in Ho by lia; exact Ho).
  rewrite <- (firstn_skipn (S n) (firstn n' rs)) in A. destruct (serve_app _ _ _ _ _ A) as [o3 [v3 [o4 [Q1 [Q2 Q3]]]]].
  assert (Sn : firstn (S n) (firstn n' rs) = firstn n (firstn n' rs) ++ [Estimate i d p mp pn]).
  { clear - Rn. revert n Rn. induction (firstn n' rs) as [|x q IH]; intros n Rn; [destruct n; discriminate|]. destruct n as [|n]; cbn [nth_error firstn app] in *; [injection Rn as ->; reflexivity|].
    f_equal. exact (IH n Rn). }
  assert (Lo3 : length o3 = S n) by (rewrite (serve_length _ _ _ _ Q1), firstn_length_le; [reflexivity|rewrite firstn_length_le; lia]).
  apply (shows_run i es _ _ _ _ Q2).
  - intros m r0 a0 Hm1 Hm2.
    assert (Lm : m < n' - S n). { assert (m < length (skipn (S n) (firstn n' rs))) by (apply nth_error_Some; congruence). rewrite skipn_length, firstn_length_le in H0; lia. }
    apply (Hq (S n + m)); [lia| |].
    + assert (E : nth_error (firstn n' rs) (S n + m) = Some r0).
      { rewrite <- (firstn_skipn (S n) (firstn n' rs)). rewrite nth_error_app2; rewrite firstn_length_le by (rewrite firstn_length_le; lia); [|lia]. replace (S n + m - S n) with m by lia. exact Hm1. }
      rewrite <- (firstn_skipn n' rs). rewrite nth_error_app1; [exact E|rewrite firstn_length_le; lia].
    + rewrite P3, nth_error_app1 by lia. rewrite Q3, nth_error_app2 by lia. rewrite Lo3. replace (S n + m - S n) with m by lia. exact Hm2.
  - rewrite Sn in Q1. destruct (serve_app _ _ _ _ _ Q1) as [o5 [v5 [o6 [R1 [R2 R3]]]]]. cbn [ModelShared.serve_all] in R2.
    destruct (serve v5 (Estimate i d p mp pn)) as [[a5 w5]|] eqn:E5; [|discriminate]. injection R2 as <- <-.
    assert (a5 = Edges es pr).
    { rewrite Q3, nth_error_app1 in On by lia. rewrite R3 in On, Lo3. rewrite app_length in Lo3. cbn [length] in Lo3. rewrite nth_error_app2 in On by lia. replace (n - length o5) with 0 in On by lia. cbn in On. congruence. }
    subst a5. exact (shows_after i d p mp pn v5 es pr w5 E5).
Qed.

(** ** objects stay usable *)
Definition live (a : reply) (o : object Sc) : Prop := a = Made -> o <> Failed.
Lemma live_serve w r a w1 made : serve w r = Some (a, w1) -> Forall2 live made (sh_objects w) ->
  Forall2 live (made ++ (if creates r then [a] else [])) (sh_objects w1).
Proof.
  intros H F. destruct r as [known thr tests|known score|i draws p mp pn|i|i|i|x]; cbn [ModelShared.serve creates] in *; rewrite ?app_nil_r.
  - destruct (new_cb_estimator _ _ _ _ _ _); injection H as <- <-; cbn [add_object sh_objects]; apply Forall2_app; try exact F; (constructor; [|constructor]; intros K; discriminate).
  - destruct (new_sb_estimator _ _ _ _); injection H as <- <-; cbn [add_object sh_objects]; apply Forall2_app; try exact F; (constructor; [|constructor]; intros K; discriminate).
  - destruct (nth_error (sh_objects w) i) as [o|] eqn:Eo; [|discriminate].
    assert (G : forall o', o' <> Failed -> Forall2 live made (set_at (sh_objects w) i o')).
    { intros o' Ho'. destruct (nth_error made i) as [q|] eqn:Eq; [apply (Forall2_set _ _ _ _ q _ F Eq); intros _; exact Ho'|].
      apply nth_error_None in Eq. apply Forall2_length in F. assert (i < length (sh_objects w)) by (apply nth_error_Some; congruence). lia. }
    destruct o as [thr tests st g|score m g|]; [| |discriminate].
    + assert (K : (exists st' g', w1 = put_object Sc (erase Sc w) i (Cb thr tests st' g')) \/ w1 = erase Sc w).
      { unfold estimate_cb in H. destruct mp, pn as [[|n]|]; cb_cases H; try discriminate; injection H as _ <-; eauto. }
      destruct K as [[st' [g' ->]]| ->]; [|exact F]. cbn [put_object erase sh_objects]. apply G. discriminate.
    + unfold estimate_sb in H. destruct (sb_estimate_structure Sc score gt (sb_of Sc w m g) draws p mp pn) as [[[es pr] est]|y].
      * injection H as _ <-. cbn [put_object erase sh_objects]. apply G. discriminate.
      * destruct y; try discriminate; injection H as _ <-; exact F.
  - destruct (nth_error (sh_objects w) i) as [o|]; [|discriminate]. destruct (graph_of Sc o); [|discriminate]. unfold replied in H. injection H as _ <-. exact F.
  - destruct (nth_error (sh_objects w) i) as [o|]; [|discriminate]. destruct (graph_of Sc o); [|discriminate]. unfold replied in H. injection H as _ <-. exact F.
  - destruct (nth_error (sh_objects w) i) as [o|]; [|discriminate]. destruct (graph_of Sc o); [|discriminate]. injection H as _ <-. exact F.
  - unfold replied in H. injection H as _ <-. exact F.
Qed.
Lemma live_all : forall rs w outs w' made, serve_all w rs = Some (outs, w') -> Forall2 live made (sh_objects w) ->
  Forall2 live (made ++ select (map creates rs) outs) (sh_objects w').
Proof.
  induction rs as [|r rs IH]; intros w outs w' made H F; cbn [ModelShared.serve_all map select] in *; [injection H as <- <-; rewrite app_nil_r; exact F|].
  destruct (serve w r) as [[a w1]|] eqn:E1; [|discriminate]. destruct (serve_all w1 rs) as [[l w2]|] eqn:E2; [|discriminate]. injection H as <- <-.
  pose proof (IH w1 l w2 _ E2 (live_serve w r a w1 made E1 F)) as K. cbn [select]. destruct (creates r); [rewrite <- app_assoc in K; exact K|rewrite app_nil_r in K; exact K].
Qed.
Lemma usable rs w0 outs w' i : sh_objects w0 = [] -> serve_all w0 rs = Some (outs, w') -> nth_error (select (map creates rs) outs) i = Some Made ->
  exists o, nth_error (sh_objects w') i = Some o /\ o <> Failed.
Proof.
  intros E0 H Hi. assert (F : Forall2 live [] (sh_objects w0)) by (rewrite E0; constructor). pose proof (live_all rs w0 outs w' [] H F) as K. cbn [app] in K.
  destruct (Forall2_nth_error _ _ _ K i _ Hi) as [o [Ho L]]. exists o. split; [exact Ho|exact (L eq_refl)].
Qed.

(** ** parameters: what the shared Structure holds at that moment *)
Lemma new_params s t v c ni pis ps : wf_structure s -> data_ok s t -> edges_within (nodes_labels s) (edges_list s) ->
  node_view s (edges_list s) v c ni pis ps -> 0 < c -> compat c ps ->
  (let* g := ng_fast_init (new_netgraph s) v in compute_parameters_for_node t g v)
  = Ok (MkSetOfCims (build_p_comb_structure_for_a_node ps) (map (exact_cim t (total_variables_number s) ni pis c) (le_enum ps))).
Proof.
  intros Hwf Hd H2 [V1 [V2 [V3 V4]]] Hc Hp. assert (Hv : In v (nodes_labels s)) by (eapply states_number_In, V1).
  destruct (fast_init_canonical (new_netgraph s) v) as [g [E1 [G1 [S1 [_ F1]]]]]; [exact Hwf|apply dinv_empty|intros x []|exact H2|exact Hv|].
  cbn [new_netgraph ng_struct ng_graph empty_digraph g_edges] in *. rewrite E1. cbn [bind].
  assert (Ec : c = val_of s v) by (unfold val_of; rewrite V1; reflexivity). assert (Ei : ni = idx_of s v) by (unfold idx_of; rewrite V2; reflexivity).
  apply (Forall2_lookup _ (idx_of s)) in V3; [|intros a b K; unfold idx_of; rewrite K; reflexivity].
  apply (Forall2_lookup _ (val_of s)) in V4; [|intros a b K; unfold val_of; rewrite K; reflexivity].
  subst c ni pis ps. exact (params_exact s t g v (fun l => emem (l, v) (edges_list s)) Hwf Hd G1 S1 F1 Hv Hc Hp).
Qed.
Lemma params_now rs w0 outs w' n v c ni pis ps : wf_structure (sh_struct w0) -> data_ok (sh_struct w0) (sh_traj w0) ->
  edges_within (nodes_labels (sh_struct w0)) (edges_list (sh_struct w0)) ->
  serve_all w0 rs = Some (outs, w') -> nth_error rs n = Some (Parameters v) ->
  node_view (sh_struct w0) (if existsb is_estimate (firstn n rs) then [] else edges_list (sh_struct w0)) v c ni pis ps -> 0 < c -> compat c ps ->
  nth_error outs n = Some (Params (MkSetOfCims (build_p_comb_structure_for_a_node ps)
     (map (exact_cim (sh_traj w0) (total_variables_number (sh_struct w0)) ni pis c) (le_enum ps)))).
Proof.
  intros Hwf Hd Hw H Hn V Hpos Hp. destruct (nth_error outs n) as [a|] eqn:Ea.
  2:{ apply nth_error_None in Ea. rewrite (serve_length _ _ _ _ H) in Ea. assert (n < length rs) by (apply nth_error_Some; congruence). lia. }
  destruct (serve_nth Sc gt rs w0 outs w' n _ _ H Hn Ea) as [l [wn [w1 [A B]]]]. destruct (serve_all_struct Sc gt _ _ _ _ A) as [ES [ET _]].
  cbn [ModelShared.serve] in B. unfold replied in B. rewrite ES, ET in B. clear ES ET A.
  destruct (existsb is_estimate (firstn n rs)).
  - rewrite (new_params (clean_structure_edges (sh_struct w0)) (sh_traj w0) v c ni pis ps Hwf Hd) in B; [injection B as <- _; reflexivity|intros e []|exact V|exact Hpos|exact Hp].
  - rewrite (new_params (sh_struct w0) (sh_traj w0) v c ni pis ps Hwf Hd Hw V Hpos Hp) in B. injection B as <- _. reflexivity.
Qed.
(** ** a constraint-based estimator by itself *)
Lemma cb_run w thr tests d p pn : pn <> Some 0 -> forall modes est ess est', calls est modes = Ok (ess, est') ->
  e_threshold (cb_e est) = thr -> e_tests (cb_e est) = tests -> e_traj (cb_e est) = sh_traj w -> cb_tot est = sh_tot w ->
  sh_struct w = e_struct (cb_e est) -> sh_objects w = [Cb thr tests (cb_st est) (cb_graph est)] ->
  exists w', serve_all w (map (fun mp => Estimate 0 d p mp pn) modes) = Some (map (fun es => Edges es None) ess, w').
Proof.
  intros Hpn modes. revert w. induction modes as [|mp modes IH]; intros w est ess est' H E1 E2 E3 E4 E5 EO; cbn [calls map ModelShared.serve_all] in *; [injection H as <- _; eexists; reflexivity|].
  apply bind_ok in H as [[es est1] [Hc H]]. apply bind_ok in H as [[ess1 est2] [Hr H]]. injection H as <- _.
  cbn [ModelShared.serve]. rewrite EO. cbn [nth_error]. unfold estimate_cb.
  assert (Ee : cb_of Sc w thr tests (cb_st est) (cb_graph est) = est).
  { unfold cb_of. rewrite E5, <- E3, <- E4, <- E1, <- E2. destruct est as [[? ? ? ?] ? ? ?]. reflexivity. }
  rewrite Ee, Hc.
  assert (G : forall q : option (reply * shared), match mp, pn with false, Some 0 => Some (RaisedR ValueError, erase Sc w) | _, _ => q end = q).
  { intros q. destruct mp; [reflexivity|]. destruct pn as [[|n]|]; try reflexivity. destruct (Hpn eq_refl). }
  rewrite G. clear G. unfold cb_estimate_structure in Hc. apply bind_ok in Hc as [[ess0 st0] [_ Hc]]. injection Hc as _ Hest.
  destruct (IH (put_object Sc (erase Sc w) 0 (Cb thr tests (cb_st est1) (cb_graph est1))) est1 ess1 est2 Hr) as [w' K].
  - rewrite <- Hest. exact E1.
  - rewrite <- Hest. exact E2.
  - rewrite <- Hest. exact E3.
  - rewrite <- Hest. exact E4.
  - rewrite <- Hest. cbn [put_object erase sh_struct cb_e e_struct]. rewrite E5. reflexivity.
  - cbn [put_object erase sh_objects]. rewrite EO. reflexivity.
  - rewrite K. eexists. reflexivity.
Qed.
Lemma cb_alone w known thr tests est d p pn modes ess est' : sh_objects w = [] -> pn <> Some 0 ->
  new_cb_estimator (sh_struct w) (sh_traj w) (sh_tot w) known thr tests = Ok est -> calls est modes = Ok (ess, est') ->
  exists w', serve_all w (NewCb known thr tests :: map (fun mp => Estimate 0 d p mp pn) modes) = Some (Made :: map (fun es => Edges es None) ess, w').
Proof.
  intros E0 Hpn HN Hc. cbn [ModelShared.serve_all ModelShared.serve]. rewrite HN.
  assert (HE : est = MkCbEst (MkEnv (sh_struct w) (sh_traj w) thr tests) (sh_tot w) (cb_st est) (cb_graph est)).
  { unfold new_cb_estimator in HN. apply bind_ok in HN as [m [_ HN]]. injection HN as <-. reflexivity. }
  destruct (cb_run (add_object Sc w (Cb thr tests (cb_st est) (cb_graph est))) thr tests d p pn Hpn modes est ess est' Hc) as [w' K].
  - rewrite HE. reflexivity.
  - rewrite HE. reflexivity.
  - rewrite HE. reflexivity.
  - rewrite HE. reflexivity.
  - rewrite HE. reflexivity.
  - cbn [add_object sh_objects]. rewrite E0. reflexivity.
  - rewrite K. eexists. reflexivity.
Qed.
End shared2.
