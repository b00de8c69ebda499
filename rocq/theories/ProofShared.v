(** Estimators that share one SamplePath do not influence each other (C84). *)
From Verif Require Import Base Lib ModelStructure ModelGraph ModelCims ModelData ModelParams ModelCache ModelCtpc ModelSearch ModelEstimators ModelShared
  SpecStructure SpecGraph SpecCtpc SpecHistory SpecShared ProofCtpc7 ProofEstimators ProofEstimators2.

Ltac cb_cases H := try match type of H with context [cb_estimate_structure ?x ?y] => destruct (cb_estimate_structure x y) as [[? ?]|?] end.
Section shared.
Variable Sc : Type.
Variable gt : Sc -> Sc -> bool.
Notation serve := (serve Sc gt).
Notation serve_all := (serve_all Sc gt).
Notation shared := (shared Sc).
Notation request := (request Sc).

(** the Structures differ at most in their edges *)
Definition alike (w v : shared) : Prop :=
  clean_structure_edges (sh_struct w) = clean_structure_edges (sh_struct v) /\ sh_traj w = sh_traj v /\ sh_tot w = sh_tot v.
Lemma alike_labels w v : alike w v -> nodes_labels (sh_struct w) = nodes_labels (sh_struct v).
Proof. intros [H _]. exact (f_equal nodes_labels H). Qed.
Lemma matrix_clean s tot known : build_removable_edges_matrix s tot known = build_removable_edges_matrix (clean_structure_edges s) tot known.
Proof. reflexivity. Qed.

(** one estimate_structure of the score-based estimator, from the cleaned structure *)
Lemma sb_clean score s s' t m g draws p mp pn : clean_structure_edges s = clean_structure_edges s' ->
  match sb_estimate_structure Sc score gt (MkSbEst s t m g) draws p mp pn, sb_estimate_structure Sc score gt (MkSbEst s' t m g) draws p mp pn with
  | Ok (es, _, est), Ok (es', _, est') => es = es' /\ est = est'
  | Err x, Err y => x = y
  | _, _ => False
  end.
Proof.
  intros E. unfold sb_estimate_structure. cbn [sb_struct sb_traj sb_matrix sb_graph]. rewrite E.
  destruct (if mp then _ else _) as [ess|x]; cbn [bind]; [split; reflexivity|reflexivity].
Qed.

Definition simulates (i made : nat) (w v : shared) : Prop :=
  alike w v /\ length (sh_objects w) = made
  /\ ((made <= i /\ sh_objects v = []) \/ (i < made /\ exists o, nth_error (sh_objects w) i = Some o /\ sh_objects v = [o])).

Lemma erase_alike w v : alike w v -> alike (erase Sc w) v.
Proof. intros [A [B C]]. split; [exact A|]. split; [exact B|exact C]. Qed.
Lemma alike_sym w v : alike w v -> alike v w.
Proof. intros [A [B C]]. split; [symmetry; exact A|]. split; [symmetry; exact B|symmetry; exact C]. Qed.
Lemma put_alike w v i o : alike w v -> alike (put_object Sc w i o) v.
Proof. intros [A [B C]]. split; [exact A|]. split; [exact B|exact C]. Qed.
Lemma add_alike w v o : alike w v -> alike (add_object Sc w o) v.
Proof. intros [A [B C]]. split; [exact A|]. split; [exact B|exact C]. Qed.

(** constructors *)
Lemma serve_new i made w v r a w1 : simulates i made w v -> creates r = true -> serve w r = Some (a, w1) ->
  exists o, sh_objects w1 = sh_objects w ++ [o] /\ alike w1 v /\
    exists v1, serve v r = Some (a, v1) /\ sh_objects v1 = sh_objects v ++ [o] /\ alike w1 v1.
Proof.
  intros [[A [B C]] _] Hc H. destruct r as [known thr tests|known score| | | | |]; try discriminate; cbn [ModelShared.serve] in *.
  - unfold new_cb_estimator in *. rewrite <- B, <- C, (matrix_clean (sh_struct v)), <- A, <- matrix_clean.
    destruct (build_removable_edges_matrix (sh_struct w) (sh_tot w) known) as [m|x] eqn:EM; cbn [bind] in *; injection H as <- <-.
    + eexists. split; [reflexivity|]. split; [split; [exact A|]; split; [exact B|exact C]|]. eexists. split; [reflexivity|].
      assert (EL : nodes_labels (sh_struct w) = nodes_labels (sh_struct v)) by exact (f_equal nodes_labels A).
      cbn [cb_st cb_graph add_object sh_objects]. rewrite EL. split; [reflexivity|]. split; [exact A|]. split; [exact B|exact C].
    + eexists. split; [reflexivity|]. split; [split; [exact A|]; split; [exact B|exact C]|]. eexists. split; [reflexivity|]. split; [reflexivity|]. split; [exact A|]. split; [exact B|exact C].
  - unfold new_sb_estimator in *. rewrite <- B, <- C, (matrix_clean (sh_struct v)), <- A, <- matrix_clean.
    destruct (build_removable_edges_matrix (sh_struct w) (sh_tot w) known) as [m|x] eqn:EM; cbn [bind] in *; injection H as <- <-.
    + eexists. split; [reflexivity|]. split; [split; [exact A|]; split; [exact B|exact C]|]. eexists. split; [reflexivity|].
      assert (EL : nodes_labels (sh_struct w) = nodes_labels (sh_struct v)) by exact (f_equal nodes_labels A).
      cbn [sb_matrix sb_graph add_object sh_objects]. rewrite EL. split; [reflexivity|]. split; [exact A|]. split; [exact B|exact C].
    + eexists. split; [reflexivity|]. split; [split; [exact A|]; split; [exact B|exact C]|]. eexists. split; [reflexivity|]. split; [reflexivity|]. split; [exact A|]. split; [exact B|exact C].
Qed.

(** every other request changes at most the object it is about, and only an estimate erases the edges *)
Lemma serve_other w r a w1 : creates r = false -> serve w r = Some (a, w1) ->
  length (sh_objects w1) = length (sh_objects w) /\ alike w1 w
  /\ (forall j, on_object j r = false -> nth_error (sh_objects w1) j = nth_error (sh_objects w) j).
Proof.
  intros Hc H. destruct r as [known thr tests|known score|i draws p mp pn|i|i|i|x]; try discriminate; cbn [ModelShared.serve on_object] in *.
  - destruct (nth_error (sh_objects w) i) as [[thr tests st g|score m g|]|]; try discriminate.
    + unfold estimate_cb in H.
      assert (K : (exists o, w1 = put_object Sc (erase Sc w) i o) \/ w1 = erase Sc w).
      { destruct mp, pn as [[|n]|]; cb_cases H; try discriminate; injection H as _ <-; eauto. }
      clear H. destruct K as [[o ->]| ->]; (split; [cbn; rewrite ?set_at_length; reflexivity|]; split; [split; [|split]; reflexivity|]).
      * intros j Hj. cbn [put_object erase sh_objects]. rewrite nth_error_set_at, Hj. reflexivity.
      * intros j _. reflexivity.
    + unfold estimate_sb in H.
      assert (K : (exists o, w1 = put_object Sc (erase Sc w) i o) \/ w1 = erase Sc w).
      { destruct (sb_estimate_structure Sc score gt (sb_of Sc w m g) draws p mp pn) as [[[es pr] est]|y].
        - injection H as _ <-. left. eauto.
        - right. destruct y; try discriminate; injection H as _ <-; reflexivity. }
      clear H. destruct K as [[o ->]| ->]; (split; [cbn; rewrite ?set_at_length; reflexivity|]; split; [split; [|split]; reflexivity|]).
      * intros j Hj. cbn [put_object erase sh_objects]. rewrite nth_error_set_at, Hj. reflexivity.
      * intros j _. reflexivity.
  - destruct (nth_error (sh_objects w) i) as [o|]; [|discriminate]. destruct (graph_of Sc o); [|discriminate]. unfold replied in H. injection H as _ <-. split; [reflexivity|]. split; [split; [|split]; reflexivity|reflexivity].
  - destruct (nth_error (sh_objects w) i) as [o|]; [|discriminate]. destruct (graph_of Sc o); [|discriminate]. unfold replied in H. injection H as _ <-. split; [reflexivity|]. split; [split; [|split]; reflexivity|reflexivity].
  - destruct (nth_error (sh_objects w) i) as [o|]; [|discriminate]. destruct (graph_of Sc o); [|discriminate]. injection H as _ <-. split; [reflexivity|]. split; [split; [|split]; reflexivity|reflexivity].
  - unfold replied in H. injection H as _ <-. split; [reflexivity|]. split; [split; [|split]; reflexivity|reflexivity].
Qed.

(** a call on the object: the same reply (up to what is printed), the same new state of the object *)
Lemma serve_own i w v r o a w1 : alike w v -> nth_error (sh_objects w) i = Some o -> sh_objects v = [o] -> on_object i r = true -> serve w r = Some (a, w1) ->
  exists a' v1, serve v (on_first r) = Some (a', v1) /\ unprinted a' = unprinted a /\ alike w1 v1
    /\ exists o', nth_error (sh_objects w1) i = Some o' /\ sh_objects v1 = [o'].
Proof.
  intros HA Hi Hv Ho H. pose proof HA as [A [B C]]. assert (Hlt : i < length (sh_objects w)) by (apply nth_error_Some; congruence).
  destruct r as [known thr tests|known score|j draws p mp pn|j|j|j|x]; try discriminate; cbn [on_object] in Ho; apply Nat.eqb_eq in Ho; subst j;
    cbn [ModelShared.serve on_first] in *; rewrite Hi in H; rewrite Hv; cbn [nth_error].
  - destruct o as [thr tests st g|score m g|]; try discriminate.
    + unfold estimate_cb in *.
      assert (E : cb_estimate_structure (cb_of Sc w thr tests st g) mp = cb_estimate_structure (cb_of Sc v thr tests st g) mp).
      { unfold cb_estimate_structure, cb_of. cbn [cb_e cb_tot cb_st e_struct e_traj e_threshold e_tests]. rewrite A, B, C. reflexivity. }
      assert (K : (forall q : option (reply * shared), (match mp, pn with false, Some 0 => Some (RaisedR ValueError, erase Sc w) | _, _ => q end = Some (a, w1)) ->
         q = Some (a, w1) /\ (mp = false -> pn <> Some 0) \/ (mp = false /\ pn = Some 0 /\ a = RaisedR ValueError /\ w1 = erase Sc w))).
      { intros q. destruct mp, pn as [[|n]|]; intros Q; try (left; split; [exact Q|discriminate || (intros _; discriminate)]). right. injection Q as <- <-. auto. }
      apply K in H. clear K. destruct H as [[H Hn]|[-> [-> [-> ->]]]].
      * assert (G : forall q : option (reply * shared), match mp, pn with false, Some 0 => Some (RaisedR ValueError, erase Sc v) | _, _ => q end = q).
        { intros q. destruct mp; [reflexivity|]. destruct pn as [[|n]|]; try reflexivity. destruct (Hn eq_refl eq_refl). }
        rewrite G. clear G. rewrite <- E. destruct (cb_estimate_structure (cb_of Sc w thr tests st g) mp) as [[es est]|y].
        -- injection H as <- <-. eexists _, _. split; [reflexivity|]. split; [reflexivity|]. split; [split; [exact A|]; split; [exact B|exact C]|].
           eexists. cbn [put_object erase sh_objects]. rewrite nth_error_set_at, Nat.eqb_refl. replace (i <? length (sh_objects w)) with true by (symmetry; apply Nat.ltb_lt, Hlt).
           cbn [andb]. split; [reflexivity|]. rewrite Hv. reflexivity.
        -- destruct mp; [discriminate|]. injection H as <- <-. eexists _, _. split; [reflexivity|]. split; [reflexivity|]. split; [split; [exact A|]; split; [exact B|exact C]|]. eauto.
      * eexists _, _. split; [reflexivity|]. split; [reflexivity|]. split; [split; [exact A|]; split; [exact B|exact C]|]. eauto.
    + unfold estimate_sb in *. unfold sb_of in *. rewrite <- B. pose proof (sb_clean score (sh_struct w) (sh_struct v) (sh_traj w) m g draws p mp pn A) as K.
      destruct (sb_estimate_structure Sc score gt (MkSbEst (sh_struct w) (sh_traj w) m g) draws p mp pn) as [[[es pr] est]|y],
               (sb_estimate_structure Sc score gt (MkSbEst (sh_struct v) (sh_traj w) m g) draws p mp pn) as [[[es' pr'] est']|y']; try contradiction.
      * destruct K as [<- <-]. injection H as <- <-. eexists _, _. split; [reflexivity|]. split; [reflexivity|]. split; [split; [exact A|]; split; [exact B|exact C]|].
        eexists. cbn [put_object erase sh_objects]. rewrite nth_error_set_at, Nat.eqb_refl. replace (i <? length (sh_objects w)) with true by (symmetry; apply Nat.ltb_lt, Hlt).
        cbn [andb]. split; [reflexivity|]. rewrite Hv. reflexivity.
      * subst y'. assert (Hy : y <> Blocked /\ a = RaisedR y /\ w1 = erase Sc w) by (destruct y; try discriminate; injection H as <- <-; (split; [discriminate|auto])).
        destruct Hy as [Hy [-> ->]]. exists (RaisedR y), (erase Sc v). split; [destruct y; try reflexivity; destruct (Hy eq_refl)|].
        split; [reflexivity|]. split; [split; [exact A|]; split; [exact B|exact C]|]. eauto.
  - destruct (graph_of Sc o) as [g|]; [|discriminate]. unfold replied in *. injection H as <- <-. rewrite <- (alike_labels w v HA). eexists _, _. split; [reflexivity|]. split; [reflexivity|]. split; [exact HA|]. eauto.
  - destruct (graph_of Sc o) as [g|]; [|discriminate]. injection H as <- <-. eexists _, _. split; [reflexivity|]. split; [reflexivity|]. split; [exact HA|]. eauto.
Qed.

Lemma alike_trans a b c : alike a b -> alike b c -> alike a c.
Proof. intros [A [B C]] [A' [B' C']]. split; [congruence|]. split; congruence. Qed.

Lemma isolation i : forall rs made w v outs w', simulates i made w v -> serve_all w rs = Some (outs, w') ->
  exists outs' v', serve_all v (map on_first (select (concerns i made rs) rs)) = Some (outs', v')
    /\ map unprinted outs' = map unprinted (select (concerns i made rs) outs).
Proof.
  induction rs as [|r rs IH]; intros made w v outs w' HS H; cbn [ModelShared.serve_all concerns select map] in *; [injection H as <- <-; eexists _, _; split; reflexivity|].
  destruct (serve w r) as [[a w1]|] eqn:E1; [|discriminate]. destruct (serve_all w1 rs) as [[l w2]|] eqn:E2; [|discriminate]. injection H as <- <-.
  pose proof HS as [HA [HLn HO]]. destruct (creates r) eqn:EC; cbn [select].
  - destruct (serve_new i made w v r a w1 HS EC E1) as [o [O1 [A1 [v1 [F1 [O2 A2]]]]]].
    destruct (Nat.eqb_spec made i) as [->|N].
    + assert (HS1 : simulates i (S i) w1 v1).
      { split; [exact A2|]. split; [rewrite O1, app_length; cbn [length]; lia|]. right. split; [lia|]. exists o. rewrite O1, O2. destruct HO as [[_ HO]|[HO _]]; [|lia]. rewrite HO.
        split; [|reflexivity]. rewrite nth_error_app2 by lia. rewrite HLn, Nat.sub_diag. reflexivity. }
      destruct (IH (S i) w1 v1 l w2 HS1 E2) as [outs' [v' [G1 G2]]]. cbn [map ModelShared.serve_all].
      assert (EF : on_first r = r) by (destruct r; try discriminate; reflexivity). rewrite EF, F1, G1. eexists _, _. split; [reflexivity|]. cbn [map]. rewrite G2. reflexivity.
    + assert (HS1 : simulates i (S made) w1 v).
      { split; [exact A1|]. split; [rewrite O1, app_length; cbn [length]; lia|]. destruct HO as [[HO K]|[HO [o' [K1 K2]]]].
        - left. split; [lia|exact K].
        - right. split; [lia|]. exists o'. rewrite O1. split; [|exact K2]. rewrite nth_error_app1 by lia. exact K1. }
      exact (IH (S made) w1 v l w2 HS1 E2).
  - destruct (serve_other w r a w1 EC E1) as [L1 [A1 K1]]. destruct (on_object i r) eqn:EO.
    + destruct HO as [[HO K]|[HO [o [Q1 Q2]]]].
      { exfalso. assert (nth_error (sh_objects w) i = None) by (apply nth_error_None; lia).
        destruct r as [| |j ? ? ? ?|j|j|j|]; try discriminate; cbn [on_object] in EO; apply Nat.eqb_eq in EO; subst j; cbn [ModelShared.serve] in E1; rewrite H in E1; discriminate. }
      destruct (serve_own i w v r o a w1 HA Q1 Q2 EO E1) as [a' [v1 [F1 [F2 [F3 [o' [F4 F5]]]]]]].
      assert (HS1 : simulates i made w1 v1) by (split; [exact F3|]; split; [congruence|]; right; split; [exact HO|]; exists o'; auto).
      destruct (IH made w1 v1 l w2 HS1 E2) as [outs' [v' [G1 G2]]]. cbn [map ModelShared.serve_all]. rewrite F1, G1. eexists _, _. split; [reflexivity|]. cbn [map]. rewrite F2, G2. reflexivity.
    + apply (IH made w1 v l w2); [|exact E2]. split; [exact (alike_trans _ _ _ A1 HA)|]. split; [congruence|].
      destruct HO as [HO|[HO [o [Q1 Q2]]]]; [left; exact HO|right; split; [exact HO|]; exists o; split; [|exact Q2]]. rewrite (K1 i EO). exact Q1.
Qed.

(** ** The shared Structure *)
Lemma serve_struct w r a w1 : serve w r = Some (a, w1) -> sh_struct w1 = (if is_estimate r then clean_structure_edges (sh_struct w) else sh_struct w) /\ sh_traj w1 = sh_traj w /\ sh_tot w1 = sh_tot w.
Proof.
  intros H. destruct r as [known thr tests|known score|i draws p mp pn|i|i|i|x]; cbn [ModelShared.serve is_estimate] in *.
  - destruct (new_cb_estimator _ _ _ _ _ _); injection H as _ <-; auto.
  - destruct (new_sb_estimator _ _ _ _); injection H as _ <-; auto.
  - destruct (nth_error (sh_objects w) i) as [[thr tests st g|score m g|]|]; try discriminate.
    + unfold estimate_cb in H. destruct mp, pn as [[|n]|]; cb_cases H; try discriminate; injection H as _ <-; auto.
    + unfold estimate_sb in H. destruct (sb_estimate_structure Sc score gt (sb_of Sc w m g) draws p mp pn) as [[[es pr] est]|y]; [injection H as _ <-; auto|].
      destruct y; try discriminate; injection H as _ <-; auto.
  - destruct (nth_error (sh_objects w) i) as [o|]; [|discriminate]. destruct (graph_of Sc o); [|discriminate]. unfold replied in H. injection H as _ <-. auto.
  - destruct (nth_error (sh_objects w) i) as [o|]; [|discriminate]. destruct (graph_of Sc o); [|discriminate]. unfold replied in H. injection H as _ <-. auto.
  - destruct (nth_error (sh_objects w) i) as [o|]; [|discriminate]. destruct (graph_of Sc o); [|discriminate]. injection H as _ <-. auto.
  - unfold replied in H. injection H as _ <-. auto.
Qed.
Lemma serve_all_struct : forall rs w outs w', serve_all w rs = Some (outs, w') ->
  sh_struct w' = (if existsb is_estimate rs then clean_structure_edges (sh_struct w) else sh_struct w) /\ sh_traj w' = sh_traj w /\ sh_tot w' = sh_tot w.
Proof.
  induction rs as [|r rs IH]; intros w outs w' H; cbn [ModelShared.serve_all existsb] in *; [injection H as _ <-; auto|].
  destruct (serve w r) as [[a w1]|] eqn:E1; [|discriminate]. destruct (serve_all w1 rs) as [[l w2]|] eqn:E2; [|discriminate]. injection H as _ <-.
  destruct (serve_struct w r a w1 E1) as [A [B C]]. destruct (IH w1 l w2 E2) as [A' [B' C']]. rewrite A', B', C', A, B, C.
  split; [|auto]. destruct (is_estimate r), (existsb is_estimate rs); reflexivity.
Qed.
(** the state before the n-th request *)
Lemma serve_nth : forall rs w outs w' n r a, serve_all w rs = Some (outs, w') -> nth_error rs n = Some r -> nth_error outs n = Some a ->
  exists l wn w1, serve_all w (firstn n rs) = Some (l, wn) /\ serve wn r = Some (a, w1).
Proof.
  induction rs as [|r0 rs IH]; intros w outs w' n r a H Hn Ha; [destruct n; discriminate|]. cbn [ModelShared.serve_all] in H.
  destruct (serve w r0) as [[a0 w1]|] eqn:E1; [|discriminate]. destruct (serve_all w1 rs) as [[l w2]|] eqn:E2; [|discriminate]. injection H as <- <-.
  destruct n as [|n]; cbn [nth_error firstn] in *.
  - injection Hn as <-. injection Ha as <-. exists [], w, w1. split; [reflexivity|exact E1].
  - destruct (IH w1 l w2 n r a E2 Hn Ha) as [l' [wn [w1' [A B]]]]. exists (a0 :: l'), wn, w1'. split; [|exact B]. cbn [ModelShared.serve_all]. rewrite E1, A. reflexivity.
Qed.
Lemma printed_first rs w outs w' n es pr re : serve_all w rs = Some (outs, w') -> nth_error outs n = Some (Edges es (Some (PrintedScores pr re))) ->
  existsb is_estimate (firstn n rs) = false.
Proof.
  intros H Ha. assert (Hr : exists r, nth_error rs n = Some r).
  { assert (L : length outs = length rs).
    { clear Ha n. revert w outs w' H. induction rs as [|r0 rs IH]; intros w outs w' H; cbn [ModelShared.serve_all] in H; [injection H as <- _; reflexivity|].
      destruct (serve w r0) as [[a0 w1]|]; [|discriminate]. destruct (serve_all w1 rs) as [[l w2]|] eqn:E; [|discriminate]. injection H as <- _. cbn [length]. f_equal. exact (IH _ _ _ E). }
    destruct (nth_error rs n) as [r|] eqn:E; [eauto|]. apply nth_error_None in E. assert (n < length outs) by (apply nth_error_Some; congruence). lia. }
  destruct Hr as [r Hr]. destruct (serve_nth rs w outs w' n r _ H Hr Ha) as [l [wn [w1 [A B]]]]. destruct (serve_all_struct _ _ _ _ A) as [ES _].
  destruct (existsb is_estimate (firstn n rs)) eqn:EE; [exfalso|reflexivity].
  destruct r as [known thr tests|known score|i draws p mp pn|i|i|i|x]; cbn [ModelShared.serve] in B.
  - destruct (new_cb_estimator _ _ _ _ _ _); discriminate.
  - destruct (new_sb_estimator _ _ _ _); discriminate.
  - destruct (nth_error (sh_objects wn) i) as [[thr tests st g|score m g|]|]; try discriminate.
    + unfold estimate_cb in B. destruct mp, pn as [[|k]|]; cb_cases B; discriminate.
    + unfold estimate_sb in B. destruct (sb_estimate_structure Sc score gt (sb_of Sc wn m g) draws p mp pn) as [[[es1 pr1] est]|y] eqn:EB.
      * unfold sb_estimate_structure in EB. apply bind_ok in EB as [ess [_ EB]]. unfold sb_of in EB. cbn [sb_struct] in EB. rewrite ES in EB. cbn [clean_structure_edges edges_list] in EB.
        assert (Ep : pr1 = precision_recall [] (edge_set_of (concat ess)))  by (clear B; change (edge_set_of []) with (@nil edge) in EB; congruence). assert (Eq : pr1 = PrintedScores pr re) by congruence. rewrite Eq in Ep. clear - Ep.
        unfold precision_recall in Ep. cbn [length Nat.sub Nat.add edge_difference filter] in Ep. unfold py_div in Ep.
        destruct (length _ =? 0); cbn [bind Nat.eqb] in Ep; discriminate.
      * destruct y; discriminate.
  - destruct (nth_error (sh_objects wn) i) as [o|]; [|discriminate]. destruct (graph_of Sc o) as [g|]; [|discriminate]. unfold replied in B. destruct (adjacency_matrix _ _); discriminate.
  - destruct (nth_error (sh_objects wn) i) as [o|]; [|discriminate]. destruct (graph_of Sc o) as [g|]; [|discriminate]. unfold replied in B. destruct (spurious_edges _ _); discriminate.
  - destruct (nth_error (sh_objects wn) i) as [o|]; [|discriminate]. destruct (graph_of Sc o) as [g|]; [|discriminate]. discriminate.
  - unfold replied in B. destruct (bind _ _); discriminate.
Qed.
End shared.
