(** Proofs for C37-C39, C41. *)
From Verif Require Import Base Lib ModelStructure ModelGraph ModelCims ModelData ModelParams ModelCtpc ModelSearch ModelEstimators
  SpecStructure SpecGraph SpecCtpc SpecSearch SpecEstimators
  ProofStructure ProofGraph ProofCtpc ProofCtpc2 ProofCtpc3 ProofCtpc4 ProofCtpc5 ProofCtpc6 ProofCtpc7 ProofSearch3.

(** ** set_of_list *)
Lemma set_of_list_In l x : In x (set_of_list l) <-> In x l.
Proof.
  unfold set_of_list. assert (H : forall l acc, In x (fold_left (fun acc x => set_add x acc) l acc) <-> In x acc \/ In x l).
  { clear. induction l as [|y l IH]; intros acc; cbn [fold_left]; [simpl; tauto|]. rewrite IH. unfold set_add. rewrite snoc_if_In. simpl. intuition. }
  rewrite H. simpl. tauto.
Qed.
Lemma set_of_list_ND l : NoDup (set_of_list l).
Proof.
  unfold set_of_list. assert (H : forall l acc, NoDup acc -> NoDup (fold_left (fun acc x => set_add x acc) l acc)).
  { clear. induction l as [|y l IH]; intros acc H; cbn [fold_left]; [exact H|]. apply IH, snoc_if_NoDup, H. }
  apply H, NoDup_nil.
Qed.
Lemma set_of_list_length l : length (set_of_list l) = length l <-> NoDup l.
Proof.
  split; [|intros H; rewrite set_of_list_NoDup by exact H; reflexivity].
  intros H. eapply NoDup_incl_NoDup; [apply set_of_list_ND|rewrite H; reflexivity|]. intros x; apply set_of_list_In.
Qed.

(** ** adjacency_matrix *)
Lemma repeat_get n i j : i < n -> j < n -> mat_get (repeat (repeat false n) n) i j = Ok false.
Proof.
  intros Hi Hj. unfold mat_get. replace (nth_res (repeat (repeat false n) n) i) with (Ok (repeat false n)).
  - cbn [bind]. apply nth_res_ok. apply nth_error_repeat, Hj.
  - symmetry. apply nth_res_ok, nth_error_repeat, Hi.
Qed.
Lemma mat_set_rows m i j b m' n : mat_set m i j b = Ok m' -> (forall row, In row m -> length row = n) -> forall row, In row m' -> length row = n.
Proof.
  unfold mat_set. intros H Hr row Hin. apply bind_ok in H as [r [H1 H]]. destruct (j <? length r); [|discriminate]. injection H as <-.
  apply In_nth_error in Hin as [k Hk]. rewrite nth_error_set_at in Hk. destruct ((i =? k) && (k <? length m)).
  - injection Hk as <-. rewrite set_at_length. apply Hr. apply nth_res_ok in H1. eapply nth_error_In, H1.
  - apply Hr. eapply nth_error_In, Hk.
Qed.
Lemma mat_get_dims m n i j : length m = n -> (forall row, In row m -> length row = n) -> i < n -> j < n -> exists b, mat_get m i j = Ok b.
Proof.
  intros H1 H2 Hi Hj. unfold mat_get. destruct (nth_res_lt m i) as [row Hr]; [lia|]. rewrite Hr. cbn [bind].
  apply nth_res_lt. rewrite (H2 row); [exact Hj|]. apply nth_res_ok in Hr. eapply nth_error_In, Hr.
Qed.

Section adj.
Variable nodes : list label.
Hypothesis Hnd : NoDup nodes.
Let n := length nodes.
Definition adj_step (acc : result (list (list bool))) (e : edge) : result (list (list bool)) :=
  let* m := acc in let* i := py_index (fst e) nodes in let* j := py_index (snd e) nodes in mat_set m i j true.
Lemma adj_fold es : (forall e, In e es -> In (fst e) nodes /\ In (snd e) nodes) -> forall m,
  length m = n -> (forall row, In row m -> length row = n) ->
  exists m', fold_left adj_step es (Ok m) = Ok m' /\ length m' = n /\ (forall row, In row m' -> length row = n)
    /\ forall i j a b, nth_error nodes i = Some a -> nth_error nodes j = Some b ->
         (mat_get m' i j = Ok true <-> mat_get m i j = Ok true \/ In (a, b) es).
Proof.
  induction es as [|[x y] es IH]; intros Hin m H1 H2; cbn [fold_left].
  - exists m. repeat split; auto. intros [K|[]]; exact K.
  - destruct (Hin (x, y) (or_introl eq_refl)) as [Hx Hy]. cbn [fst snd] in Hx, Hy.
    destruct (py_index_In _ _ Hx) as [i0 [Ei Li]]. destruct (py_index_In _ _ Hy) as [j0 [Ej Lj]].
    unfold adj_step at 2. cbn [bind fst snd]. rewrite Ei, Ej. cbn [bind].
    destruct (mat_get_dims m n i0 j0 H1 H2 Li Lj) as [b0 Hb]. destruct (mat_set_ok m i0 j0 true b0 Hb) as [m1 Hm].
    rewrite Hm. destruct (mat_set_get _ _ _ _ _ Hm) as [G1 G2].
    destruct (IH (fun e He => Hin e (or_intror He)) m1 (eq_trans G1 H1) (mat_set_rows _ _ _ _ _ _ Hm H2)) as [m' [E [D1 [D2 D3]]]].
    exists m'. split; [exact E|]. split; [exact D1|]. split; [exact D2|]. intros i j a b Ha Hb'. rewrite (D3 i j a b Ha Hb'), G2.
    apply py_index_ok in Ei as [Ei _]. apply py_index_ok in Ej as [Ej _].
    destruct (Nat.eqb_spec i i0) as [->|Ni]; cbn [andb]; [destruct (Nat.eqb_spec j j0) as [->|Nj]|].
    + rewrite Ei in Ha. rewrite Ej in Hb'. injection Ha as <-. injection Hb' as <-. simpl. tauto.
    + simpl. split; [tauto|]. intros [H|[K|H]]; auto. injection K as <- <-. exfalso. apply Nj. eapply NoDup_nth_error_inj; eauto.
    + simpl. split; [tauto|]. intros [H|[K|H]]; auto. injection K as <- <-. exfalso. apply Ni. eapply NoDup_nth_error_inj; eauto.
Qed.
End adj.

Lemma adjacency_ok g nodes : nodes <> [] -> NoDup nodes -> exists m, adjacency_matrix g nodes = Ok m /\ is_adjacency_of m nodes (g_edges g).
Proof.
  intros Hne Hnd. unfold adjacency_matrix. destruct (Nat.eqb_spec (length nodes) 0) as [E|E]; [destruct nodes; [congruence|discriminate]|].
  rewrite set_of_list_NoDup by exact Hnd. rewrite Nat.eqb_refl. cbn [negb].
  set (es := filter _ _). assert (HI : forall e, In e es <-> In e (g_edges g) /\ In (fst e) nodes /\ In (snd e) nodes).
  { intros e. unfold es. rewrite filter_In, lmem_In, in_flat_map. split.
    - intros [[x [Hx He]] Hs]. apply filter_In in He as [He Hx']. apply String.eqb_eq in Hx'. subst x. auto.
    - intros [H1 [H2 H3]]. split; [|exact H3]. exists (fst e). split; [exact H2|]. apply filter_In. split; [exact H1|apply String.eqb_refl]. }
  destruct (adj_fold nodes Hnd es (fun e He => proj2 (proj1 (HI e) He)) (repeat (repeat false (length nodes)) (length nodes))) as [m' [E' [D1 [D2 D3]]]].
  - apply repeat_length.
  - intros row Hr. apply repeat_spec in Hr. subst row. apply repeat_length.
  - exists m'. split; [exact E'|]. split; [exact D1|]. split; [exact D2|]. intros i j a b Ha Hb.
    assert (Li : i < length nodes) by (apply nth_error_Some; congruence). assert (Lj : j < length nodes) by (apply nth_error_Some; congruence).
    destruct (mat_get_dims m' (length nodes) i j D1 D2 Li Lj) as [x Hx]. exists x. split; [exact Hx|].
    specialize (D3 i j a b Ha Hb). rewrite Hx, (repeat_get _ _ _ Li Lj), HI in D3. cbn [fst snd] in D3.
    split.
    + intros ->. destruct (proj1 D3 eq_refl) as [K|[K _]]; [discriminate|exact K].
    + intros K. assert (KK : Ok x = Ok true) by (apply D3; right; split; [exact K|]; split; eapply nth_error_In; eassumption). congruence.
Qed.
Lemma adjacency_err g nodes : nodes = [] \/ ~ NoDup nodes -> adjacency_matrix g nodes = Err NetworkXError.
Proof.
  intros H. unfold adjacency_matrix. destruct (Nat.eqb_spec (length nodes) 0) as [E|E]; [reflexivity|].
  destruct H as [->|H]; [cbn in E; congruence|]. destruct (Nat.eqb_spec (length (set_of_list nodes)) (length nodes)) as [K|K]; [|reflexivity].
  exfalso. apply H, set_of_list_length, K.
Qed.
Lemma built_edges es x : In x (g_edges (g_add_edges_from empty_digraph es)) <-> In x es.
Proof. destruct (add_edges_from_spec empty_digraph es dinv_empty) as [_ [D2 _]]. rewrite D2. simpl. tauto. Qed.
Lemma built_view es x : In x (g_edges_view (g_add_edges_from empty_digraph es)) <-> In x es.
Proof.
  destruct (add_edges_from_spec empty_digraph es dinv_empty) as [D1 [D2 _]].
  destruct (edges_view_spec _ D1) as [_ V2]. rewrite V2, D2. simpl. tauto.
Qed.
Lemma is_adjacency_ext m nodes es es' : (forall x, In x es <-> In x es') -> is_adjacency_of m nodes es -> is_adjacency_of m nodes es'.
Proof.
  intros H [H1 [H2 H3]]. split; [exact H1|]. split; [exact H2|]. intros i j a b Ha Hb. destruct (H3 i j a b Ha Hb) as [x [X1 X2]].
  exists x. split; [exact X1|]. rewrite <- H. exact X2.
Qed.
Lemma adjacency_built es nodes : nodes <> [] -> NoDup nodes ->
  exists m, adjacency_matrix (g_add_edges_from empty_digraph es) nodes = Ok m /\ is_adjacency_of m nodes es.
Proof.
  intros H1 H2. destruct (adjacency_ok (g_add_edges_from empty_digraph es) nodes H1 H2) as [m [E H]]. exists m. split; [exact E|].
  eapply is_adjacency_ext, H. intros x. apply built_edges.
Qed.

(** ** spurious_edges *)
Lemma ensure_fold_names ls : forall ns x, In x (map fst (fold_left ensure_node ls ns)) <-> In x (map fst ns) \/ In x ls.
Proof. induction ls as [|l ls IH]; intros ns x; cbn [fold_left]; [simpl; tauto|]. rewrite IH, ensure_names, snoc_if_In. simpl. intuition. Qed.
Lemma ensure_fold_NoDup ls : forall ns, NoDup (map fst ns) -> NoDup (map fst (fold_left ensure_node ls ns)).
Proof. induction ls as [|l ls IH]; intros ns H; cbn [fold_left]; [exact H|]. apply IH. rewrite ensure_names. apply snoc_if_NoDup, H. Qed.
Lemma add_nodes_dinv ls : dinv (g_add_nodes_from empty_digraph ls).
Proof. split; [apply ensure_fold_NoDup; constructor|]. split; [constructor|intros e []]. Qed.
Lemma add_nodes_names ls x : In x (names (g_add_nodes_from empty_digraph ls)) <-> In x ls.
Proof. unfold names, g_add_nodes_from. cbn [g_nodes]. rewrite ensure_fold_names. simpl. tauto. Qed.

Lemma lset_eqb_spec a b : lset_eqb a b = true <-> forall x, In x a <-> In x b.
Proof.
  unfold lset_eqb. rewrite andb_true_iff, !forallb_forall. split.
  - intros [H1 H2] x. split; intros H; apply lmem_In; auto.
  - intros H. split; intros x Hx; apply lmem_In, H, Hx.
Qed.
Lemma diff_fold H es : forall r, dinv r ->
  dinv (fold_left (fun r e => if g_has_edge H e then r else g_add_edge r e) es r)
  /\ forall x, In x (g_edges (fold_left (fun r e => if g_has_edge H e then r else g_add_edge r e) es r)) <-> In x (g_edges r) \/ (In x es /\ ~ In x (g_edges H)).
Proof.
  induction es as [|e es IH]; intros r Hr; cbn [fold_left]; [split; [exact Hr|]; simpl; tauto|].
  destruct (g_has_edge H e) eqn:E.
  - destruct (IH r Hr) as [I1 I2]. split; [exact I1|]. intros x. rewrite I2. simpl. apply emem_In in E. intuition congruence.
  - destruct (IH _ (dinv_add_edge r e Hr)) as [I1 I2]. split; [exact I1|]. intros x. rewrite I2, add_edge_edges. simpl. apply emem_false in E. intuition congruence.
Qed.
Lemma spurious_no_prior s g : edges_list s = [] -> spurious_edges s g = Ok [].
Proof. intros H. unfold spurious_edges, has_prior_net_structure. rewrite H. reflexivity. Qed.
Lemma spurious_prior s g : edges_list s <> [] -> edges_within (nodes_labels s) (edges_list s) -> dinv g ->
  ((forall x, In x (map fst (g_nodes g)) <-> In x (nodes_labels s)) ->
     exists l, spurious_edges s g = Ok l /\ NoDup l /\ forall e, In e l <-> In e (edges_list s) /\ ~ In e (g_edges_view g))
  /\ (~ (forall x, In x (map fst (g_nodes g)) <-> In x (nodes_labels s)) -> spurious_edges s g = Err NetworkXError).
Proof.
  intros Hne Hw Hg. unfold spurious_edges, has_prior_net_structure. destruct (edges_list s) as [|e0 es0] eqn:EE; [congruence|]. rewrite <- EE in *. cbn [negb].
  set (real := g_add_edges_from _ _).
  destruct (add_edges_from_spec (g_add_nodes_from empty_digraph (nodes_labels s)) (edges_list s) (add_nodes_dinv _)) as [D1 [D2 D3]]. fold real in D1, D2, D3.
  assert (HN : forall x, In x (names real) <-> In x (nodes_labels s)).
  { intros x. rewrite D3, add_nodes_names. split; [|tauto]. intros [K|[e [He [-> | ->]]]]; [exact K|apply (Hw e He)|apply (Hw e He)]. }
  assert (HE : forall x, In x (g_edges real) <-> In x (edges_list s)) by (intros x; rewrite D2; simpl; tauto).
  destruct (edges_view_spec _ D1) as [V1 V2]. destruct (edges_view_spec _ Hg) as [W1 W2].
  unfold nx_difference. destruct (lset_eqb (map fst (g_nodes real)) (map fst (g_nodes g))) eqn:EL; cbn [bind].
  - assert (ELp := proj1 (lset_eqb_spec _ _) EL). split; [|intros K; exfalso; apply K; intros x; rewrite <- ELp; apply HN].
    intros _. eexists. split; [reflexivity|].
    destruct (diff_fold g (g_edges_view real) (MkDigraph (g_nodes real) [])) as [F1 F2].
    { split; [apply D1|]. split; [constructor|intros e []]. }
    destruct (edges_view_spec _ F1) as [X1 X2]. split; [exact X1|]. intros e. rewrite X2, F2, V2, HE, W2. simpl. tauto.
  - split; [|reflexivity]. intros K. exfalso. enough (lset_eqb (map fst (g_nodes real)) (map fst (g_nodes g)) = true) by congruence.
    apply lset_eqb_spec. intros x. rewrite K. apply HN.
Qed.

(** ** save_results *)
Lemma read_back_same g : dinv g -> same_digraph (read_back (save_results g)) g.
Proof.
  intros H. destruct (edges_view_spec _ H) as [V1 V2]. unfold read_back, save_results. cbn [nl_nodes nl_links].
  destruct (add_edges_from_spec (g_add_nodes_from empty_digraph (map fst (g_nodes g))) (g_edges_view g) (add_nodes_dinv _)) as [D1 [D2 D3]].
  destruct (edges_view_spec _ D1) as [W1 W2]. split.
  - intros x. fold (names (g_add_edges_from (g_add_nodes_from empty_digraph (map fst (g_nodes g))) (g_edges_view g))).
    rewrite D3, add_nodes_names. split; [|tauto]. destruct H as [_ [_ H]]. intros [K|[e [He K]]]; [exact K|].
    apply V2 in He. destruct K as [-> | ->]; apply (H e He).
  - intros e. rewrite W2, D2. simpl. tauto.
Qed.
Lemma saved_nodes es x : In x (nl_nodes (save_results (g_add_edges_from empty_digraph es))) <-> exists e, In e es /\ (x = fst e \/ x = snd e).
Proof.
  destruct (add_edges_from_spec empty_digraph es dinv_empty) as [_ [_ D3]]. cbn [save_results nl_nodes].
  change (map fst (g_nodes (g_add_edges_from empty_digraph es))) with (names (g_add_edges_from empty_digraph es)). rewrite D3. simpl. tauto.
Qed.

(** ** complete graph *)
Lemma permutations2_In l e : NoDup l -> (In e (permutations2 l) <-> In (fst e) l /\ In (snd e) l /\ fst e <> snd e).
Proof.
  intros Hnd. unfold permutations2. rewrite in_concat. destruct e as [a b]. cbn [fst snd]. split.
  - intros [r [Hr He]]. apply In_nth_error in Hr as [i Hi]. rewrite nth_error_mapi in Hi. destruct (nth_error l i) as [x|] eqn:Ex; [|discriminate].
    cbn [option_map] in Hi. apply (f_equal (fun o => match o with Some z => z | None => r end)) in Hi. rewrite <- Hi in He. apply in_map_iff in He as [y [Ey Hy]]. injection Ey as <- <-.
    assert (Li : i < length l) by (apply nth_error_Some; congruence).
    apply In_nth_error in Hy as [k Hk]. rewrite nth_error_remove in Hk by exact Li.
    split; [eapply nth_error_In, Ex|]. destruct (Nat.ltb_spec k i).
    + split; [eapply nth_error_In, Hk|]. intros ->. pose proof (NoDup_nth_error_inj _ _ _ _ Hnd Ex Hk). lia.
    + split; [eapply nth_error_In, Hk|]. intros ->. pose proof (NoDup_nth_error_inj _ _ _ _ Hnd Ex Hk). lia.
  - intros [Ha [Hb Hab]]. apply In_nth_error in Ha as [i Hi]. apply In_nth_error in Hb as [j Hj].
    exists (map (fun y => (a, y)) (firstn i l ++ skipn (S i) l)). split.
    + apply (nth_error_In _ i). rewrite nth_error_mapi, Hi. reflexivity.
    + apply in_map_iff. exists b. split; [reflexivity|]. assert (Li : i < length l) by (apply nth_error_Some; congruence).
      assert (Nij : i <> j) by (intros ->; congruence).
      apply (nth_error_In _ (if j <? i then j else pred j)). rewrite nth_error_remove by exact Li.
      destruct (Nat.ltb_spec j i) as [L|L].
      * destruct (Nat.ltb_spec j i); [exact Hj|lia].
      * destruct (Nat.ltb_spec (pred j) i); [lia|]. replace (S (pred j)) with j by lia. exact Hj.
Qed.
Lemma complete_graph_spec l : NoDup l -> dinv (build_complete_graph l)
  /\ (forall x, In x (map fst (g_nodes (build_complete_graph l))) <-> In x l)
  /\ forall e, In e (g_edges_view (build_complete_graph l)) <-> In (fst e) l /\ In (snd e) l /\ fst e <> snd e.
Proof.
  intros Hnd. unfold build_complete_graph.
  destruct (add_edges_from_spec (g_add_nodes_from empty_digraph l) (permutations2 l) (add_nodes_dinv _)) as [D1 [D2 D3]].
  destruct (edges_view_spec _ D1) as [V1 V2]. split; [exact D1|]. split.
  - intros x. fold (names (g_add_edges_from (g_add_nodes_from empty_digraph l) (permutations2 l))). rewrite D3, add_nodes_names.
    split; [|tauto]. intros [K|[e [He K]]]; [exact K|]. apply permutations2_In in He; [|exact Hnd]. destruct K as [-> | ->]; tauto.
  - intros e. rewrite V2, D2, permutations2_In by exact Hnd. simpl. tauto.
Qed.
