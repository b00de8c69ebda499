(** The independence test of the constraint-based estimator and its cache. *)
From Verif Require Import Base Lib ModelStructure ModelGraph ModelCims ModelData ModelParams ModelCache ModelCtpc
  SpecStructure SpecGraph SpecComb SpecParams SpecCtpc
  ProofStructure ProofGraph ProofComb ProofIndex ProofParams3 ProofCache.

(** ** Masked structures *)
Lemma mask_cons {A} (b : bool) m (x : A) l : mask_row (b :: m) (x :: l) = if b then x :: mask_row m l else mask_row m l.
Proof. unfold mask_row. cbn [combine filter fst]. destruct b; reflexivity. Qed.
Lemma mask_filter q (l : list label) : mask_row (map q l) l = filter q l.
Proof. induction l as [|x l IH]; [reflexivity|]. cbn [map]. rewrite mask_cons, IH. cbn [filter]. reflexivity. Qed.
Lemma mask_length {A} q (l : list label) : forall (v : list A), length v = length l ->
  length (mask_row (map q l) v) = length (filter q l).
Proof.
  induction l as [|x l IH]; intros [|y v] H; try discriminate; [reflexivity|]. cbn [map]. rewrite mask_cons. cbn [filter].
  simpl in H. destruct (q x); cbn [length]; rewrite IH; lia.
Qed.
Lemma index_nth_shift {A} (P : result nat) (x : A) xs :
  (let* pos := (let* i := P in Ok (S i)) in nth_res (x :: xs) pos) = let* i := P in nth_res xs i.
Proof. destruct P; reflexivity. Qed.
Lemma mask_lookup {A} q (ls : list label) l : q l = true -> forall (v : list A), length v = length ls ->
  (let* pos := py_index l (mask_row (map q ls) ls) in nth_res (mask_row (map q ls) v) pos)
  = (let* pos := py_index l ls in nth_res v pos).
Proof.
  intros Hq. induction ls as [|y ls IH]; intros [|x v] H; try discriminate; [reflexivity|]. cbn [map]. rewrite !mask_cons.
  cbn [py_index]. destruct (String.eqb_spec l y) as [->|Hn].
  - rewrite Hq. cbn [py_index]. rewrite String.eqb_refl. reflexivity.
  - rewrite index_nth_shift, <- IH by (simpl in H; lia). destruct (q y); [|reflexivity].
    cbn [py_index]. destruct (String.eqb_spec l y); [congruence|]. apply index_nth_shift.
Qed.
Definition masked (s : structure) (q : label -> bool) (es : list edge) (tot : nat) : structure :=
  MkStructure (mask_row (map q (nodes_labels s)) (nodes_labels s)) (mask_row (map q (nodes_labels s)) (nodes_indexes s))
    (mask_row (map q (nodes_labels s)) (nodes_values s)) es tot.
Lemma masked_labels s q es tot : nodes_labels (masked s q es tot) = filter q (nodes_labels s).
Proof. apply mask_filter. Qed.
Lemma masked_wf s q es tot : wf_structure s -> wf_structure (masked s q es tot).
Proof.
  intros [H1 [H2 H3]]. unfold wf_structure. rewrite masked_labels. cbn [nodes_indexes nodes_values masked].
  rewrite !mask_length by assumption. split; [apply NoDup_filter', H1|auto].
Qed.
Lemma masked_get s q es tot l : wf_structure s -> q l = true ->
  structure_get_node_indx (masked s q es tot) l = structure_get_node_indx s l
  /\ structure_get_states_number (masked s q es tot) l = structure_get_states_number s l.
Proof.
  intros [H1 [H2 H3]] Hq. unfold structure_get_node_indx, structure_get_states_number; cbn [masked nodes_labels nodes_indexes nodes_values].
  split; apply mask_lookup; assumption.
Qed.
Lemma get_idx s1 s2 l : structure_get_node_indx s1 l = structure_get_node_indx s2 l -> idx_of s1 l = idx_of s2 l.
Proof. unfold idx_of. intros ->. reflexivity. Qed.
Lemma get_val s1 s2 l : structure_get_states_number s1 l = structure_get_states_number s2 l -> val_of s1 l = val_of s2 l.
Proof. unfold val_of. intros ->. reflexivity. Qed.

(** ** What the parameters depend on *)
Lemma params_ext t g1 g2 v : init_fields g1 = init_fields g2 ->
  ng_get_states_number g1 v = ng_get_states_number g2 v -> ng_get_node_indx g1 v = ng_get_node_indx g2 v ->
  compute_parameters_for_node t g1 v = compute_parameters_for_node t g2 v.
Proof.
  unfold init_fields. intros H H1 H2. injection H as I1 I2 I3 I4 I5 I6.
  unfold compute_parameters_for_node. rewrite I1, I2, I3, I4, I5, I6, H1, H2. reflexivity.
Qed.

(** the parameters of [v] with parent set [K], as a function of the set *)
Definition parents_in (s : structure) (K : list label) : list label := filter (fun l => lmem l K) (nodes_labels s).
Definition plain_graph (s : structure) (tot : nat) (v : label) (ps : list label) : netgraph :=
  let is := map (idx_of s) ps in
  let vs := map (val_of s) ps in
  MkNetgraph s (MkDigraph [(v, Some (MkNattr (idx_of s v) (val_of s v) 0))] [])
    (Some (ps, is, vs))
    (Some (build_time_scalar_indexing_structure_for_a_node (val_of s v) vs))
    (Some (build_transition_scalar_indexing_structure_for_a_node (val_of s v) vs))
    (Some (build_time_columns_filtering_for_a_node (idx_of s v) is))
    (Some (build_transition_filtering_for_a_node (idx_of s v) is tot))
    (Some (build_p_comb_structure_for_a_node vs)).
Definition set_params (s : structure) (t : trajectory) (tot : nat) (v : label) (K : list label) : result (set_of_cims cim) :=
  compute_parameters_for_node t (plain_graph s tot v (parents_in s K)) v.

Lemma parents_in_ext s K K' : same_set K K' -> parents_in s K = parents_in s K'.
Proof. intros H. apply filter_ext_In. intros l _. apply eq_true_iff_eq. rewrite !lmem_In. apply H. Qed.
Lemma set_params_ext s t tot v K K' : same_set K K' -> set_params s t tot v K = set_params s t tot v K'.
Proof. intros H. unfold set_params. rewrite (parents_in_ext s K K' H). reflexivity. Qed.

Lemma plain_lookup s tot v ps : ng_get_states_number (plain_graph s tot v ps) v = Ok (val_of s v)
  /\ ng_get_node_indx (plain_graph s tot v ps) v = Ok (idx_of s v).
Proof.
  unfold ng_get_states_number, ng_get_node_indx, g_attr, plain_graph; cbn [ng_graph g_nodes assoc_node].
  rewrite String.eqb_refl. split; reflexivity.
Qed.

(** a graph over a sub-structure whose canonical fields select [K] computes [set_params K] *)
Lemma canonical_params s s2 t tot v g f K :
  ginv g -> ng_struct g = s2 -> init_fields g = canonical_fields s2 v f -> In v (nodes_labels s2) ->
  total_variables_number s2 = tot ->
  (forall l, In l (nodes_labels s2) -> idx_of s2 l = idx_of s l /\ val_of s2 l = val_of s l) ->
  filter f (nodes_labels s2) = parents_in s K ->
  compute_parameters_for_node t g v = set_params s t tot v K.
Proof.
  intros Hg Hs Hi Hv Ht Hl Hf. unfold set_params. destruct (ginv_lookup g v Hg) as [E1 E2]; [rewrite Hs; exact Hv|].
  destruct (plain_lookup s tot v (parents_in s K)) as [P1 P2]. rewrite Hs in E1, E2.
  apply params_ext; [|rewrite P1, E2; f_equal; apply Hl, Hv|rewrite P2, E1; f_equal; apply Hl, Hv].
  rewrite Hi. unfold canonical_fields. rewrite Hf, Ht. destruct (Hl v Hv) as [-> ->].
  assert (M1 : map (idx_of s2) (parents_in s K) = map (idx_of s) (parents_in s K)).
  { apply map_ext_in. intros l Kl. apply Hl. rewrite <- Hf in Kl. apply filter_In in Kl. tauto. }
  assert (M2 : map (val_of s2) (parents_in s K) = map (val_of s) (parents_in s K)).
  { apply map_ext_in. intros l Kl. apply Hl. rewrite <- Hf in Kl. apply filter_In in Kl. tauto. }
  rewrite M1, M2. reflexivity.
Qed.

Lemma filter_filter {A} (f g : A -> bool) l : filter f (filter g l) = filter (fun x => g x && f x) l.
Proof. induction l as [|x l IH]; [reflexivity|]. cbn [filter]. destruct (g x); cbn [filter andb]; rewrite IH; reflexivity. Qed.

Lemma large_small e p v S tot : wf_structure (e_struct e) -> test_ok (e_struct e) v p S ->
  exists g, large_graph e p v S tot = Ok g
   /\ (forall t, compute_parameters_for_node t g v = set_params (e_struct e) t tot v (p :: S))
   /\ exists g1 g2, ng_remove_node g p = Ok g1 /\ ng_fast_init g1 v = Ok g2
       /\ (forall t, compute_parameters_for_node t g2 v = set_params (e_struct e) t tot v S).
Proof.
  intros Hwf [Hv [Hp [Hnd HS]]]. set (s := e_struct e) in *.
  apply NoDup_cons_iff in Hnd as [Hnv Hnd]. apply NoDup_cons_iff in Hnd as [Hnp Hnd].
  assert (Hvp : v <> p) by (intros ->; apply Hnv; left; reflexivity).
  assert (HvS : ~ In v S) by (intros K; apply Hnv; right; exact K).
  unfold large_graph. fold s. set (q := fun n => lmem n (S ++ [v; p])). change (isin_mask (nodes_labels s) (S ++ [v; p])) with (map q (nodes_labels s)).
  set (es := map (fun x => (x, v)) (p :: S)). change (MkStructure _ _ _ es tot) with (masked s q es tot). set (s2 := masked s q es tot).
  assert (Hq : forall l, q l = true <-> In l S \/ l = v \/ l = p).
  { intros l. unfold q. rewrite lmem_In, in_app_iff. simpl. intuition. }
  assert (Hwf2 : wf_structure s2) by (apply masked_wf, Hwf).
  assert (Hlab : forall l, In l (nodes_labels s2) <-> In l (nodes_labels s) /\ (In l S \/ l = v \/ l = p)).
  { intros l. unfold s2. rewrite masked_labels, filter_In, Hq. tauto. }
  assert (Hlk : forall l, In l (nodes_labels s2) -> idx_of s2 l = idx_of s l /\ val_of s2 l = val_of s l).
  { intros l Kl. apply Hlab in Kl as [_ Kl]. apply Hq in Kl. destruct (masked_get s q es tot l Hwf Kl) as [G1 G2].
    split; [apply get_idx, G1|apply get_val, G2]. }
  assert (Hes : edges_within (nodes_labels s2) es).
  { intros x Hx. apply in_map_iff in Hx as [y [<- Hy]]. cbn [fst snd]. rewrite !Hlab. destruct Hy as [<-|Hy]; [tauto|]. specialize (HS y Hy). tauto. }
  assert (Hv2 : In v (nodes_labels s2)) by (apply Hlab; tauto).
  assert (Hp2 : In p (nodes_labels s2)) by (apply Hlab; tauto).
  destruct (fast_init_canonical (new_netgraph s2) v) as [g [E1 [G1 [S1 [D1 F1]]]]]; try assumption.
  { apply dinv_empty. } { intros x []. }
  cbn [new_netgraph ng_struct ng_graph empty_digraph g_edges] in *.
  exists g. split; [exact E1|].
  assert (Hemem : forall l, emem (l, v) es = lmem l (p :: S)).
  { intros l. apply eq_true_iff_eq. rewrite emem_In, lmem_In. unfold es. rewrite in_map_iff. split; [intros [x [Ex Hx]]; congruence|].
    intros Hl. exists l. split; [reflexivity|exact Hl]. }
  assert (Hdom : forall K, (forall l, In l K -> In l S \/ l = p) -> filter (fun l => lmem l K) (nodes_labels s2) = parents_in s K).
  { intros K HK. unfold s2. rewrite masked_labels, filter_filter. apply filter_ext_In. intros l _.
    destruct (lmem l K) eqn:EK; [|apply andb_false_r]. rewrite andb_true_r. apply Hq. apply lmem_In in EK. specialize (HK l EK). tauto. }
  split.
  - intros t. apply (canonical_params s s2 t tot v g _ (p :: S) G1 S1 F1 Hv2 eq_refl Hlk).
    rewrite <- Hdom by (intros l [<-|Hl]; tauto). apply filter_ext_In. intros l _. cbn [emem existsb orb]. apply Hemem.
  - assert (Hp1 : In p (nodes_labels (ng_struct g))) by (rewrite S1; exact Hp2).
    destruct (ginv_remove_node g p G1 Hp1) as [g1 [E2 [G2 [S2 D2]]]]. rewrite S1 in S2.
    destruct (proj1 (remove_node_spec s2 p Hwf2) Hp2) as [s' [Es' [Hwf' [Hlab' [Hkeep [Hed' Htot']]]]]].
    rewrite Es' in S2. injection S2 as S2.
    pose proof G2 as [W2 [I2 [_ N2]]].
    assert (Hv' : In v (nodes_labels s')).
    { rewrite Hlab'. apply filter_In. split; [exact Hv2|]. apply negb_true_iff, String.eqb_neq, Hvp. }
    assert (Hed2 : forall x, In x (edges_list s') <-> In x es /\ fst x <> p /\ snd x <> p).
    { intros x. rewrite Hed', filter_In. unfold mentions. rewrite negb_orb, andb_true_iff, !negb_true_iff, !String.eqb_neq. cbn [s2 masked edges_list]. tauto. }
    destruct (fast_init_canonical g1 v) as [g2 [E3 [G3 [S3 [_ F3]]]]]; try assumption.
    { rewrite <- S2. intros x Hx. apply Hed2 in Hx as [Hx1 Hx2]. rewrite Hlab', !filter_In, !negb_true_iff, !String.eqb_neq.
      specialize (Hes x Hx1). tauto. }
    { rewrite <- S2. exact Hv'. }
    exists g1, g2. split; [exact E2|]. split; [exact E3|]. intros t. rewrite <- S2 in *.
    apply (canonical_params s s' t tot v g2 _ S G3 S3 F3 Hv').
    + rewrite Htot'. reflexivity.
    + intros l Kl. rewrite Hlab' in Kl. apply filter_In in Kl as [Kl Kn]. apply negb_true_iff, String.eqb_neq in Kn.
      destruct (Hkeep l Kn) as [K1 K2]. rewrite (get_idx _ _ _ K1), (get_val _ _ _ K2). apply Hlk, Kl.
    + rewrite <- Hdom by (intros l Hl; tauto). rewrite Hlab', filter_filter. apply filter_ext_In. intros l Kl.
      assert (HB : In (l, v) es <-> l = p \/ In l S).
      { rewrite <- (emem_In (l, v) es), Hemem, lmem_In. split; [intros [<-|B]; auto|intros [->|B]; [left; reflexivity|right; exact B]]. }
      assert (HD : In (l, v) (g_edges (ng_graph g)) <-> In (l, v) es).
      { rewrite D1. split; [intros [[]|B]; exact B|intros B; right; exact B]. }
      apply eq_true_iff_eq. rewrite andb_true_iff, orb_true_iff, !emem_In, negb_true_iff, String.eqb_neq, D2, HD, Hed2, lmem_In, HB.
      assert (In l S -> l <> p) by (intros B ->; contradiction). cbn [fst snd]. tauto.
Qed.

(** ** The test loop does not touch the cache *)
Definition with_cache (ch : cache (set_of_cims cim)) (r : result (bool * list (list bool))) : result (bool * cb_state) :=
  match r with Ok (b, m) => Ok (b, MkState m ch) | Err x => Err x end.
Definition no_cache (r : result (bool * cb_state)) : result (bool * list (list bool)) :=
  match r with Ok (b, st) => Ok (b, st_matrix st) | Err x => Err x end.

Lemma independence_cache e m ch cs c1 c2 th i j :
  independence_test e (MkState m ch) cs c1 c2 th i j
  = with_cache ch (no_cache (independence_test e (MkState m empty_cache) cs c1 c2 th i j)).
Proof.
  unfold independence_test; cbn [st_matrix st_cache]. destruct ((2 <? cs) && _); [|reflexivity].
  destruct (mat_set m i j false); reflexivity.
Qed.
Lemma test_cims_cache e cs c1 th i j l : forall m ch,
  test_cims e (MkState m ch) cs c1 l th i j = with_cache ch (no_cache (test_cims e (MkState m empty_cache) cs c1 l th i j)).
Proof.
  induction l as [|c2 l IH]; intros m ch; [reflexivity|]. cbn [test_cims]. rewrite (independence_cache e m ch), (independence_cache e m empty_cache).
  destruct (independence_test e (MkState m empty_cache) cs c1 c2 th i j) as [[b st]|x]; cbn [no_cache with_cache bind]; [|reflexivity].
  destruct b; [|reflexivity]. apply IH.
Qed.
Lemma test_configs_cache e cs so2 flt th i j l : forall m ch,
  test_configs e (MkState m ch) cs l so2 flt th i j
  = with_cache ch (no_cache (test_configs e (MkState m empty_cache) cs l so2 flt th i j)).
Proof.
  induction l as [|[c1 pc] l IH]; intros m ch; [reflexivity|]. cbn [test_configs].
  destruct (filter_cims_with_mask so2 flt pc) as [cc|x]; cbn [bind]; [|reflexivity].
  rewrite (test_cims_cache e cs c1 th i j cc m ch), (test_cims_cache e cs c1 th i j cc m empty_cache).
  destruct (test_cims e (MkState m empty_cache) cs c1 cc th i j) as [[b st]|x]; cbn [no_cache with_cache bind]; [|reflexivity].
  destruct b; [|reflexivity]. apply IH.
Qed.

(** the test as a function of the data and of the removable matrix only *)
Definition filter_of (s : structure) (p : label) (S : list label) : list bool :=
  map (fun l => negb (String.eqb l p)) (mask_row (isin_mask (nodes_labels s) (S ++ [p])) (nodes_labels s)).
Definition thumb_of (s : structure) (cs : nat) (p : label) (S : list label) : result nat :=
  if 2 <? cs then
    let* parent_val := structure_get_states_number s p in
    Ok (compute_thumb_value parent_val cs (mask_row (isin_mask (nodes_labels s) S) (nodes_values s)))
  else Ok 0.
Definition ideal_test (e : cb_env) (tot : nat) (v : label) (m : list (list bool)) (p : label) (S : list label)
  (cs i j : nat) : result (bool * list (list bool)) :=
  let* so2 := set_params (e_struct e) (e_traj e) tot v (p :: S) in
  let* so1 := set_params (e_struct e) (e_traj e) tot v S in
  let* th := thumb_of (e_struct e) cs p S in
  no_cache (test_configs e (MkState m empty_cache) cs (combine (so_actual_cims so1) (so_p_combs so1)) so2
              (filter_of (e_struct e) p S) th i j).

Definition cached (ch : cache (set_of_cims cim)) (K : list label) : Prop := assoc_set (entries ch) K <> None.
Definition valid_cache (s : structure) (t : trajectory) (tot : nat) (v : label) (ch : cache (set_of_cims cim)) : Prop :=
  synced ch /\ forall K so, assoc_set (entries ch) K = Some so -> set_params s t tot v K = Ok so.

(** cache content after a test *)
Definition put_if_missing (ch : cache (set_of_cims cim)) (K : list label) (r : result (set_of_cims cim)) :=
  match assoc_set (entries ch) K, r with None, Ok so => cache_put ch K so | _, _ => ch end.
Definition cache_after (e : cb_env) (tot : nat) (v p : label) (S : list label) (ch : cache (set_of_cims cim)) :=
  let ch2 := put_if_missing ch (p :: S) (set_params (e_struct e) (e_traj e) tot v (p :: S)) in
  put_if_missing ch2 S (set_params (e_struct e) (e_traj e) tot v S).

Lemma put_if_missing_valid s t tot v ch K : valid_cache s t tot v ch ->
  valid_cache s t tot v (put_if_missing ch K (set_params s t tot v K)).
Proof.
  intros [H1 H2]. unfold put_if_missing. destruct (assoc_set (entries ch) K) eqn:E; [split; assumption|].
  destruct (set_params s t tot v K) as [so|x] eqn:EP; [|split; assumption].
  split; [apply synced_put, H1|]. intros K' so' H. rewrite entries_put, assoc_set_app in H by exact H1.
  destruct (assoc_set (entries ch) K') eqn:E'; [apply H2; congruence|].
  cbn [assoc_set] in H. destruct (lset_eqb K' K) eqn:El; [|discriminate]. injection H as <-.
  apply lset_eqb_true in El. rewrite (set_params_ext s t tot v _ _ El). exact EP.
Qed.
Lemma put_if_missing_cached s t tot v ch K so K' : synced ch -> set_params s t tot v K = Ok so ->
  (cached (put_if_missing ch K (set_params s t tot v K)) K' <-> cached ch K' \/ same_set K' K).
Proof.
  intros H1 EP. unfold put_if_missing, cached. rewrite EP. destruct (assoc_set (entries ch) K) eqn:E.
  - split; [auto|]. intros [H|H]; [exact H|]. rewrite (assoc_set_ext _ _ _ H), E. discriminate.
  - rewrite entries_put, assoc_set_app by exact H1. destruct (assoc_set (entries ch) K') eqn:E'; [split; [left; discriminate|discriminate]|].
    cbn [assoc_set]. destruct (lset_eqb K' K) eqn:El.
    + apply lset_eqb_true in El. split; [auto|discriminate].
    + apply lset_eqb_false in El. split; [intros H; contradiction|]. intros [H|H]; contradiction.
Qed.

Lemma complete_test_spec e m ch p v S cs tot i j : wf_structure (e_struct e) -> test_ok (e_struct e) v p S ->
  valid_cache (e_struct e) (e_traj e) tot v ch ->
  complete_test e (MkState m ch) p v S cs tot i j
  = match assoc_set (entries ch) (p :: S), assoc_set (entries ch) S with
    | Some _, None => Err UnboundLocalError
    | _, _ => with_cache (cache_after e tot v p S ch) (ideal_test e tot v m p S cs i j)
    end.
Proof.
  intros Hwf Ht [Hs Hval].
  destruct (large_small e p v S tot Hwf Ht) as [g [E1 [P1 [g1 [g2 [E2 [E3 P2]]]]]]].
  unfold complete_test. cbn [st_cache st_matrix]. rewrite (find_assoc ch (p :: S) Hs). cbn [bind].
  fold (thumb_of (e_struct e) cs p S). fold (filter_of (e_struct e) p S).
  unfold cache_after, put_if_missing, ideal_test.
  assert (Hne : lset_eqb S (p :: S) = false).
  { apply lset_eqb_false. intros K. destruct Ht as [_ [_ [Hnd _]]]. apply NoDup_cons_iff in Hnd as [_ Hnd]. apply NoDup_cons_iff in Hnd as [Hnp _].
    apply Hnp, K. left; reflexivity. }
  destruct (assoc_set (entries ch) (p :: S)) as [v2|] eqn:A2; cbn [bind].
  - rewrite (find_assoc ch S Hs). cbn [bind]. destruct (assoc_set (entries ch) S) as [v1|] eqn:A1; cbn [bind]; [|reflexivity].
    rewrite (Hval _ _ A2), (Hval _ _ A1). cbn [bind]. destruct (thumb_of (e_struct e) cs p S) as [th|x]; cbn [bind]; [|reflexivity].
    apply test_configs_cache.
  - rewrite E1. cbn [bind]. rewrite P1. destruct (set_params (e_struct e) (e_traj e) tot v (p :: S)) as [v2|x] eqn:EP2; cbn [bind].
    2:{ destruct (assoc_set (entries ch) S); reflexivity. }
    rewrite find_assoc by (apply synced_put, Hs). rewrite entries_put, assoc_set_app by exact Hs. cbn [bind].
    destruct (assoc_set (entries ch) S) as [v1|] eqn:A1; cbn [bind].
    + rewrite (Hval _ _ A1). cbn [bind]. destruct (thumb_of (e_struct e) cs p S) as [th|x]; cbn [bind]; [|reflexivity].
      apply test_configs_cache.
    + cbn [assoc_set]. rewrite Hne. cbn [bind]. rewrite E2. cbn [bind]. rewrite E3. cbn [bind]. rewrite P2.
      destruct (set_params (e_struct e) (e_traj e) tot v S) as [v1|x] eqn:EP1; cbn [bind]; [|reflexivity].
      destruct (thumb_of (e_struct e) cs p S) as [th|x]; cbn [bind]; [|reflexivity].
      apply test_configs_cache.
Qed.
Lemma cache_after_valid e tot v p S ch : valid_cache (e_struct e) (e_traj e) tot v ch ->
  valid_cache (e_struct e) (e_traj e) tot v (cache_after e tot v p S ch).
Proof. intros H. unfold cache_after. apply put_if_missing_valid, put_if_missing_valid, H. Qed.
Lemma valid_empty s t tot v : valid_cache s t tot v empty_cache.
Proof. split; [reflexivity|]. intros K so H. discriminate. Qed.
Lemma cache_after_cached e tot v p S ch m cs i j r K : valid_cache (e_struct e) (e_traj e) tot v ch ->
  ideal_test e tot v m p S cs i j = Ok r ->
  (cached (cache_after e tot v p S ch) K <-> cached ch K \/ same_set K (p :: S) \/ same_set K S).
Proof.
  intros Hv H. unfold ideal_test in H. apply bind_ok in H as [so2 [H2 H]]. apply bind_ok in H as [so1 [H1 H]].
  unfold cache_after. rewrite (put_if_missing_cached _ _ _ _ _ _ so1 K (proj1 (put_if_missing_valid _ _ _ _ _ _ Hv)) H1).
  rewrite (put_if_missing_cached _ _ _ _ _ _ so2 K (proj1 Hv) H2). tauto.
Qed.

(** ** Verdict: the answer and the rule-of-thumb mark, without the matrix *)
Lemma mat_set_get m i j b m' : mat_set m i j b = Ok m' ->
  length m' = length m /\ forall i' j', mat_get m' i' j' = if (i' =? i) && (j' =? j) then Ok b else mat_get m i' j'.
Proof.
  unfold mat_set. intros H. apply bind_ok in H as [row [Hr H]]. destruct (Nat.ltb_spec j (length row)) as [Lj|]; [|discriminate]. injection H as <-.
  split; [apply set_at_length|].
  apply nth_res_ok in Hr. assert (Li : i < length m) by (apply nth_error_Some; congruence).
  intros i' j'. unfold mat_get, nth_res. rewrite nth_error_set_at, (Nat.eqb_sym i i').
  destruct (Nat.eqb_spec i' i) as [->|]; cbn [andb]; [|reflexivity]. destruct (Nat.ltb_spec i (length m)); [|lia].
  rewrite Hr. cbn [bind]. rewrite nth_error_set_at, (Nat.eqb_sym j j'). destruct (Nat.eqb_spec j' j) as [->|]; cbn [andb]; [|reflexivity].
  destruct (Nat.ltb_spec j (length row)); [|lia]. reflexivity.
Qed.
Lemma mat_set_ok m i j b b0 : mat_get m i j = Ok b0 -> exists m', mat_set m i j b = Ok m'.
Proof.
  unfold mat_get, mat_set. intros H. apply bind_ok in H as [row [Hr H]]. rewrite Hr. cbn [bind].
  apply nth_res_ok in H. assert (j < length row) by (apply nth_error_Some; congruence).
  destruct (Nat.ltb_spec j (length row)); [eauto|lia].
Qed.
Definition apply_mark (i j : nat) (m : list (list bool)) (r : result (bool * bool)) : result (bool * list (list bool)) :=
  let* (b, mk) := r in
  if (mk : bool) then let* m' := mat_set m i j false in Ok (b, m') else Ok (b, m).

Section verdict.
Variables (e : cb_env) (cs : nat).
Definition too_few (th : nat) (c1 : cim) : bool := (2 <? cs) && below_threshold (diagonal_sum (c_trans c1)) th (e_threshold e).
Fixpoint verdict_cims (c1 : cim) (th : nat) (l : list cim) : bool * bool :=
  match l with
  | [] => (true, false)
  | c2 :: r => if too_few th c1 then (false, true)
               else if e_tests e cs c1 c2 then verdict_cims c1 th r else (false, false)
  end.
Fixpoint verdict_configs (so2 : set_of_cims cim) (flt : list bool) (th : nat) (l : list (cim * list nat)) : result (bool * bool) :=
  match l with
  | [] => Ok (true, false)
  | (c1, pc) :: r =>
      let* cc := filter_cims_with_mask so2 flt pc in
      match verdict_cims c1 th cc with
      | (true, _) => verdict_configs so2 flt th r
      | x => Ok x
      end
  end.
Lemma verdict_cims_true c1 th l mk : verdict_cims c1 th l = (true, mk) -> mk = false.
Proof.
  induction l as [|c2 l IH]; cbn [verdict_cims]; [congruence|]. destruct (too_few th c1); [congruence|].
  destruct (e_tests e cs c1 c2); [exact IH|congruence].
Qed.
Lemma test_cims_verdict i j c1 th l : forall m,
  no_cache (test_cims e (MkState m empty_cache) cs c1 l th i j) = apply_mark i j m (Ok (verdict_cims c1 th l)).
Proof.
  induction l as [|c2 l IH]; intros m; [reflexivity|]. cbn [test_cims verdict_cims]. unfold independence_test. fold (too_few th c1).
  cbn [st_matrix st_cache]. destruct (too_few th c1).
  - unfold apply_mark. cbn [bind]. destruct (mat_set m i j false); reflexivity.
  - cbn [bind]. destruct (e_tests e cs c1 c2); [apply IH|reflexivity].
Qed.
Lemma test_configs_verdict i j so2 flt th l : forall m,
  no_cache (test_configs e (MkState m empty_cache) cs l so2 flt th i j) = apply_mark i j m (verdict_configs so2 flt th l).
Proof.
  induction l as [|[c1 pc] l IH]; intros m; [reflexivity|]. cbn [test_configs verdict_configs].
  destruct (filter_cims_with_mask so2 flt pc) as [cc|x]; cbn [bind]; [|reflexivity].
  pose proof (test_cims_verdict i j c1 th cc m) as H. destruct (verdict_cims c1 th cc) as [b mk] eqn:EV.
  destruct (test_cims e (MkState m empty_cache) cs c1 cc th i j) as [[b' [m' ch']]|x] eqn:ET; cbn [no_cache bind st_matrix] in *.
  - assert (ch' = empty_cache).
    { rewrite test_cims_cache in ET. destruct (no_cache _) as [[? ?]|]; cbn [with_cache] in ET; [|discriminate]. congruence. }
    subst ch'. unfold apply_mark in H. cbn [bind] in H. destruct b.
    + apply verdict_cims_true in EV. subst mk. injection H as -> ->. apply IH.
    + unfold apply_mark. cbn [bind]. destruct mk; [destruct (mat_set m i j false); cbn [bind] in *; [|discriminate]|]; injection H as -> ->; reflexivity.
  - unfold apply_mark in *. cbn [bind] in *. destruct b; [apply verdict_cims_true in EV; subst mk; discriminate|].
    destruct mk; [destruct (mat_set m i j false); cbn [bind] in *; congruence|discriminate].
Qed.
End verdict.

Definition verdict (e : cb_env) (tot : nat) (v p : label) (S : list label) (cs : nat) : result (bool * bool) :=
  let* so2 := set_params (e_struct e) (e_traj e) tot v (p :: S) in
  let* so1 := set_params (e_struct e) (e_traj e) tot v S in
  let* th := thumb_of (e_struct e) cs p S in
  verdict_configs e cs so2 (filter_of (e_struct e) p S) th (combine (so_actual_cims so1) (so_p_combs so1)).
Lemma ideal_verdict e tot v m p S cs i j : ideal_test e tot v m p S cs i j = apply_mark i j m (verdict e tot v p S cs).
Proof.
  unfold ideal_test, verdict. destruct (set_params _ _ _ _ (p :: S)) as [so2|x]; cbn [bind]; [|reflexivity].
  destruct (set_params _ _ _ _ S) as [so1|x]; cbn [bind]; [|reflexivity].
  destruct (thumb_of _ cs p S) as [th|x]; cbn [bind]; [|reflexivity]. apply test_configs_verdict.
Qed.
Lemma verdict_mark e tot v p S cs : verdict e tot v p S cs = Ok (true, true) -> False.
Proof.
  unfold verdict. intros H. apply bind_ok in H as [so2 [_ H]]. apply bind_ok in H as [so1 [_ H]]. apply bind_ok in H as [th [_ H]].
  revert H. induction (combine (so_actual_cims so1) (so_p_combs so1)) as [|[c1 pc] l IH]; cbn [verdict_configs]; [discriminate|].
  intros H. apply bind_ok in H as [cc [_ H]]. destruct (verdict_cims e cs c1 th cc) as [[] mk]; [apply IH, H|discriminate].
Qed.
Lemma apply_mark_get i j m r b m' : apply_mark i j m r = Ok (b, m') -> length m' = length m /\
  forall i' j', mat_get m' i' j' = mat_get m i' j' \/ (i' = i /\ j' = j /\ mat_get m' i' j' = Ok false).
Proof.
  unfold apply_mark. intros H. apply bind_ok in H as [[b0 mk] [_ H]]. destruct mk.
  - apply bind_ok in H as [m1 [H1 H]]. injection H as <- <-. apply mat_set_get in H1 as [L H1]. split; [exact L|]. intros i' j'. rewrite H1.
    destruct (Nat.eqb_spec i' i), (Nat.eqb_spec j' j); cbn [andb]; auto.
  - injection H as <- <-. split; [reflexivity|]. auto.
Qed.
