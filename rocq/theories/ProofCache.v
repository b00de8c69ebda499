(** Proofs for C17, C18 and C40. *)
From Verif Require Import Base Lib ModelStructure ModelGraph ModelCims ModelData ModelParams ModelCache ModelCtpc
  SpecStructure SpecGraph SpecCtpc ProofStructure ProofGraph ProofIndex.

(** ** Cache *)
Lemma lset_eqb_true a b : lset_eqb a b = true <-> same_set a b.
Proof. exact (lset_eqb_spec a b). Qed.
Lemma NoDup_app_intro {A} (a b : list A) : NoDup a -> NoDup b -> (forall x, In x a -> ~ In x b) -> NoDup (a ++ b).
Proof.
  induction 1 as [|x a H1 H2 IH]; intros Hb Hd; [exact Hb|]. simpl. constructor.
  - rewrite in_app_iff. intros [K|K]; [tauto|]. apply (Hd x); [left; reflexivity|exact K].
  - apply IH; [exact Hb|]. intros y Hy. apply Hd. right; exact Hy.
Qed.
Definition synced {V} (c : cache V) : Prop := length (c_keys c) = length (c_vals c).

Lemma set_index_ok k l i : set_index k l = Ok i -> exists y, nth_error l i = Some y /\ same_set k y.
Proof.
  revert i. induction l as [|y r IH]; intros i H; simpl in H; [discriminate|].
  destruct (lset_eqb k y) eqn:E.
  - injection H as <-. exists y. split; [reflexivity|]. apply lset_eqb_true, E.
  - apply bind_ok in H as [j [Hj He]]. injection He as <-. destruct (IH j Hj) as [y' [Y1 Y2]]. eauto.
Qed.
Lemma set_index_err k l e : set_index k l = Err e -> e = ValueError.
Proof.
  induction l as [|y r IH]; simpl; intros H; [congruence|]. destruct (lset_eqb k y); [discriminate|].
  destruct (set_index k r); simpl in H; [discriminate|]. apply IH; congruence.
Qed.

(** association view *)
Definition entries {V} (c : cache V) : list (list label * V) := combine (c_keys c) (c_vals c).
Fixpoint assoc_set {V} (l : list (list label * V)) (k : list label) : option V :=
  match l with [] => None | (k', v) :: r => if lset_eqb k k' then Some v else assoc_set r k end.

Lemma find_assoc {V} (c : cache V) k : synced c -> cache_find c k = Ok (assoc_set (entries c) k).
Proof.
  unfold synced, cache_find, entries. generalize (c_vals c) as vs. induction (c_keys c) as [|y r IH]; intros vs H; [reflexivity|].
  destruct vs as [|v vs]; [discriminate|]. cbn [set_index combine assoc_set]. destruct (lset_eqb k y); [reflexivity|].
  specialize (IH vs ltac:(simpl in H; lia)). destruct (set_index k r) as [i|e] eqn:E; cbn [bind] in *.
  - exact IH.
  - apply set_index_err in E; subst. exact IH.
Qed.
Lemma synced_put {V} (c : cache V) k v : synced c -> synced (cache_put c k v).
Proof. unfold synced, cache_put; cbn. rewrite !app_length. simpl. lia. Qed.
Lemma entries_put {V} (c : cache V) k v : synced c -> entries (cache_put c k v) = entries c ++ [(k, v)].
Proof.
  unfold synced, cache_put, entries; cbn. generalize (c_vals c). induction (c_keys c) as [|y r IH]; intros [|w vs] H; try discriminate; [reflexivity|].
  simpl. f_equal. apply IH. simpl in H; lia.
Qed.
Lemma assoc_set_app {V} (l1 l2 : list (list label * V)) k :
  assoc_set (l1 ++ l2) k = match assoc_set l1 k with Some v => Some v | None => assoc_set l2 k end.
Proof. induction l1 as [|[k' v] r IH]; [reflexivity|]. simpl. destruct (lset_eqb k k'); [reflexivity|exact IH]. Qed.
Lemma lset_eqb_false a b : lset_eqb a b = false <-> ~ same_set a b.
Proof.
  destruct (lset_eqb a b) eqn:E; split; intros H; try discriminate; try reflexivity.
  - apply lset_eqb_true in E. contradiction.
  - intros K. apply lset_eqb_true in K. congruence.
Qed.
Lemma same_set_refl a : same_set a a. Proof. intros x; tauto. Qed.
Lemma same_set_sym a b : same_set a b -> same_set b a. Proof. intros H x; specialize (H x); tauto. Qed.
Lemma same_set_trans a b c : same_set a b -> same_set b c -> same_set a c.
Proof. intros H K x; specialize (H x); specialize (K x); tauto. Qed.
Lemma assoc_set_ext {V} (l : list (list label * V)) a b : same_set a b -> assoc_set l a = assoc_set l b.
Proof.
  intros H. induction l as [|[k v] r IH]; [reflexivity|]. simpl. rewrite IH.
  destruct (lset_eqb a k) eqn:E1, (lset_eqb b k) eqn:E2; try reflexivity.
  - apply lset_eqb_true in E1. apply lset_eqb_false in E2. exfalso. apply E2. eapply same_set_trans; [apply same_set_sym, H|exact E1].
  - apply lset_eqb_false in E1. apply lset_eqb_true in E2. exfalso. apply E1. eapply same_set_trans; [exact H|exact E2].
Qed.

Definition puts {V} (os : list (cache_op V)) : list (list label * V) :=
  flat_map (fun o => match o with CPut k v => [(k, v)] | _ => [] end) os.

Lemma run_no_clear {V} (os : list (cache_op V)) : forall c, synced c -> ~ In CClear os ->
  synced (fold_left run_cache_op os c) /\ entries (fold_left run_cache_op os c) = entries c ++ puts os.
Proof.
  induction os as [|o os IH]; intros c H Hn; [simpl; rewrite app_nil_r; auto|].
  destruct o as [k v|k|]; cbn [fold_left run_cache_op].
  - destruct (IH (cache_put c k v)) as [I1 I2]; [apply synced_put, H|intros K; apply Hn; right; exact K|].
    split; [exact I1|]. rewrite I2, entries_put by exact H. rewrite <- app_assoc. reflexivity.
  - apply IH; [exact H|intros K; apply Hn; right; exact K].
  - exfalso; apply Hn; left; reflexivity.
Qed.
Lemma puts_In {V} (os : list (cache_op V)) k v : In (k, v) (puts os) <-> In (CPut k v) os.
Proof.
  unfold puts. rewrite in_flat_map. split.
  - intros [[k' v'|k'|] [H1 H2]]; simpl in H2; try contradiction. destruct H2 as [H2|[]]. congruence.
  - intros H. exists (CPut k v). split; [exact H|left; reflexivity].
Qed.

Lemma cache_history {V} (os post : list (cache_op V)) k : since_last_clear os post ->
  exists r, cache_find (run_cache_ops os) k = Ok r
   /\ match r with Some v => first_put post k v | None => never_put post k end.
Proof.
  intros [Hn [pre [-> Hpre]]]. unfold run_cache_ops. rewrite fold_left_app.
  assert (E : fold_left run_cache_op pre empty_cache = (empty_cache : cache V)).
  { destruct Hpre as [->|[q ->]]; [reflexivity|]. rewrite fold_left_app. reflexivity. }
  rewrite E. destruct (run_no_clear post (empty_cache : cache V) eq_refl Hn) as [Hs He].
  rewrite find_assoc by exact Hs. rewrite He. cbn [entries empty_cache c_keys c_vals combine app].
  eexists. split; [reflexivity|]. clear - Hn.
  induction post as [|o post IH]; [intros k' v []|].
  assert (Hn' : ~ In CClear post) by (intros K; apply Hn; right; exact K). specialize (IH Hn').
  destruct o as [k' v'|k'|].
  - cbn [puts flat_map app assoc_set]. fold (puts post). destruct (lset_eqb k k') eqn:El.
    + exists [], k', post. split; [reflexivity|]. split; [apply lset_eqb_true, El|]. intros ? ? [].
    + apply lset_eqb_false in El. destruct (assoc_set (puts post) k) as [v|].
      * destruct IH as [b [k0 [a [-> [H1 H2]]]]]. exists (CPut k' v' :: b), k0, a. split; [reflexivity|]. split; [exact H1|].
        intros k1 v1 [K|K]; [|apply (H2 k1 v1 K)]. injection K as -> ->. exact El.
      * intros k1 v1 [K|K]; [|apply (IH k1 v1 K)]. injection K as -> ->. exact El.
  - cbn [puts flat_map app]. fold (puts post). destruct (assoc_set (puts post) k) as [v|].
    + destruct IH as [b [k0 [a [-> [H1 H2]]]]]. exists (CFind k' :: b), k0, a. split; [reflexivity|]. split; [exact H1|].
      intros k1 v1 [K|K]; [discriminate|apply (H2 k1 v1 K)].
    + intros k1 v1 [K|K]; [discriminate|apply (IH k1 v1 K)].
  - exfalso; apply Hn; left; reflexivity.
Qed.
Lemma since_last_clear_total {V} (os : list (cache_op V)) : exists post, since_last_clear os post.
Proof.
  induction os as [|o os [post [H1 [pre [-> H2]]]]]; [exists []; split; [tauto|exists []; auto]|].
  destruct H2 as [->|[q ->]].
  - destruct o as [k v|k|].
    + exists (CPut k v :: post). split; [intros [K|K]; [discriminate|tauto]|]. exists []. auto.
    + exists (CFind k :: post). split; [intros [K|K]; [discriminate|tauto]|]. exists []. auto.
    + exists post. split; [exact H1|]. exists [CClear]. split; [reflexivity|right; exists []; reflexivity].
  - exists post. split; [exact H1|]. exists (o :: q ++ [CClear]). split; [reflexivity|right; exists (o :: q); reflexivity].
Qed.

(** ** combinations *)
Lemma sublist_refl {A} (l : list A) : sublist l l.
Proof. induction l; constructor; assumption. Qed.
Lemma sublist_nil {A} (l : list A) : sublist [] l.
Proof. induction l; constructor; assumption. Qed.
Lemma sublist_In {A} (a b : list A) x : sublist a b -> In x a -> In x b.
Proof. induction 1; simpl; intuition. Qed.
Lemma sublist_length {A} (a b : list A) : sublist a b -> length a <= length b.
Proof. induction 1; simpl; lia. Qed.
Lemma sublist_NoDup {A} (a b : list A) : sublist a b -> NoDup b -> NoDup a.
Proof.
  induction 1 as [|x a b H IH|x a b H IH]; intros K; [constructor| |]; apply NoDup_cons_iff in K as [K1 K2]; [auto|].
  constructor; [|auto]. intros L. apply K1. eapply sublist_In; eassumption.
Qed.
Lemma sublist_trans {A} (a b c : list A) : sublist a b -> sublist b c -> sublist a c.
Proof.
  intros H K. revert a H. induction K as [|x b c K IH|x b c K IH]; intros a H; [exact H|constructor; auto|].
  inversion H; subst; [apply sub_skip|apply sub_keep]; auto.
Qed.
Lemma sublist_filter {A} (f : A -> bool) l : sublist (filter f l) l.
Proof. induction l as [|x l IH]; simpl; [constructor|]. destruct (f x); constructor; assumption. Qed.

Lemma combinations_spec l : forall k x, In x (combinations k l) <-> sublist x l /\ length x = k.
Proof.
  induction l as [|y l IH]; intros k x; destruct k as [|k]; cbn [combinations].
  - split; [intros [<-|[]]; split; [constructor|reflexivity]|]. intros [H1 H2]. left. destruct x; [reflexivity|discriminate].
  - split; [intros []|]. intros [H1 H2]. inversion H1; subst; discriminate.
  - split; [intros [<-|[]]; split; [apply sublist_nil|reflexivity]|]. intros [H1 H2]. left. destruct x; [reflexivity|discriminate].
  - rewrite in_app_iff, in_map_iff. split.
    + intros [[z [<- Hz]]|H]; [apply IH in Hz as [Z1 Z2]; split; [apply sub_keep; exact Z1|simpl; lia]|].
      apply IH in H as [H1 H2]. split; [constructor; exact H1|exact H2].
    + intros [H1 H2]. inversion H1; subst.
      * right. apply IH. split; assumption.
      * left. exists a. split; [reflexivity|]. apply IH. split; [assumption|]. simpl in H2; lia.
Qed.
Lemma combinations_NoDup l : NoDup l -> forall k, NoDup (combinations k l).
Proof.
  induction 1 as [|y l Hy Hl IH]; intros k; destruct k as [|k]; cbn [combinations]; try (repeat constructor; simpl; tauto).
  apply NoDup_app_intro; [|apply IH|].
  - apply FinFun.Injective_map_NoDup; [intros a b H; congruence|apply IH].
  - intros x H1 H2. apply in_map_iff in H1 as [z [<- _]]. apply combinations_spec in H2 as [H2 _].
    apply Hy. eapply sublist_In; [exact H2|left; reflexivity].
Qed.
Lemma py_remove_filter p l : NoDup l -> In p l -> py_remove String.eqb p l = Ok (filter (fun x => negb (String.eqb x p)) l).
Proof.
  induction l as [|y l IH]; intros H Hin; [contradiction|]. apply NoDup_cons_iff in H as [H1 H2]. cbn [py_remove filter].
  destruct (String.eqb_spec p y) as [->|Hn].
  - rewrite String.eqb_refl. cbn [negb]. f_equal. symmetry. apply filter_true. intros a Ha. apply negb_true_iff, String.eqb_neq. congruence.
  - destruct Hin as [K|Hin]; [congruence|]. rewrite (IH H2 Hin). cbn [bind].
    destruct (String.eqb_spec y p); [congruence|]. reflexivity.
Qed.
Lemma py_remove_absent p l : ~ In p l -> py_remove String.eqb p l = Err ValueError.
Proof.
  induction l as [|y l IH]; intros H; [reflexivity|]. cbn [py_remove].
  destruct (String.eqb_spec p y) as [->|Hn]; [exfalso; apply H; left; reflexivity|]. rewrite IH; [reflexivity|]. intros K; apply H; right; exact K.
Qed.
Lemma subsets_spec u k p : NoDup u ->
  (In p u -> exists L, generate_possible_sub_sets_of_size u k p = Ok L /\ NoDup L
     /\ forall x, In x L <-> sublist x u /\ ~ In p x /\ length x = k)
  /\ (~ In p u -> generate_possible_sub_sets_of_size u k p = Err ValueError).
Proof.
  intros Hu. unfold generate_possible_sub_sets_of_size. split; intros Hp.
  - rewrite py_remove_filter by assumption. cbn [bind]. eexists. split; [reflexivity|].
    split; [apply combinations_NoDup, NoDup_filter', Hu|]. intros x. rewrite combinations_spec. split.
    + intros [H1 H2]. split; [eapply sublist_trans; [exact H1|apply sublist_filter]|]. split; [|exact H2].
      intros K. apply (sublist_In _ _ _ H1) in K. apply filter_In in K as [_ K]. rewrite String.eqb_refl in K; discriminate.
    + intros [H1 [H2 H3]]. split; [|exact H3]. clear - H1 H2. induction H1 as [|y a b H IH|y a b H IH]; cbn [filter]; [constructor| |].
      * destruct (String.eqb_spec y p); cbn [negb]; [|constructor]; auto.
      * destruct (String.eqb_spec y p) as [->|]; cbn [negb]; [exfalso; apply H2; left; reflexivity|]. apply sub_keep. apply IH. intros K; apply H2; right; exact K.
  - rewrite py_remove_absent by exact Hp. reflexivity.
Qed.

(** ** complete graph *)
Lemma ensure_fold ls : forall ns, NoDup (map fst ns ++ ls) -> map fst (fold_left ensure_node ls ns) = map fst ns ++ ls.
Proof.
  induction ls as [|l ls IH]; intros ns H; cbn [fold_left]; [rewrite app_nil_r; reflexivity|].
  assert (Hn : lmem l (map fst ns) = false).
  { apply lmem_false. intros K. apply NoDup_remove_2 in H. apply H. apply in_app_iff. left; exact K. }
  assert (E : map fst (ensure_node ns l) = map fst ns ++ [l]) by (rewrite ensure_names, Hn; reflexivity).
  rewrite IH; rewrite E, <- app_assoc; [reflexivity|exact H].
Qed.
Lemma permutations2_In l a b : NoDup l -> (In (a, b) (permutations2 l) <-> In a l /\ In b l /\ a <> b).
Proof.
  intros Hl. unfold permutations2. rewrite in_concat. split.
  - intros [x [H1 H2]]. apply In_nth_error in H1 as [i Hi]. rewrite nth_error_mapi in Hi.
    destruct (nth_error l i) as [y|] eqn:E; [|discriminate]. injection Hi as <-.
    apply in_map_iff in H2 as [z [Ez Hz]]. injection Ez as -> ->.
    apply in_app_iff in Hz. destruct (nth_error_split l i E) as [l1 [l2 [-> Hlen]]]. subst i.
    assert (E1 : firstn (length l1) (l1 ++ a :: l2) = l1).
    { rewrite firstn_app, firstn_all, Nat.sub_diag. cbn [firstn]. apply app_nil_r. }
    assert (E2 : skipn (S (length l1)) (l1 ++ a :: l2) = l2).
    { rewrite skipn_app, skipn_all2 by lia. replace (S (length l1) - length l1) with 1 by lia. reflexivity. }
    change (match l1 ++ a :: l2 with [] => [] | _ :: l0 => skipn (length l1) l0 end) with (skipn (S (length l1)) (l1 ++ a :: l2)) in Hz.
    rewrite E1, E2 in Hz.
    apply NoDup_remove_2 in Hl. rewrite in_app_iff in Hl.
    rewrite !in_app_iff. cbn [In]. split; [tauto|]. split; [tauto|]. intros <-. tauto.
  - intros [Ha [Hb Hne]]. apply In_nth_error in Ha as [i Hi]. exists (map (fun y => (a, y)) (firstn i l ++ skipn (S i) l)). split.
    + apply (nth_error_In _ i). rewrite nth_error_mapi, Hi. reflexivity.
    + apply in_map_iff. exists b. split; [reflexivity|]. apply In_nth_error in Hb as [j Hj].
      assert (i <> j) by congruence. destruct (Nat.lt_ge_cases j i).
      * apply in_app_iff; left. apply (nth_error_In _ j). rewrite nth_error_firstn' by lia. exact Hj.
      * apply in_app_iff; right. apply (nth_error_In _ (j - S i)). rewrite nth_error_skipn'. replace (S i + (j - S i)) with j by lia. exact Hj.
Qed.

Lemma complete_graph_spec l : NoDup l ->
  map fst (g_nodes (build_complete_graph l)) = l /\ NoDup (g_edges_view (build_complete_graph l))
  /\ forall a b, In (a, b) (g_edges_view (build_complete_graph l)) <-> In a l /\ In b l /\ a <> b.
Proof.
  intros Hl. unfold build_complete_graph.
  set (d0 := g_add_nodes_from empty_digraph l).
  assert (N0 : names d0 = l) by (unfold names, d0, g_add_nodes_from; cbn; apply (ensure_fold l []); exact Hl).
  assert (D0 : dinv d0).
  { split; [fold (names d0); rewrite N0; exact Hl|]. split; [constructor|]. intros e []. }
  destruct (add_edges_from_spec d0 (permutations2 l) D0) as [D1 [D2 _]].
  set (d1 := g_add_edges_from d0 (permutations2 l)) in *.
  assert (N1 : names d1 = l).
  { subst d1. rewrite <- N0 at 2. assert (Hp : forall e, In e (permutations2 l) -> In (fst e) (names d0) /\ In (snd e) (names d0)).
    { intros [a b] He. apply permutations2_In in He; [|exact Hl]. rewrite N0. simpl. tauto. }
    clearbody d0. clear - Hp. unfold g_add_edges_from. revert d0 Hp. induction (permutations2 l) as [|e es IH]; intros d0 Hp; [reflexivity|].
    assert (En : names (g_add_edge d0 e) = names d0).
    { destruct (Hp e (or_introl eq_refl)) as [P1 P2]. unfold names, g_add_edge; cbn [g_nodes]. unfold ensure_node.
      unfold names in P1, P2. apply lmem_In in P1, P2. rewrite P1, P2. reflexivity. }
    cbn [fold_left]. rewrite IH; [exact En|]. intros e' He'. rewrite En. apply Hp. right; exact He'. }
  split; [exact N1|]. destruct (edges_view_spec d1 D1) as [V1 V2]. split; [exact V1|].
  intros a b. rewrite V2, D2, permutations2_In by exact Hl. simpl. tauto.
Qed.

(** ** removable matrix *)
Definition dims (n : nat) (m : list (list bool)) : Prop := length m = n /\ forall row, In row m -> length row = n.
Lemma mat_get_ok n m i j : dims n m -> i < n -> j < n -> exists b, mat_get m i j = Ok b.
Proof.
  intros [H1 H2] Hi Hj. unfold mat_get. destruct (nth_res_lt m i ltac:(lia)) as [row Hr]. rewrite Hr. cbn [bind].
  apply nth_res_ok in Hr. apply nth_res_lt. rewrite (H2 row); [exact Hj|]. eapply nth_error_In, Hr.
Qed.
Lemma mat_set_spec n m i j b : dims n m -> i < n -> j < n -> exists m', mat_set m i j b = Ok m' /\ dims n m'
  /\ forall i' j', mat_get m' i' j' = if (i' =? i) && (j' =? j) then Ok b else mat_get m i' j'.
Proof.
  intros [H1 H2] Hi Hj. unfold mat_set. destruct (nth_res_lt m i ltac:(lia)) as [row Hr]. rewrite Hr. cbn [bind].
  apply nth_res_ok in Hr. assert (Lr : length row = n) by (apply H2; eapply nth_error_In, Hr).
  destruct (Nat.ltb_spec j (length row)); [|lia]. eexists. split; [reflexivity|]. split.
  - split; [rewrite set_at_length; exact H1|]. intros r Hin. apply In_nth_error in Hin as [k Hk]. rewrite nth_error_set_at in Hk.
    destruct (Nat.eqb_spec i k) as [->|]; cbn [andb] in Hk; [|apply H2; eapply nth_error_In, Hk].
    destruct (Nat.ltb_spec k (length m)); [|lia]. injection Hk as <-. rewrite set_at_length. exact Lr.
  - intros i' j'. unfold mat_get, nth_res. rewrite nth_error_set_at. rewrite (Nat.eqb_sym i i').
    destruct (Nat.eqb_spec i' i) as [->|]; cbn [andb]; [|reflexivity]. destruct (Nat.ltb_spec i (length m)); [|lia].
    rewrite Hr. cbn [bind]. rewrite nth_error_set_at, (Nat.eqb_sym j j'). destruct (Nat.eqb_spec j' j) as [->|]; cbn [andb]; [|reflexivity].
    destruct (Nat.ltb_spec j (length row)); [|lia]. reflexivity.
Qed.
Definition known_at (s : structure) (known : list edge) (i j : nat) : bool :=
  existsb (fun e => (idx_of s (fst e) =? i) && (idx_of s (snd e) =? j)) known.
Definition mark_step (s : structure) (acc : result (list (list bool))) (e : edge) :=
  let* m := acc in
  let* i := structure_get_node_indx s (fst e) in
  let* j := structure_get_node_indx s (snd e) in
  mat_set m i j false.
Lemma mark_err s known e : fold_left (mark_step s) known (Err e) = Err e.
Proof. induction known as [|x r IH]; [reflexivity|exact IH]. Qed.
Lemma get_node_indx_unknown s l : ~ In l (nodes_labels s) -> structure_get_node_indx s l = Err ValueError.
Proof. intros H. unfold structure_get_node_indx. rewrite py_index_not_In by exact H. reflexivity. Qed.

Lemma mark_fold s tot known : wf_structure s -> (forall l, In l (nodes_labels s) -> idx_of s l < tot) ->
  forall m, dims tot m ->
  (edges_within (nodes_labels s) known -> exists m', fold_left (mark_step s) known (Ok m) = Ok m' /\ dims tot m'
     /\ forall i j, mat_get m' i j = if known_at s known i j then Ok false else mat_get m i j)
  /\ (~ edges_within (nodes_labels s) known -> fold_left (mark_step s) known (Ok m) = Err ValueError).
Proof.
  intros Hwf Hi. induction known as [|e r IH]; intros m Hm.
  - split; [intros _; exists m; auto|]. intros K; exfalso; apply K. intros ? [].
  - cbn [fold_left]. unfold mark_step at 2 4. cbn [bind].
    destruct (in_dec string_dec (fst e) (nodes_labels s)) as [H1|H1].
    2:{ rewrite get_node_indx_unknown by exact H1. cbn [bind]. rewrite mark_err. split; [|reflexivity].
        intros K; exfalso; apply H1, (K e); left; reflexivity. }
    destruct (wf_lookup s _ Hwf H1) as [_ [_ [_ [_ [E1 _]]]]]. rewrite E1. cbn [bind].
    destruct (in_dec string_dec (snd e) (nodes_labels s)) as [H2|H2].
    2:{ rewrite get_node_indx_unknown by exact H2. cbn [bind]. rewrite mark_err. split; [|reflexivity].
        intros K; exfalso; apply H2, (K e); left; reflexivity. }
    destruct (wf_lookup s _ Hwf H2) as [_ [_ [_ [_ [E2 _]]]]]. rewrite E2. cbn [bind].
    destruct (mat_set_spec tot m (idx_of s (fst e)) (idx_of s (snd e)) false Hm (Hi _ H1) (Hi _ H2)) as [m1 [-> [D1 G1]]].
    destruct (IH m1 D1) as [I1 I2]. split.
    + intros K. destruct I1 as [m' [-> [D' G']]]; [intros x Hx; apply K; right; exact Hx|].
      exists m'. split; [reflexivity|]. split; [exact D'|]. intros i j. rewrite G'. cbn [known_at existsb]. fold (known_at s r i j).
      rewrite G1. rewrite (Nat.eqb_sym (idx_of s (fst e)) i), (Nat.eqb_sym (idx_of s (snd e)) j).
      destruct ((i =? idx_of s (fst e)) && (j =? idx_of s (snd e))); cbn [orb]; [|reflexivity]. destruct (known_at s r i j); reflexivity.
    + intros K. apply I2. intros K'. apply K. intros x [<-|Hx]; [split; assumption|apply K', Hx].
Qed.

Lemma dims_repeat n b : dims n (repeat (repeat b n) n).
Proof. split; [apply repeat_length|]. intros row H. apply repeat_spec in H. subst. apply repeat_length. Qed.
Lemma nth_error_repeat' {A} (a : A) n k : k < n -> nth_error (repeat a n) k = Some a.
Proof. revert k; induction n as [|n IH]; intros k H; [lia|]. destruct k; [reflexivity|]. apply IH; lia. Qed.
Lemma removable_matrix s tot known : wf_structure s -> (forall l, In l (nodes_labels s) -> idx_of s l < tot) ->
  (edges_within (nodes_labels s) known -> exists m, build_removable_edges_matrix s tot known = Ok m /\ dims tot m
     /\ forall i j, i < tot -> j < tot -> mat_get m i j = Ok (negb (known_at s known i j)))
  /\ (~ edges_within (nodes_labels s) known -> build_removable_edges_matrix s tot known = Err ValueError).
Proof.
  intros Hwf Hi. destruct (mark_fold s tot known Hwf Hi _ (dims_repeat tot true)) as [H1 H2]. split; [|exact H2].
  intros K. destruct (H1 K) as [m [E [D G]]]. exists m. split; [exact E|]. split; [exact D|]. intros i j Li Lj. rewrite G.
  destruct (known_at s known i j); [reflexivity|]. unfold mat_get, nth_res. rewrite nth_error_repeat' by exact Li. cbn [bind].
  rewrite nth_error_repeat' by exact Lj. reflexivity.
Qed.

Lemma idx_inj s a b : wf_structure s -> NoDup (nodes_indexes s) -> In a (nodes_labels s) -> In b (nodes_labels s) ->
  idx_of s a = idx_of s b -> a = b.
Proof.
  intros Hwf Hn Ha Hb E. destruct (wf_lookup s a Hwf Ha) as [i [A1 [A2 _]]]. destruct (wf_lookup s b Hwf Hb) as [j [B1 [B2 _]]].
  rewrite E in A2. assert (i = j).
  { apply (proj1 (NoDup_nth_error _) Hn); [apply nth_error_Some; congruence|congruence]. }
  congruence.
Qed.
Lemma known_at_spec s known a b : wf_structure s -> NoDup (nodes_indexes s) -> edges_within (nodes_labels s) known ->
  In a (nodes_labels s) -> In b (nodes_labels s) -> known_at s known (idx_of s a) (idx_of s b) = emem (a, b) known.
Proof.
  intros Hwf Hn Hk Ha Hb. apply eq_true_iff_eq. unfold known_at. rewrite existsb_exists, emem_In. split.
  - intros [[x y] [H1 H2]]. cbn [fst snd] in H2. apply andb_true_iff in H2 as [H2 H3]. apply Nat.eqb_eq in H2, H3.
    destruct (Hk _ H1) as [K1 K2]. cbn [fst snd] in K1, K2.
    rewrite <- (idx_inj s x a), <- (idx_inj s y b); assumption.
  - intros H. exists (a, b). split; [exact H|]. cbn [fst snd]. rewrite !Nat.eqb_refl. reflexivity.
Qed.
