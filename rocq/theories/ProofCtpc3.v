(** The search itself: termination, justification of kept and removed parents, column isolation. *)
From Verif Require Import Base Lib ModelStructure ModelGraph ModelCims ModelData ModelParams ModelCache ModelCtpc
  SpecStructure SpecGraph SpecComb SpecParams SpecCtpc
  ProofStructure ProofGraph ProofComb ProofIndex ProofParams3 ProofCache ProofCtpc ProofCtpc2.

(** ** Termination *)
Section term.
Context {St : Type}.
Variables (s : structure) (v : label) (gm : St -> list (list bool))
  (ct : St -> label -> list label -> nat -> nat -> nat -> result (bool * St)).
Hypothesis Hct : forall st p ps cs i j, ct st p ps cs i j <> Err OutOfFuel.

Lemma try_sets_nf p cs i j sets : forall st, try_sets ct st p sets cs i j <> Err OutOfFuel.
Proof.
  induction sets as [|S sets IH]; intros st; cbn [try_sets]; [discriminate|].
  pose proof (Hct st p S cs i j) as H. destruct (ct st p S cs i j) as [[b st']|x]; cbn [bind]; [destruct b; [discriminate|apply IH]|congruence].
Qed.
Lemma get_indx_nf (l : label) : structure_get_node_indx s l <> Err OutOfFuel.
Proof.
  unfold structure_get_node_indx. destruct (py_index l (nodes_labels s)) eqn:E; cbn [bind].
  - unfold nth_res. destruct (nth_error _ _); discriminate.
  - apply py_index_err in E as [-> _]. discriminate.
Qed.
Lemma mat_get_nf m i j : mat_get m i j <> Err OutOfFuel.
Proof. unfold mat_get, nth_res. destruct (nth_error m i); cbn [bind]; [destruct (nth_error _ j)|]; discriminate. Qed.
Lemma py_remove_nf p l : py_remove String.eqb p l <> Err OutOfFuel.
Proof. induction l as [|y l IH]; cbn [py_remove]; [discriminate|]. destruct (p =? y)%string; [discriminate|]. destruct (py_remove String.eqb p l); cbn [bind]; [discriminate|congruence]. Qed.
Lemma py_remove_length p l r : py_remove String.eqb p l = Ok r -> length l = S (length r).
Proof.
  revert r. induction l as [|y l IH]; intros r; cbn [py_remove]; [discriminate|]. destruct (p =? y)%string; [intros H; injection H as <-; reflexivity|].
  destruct (py_remove String.eqb p l) as [r'|]; cbn [bind]; [|discriminate]. intros H; injection H as <-. cbn [length]. rewrite (IH r' eq_refl). reflexivity.
Qed.
Lemma inner_nf b cs : forall fuel idx u g st, length u - idx < fuel ->
  inner_loop s v gm ct fuel b cs idx u g st <> Err OutOfFuel
  /\ forall u' g' st', inner_loop s v gm ct fuel b cs idx u g st = Ok (u', g', st') -> length u' <= length u.
Proof.
  induction fuel as [|fuel IH]; intros idx u g st Hf; [lia|]. cbn [inner_loop].
  destruct (Nat.ltb_spec idx (length u)) as [Hlt|Hge]; [|split; [discriminate|intros u' g' st' H; injection H as <- <- <-; lia]].
  destruct (nth_res_lt u idx Hlt) as [p ->]. cbn [bind].
  pose proof (get_indx_nf p) as N1. destruct (structure_get_node_indx s p) as [i|x]; cbn [bind]; [|split; [congruence|discriminate]].
  pose proof (get_indx_nf v) as N2. destruct (structure_get_node_indx s v) as [j|x]; cbn [bind]; [|split; [congruence|discriminate]].
  pose proof (mat_get_nf (gm st) i j) as N3. destruct (mat_get (gm st) i j) as [rm|x]; cbn [bind]; [|split; [congruence|discriminate]].
  assert (N4 : (if rm then let* sets := generate_possible_sub_sets_of_size u b p in try_sets ct st p sets cs i j else Ok (false, st)) <> Err OutOfFuel).
  { destruct rm; [|discriminate]. unfold generate_possible_sub_sets_of_size. pose proof (py_remove_nf p u) as N.
    destruct (py_remove String.eqb p u); cbn [bind]; [apply try_sets_nf|congruence]. }
  destruct (if rm then _ else _) as [[removed st1]|x]; cbn [bind]; [|split; [congruence|discriminate]].
  destruct removed.
  - pose proof (py_remove_nf p u) as N5. destruct (py_remove String.eqb p u) as [u1|x] eqn:E; cbn [bind]; [|split; [congruence|discriminate]].
    apply py_remove_length in E. destruct (IH idx u1 (ng_remove_edges g [(p, v)]) st1 ltac:(lia)) as [I1 I2]. split; [exact I1|].
    intros u' g' st' H. apply I2 in H. lia.
  - apply IH. lia.
Qed.
Lemma outer_nf n cs : forall fuel b u g st, length u - b < fuel -> length u < n ->
  outer_loop s v gm ct fuel n b cs u g st <> Err OutOfFuel.
Proof.
  induction fuel as [|fuel IH]; intros b u g st Hf Hn; [lia|]. cbn [outer_loop].
  destruct (Nat.ltb_spec b (length u)) as [Hlt|Hge]; [|discriminate].
  destruct (inner_nf b cs n 0 u g st ltac:(lia)) as [I1 I2].
  destruct (inner_loop s v gm ct n b cs 0 u g st) as [[[u' g'] st']|x]; cbn [bind]; [|congruence].
  specialize (I2 u' g' st' eq_refl). apply IH; lia.
Qed.
Lemma optimize_nf st : optimize_with s v gm ct st <> Err OutOfFuel.
Proof.
  unfold optimize_with. assert (N : structure_get_states_number s v <> Err OutOfFuel).
  { unfold structure_get_states_number. destruct (py_index v (nodes_labels s)) eqn:E; cbn [bind].
    - unfold nth_res. destruct (nth_error _ _); discriminate.
    - apply py_index_err in E as [-> _]. discriminate. }
  destruct (structure_get_states_number s v) as [cs|x]; cbn [bind]; [|congruence].
  set (o := filter _ (nodes_labels s)). set (g0 := fold_left _ o _).
  pose proof (outer_nf (S (length o)) cs (S (length o)) 0 o g0 st ltac:(lia) ltac:(lia)) as H.
  destruct (outer_loop s v gm ct (S (length o)) (S (length o)) 0 cs o g0 st) as [[[u g] st']|x]; cbn [bind]; [discriminate|congruence].
Qed.
End term.

(** ** Simulation between two estimators *)
Section rel.
Context {St1 St2 : Type}.
Variables (s : structure) (v : label) (gm1 : St1 -> list (list bool)) (gm2 : St2 -> list (list bool))
  (ct1 : St1 -> label -> list label -> nat -> nat -> nat -> result (bool * St1))
  (ct2 : St2 -> label -> list label -> nat -> nat -> nat -> result (bool * St2)) (R : St1 -> St2 -> Prop).
Hypothesis Hwf : wf_structure s.
Hypothesis Hv : In v (nodes_labels s).
Definition same_result {A} (r1 : result (A * St1)) (r2 : result (A * St2)) : Prop :=
  match r1, r2 with
  | Ok (a1, x1), Ok (a2, x2) => a1 = a2 /\ R x1 x2
  | Err e1, Err e2 => e1 = e2
  | _, _ => False
  end.
Hypothesis HR : forall a b p, R a b -> In p (nodes_labels s) -> mat_get (gm1 a) (idx_of s p) (idx_of s v) = mat_get (gm2 b) (idx_of s p) (idx_of s v).
Hypothesis Hct : forall a b p ps cs, R a b -> test_ok s v p ps ->
  (exists r, mat_get (gm1 a) (idx_of s p) (idx_of s v) = Ok r) ->
  same_result (ct1 a p ps cs (idx_of s p) (idx_of s v)) (ct2 b p ps cs (idx_of s p) (idx_of s v))
  /\ forall r a', ct1 a p ps cs (idx_of s p) (idx_of s v) = Ok (r, a') -> exists r', mat_get (gm1 a') (idx_of s p) (idx_of s v) = Ok r'.

Lemma try_sets_rel p cs sets : forall a b, R a b -> (exists r, mat_get (gm1 a) (idx_of s p) (idx_of s v) = Ok r) ->
  (forall S, In S sets -> test_ok s v p S) ->
  same_result (try_sets ct1 a p sets cs (idx_of s p) (idx_of s v)) (try_sets ct2 b p sets cs (idx_of s p) (idx_of s v)).
Proof.
  induction sets as [|S sets IH]; intros a b Hab Hm Hs; cbn [try_sets]; [split; [reflexivity|exact Hab]|].
  destruct (Hct a b p S cs Hab (Hs S (or_introl eq_refl)) Hm) as [H1 H2].
  destruct (ct1 a p S cs (idx_of s p) (idx_of s v)) as [[r1 a']|x1], (ct2 b p S cs (idx_of s p) (idx_of s v)) as [[r2 b']|x2]; cbn [bind same_result] in *; try contradiction; [|exact H1].
  destruct H1 as [<- H1]. destruct r1; [split; [reflexivity|exact H1]|]. apply IH; [exact H1|apply (H2 _ _ eq_refl)|]. intros S' HS'. apply Hs. right; exact HS'.
Qed.

Lemma inner_rel b cs : forall fuel idx u g x y, R x y -> NoDup u -> incl u (others s v) ->
  same_result (inner_loop s v gm1 ct1 fuel b cs idx u g x) (inner_loop s v gm2 ct2 fuel b cs idx u g y)
  /\ forall u' g' x', inner_loop s v gm1 ct1 fuel b cs idx u g x = Ok (u', g', x') -> NoDup u' /\ incl u' (others s v).
Proof.
  induction fuel as [|fuel IH]; intros idx u g x y Hxy Hu Hi; [split; [reflexivity|discriminate]|]. cbn [inner_loop].
  destruct (Nat.ltb_spec idx (length u)) as [Hlt|Hge]; [|split; [split; [reflexivity|exact Hxy]|intros u' g' x' H; injection H as <- <- <-; auto]].
  destruct (nth_res_lt u idx Hlt) as [p Hp]. rewrite Hp. cbn [bind]. apply nth_res_ok in Hp.
  assert (Hpu : In p u) by (eapply nth_error_In, Hp).
  assert (Hpl : In p (nodes_labels s)) by (apply Hi, others_In in Hpu; tauto).
  destruct (wf_lookup s p Hwf Hpl) as [_ [_ [_ [_ [Ei _]]]]]. rewrite Ei. cbn [bind].
  destruct (wf_lookup s v Hwf Hv) as [_ [_ [_ [_ [Ej _]]]]]. rewrite Ej. cbn [bind].
  rewrite <- (HR x y p Hxy Hpl). destruct (mat_get (gm1 x) (idx_of s p) (idx_of s v)) as [rm|z] eqn:EM; cbn [bind]; [|split; [reflexivity|discriminate]].
  destruct rm; cbn [bind].
  - destruct (proj1 (subsets_spec u b p Hu) Hpu) as [L [EL [_ HL]]]. rewrite EL. cbn [bind].
    assert (HT : forall S, In S L -> test_ok s v p S).
    { intros S HS. apply HL in HS as [S1 [S2 S3]]. split; [exact Hv|]. split; [exact Hpl|]. apply Hi, others_In in Hpu. split.
      - constructor; [|constructor; [exact S2|eapply sublist_NoDup; eassumption]]. intros [K|K]; [tauto|].
        apply (sublist_In _ _ _ S1), Hi, others_In in K. tauto.
      - intros q K. apply (sublist_In _ _ _ S1), Hi, others_In in K. tauto. }
    pose proof (try_sets_rel p cs L x y Hxy (ex_intro _ true EM) HT) as H.
    destruct (try_sets ct1 x p L cs (idx_of s p) (idx_of s v)) as [[r1 x']|z1], (try_sets ct2 y p L cs (idx_of s p) (idx_of s v)) as [[r2 y']|z2];
      cbn [bind same_result] in *; try contradiction; [|split; [exact H|discriminate]].
    destruct H as [<- H]. destruct r1.
    + rewrite (py_remove_filter p u Hu Hpu). cbn [bind]. apply IH; [exact H|apply NoDup_filter', Hu|].
      intros q Hq. apply filter_In in Hq as [Hq _]. apply Hi, Hq.
    + apply IH; assumption.
  - apply IH; assumption.
Qed.
Lemma outer_rel n cs : forall fuel b u g x y, R x y -> NoDup u -> incl u (others s v) ->
  same_result (outer_loop s v gm1 ct1 fuel n b cs u g x) (outer_loop s v gm2 ct2 fuel n b cs u g y).
Proof.
  induction fuel as [|fuel IH]; intros b u g x y Hxy Hu Hi; [reflexivity|]. cbn [outer_loop].
  destruct (Nat.ltb_spec b (length u)); [|split; [reflexivity|exact Hxy]].
  destruct (inner_rel b cs n 0 u g x y Hxy Hu Hi) as [H1 H2].
  destruct (inner_loop s v gm1 ct1 n b cs 0 u g x) as [[[u1 g1] x1]|z1], (inner_loop s v gm2 ct2 n b cs 0 u g y) as [[[u2 g2] x2]|z2];
    cbn [bind same_result] in *; try contradiction; [|exact H1].
  destruct H1 as [E H1]. injection E as <- <-. destruct (H2 u1 g1 x1 eq_refl). apply IH; assumption.
Qed.
Lemma optimize_rel x y : R x y -> same_result (optimize_with s v gm1 ct1 x) (optimize_with s v gm2 ct2 y).
Proof.
  intros Hxy. unfold optimize_with. destruct (wf_lookup s v Hwf Hv) as [_ [_ [_ [_ [_ Ec]]]]]. rewrite Ec. cbn [bind].
  fold (others s v). set (n := S (length (others s v))). set (g0 := fold_left _ (others s v) (new_netgraph s)).
  pose proof (outer_rel n (val_of s v) n 0 (others s v) g0 x y Hxy (NoDup_filter' _ _ (proj1 Hwf)) (fun q Hq => Hq)) as H.
  destruct (outer_loop s v gm1 ct1 n n 0 (val_of s v) (others s v) g0 x) as [[[u1 g1] x1]|z1], (outer_loop s v gm2 ct2 n n 0 (val_of s v) (others s v) g0 y) as [[[u2 g2] x2]|z2];
    cbn [bind same_result] in *; try contradiction; [|exact H]. destruct H as [E H]. injection E as <- <-. split; [reflexivity|exact H].
Qed.
End rel.

(** ** What the search on the matrix computes *)
(** marks only in column [j], only from True to False *)
Definition col_marks (j : nat) (m m' : list (list bool)) : Prop :=
  length m' = length m /\ forall i k, mat_get m' i k = mat_get m i k \/ (k = j /\ mat_get m i k <> Err IndexError /\ mat_get m' i k = Ok false).
Lemma col_marks_refl j m : col_marks j m m. Proof. split; auto. Qed.
Lemma mat_get_err m i j x : mat_get m i j = Err x -> x = IndexError.
Proof. unfold mat_get, nth_res. destruct (nth_error m i); cbn [bind]; [destruct (nth_error _ j)|]; congruence. Qed.
Lemma col_marks_trans j m1 m2 m3 : col_marks j m1 m2 -> col_marks j m2 m3 -> col_marks j m1 m3.
Proof.
  intros [L1 H1] [L2 H2]. split; [congruence|]. intros i k. destruct (H2 i k) as [E2|[E2 [E2' E2'']]].
  - rewrite E2. apply H1.
  - right. split; [exact E2|]. split; [|exact E2'']. destruct (H1 i k) as [E1|[_ [E1 _]]]; [rewrite <- E1; exact E2'|exact E1].
Qed.
Lemma col_marks_rem j m m' i : col_marks j m m' -> mat_get m' i j = Ok true -> mat_get m i j = Ok true.
Proof. intros [_ H] E. destruct (H i j) as [K|[_ [_ K]]]; congruence. Qed.
Lemma col_marks_false j m m' i : col_marks j m m' -> mat_get m i j = Ok false -> mat_get m' i j = Ok false.
Proof. intros [_ H] E. destruct (H i j) as [K|[_ [_ K]]]; congruence. Qed.
Lemma apply_mark_col i j m r b m' b0 : mat_get m i j = Ok b0 -> apply_mark i j m r = Ok (b, m') -> col_marks j m m'.
Proof.
  intros Hb H. apply apply_mark_get in H as [L H]. split; [exact L|]. intros i' k. destruct (H i' k) as [K|[-> [-> K]]]; [auto|].
  right. split; [reflexivity|]. split; [rewrite Hb; discriminate|exact K].
Qed.

Section char.
Variables (e : cb_env) (tot : nat) (v : label).
Let s := e_struct e.
Hypothesis Hwf : wf_structure s.
Hypothesis Hv : In v (nodes_labels s).
Let cti := fun m p ps cs i j => ideal_test e tot v m p ps cs i j.
Let idm := fun m : list (list bool) => m.
Let jv := idx_of s v.
Let rem := rem e v.

Lemma try_sets_char p cs b0 : forall sets m r m', mat_get m (idx_of s p) jv = Ok b0 ->
  try_sets cti m p sets cs (idx_of s p) jv = Ok (r, m') ->
  col_marks jv m m' /\
  if r then exists S mk, In S sets /\ verdict e tot v p S cs = Ok (true, mk)
  else forall S, In S sets -> exists mk, verdict e tot v p S cs = Ok (false, mk).
Proof.
  intros sets. revert b0. induction sets as [|S sets IH]; intros b0 m r m' Hb H; cbn [try_sets] in H.
  - injection H as <- <-. split; [apply col_marks_refl|intros S []].
  - apply bind_ok in H as [[r1 m1] [H1 H]]. unfold cti in H1. rewrite ideal_verdict in H1.
    pose proof (apply_mark_col _ _ _ _ _ _ _ Hb H1) as C1.
    assert (HV : exists mk, verdict e tot v p S cs = Ok (r1, mk)).
    { unfold apply_mark in H1. apply bind_ok in H1 as [[b1 mk] [HV H1]]. exists mk. rewrite HV. destruct mk; [apply bind_ok in H1 as [? [_ H1]]|]; congruence. }
    destruct HV as [mk HV]. destruct r1.
    + injection H as <- <-. split; [exact C1|]. exists S, mk. split; [left; reflexivity|exact HV].
    + assert (exists b1, mat_get m1 (idx_of s p) jv = Ok b1) as [b1 Hb1].
      { destruct C1 as [_ C1]. destruct (C1 (idx_of s p) jv) as [K|[_ [_ K]]]; [exists b0; congruence|eauto]. }
      destruct (IH b1 m1 r m' Hb1 H) as [C2 IHr]. split; [eapply col_marks_trans; eassumption|].
      destruct r; [destruct IHr as [S' [mk' [A B]]]; exists S', mk'; split; [right; exact A|exact B]|].
      intros S' [<-|HS']; [eauto|apply IHr, HS'].
Qed.

(** the working graph holds exactly the edges from the current candidates *)
Definition graph_of (g : netgraph) (u : list label) : Prop :=
  dinv (ng_graph g) /\ forall a b, In (a, b) (g_edges (ng_graph g)) <-> In a u /\ b = v.
Lemma graph_of_remove g u p : graph_of g u -> graph_of (ng_remove_edges g [(p, v)]) (filter (fun x => negb (String.eqb x p)) u).
Proof.
  intros [D H]. destruct (remove_edges_from_spec (ng_graph g) [(p, v)] D) as [D1 [D2 _]]. split; [exact D1|].
  intros a b. unfold ng_remove_edges, with_graph; cbn [ng_graph]. rewrite D2, H, filter_In, negb_true_iff, String.eqb_neq. cbn [In].
  split; [intros [[A ->] B]; split; [|reflexivity]; split; [exact A|intros ->; apply B; left; reflexivity]|].
  intros [[A B] ->]. split; [auto|]. intros [K|[]]. congruence.
Qed.

Lemma inner_char b cs : forall fuel idx u g m u' g' m',
  NoDup u -> incl u (others s v) -> graph_of g u ->
  inner_loop s v idm cti fuel b cs idx u g m = Ok (u', g', m') ->
  sublist u' u /\ graph_of g' u' /\ col_marks jv m m'
  /\ (forall q, In q u -> ~ In q u' -> exists S mk, sublist S u /\ ~ In q S /\ length S = b /\ verdict e tot v q S cs = Ok (true, mk))
  /\ (forall q, In q u -> mat_get m (idx_of s q) jv = Ok false -> In q u')
  /\ firstn idx u' = firstn idx u
  /\ (forall k q, idx <= k -> nth_error u' k = Some q -> rem m' q ->
        forall S, sublist S u' -> ~ In q S -> length S = b -> exists mk, verdict e tot v q S cs = Ok (false, mk)).
Proof.
  induction fuel as [|fuel IH]; intros idx u g m u' g' m' Hu Hi Hg H; [discriminate|]. cbn [inner_loop] in H.
  destruct (Nat.ltb_spec idx (length u)) as [Hlt|Hge].
  2:{ injection H as <- <- <-. split; [apply sublist_refl|]. split; [exact Hg|]. split; [apply col_marks_refl|]. split; [intros q A B; contradiction|].
      split; [auto|]. split; [reflexivity|]. intros k q Hk Hq. exfalso. assert (k < length u) by (apply nth_error_Some; congruence). lia. }
  destruct (nth_res_lt u idx Hlt) as [p Hp]. rewrite Hp in H. cbn [bind] in H. apply nth_res_ok in Hp.
  assert (Hpu : In p u) by (eapply nth_error_In, Hp).
  assert (Hpl : In p (nodes_labels s)) by (apply Hi, others_In in Hpu; tauto).
  destruct (wf_lookup s p Hwf Hpl) as [_ [_ [_ [_ [Ei _]]]]]. rewrite Ei in H. cbn [bind] in H.
  destruct (wf_lookup s v Hwf Hv) as [_ [_ [_ [_ [Ej _]]]]]. rewrite Ej in H. cbn [bind] in H. change (idm m) with m in H. fold jv in H.
  destruct (mat_get m (idx_of s p) jv) as [rm|z] eqn:EM; cbn [bind] in H; [|discriminate].
  destruct rm; cbn [bind] in H.
  - destruct (proj1 (subsets_spec u b p Hu) Hpu) as [L [EL [_ HL]]]. rewrite EL in H. cbn [bind] in H.
    destruct (try_sets cti m p L cs (idx_of s p) jv) as [[r m1]|z] eqn:ET; cbn [bind] in H; [|discriminate].
    destruct (try_sets_char p cs true L m r m1 EM ET) as [C1 HT]. destruct r.
    + rewrite (py_remove_filter p u Hu Hpu) in H. cbn [bind] in H. set (u1 := filter (fun x => negb (String.eqb x p)) u) in *.
      assert (Hi1 : incl u1 u) by (intros x Hx; apply filter_In in Hx; tauto).
      destruct (nth_error_split u idx Hp) as [l1 [l2 [Eu Hl1]]].
      assert (Eu1 : u1 = l1 ++ l2).
      { unfold u1. rewrite Eu in Hu |- *. rewrite filter_app. cbn [filter]. rewrite String.eqb_refl. cbn [negb].
        pose proof (NoDup_remove_2 _ _ _ Hu) as Hnp. rewrite in_app_iff in Hnp.
        rewrite !filter_true; [reflexivity| |]; intros a Ha; apply negb_true_iff, String.eqb_neq; intros ->; tauto. }
      destruct (IH idx u1 _ m1 u' g' m' (NoDup_filter' _ _ Hu) (fun x Hx => Hi x (Hi1 x Hx)) (graph_of_remove g u p Hg) H) as [I1 [I2 [I3 [I4 [I5 [I6 I7]]]]]].
      assert (Hs1 : sublist u1 u) by apply sublist_filter.
      split; [eapply sublist_trans; eassumption|]. split; [exact I2|]. split; [eapply col_marks_trans; eassumption|]. split; [|split; [|split; [|exact I7]]].
      * intros q Hq Hn. destruct (string_dec q p) as [->|Hqp].
        -- destruct HT as [S [mk [HS HV]]]. apply HL in HS as [S1 [S2 S3]]. exists S, mk. auto.
        -- destruct (I4 q) as [S [mk [S1 S2]]]; [apply filter_In; split; [exact Hq|apply negb_true_iff, String.eqb_neq, Hqp]|exact Hn|].
           exists S, mk. split; [eapply sublist_trans; eassumption|exact S2].
      * intros q Hq Hf. apply I5; [|eapply col_marks_false; eassumption]. apply filter_In. split; [exact Hq|].
        apply negb_true_iff, String.eqb_neq. intros ->. congruence.
      * rewrite I6, Eu1, Eu, !firstn_app. replace (idx - length l1) with 0 by lia. cbn [firstn]. reflexivity.
    + destruct (IH (S idx) u g m1 u' g' m' Hu Hi Hg H) as [I1 [I2 [I3 [I4 [I5 [I6 I7]]]]]].
      split; [exact I1|]. split; [exact I2|]. split; [eapply col_marks_trans; eassumption|]. split; [exact I4|].
      split; [intros q Hq Hf; apply I5; [exact Hq|eapply col_marks_false; eassumption]|]. split.
      * assert (firstn idx (firstn (S idx) u') = firstn idx (firstn (S idx) u)) as K by congruence.
        rewrite !firstn_firstn in K. replace (Nat.min idx (S idx)) with idx in K by lia. exact K.
      * intros k q Hk Hq Hr S S1 S2 S3. destruct (Nat.eq_dec k idx) as [->|Hne]; [|apply (I7 k q ltac:(lia) Hq Hr S S1 S2 S3)].
        assert (q = p).
        { assert (nth_error (firstn (Datatypes.S idx) u') idx = nth_error (firstn (Datatypes.S idx) u) idx) as K by congruence.
          rewrite !nth_error_firstn' in K by lia. congruence. }
        subst q. apply HT. apply HL. split; [eapply sublist_trans; eassumption|auto].
  - destruct (IH (S idx) u g m u' g' m' Hu Hi Hg H) as [I1 [I2 [I3 [I4 [I5 [I6 I7]]]]]].
    split; [exact I1|]. split; [exact I2|]. split; [exact I3|]. split; [exact I4|]. split; [exact I5|]. split.
    + assert (firstn idx (firstn (S idx) u') = firstn idx (firstn (S idx) u)) as K by congruence.
      rewrite !firstn_firstn in K. replace (Nat.min idx (S idx)) with idx in K by lia. exact K.
    + intros k q Hk Hq Hr S S1 S2 S3. destruct (Nat.eq_dec k idx) as [->|Hne]; [|apply (I7 k q ltac:(lia) Hq Hr S S1 S2 S3)].
      exfalso. assert (q = p).
      { assert (nth_error (firstn (Datatypes.S idx) u') idx = nth_error (firstn (Datatypes.S idx) u) idx) as K by congruence.
        rewrite !nth_error_firstn' in K by lia. congruence. }
      subst q. unfold rem, ProofCtpc2.rem in Hr. fold s jv in Hr. pose proof (col_marks_rem _ _ _ _ I3 Hr). congruence.
Qed.

Lemma outer_char cs n : forall fuel b u g m u' g' m',
  NoDup u -> incl u (others s v) -> graph_of g u ->
  outer_loop s v idm cti fuel n b cs u g m = Ok (u', g', m') ->
  sublist u' u /\ graph_of g' u' /\ col_marks jv m m'
  /\ (forall q, In q u -> ~ In q u' -> exists S mk, sublist S u /\ ~ In q S /\ verdict e tot v q S cs = Ok (true, mk))
  /\ (forall q, In q u -> mat_get m (idx_of s q) jv = Ok false -> In q u')
  /\ (forall q, In q u' -> rem m' q ->
        forall S, sublist S u' -> ~ In q S -> b <= length S -> exists mk, verdict e tot v q S cs = Ok (false, mk)).
Proof.
  induction fuel as [|fuel IH]; intros b u g m u' g' m' Hu Hi Hg H; [discriminate|]. cbn [outer_loop] in H.
  destruct (Nat.ltb_spec b (length u)) as [Hlt|Hge].
  2:{ injection H as <- <- <-. split; [apply sublist_refl|]. split; [exact Hg|]. split; [apply col_marks_refl|]. split; [intros q A B; contradiction|].
      split; [auto|]. intros q Hq _ S S1 S2 S3. exfalso.
      assert (NS : NoDup (q :: S)) by (constructor; [exact S2|eapply sublist_NoDup; eassumption]).
      assert (length (q :: S) <= length u).
      { apply NoDup_incl_length; [exact NS|]. intros x [<-|Hx]; [exact Hq|eapply sublist_In; eassumption]. }
      simpl in *. lia. }
  destruct (inner_loop s v idm cti n b cs 0 u g m) as [[[u1 g1] m1]|z] eqn:EI; cbn [bind] in H; [|discriminate].
  destruct (inner_char b cs n 0 u g m u1 g1 m1 Hu Hi Hg EI) as [A1 [A2 [A3 [A4 [A5 [_ A7]]]]]].
  assert (Hi1 : incl u1 (others s v)) by (intros x Hx; apply Hi; eapply sublist_In; eassumption).
  destruct (IH (S b) u1 g1 m1 u' g' m' (sublist_NoDup _ _ A1 Hu) Hi1 A2 H) as [B1 [B2 [B3 [B4 [B5 B6]]]]].
  split; [eapply sublist_trans; eassumption|]. split; [exact B2|]. split; [eapply col_marks_trans; eassumption|]. split; [|split].
  - intros q Hq Hn. destruct (in_dec string_dec q u1) as [Hq1|Hq1].
    + destruct (B4 q Hq1 Hn) as [S [mk [S1 S2]]]. exists S, mk. split; [eapply sublist_trans; eassumption|exact S2].
    + destruct (A4 q Hq Hq1) as [S [mk [S1 [S2 [_ S3]]]]]. exists S, mk. auto.
  - intros q Hq Hf. apply B5; [apply A5; assumption|eapply col_marks_false; eassumption].
  - intros q Hq Hr S S1 S2 S3. destruct (Nat.eq_dec (length S) b) as [E|Hne]; [|apply (B6 q Hq Hr S S1 S2 ltac:(lia))].
    assert (Hq1 : In q u1) by (eapply sublist_In; eassumption). apply In_nth_error in Hq1 as [k Hk].
    apply (A7 k q ltac:(lia) Hk); [exact (col_marks_rem _ _ _ _ B3 Hr)| |exact S2|exact E].
    eapply sublist_trans; eassumption.
Qed.

Lemma initial_graph u : NoDup u -> graph_of (fold_left (fun g p => ng_add_edges g [(p, v)]) u (new_netgraph s)) u.
Proof.
  intros _. assert (H : forall l g w, graph_of g w -> exists w', graph_of (fold_left (fun g p => ng_add_edges g [(p, v)]) l g) w' /\ forall x, In x w' <-> In x w \/ In x l).
  { induction l as [|p l IH]; intros g w Hg; cbn [fold_left]; [exists w; split; [exact Hg|simpl; tauto]|].
    destruct (IH (ng_add_edges g [(p, v)]) (p :: w)) as [w' [W1 W2]].
    - destruct Hg as [D H]. destruct (add_edges_from_spec (ng_graph g) [(p, v)] D) as [D1 [D2 _]]. split; [exact D1|].
      intros a b. unfold ng_add_edges, with_graph; cbn [ng_graph]. rewrite D2, H. cbn [In]. split.
      + intros [[A ->]|[K|[]]]; [auto|]. injection K as <- <-. auto.
      + intros [[<-|A] ->]; auto.
    - exists w'. split; [exact W1|]. intros x. rewrite W2. cbn [In]. tauto. }
  destruct (H u (new_netgraph s) []) as [w' [[W1 W2] W3]].
  { split; [apply dinv_empty|]. intros a b. simpl. tauto. }
  split; [exact W1|]. intros a b. rewrite W2, W3. simpl. tauto.
Qed.

Lemma optimize_char m es m' : optimize_with s v idm cti m = Ok (es, m') ->
  exists u, sublist u (others s v) /\ NoDup es /\ (forall a b, In (a, b) es <-> In a u /\ b = v)
  /\ col_marks jv m m'
  /\ (forall q, In q (others s v) -> ~ In q u -> exists S mk, sublist S (others s v) /\ ~ In q S /\ verdict e tot v q S (val_of s v) = Ok (true, mk))
  /\ (forall q, In q (others s v) -> mat_get m (idx_of s q) jv = Ok false -> In q u)
  /\ (forall q, In q u -> rem m' q ->
        forall S, sublist S u -> ~ In q S -> exists mk, verdict e tot v q S (val_of s v) = Ok (false, mk)).
Proof.
  unfold optimize_with. destruct (wf_lookup s v Hwf Hv) as [_ [_ [_ [_ [_ Ec]]]]]. rewrite Ec. cbn [bind]. fold (others s v).
  set (n := S (length (others s v))). intros H. apply bind_ok in H as [[[u g] m1] [H E]]. injection E as <- <-.
  assert (No : NoDup (others s v)) by apply NoDup_filter', Hwf.
  destruct (outer_char (val_of s v) n n 0 _ _ m u g m1 No (fun x Hx => Hx) (initial_graph _ No) H) as [A1 [A2 [A3 [A4 [A5 A6]]]]].
  exists u. split; [exact A1|]. destruct A2 as [D A2]. destruct (edges_view_spec _ D) as [V1 V2]. split; [exact V1|].
  split; [intros a b; unfold ng_edges; rewrite V2; apply A2|]. split; [exact A3|]. split; [exact A4|]. split; [exact A5|].
  intros q Hq Hr S S1 S2. apply (A6 q Hq Hr S S1 S2). lia.
Qed.
End char.
