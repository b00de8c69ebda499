(** The constraint-based optimizer is the CTPC algorithm (C81). *)
From Verif Require Import Base Lib LibQc ModelStructure ModelGraph ModelCims ModelData ModelParams ModelCache ModelCtpc
  SpecStructure SpecGraph SpecComb SpecParams SpecData SpecCtpc SpecAlgorithm SpecHistory
  ProofStructure ProofGraph ProofComb ProofParams ProofParams2 ProofParams3
  ProofCache ProofCtpc ProofCtpc2 ProofCtpc3 ProofCtpc4 ProofCtpc5 ProofCtpc6 ProofCtpc7.

Lemma combinations_sub k : forall l S, In S (combinations k l) -> sublist S l.
Proof.
  induction k as [|k IH]; intros l S H.
  - assert (S = []) by (destruct l; destruct H as [<-|[]]; reflexivity). subst. clear H. induction l as [|y l IHl]; [apply sub_nil|apply sub_skip, IHl].
  - induction l as [|x l IHl]; cbn [combinations] in H; [contradiction|]. apply in_app_iff in H as [H|H].
    + apply in_map_iff in H as [S' [<- H]]. apply sub_keep, IH, H.
    + apply sub_skip, IHl, H.
Qed.
Lemma remove_mid pre (p : label) post : NoDup (pre ++ p :: post) -> py_remove String.eqb p (pre ++ p :: post) = Ok (pre ++ post).
Proof.
  intros H. assert (E : In p (pre ++ p :: post)) by (apply in_app_iff; right; left; reflexivity). rewrite (py_remove_filter p _ H E). f_equal.
  rewrite filter_app. cbn [filter]. rewrite String.eqb_refl. cbn [negb]. pose proof (NoDup_remove_2 _ _ _ H) as N. rewrite in_app_iff in N.
  rewrite !filter_true; [reflexivity| |]; intros a Ha; apply negb_true_iff, String.eqb_neq; intros ->; tauto.
Qed.

Lemma round_sub ask b : forall post pre pr, NoDup (pre ++ post) ->
  let kept := fst (one_round ask b pr pre post) in NoDup kept /\ incl kept (pre ++ post) /\ length kept <= length (pre ++ post).
Proof.
  induction post as [|p post IH]; intros pre pr Hn; cbn [one_round fst].
  - rewrite app_nil_r in *. split; [exact Hn|]. split; [intros x Hx; exact Hx|lia].
  - assert (K1 : forall pr', let kept := fst (one_round ask b pr' (pre ++ [p]) post) in NoDup kept /\ incl kept (pre ++ p :: post) /\ length kept <= length (pre ++ p :: post)).
    { intros pr'. replace (pre ++ p :: post) with ((pre ++ [p]) ++ post) in * by (rewrite <- app_assoc; reflexivity). apply IH, Hn. }
    destruct (lmem p pr); [apply K1|]. destruct (fst (try_all ask p _)); [|apply K1].
    match goal with |- context [one_round ask b ?q pre post] => destruct (IH pre q (NoDup_remove_1 _ _ _ Hn)) as [A [B C]] end.
    split; [exact A|]. split; [|rewrite app_length in *; cbn [length]; lia].
    intros x Hx. apply B in Hx. apply in_app_iff in Hx. apply in_app_iff. destruct Hx; [left|right; right]; assumption.
Qed.

Section alg.
Variables (e : cb_env) (tot : nat) (v : label) (ask : label -> list label -> bool * bool).
Let s := e_struct e.
Hypothesis Hwf : wf_structure s.
Hypothesis Hnd : NoDup (nodes_indexes s).
Hypothesis Hv : In v (nodes_labels s).
Let cti := fun m p ps cs i j => ideal_test e tot v m p ps cs i j.
Let idm := fun m : list (list bool) => m.
Let jv := idx_of s v.
Let cs := val_of s v.
Hypothesis HA : forall p S, test_ok s v p S -> verdict e tot v p S cs = Ok (ask p S).

(** the matrix protects exactly the candidates in [pr] *)
Definition protects (m : list (list bool)) (pr : list label) : Prop :=
  forall p, In p (others s v) -> mat_get m (idx_of s p) jv = Ok (negb (lmem p pr)).
(** nothing else of the matrix changes *)
Definition keeps (m m' : list (list bool)) : Prop :=
  map (@length bool) m' = map (@length bool) m
  /\ forall i j, ~ (j = jv /\ exists p, In p (others s v) /\ i = idx_of s p) -> mat_get m' i j = mat_get m i j.
Lemma keeps_refl m : keeps m m. Proof. split; reflexivity. Qed.
Lemma keeps_trans a b c : keeps a b -> keeps b c -> keeps a c.
Proof. intros [A1 A2] [B1 B2]. split; [congruence|]. intros i j H. rewrite (B2 i j H). apply A2, H. Qed.
Lemma keeps_set m p m' : In p (others s v) -> mat_set m (idx_of s p) jv false = Ok m' -> keeps m m'.
Proof.
  intros Hp E. split.
  - unfold mat_set in E. apply bind_ok in E as [row [Er E]]. destruct (jv <? length row); [|discriminate]. injection E as <-. apply nth_res_ok in Er.
    apply list_ext. intros n. rewrite !nth_error_map, nth_error_set_at. destruct (Nat.eqb_spec (idx_of s p) n) as [<-|N]; [|reflexivity].
    replace (idx_of s p <? length m) with true by (symmetry; apply Nat.ltb_lt, nth_error_Some; congruence). rewrite Er. cbn [andb option_map]. f_equal. apply set_at_length.
  - apply mat_set_get in E as [_ E]. intros i j H. rewrite E. destruct (Nat.eqb_spec i (idx_of s p)); [|reflexivity]. destruct (Nat.eqb_spec j jv); [|reflexivity]. exfalso. apply H. eauto.
Qed.
Lemma idx_inj p q : In p (nodes_labels s) -> In q (nodes_labels s) -> idx_of s p = idx_of s q -> p = q.
Proof.
  intros Hp Hq E. destruct (wf_lookup s p Hwf Hp) as [i [I1 [I2 _]]]. destruct (wf_lookup s q Hwf Hq) as [j [J1 [J2 _]]].
  assert (i = j); [|subst; congruence]. rewrite E in I2. rewrite NoDup_nth_error in Hnd. apply Hnd; [apply nth_error_Some; congruence|congruence].
Qed.
Lemma protects_set m pr p m' : In p (others s v) -> protects m pr -> mat_set m (idx_of s p) jv false = Ok m' -> protects m' (p :: pr).
Proof.
  intros Hp HP E. apply mat_set_get in E as [_ E]. intros q Hq. rewrite E. apply others_In in Hp as [Hp _]. pose proof (HP q Hq) as K. apply others_In in Hq as [Hq _].
  cbn [lmem existsb] in *. unfold lmem. cbn [existsb]. destruct (String.eqb_spec q p) as [->|N].
  - rewrite !Nat.eqb_refl. cbn [orb andb negb]. reflexivity.
  - assert (X : (idx_of s q =? idx_of s p) = false) by (apply Nat.eqb_neq; intros X; apply N, idx_inj; auto).
    cbn [orb]. rewrite X. cbn [andb]. exact K.
Qed.

Lemma try_alg p : In p (others s v) -> forall sets m pr, protects m pr -> (forall S, In S sets -> test_ok s v p S) ->
  exists m', try_sets cti m p sets cs (idx_of s p) jv = Ok (fst (try_all ask p sets), m') /\ protects m' (if snd (try_all ask p sets) then p :: pr else pr) /\ keeps m m'.
Proof.
  intros Hp. induction sets as [|S sets IH]; intros m pr HP HS; cbn [try_sets try_all]; [exists m; split; [reflexivity|split; [exact HP|apply keeps_refl]]|].
  unfold cti at 1. rewrite ideal_verdict. rewrite (HA p S (HS S (or_introl eq_refl))). unfold apply_mark. destruct (ask p S) as [b mk] eqn:EA. cbn [fst snd bind].
  assert (K : exists m1, (if mk then let* m' := mat_set m (idx_of s p) jv false in Ok (b, m') else Ok (b, m)) = Ok (b, m1) /\ protects m1 (if mk then p :: pr else pr) /\ keeps m m1).
  { destruct mk; [|exists m; split; [reflexivity|split; [exact HP|apply keeps_refl]]]. destruct (mat_set_ok m _ _ false _ (HP p Hp)) as [m1 E]. exists m1. rewrite E. split; [reflexivity|]. split; [exact (protects_set m pr p m1 Hp HP E)|exact (keeps_set m p m1 Hp E)]. }
  destruct K as [m1 [-> [K Kk]]]. cbn [bind]. destruct b.
  - exists m1. split; [reflexivity|split; [exact K|exact Kk]].
  - destruct (IH m1 _ K (fun S' H => HS S' (or_intror H))) as [m2 [E2 [K2 Kk2]]]. exists m2. split; [rewrite E2; reflexivity|]. split; [|exact (keeps_trans _ _ _ Kk Kk2)].
    destruct mk; cbn [orb snd]; [|exact K2]. destruct (snd (try_all ask p sets)); [|exact K2]. clear - K2.
    intros q Hq. rewrite (K2 q Hq). f_equal. f_equal. unfold lmem. cbn [existsb]. destruct (String.eqb q p); reflexivity.
Qed.

Lemma round_alg b : forall post pre fuel g m pr, length post < fuel -> NoDup (pre ++ post) -> incl (pre ++ post) (others s v) -> protects m pr ->
  exists g' m', inner_loop s v idm cti fuel b cs (length pre) (pre ++ post) g m = Ok (fst (one_round ask b pr pre post), g', m')
    /\ protects m' (snd (one_round ask b pr pre post)) /\ keeps m m'.
Proof.
  induction post as [|p post IH]; intros pre fuel g m pr Hf Hn Hi HP.
  - destruct fuel as [|fuel]; [cbn [length] in Hf; lia|]. cbn [inner_loop one_round fst snd]. rewrite app_nil_r. rewrite Nat.ltb_irrefl. exists g, m. split; [reflexivity|split; [exact HP|apply keeps_refl]].
  - destruct fuel as [|fuel]; [cbn [length] in Hf; lia|]. cbn [length] in Hf. cbn [inner_loop one_round].
    assert (Hpo : In p (others s v)) by (apply Hi, in_app_iff; right; left; reflexivity). assert (Hpl : In p (nodes_labels s)) by (apply others_In in Hpo; tauto).
    replace (length pre <? length (pre ++ p :: post)) with true by (symmetry; apply Nat.ltb_lt; rewrite app_length; cbn [length]; lia).
    assert (EN : nth_res (pre ++ p :: post) (length pre) = Ok p) by (apply nth_res_ok; rewrite nth_error_app2 by lia; rewrite Nat.sub_diag; reflexivity).
    rewrite EN. cbn [bind]. destruct (wf_lookup s p Hwf Hpl) as [_ [_ [_ [_ [Ei _]]]]]. rewrite Ei. cbn [bind].
    destruct (wf_lookup s v Hwf Hv) as [_ [_ [_ [_ [Ej _]]]]]. rewrite Ej. cbn [bind]. change (idm m) with m. fold jv. rewrite (HP p Hpo). cbn [bind].
    destruct (lmem p pr) eqn:EP; cbn [negb bind].
    + replace (pre ++ p :: post) with ((pre ++ [p]) ++ post) in * by (rewrite <- app_assoc; reflexivity).
      replace (S (length pre)) with (length (pre ++ [p])) by (rewrite app_length; cbn [length]; lia). apply IH; [lia|assumption ..].
    + unfold generate_possible_sub_sets_of_size. rewrite (remove_mid pre p post Hn). cbn [bind].
      assert (HS : forall S, In S (combinations b (pre ++ post)) -> test_ok s v p S).
      { intros S HS. apply combinations_sub in HS. pose proof (NoDup_remove_1 _ _ _ Hn) as N1. pose proof (NoDup_remove_2 _ _ _ Hn) as N2.
        assert (HI : forall q, In q S -> In q (pre ++ post)) by (intros q Hq; exact (sublist_In _ _ _ HS Hq)).
        assert (HO : forall q, In q (pre ++ post) -> In q (others s v)).
        { intros q Hq. apply Hi. apply in_app_iff in Hq. apply in_app_iff. destruct Hq; [left|right; right]; assumption. }
        split; [exact Hv|]. split; [exact Hpl|]. split.
        - constructor; [|constructor; [|exact (sublist_NoDup _ _ HS N1)]].
          + intros [K|K]; [apply others_In in Hpo; destruct Hpo as [_ Hpo]; congruence|]. apply HI, HO, others_In in K. tauto.
          + intros K. apply N2, HI, K.
        - intros q Hq. apply HI, HO, others_In in Hq. tauto. }
      destruct (try_alg p Hpo _ m pr HP HS) as [m1 [E1 [K1 Kk1]]]. rewrite E1. cbn [bind]. set (an := try_all ask p (combinations b (pre ++ post))) in *.
      destruct (fst an) eqn:EF.
      * assert (Hi' : incl (pre ++ post) (others s v)) by (intros q Hq; apply Hi; apply in_app_iff in Hq; apply in_app_iff; destruct Hq; [left|right; right]; assumption).
        match goal with |- context [one_round ask b ?pq pre post] => destruct (IH pre fuel (ng_remove_edges g [(p, v)]) m1 pq ltac:(lia) (NoDup_remove_1 _ _ _ Hn) Hi' K1) as [g' [m' [X1 [X2 X3]]]] end.
        exists g', m'. split; [exact X1|]. split; [exact X2|exact (keeps_trans _ _ _ Kk1 X3)].
      * replace (pre ++ p :: post) with ((pre ++ [p]) ++ post) in * by (rewrite <- app_assoc; reflexivity).
        replace (S (length pre)) with (length (pre ++ [p])) by (rewrite app_length; cbn [length]; lia).
        match goal with |- context [one_round ask b ?pq (pre ++ [p]) post] => destruct (IH (pre ++ [p]) fuel g m1 pq ltac:(lia) Hn Hi K1) as [g' [m' [X1 [X2 X3]]]] end.
        exists g', m'. split; [exact X1|]. split; [exact X2|exact (keeps_trans _ _ _ Kk1 X3)].
Qed.
Lemma rounds_alg n : forall fuel b u g m pr, NoDup u -> incl u (others s v) -> length u < n -> length u - b < fuel -> protects m pr ->
  exists g' m', outer_loop s v idm cti fuel n b cs u g m = Ok (rounds ask fuel b pr u, g', m')
    /\ protects m' (rounds_protected ask fuel b pr u) /\ keeps m m'.
Proof.
  induction fuel as [|fuel IH]; intros b u g m pr Hn Hi Hl Hf HP; [lia|]. cbn [outer_loop rounds rounds_protected]. destruct (Nat.ltb_spec b (length u)) as [Hb|Hb].
  2:{ exists g, m. split; [reflexivity|]. split; [exact HP|apply keeps_refl]. }
  destruct (round_alg b u [] n g m pr Hl Hn Hi HP) as [g1 [m1 [E [K Kk]]]]. cbn [length app] in E. rewrite E. cbn [bind].
  destruct (round_sub ask b u [] pr Hn) as [A [B C]]. cbn [app] in B, C. destruct (one_round ask b pr [] u) as [kept pr'] eqn:ER. cbn [fst snd] in *.
  destruct (IH (S b) kept g1 m1 pr' A) as [g' [m' [X1 [X2 X3]]]]; [intros x Hx; apply Hi, B, Hx|lia|lia|exact K|].
  exists g', m'. split; [exact X1|]. split; [exact X2|exact (keeps_trans _ _ _ Kk X3)].
Qed.
Lemma optimize_marks m pr es st' : protects m pr -> optimize_structure e tot (MkState m empty_cache) v = Ok (es, st') ->
  (forall a b, In (a, b) es <-> In a (ctpc_parents ask pr (others s v)) /\ b = v)
  /\ protects (st_matrix st') (ctpc_protected ask pr (others s v)) /\ keeps m (st_matrix st') /\ st_cache st' = empty_cache.
Proof.
  intros HP H. rewrite (optimize_ideal e tot v Hwf Hv) in H. fold s idm cti in H. unfold optimize_with in H.
  destruct (wf_lookup s v Hwf Hv) as [_ [_ [_ [_ [_ Ec]]]]]. rewrite Ec in H. cbn [bind] in H. fold (others s v) in H. fold cs in H.
  assert (No : NoDup (others s v)) by apply NoDup_filter', Hwf. set (n := S (length (others s v))) in *. set (g0 := fold_left _ (others s v) (new_netgraph s)) in *.
  destruct (rounds_alg n n 0 (others s v) g0 m pr No (fun x Hx => Hx)) as [g' [m' [E [X2 X3]]]]; [unfold n; lia|unfold n; lia|exact HP|]. rewrite E in H. cbn [bind with_empty] in H. injection H as <- <-.
  split; [|split; [exact X2|split; [exact X3|reflexivity]]].
  destruct (outer_char e tot v Hwf Hv cs n n 0 (others s v) g0 m _ g' m' No (fun x Hx => Hx) (initial_graph e v _ No) E) as [_ [[D A2] _]].
  destruct (edges_view_spec _ D) as [_ V2]. intros a b. unfold ng_edges. rewrite V2. apply A2.
Qed.
Lemma optimize_alg m pr es st' : protects m pr -> optimize_structure e tot (MkState m empty_cache) v = Ok (es, st') ->
  forall a b, In (a, b) es <-> In a (ctpc_parents ask pr (others s v)) /\ b = v.
Proof. intros HP H. exact (proj1 (optimize_marks m pr es st' HP H)). Qed.
End alg.
