(** Counting the tests, and the parent sets whose parameters are estimated (C86). *)
From Verif Require Import Base Lib ModelStructure ModelGraph ModelCims ModelData ModelParams ModelCache ModelCtpc
  SpecStructure SpecGraph SpecComb SpecParams SpecData SpecCtpc SpecCost
  ProofStructure ProofGraph ProofComb ProofCache ProofCtpc ProofCtpc2 ProofCtpc3 ProofCost.

(** ** Counting *)
Fixpoint all_sub {A} (l : list A) : list (list A) :=
  match l with [] => [[]] | x :: r => map (cons x) (all_sub r) ++ all_sub r end.
Lemma all_sub_length {A} (l : list A) : length (all_sub l) = 2 ^ length l.
Proof. induction l as [|x r IH]; [reflexivity|]. cbn [all_sub length]. rewrite app_length, map_length, IH. cbn [Nat.pow]. lia. Qed.
Lemma all_sub_In {A} (l a : list A) : In a (all_sub l) <-> sublist a l.
Proof.
  revert a. induction l as [|x r IH]; intros a; cbn [all_sub].
  - split; [intros [<-|[]]; constructor|intros H; inversion H; left; reflexivity].
  - rewrite in_app_iff, in_map_iff. split.
    + intros [[b [<- H]]|H]; [apply sub_keep|apply sub_skip]; apply IH, H.
    + intros H. inversion H; subst; [right; apply IH; assumption|left; eexists; split; [reflexivity|apply IH; assumption]].
Qed.
Lemma all_sub_NoDup {A} (l : list A) : NoDup l -> NoDup (all_sub l).
Proof.
  induction 1 as [|x r Hx Hr IH]; [repeat constructor; intros []|]. cbn [all_sub]. apply NoDup_app_intro; [apply FinFun.Injective_map_NoDup; [intros a b H; congruence|exact IH]|exact IH|].
  intros a H1 H2. apply in_map_iff in H1 as [b [<- _]]. apply all_sub_In in H2. apply Hx. eapply sublist_In; [exact H2|left; reflexivity].
Qed.
Definition drop (p : label) (u : list label) : list label := filter (fun x => negb (String.eqb x p)) u.
Lemma drop_length p u : NoDup u -> In p u -> length (drop p u) = length u - 1.
Proof.
  intros Hn Hp. apply in_split in Hp as [a [b ->]]. unfold drop. rewrite filter_app. cbn [filter]. rewrite String.eqb_refl. cbn [negb].
  pose proof (NoDup_remove_2 _ _ _ Hn) as K. rewrite in_app_iff in K. rewrite !filter_true, !app_length; [cbn [length]; lia| |]; intros x Hx; apply negb_true_iff, String.eqb_neq; intros ->; tauto.
Qed.
Lemma drop_sub p a u : sublist a u -> ~ In p a -> sublist a (drop p u).
Proof.
  intros H1 H2. unfold drop. induction H1 as [|y a b H IH|y a b H IH]; cbn [filter]; [constructor| |].
  - destruct (String.eqb_spec y p); cbn [negb]; [|constructor]; auto.
  - destruct (String.eqb_spec y p) as [->|]; cbn [negb]; [exfalso; apply H2; left; reflexivity|]. apply sub_keep, IH. intros K; apply H2; right; exact K.
Qed.
(** all the questions about the members of [u] *)
Definition questions (u : list label) : list (label * list label) := flat_map (fun p => map (pair p) (all_sub (drop p u))) u.
Lemma questions_In u p S : In (p, S) (questions u) <-> In p u /\ sublist S u /\ ~ In p S.
Proof.
  unfold questions. rewrite in_flat_map. split.
  - intros [q [Hq H]]. apply in_map_iff in H as [S' [E H]]. injection E as -> ->. apply all_sub_In in H. split; [exact Hq|]. split; [exact (sublist_trans _ _ _ H (sublist_filter _ _))|].
    intros K. apply (sublist_In _ _ _ H) in K. apply filter_In in K as [_ K]. rewrite String.eqb_refl in K. discriminate.
  - intros [Hp [H1 H2]]. exists p. split; [exact Hp|]. apply in_map, all_sub_In, drop_sub; assumption.
Qed.
Lemma flat_map_const {A B} (f : A -> list B) n l : (forall x, In x l -> length (f x) = n) -> length (flat_map f l) = length l * n.
Proof.
  induction l as [|x l IH]; intros H; [reflexivity|]. cbn [flat_map length]. rewrite app_length, (H x (or_introl eq_refl)), IH; [lia|]. intros y Hy. apply H. right; exact Hy.
Qed.
Lemma questions_length u : NoDup u -> length (questions u) = length u * 2 ^ (length u - 1).
Proof. intros Hu. apply flat_map_const. intros p Hp. rewrite map_length, all_sub_length, (drop_length p u Hu Hp). reflexivity. Qed.
Lemma NoDup_flat {A B} (f : A -> list B) l : NoDup l -> (forall x, In x l -> NoDup (f x)) -> (forall x y b, In x l -> In y l -> In b (f x) -> In b (f y) -> x = y) -> NoDup (flat_map f l).
Proof.
  induction 1 as [|x l Hx Hl IH]; intros H1 H2; [constructor|]. cbn [flat_map]. apply NoDup_app_intro; [apply H1; left; reflexivity| |].
  - apply IH; [intros y Hy; apply H1; right; exact Hy|]. intros y z b Hy Hz. apply H2; right; assumption.
  - intros b B1 B2. apply in_flat_map in B2 as [y [Hy B2]]. apply Hx. rewrite (H2 x y b (or_introl eq_refl) (or_intror Hy) B1 B2). exact Hy.
Qed.
Lemma questions_NoDup u : NoDup u -> NoDup (questions u).
Proof.
  intros Hu. apply NoDup_flat; [exact Hu| |].
  - intros p Hp. apply FinFun.Injective_map_NoDup; [intros a b H; congruence|]. apply all_sub_NoDup, NoDup_filter', Hu.
  - intros p q b _ _ H1 H2. apply in_map_iff in H1 as [? [<- _]]. apply in_map_iff in H2 as [? [E _]]. congruence.
Qed.
Lemma pow_mono a b : a <= b -> a * 2 ^ (a - 1) <= b * 2 ^ (b - 1).
Proof. intros H. apply Nat.mul_le_mono; [exact H|]. apply Nat.pow_le_mono_r; lia. Qed.

(** the sublist that has the members of [a] in the order of [u] *)
Lemma sub_ext (a b u : list label) : NoDup u -> sublist a u -> sublist b u -> (forall x, In x a <-> In x b) -> a = b.
Proof.
  intros Hu. assert (K : forall c, sublist c u -> c = filter (fun x => lmem x c) u).
  { intros c Hc. revert Hu. induction Hc as [|x c u H IH|x c u H IH]; intros Hu; [reflexivity| |]; apply NoDup_cons_iff in Hu as [H1 H2]; cbn [filter].
    - replace (lmem x c) with false; [apply IH, H2|]. symmetry. apply lmem_false. intros Kx. apply H1, (sublist_In _ _ _ H Kx).
    - replace (lmem x (x :: c)) with true by (symmetry; apply lmem_In; left; reflexivity). f_equal. rewrite (IH H2) at 1. apply filter_ext_in. intros y Hy. unfold lmem. cbn [existsb].
      destruct (String.eqb_spec y x) as [->|]; [contradiction|reflexivity]. }
  intros Ha Hb H. rewrite (K a Ha), (K b Hb). apply filter_ext_in. intros x _. destruct (lmem x a) eqn:E1, (lmem x b) eqn:E2; try reflexivity.
  - apply lmem_In, H, lmem_In in E1. congruence.
  - apply lmem_In, H, lmem_In in E2. congruence.
Qed.
Lemma subset_list (ps u : list label) : NoDup ps -> incl ps u -> NoDup u -> exists q, sublist q u /\ (forall x, In x q <-> In x ps) /\ length q = length ps.
Proof.
  intros H1 H2 H3. exists (filter (fun x => lmem x ps) u). assert (E : forall x, In x (filter (fun x => lmem x ps) u) <-> In x ps).
  { intros x. rewrite filter_In, lmem_In. split; [tauto|]. intros H. split; [apply H2, H|exact H]. }
  split; [apply sublist_filter|]. split; [exact E|]. apply Nat.le_antisymm; apply NoDup_incl_length; [apply NoDup_filter', H3|intros x; apply E|exact H1|intros x; apply E].
Qed.
Lemma sub_filter (f : label -> bool) (u a : list label) : NoDup u -> sublist a u -> (forall q, In q a -> In q (filter f u)) -> sublist a (filter f u).
Proof.
  intros Nm P2 Hin. induction P2 as [|y a l H IH|y a l H IH]; cbn [filter] in *; [constructor| |]; apply NoDup_cons_iff in Nm as [N1 N2].
  - assert (K : forall q, In q a -> In q (filter f l)).
    { intros q Hq. pose proof (Hin q Hq) as K. destruct (f y); [|exact K]. destruct K as [<-|K]; [|exact K]. exfalso. apply N1, (sublist_In _ _ _ H Hq). }
    destruct (f y); [apply sub_skip|]; apply IH; auto.
  - assert (Fy : f y = true) by (pose proof (Hin y (or_introl eq_refl)) as K; destruct (f y) eqn:Ef; [reflexivity|]; apply filter_In in K; destruct K; congruence).
    rewrite Fy in *. apply sub_keep, IH; [exact N2|]. intros q Hq. destruct (Hin q (or_intror Hq)) as [<-|K]; [|exact K]. exfalso. apply N1, (sublist_In _ _ _ H Hq).
Qed.

(** ** What one test does to the matrix and to the cache *)
Lemma cims_mono e cs c1 th i j l : forall st b st', test_cims e st cs c1 l th i j = Ok (b, st') ->
  st_cache st' = st_cache st /\ forall k h, mat_get (st_matrix st') k h = Ok true -> mat_get (st_matrix st) k h = Ok true.
Proof.
  induction l as [|c2 l IH]; intros st b st' H; cbn [test_cims] in H; [injection H as <- <-; auto|].
  apply bind_ok in H as [[b1 st1] [H1 H]]. assert (K : st_cache st1 = st_cache st /\ forall k h, mat_get (st_matrix st1) k h = Ok true -> mat_get (st_matrix st) k h = Ok true).
  { unfold independence_test in H1. destruct (_ && _) in H1; [|injection H1 as <- <-; auto]. apply bind_ok in H1 as [m [Em H1]]. injection H1 as <- <-. split; [reflexivity|]. cbn [st_matrix].
    apply mat_set_get in Em as [_ Em]. intros k h E. rewrite Em in E. destruct (_ && _); [discriminate|exact E]. }
  destruct b1; [|injection H as <- <-; exact K]. destruct (IH st1 b st' H) as [A B]. split; [rewrite A; apply K|]. intros k h E. apply K, B, E.
Qed.
Lemma configs_mono e cs so2 flt th i j l : forall st b st', test_configs e st cs l so2 flt th i j = Ok (b, st') ->
  st_cache st' = st_cache st /\ forall k h, mat_get (st_matrix st') k h = Ok true -> mat_get (st_matrix st) k h = Ok true.
Proof.
  induction l as [|[c1 pc] l IH]; intros st b st' H; cbn [test_configs] in H; [injection H as <- <-; auto|].
  apply bind_ok in H as [cc [_ H]]. apply bind_ok in H as [[b1 st1] [H1 H]]. apply cims_mono in H1 as K.
  destruct b1; [|injection H as <- <-; exact K]. destruct (IH st1 b st' H) as [A B]. split; [rewrite A; apply K|]. intros k h E. apply K, B, E.
Qed.
Definition known_key (ks : list (list label)) (k : list label) : Prop := exists k', In k' ks /\ same_set k k'.
(** the key is put if it is not there yet *)
Definition put_once (ks : list (list label)) (k : list label) (ks' : list (list label)) : Prop :=
  known_key ks k /\ ks' = ks \/ ~ known_key ks k /\ ks' = ks ++ [k].
Lemma find_known {V} (c : cache V) k r : cache_find c k = Ok r -> match r with Some _ => known_key (c_keys c) k | None => ~ known_key (c_keys c) k end.
Proof.
  unfold cache_find. destruct (set_index k (c_keys c)) as [i|x] eqn:E; intros H.
  - apply bind_ok in H as [w [_ H]]. injection H as <-. apply set_index_ok in E as [y [E1 E2]]. exists y. split; [exact (nth_error_In _ _ E1)|exact E2].
  - assert (x = ValueError) by exact (set_index_err _ _ _ E). subst. injection H as <-. clear - E. intros [y [Y1 Y2]]. induction (c_keys c) as [|a l IH]; [destruct Y1|]. cbn [set_index] in E.
    destruct (lset_eqb k a) eqn:El; [discriminate|]. destruct Y1 as [<-|Y1]; [apply lset_eqb_false in El; contradiction|]. apply IH; [|exact Y1]. destruct (set_index k l); [discriminate|]. cbn [bind] in E. congruence.
Qed.
Lemma test_facts e st p c ps cs tot i j b st' : complete_test e st p c ps cs tot i j = Ok (b, st') ->
  (forall k h, mat_get (st_matrix st') k h = Ok true -> mat_get (st_matrix st) k h = Ok true)
  /\ exists ks1, put_once (c_keys (st_cache st)) (p :: ps) ks1 /\ put_once ks1 ps (c_keys (st_cache st')).
Proof.
  unfold complete_test. intros H. apply bind_ok in H as [f2 [F2 H]]. apply find_known in F2. apply bind_ok in H as [[[so2 g2] ch2] [H2 H]].
  apply bind_ok in H as [f1 [F1 H]]. apply find_known in F1. apply bind_ok in H as [[so1 ch1] [H1 H]]. apply bind_ok in H as [th [_ H]].
  apply configs_mono in H as [Hc Hm]. cbn [st_matrix st_cache] in *. split; [exact Hm|]. exists (c_keys ch2). split.
  - destruct f2 as [w|]; [assert (ch2 = st_cache st) as -> by congruence; left; auto|]. apply bind_ok in H2 as [g [_ H2]]. apply bind_ok in H2 as [w [_ H2]].
    assert (ch2 = cache_put (st_cache st) (p :: ps) w) as -> by congruence. right. auto.
  - rewrite Hc. destruct f1 as [w|]; [assert (ch1 = ch2) as -> by congruence; left; auto|]. apply bind_ok in H1 as [g [_ H1]]. apply bind_ok in H1 as [g' [_ H1]]. apply bind_ok in H1 as [g'' [_ H1]].
    apply bind_ok in H1 as [w [_ H1]]. assert (ch1 = cache_put ch2 ps w) as -> by congruence. right. auto.
Qed.

(** ** Invariants of the search *)
Section keep.
Context {St : Type}.
Variables (s : structure) (v : label) (gm : St -> list (list bool))
  (ct : St -> label -> list label -> nat -> nat -> nat -> result (bool * St)) (I : St -> Prop).
Hypothesis Hwf : wf_structure s.
Hypothesis Hct : forall x p ps cs i j b x', I x -> In p (others s v) -> sublist ps (others s v) -> ~ In p ps -> ct x p ps cs i j = Ok (b, x') -> I x'.
Lemma keep_try p cs i j sets : In p (others s v) -> (forall S, In S sets -> sublist S (others s v) /\ ~ In p S) -> forall x r x', I x -> try_sets ct x p sets cs i j = Ok (r, x') -> I x'.
Proof.
  intros Hp HS x r x' HI H. revert x HI H. induction sets as [|S sets IH]; intros x HI H; cbn [try_sets] in H; [injection H as <- <-; exact HI|].
  apply bind_ok in H as [[b x1] [H1 H]]. destruct (HS S (or_introl eq_refl)) as [S1 S2]. assert (I1 : I x1) by exact (Hct _ _ _ _ _ _ _ _ HI Hp S1 S2 H1).
  destruct b; [injection H as <- <-; exact I1|]. exact (IH (fun S' H' => HS S' (or_intror H')) x1 I1 H).
Qed.
Lemma keep_inner b cs : forall fuel idx u g x u' g' x', I x -> sublist u (others s v) -> inner_loop s v gm ct fuel b cs idx u g x = Ok (u', g', x') -> I x' /\ sublist u' (others s v).
Proof.
  assert (N0 : NoDup (others s v)) by apply NoDup_filter', Hwf.
  induction fuel as [|fuel IH]; intros idx u g x u' g' x' HI Hu H; cbn [inner_loop] in H; [discriminate|]. destruct (idx <? length u); [|injection H as <- <- <-; auto].
  apply bind_ok in H as [p [Hp H]]. apply nth_res_ok, nth_error_In in Hp. apply bind_ok in H as [i [_ H]]. apply bind_ok in H as [j [_ H]]. apply bind_ok in H as [rm [_ H]].
  apply bind_ok in H as [[r x1] [H1 H]]. assert (Nu : NoDup u) by exact (sublist_NoDup _ _ Hu N0).
  assert (I1 : I x1).
  { destruct rm; [|injection H1 as <- <-; exact HI]. destruct (proj1 (subsets_spec u b p Nu) Hp) as [sets [ES [NS HS]]]. rewrite ES in H1. cbn [bind] in H1.
    refine (keep_try p cs i j sets (sublist_In _ _ _ Hu Hp) _ x r x1 HI H1). intros S HS'. apply HS in HS' as [S1 [S2 _]]. split; [exact (sublist_trans _ _ _ S1 Hu)|exact S2]. }
  destruct r; [|exact (IH _ _ _ _ _ _ _ I1 Hu H)]. rewrite (py_remove_filter p u Nu Hp) in H. cbn [bind] in H. refine (IH _ _ _ _ _ _ _ I1 _ H). exact (sublist_trans _ _ _ (sublist_filter _ _) Hu).
Qed.
Lemma keep_outer n cs : forall fuel b u g x u' g' x', I x -> sublist u (others s v) -> outer_loop s v gm ct fuel n b cs u g x = Ok (u', g', x') -> I x'.
Proof.
  induction fuel as [|fuel IH]; intros b u g x u' g' x' HI Hu H; cbn [outer_loop] in H; [discriminate|]. destruct (b <? length u); [|injection H as <- <- <-; auto].
  apply bind_ok in H as [[[u1 g1] x1] [H1 H]]. destruct (keep_inner b cs n 0 u g x u1 g1 x1 HI Hu H1) as [I1 U1]. exact (IH _ _ _ _ _ _ _ I1 U1 H).
Qed.
Lemma keep_optimize x es x' : I x -> optimize_with s v gm ct x = Ok (es, x') -> I x'.
Proof.
  unfold optimize_with. intros HI H. apply bind_ok in H as [cs [_ H]]. fold (others s v) in H. apply bind_ok in H as [[[u g] x1] [H E]].
  assert (x1 = x') by (injection E; auto). subst. exact (keep_outer _ cs _ 0 _ _ x u g x' HI (sublist_refl _) H).
Qed.
End keep.

(** ** The log of a search of the estimator *)
Section search.
Variables (e : cb_env) (tot : nat) (v : label).
Let s := e_struct e.
Hypothesis Hwf : wf_structure s.
Hypothesis Hv : In v (nodes_labels s).
Let m0 := others s v.
Variables (st st' : cb_state) (es : list edge) (log : list asked).
Hypothesis HW : watch e tot st v = Ok (es, (st', log)).

Lemma watch_facts : tidy log /\ proper s v log /\ (forall a b, In (a, b) es <-> In a (filter (open_in log) m0) /\ b = v)
  /\ forall p, In p (filter (open_in log) m0) -> mat_get (st_matrix st') (idx_of s p) (idx_of s v) = Ok true ->
       forall S, sublist S (filter (open_in log) m0) -> ~ In p S -> In (MkAsked p S false) log.
Proof.
  apply (log_optimize s v st_matrix (fun st p ps cs i j => complete_test e st p v ps cs tot i j) Hwf Hv) with (st := st); [|exact HW].
  intros x p ps cs i j b x' k l H. apply test_facts in H as [H _]. apply H.
Qed.
Lemma watch_allowed t : In t log -> mat_get (st_matrix st) (idx_of s (about t)) (idx_of s v) = Ok true.
Proof.
  destruct watch_facts as [_ [HP _]]. intros Ht. assert (K : allowed s v st_matrix st [] log).
  { apply (allowed_optimize s v st_matrix (fun st p ps cs i j => complete_test e st p v ps cs tot i j) Hwf Hv) with (es := es) (st' := st'); [|exact HW].
    intros x p ps cs i j b x' k l H. apply test_facts in H as [H _]. apply H. }
  destruct K as [ex [E K]]. cbn [app] in E. subst ex. destruct (K t Ht) as [i [A B]]. destruct (HP t Ht) as [P _]. apply others_In in P as [P _].
  destruct (wf_lookup s (about t) Hwf P) as [_ [_ [_ [_ [Ei _]]]]]. congruence.
Qed.
Lemma m0_NoDup : NoDup m0. Proof. apply NoDup_filter', Hwf. Qed.

(** a test mentions nothing that a smaller test has separated *)
Lemma mentions_open b t q : In t log -> b <= length (given t) -> mentions t q -> ~ exists t', In t' log /\ about t' = q /\ separated t' = true /\ length (given t') < b.
Proof.
  destruct watch_facts as [[_ [T2 T3]] _]. intros Ht Hb Hq [t' [H1 [H2 [H3 H4]]]].
  apply in_split in Ht as [l1 [l2 E]]. rewrite E in H1. apply in_app_iff in H1 as [H1|[<-|H1]]; [|lia|pose proof (T2 l1 t l2 E t' H1); lia].
  apply in_split in H1 as [l3 [l4 E4]]. subst l1. rewrite <- app_assoc in E. cbn [app] in E. apply (T3 l3 t' (l4 ++ t :: l2) E H3 t); [apply in_app_iff; right; left; reflexivity|]. rewrite H2. exact Hq.
Qed.
Lemma count_after b kept :
  (forall p, In p m0 -> ~ (exists t, In t log /\ about t = p /\ separated t = true /\ length (given t) < b) -> In p kept) ->
  length (filter (fun t => b <=? length (given t)) log) <= length kept * 2 ^ (length kept - 1).
Proof.
  destruct watch_facts as [[T1 _] [HP _]]. intros HK. set (u := filter (fun x => lmem x kept) m0).
  assert (Nu : NoDup u) by apply NoDup_filter', m0_NoDup.
  assert (Lu : length u <= length kept) by (apply NoDup_incl_length; [exact Nu|]; intros x Hx; apply filter_In in Hx as [_ Hx]; apply lmem_In, Hx).
  rewrite <- (map_length key). apply Nat.le_trans with (length (questions u)); [|rewrite (questions_length u Nu); apply pow_mono, Lu]. apply NoDup_incl_length.
  - clear - T1. induction log as [|t l IH]; [constructor|]. cbn [map] in T1. apply NoDup_cons_iff in T1 as [A B]. cbn [filter]. destruct (_ <=? _); [|apply IH, B]. cbn [map]. constructor; [|apply IH, B].
    intros K. apply A. apply in_map_iff in K as [t' [K1 K2]]. apply filter_In in K2 as [K2 _]. rewrite <- K1. apply in_map, K2.
  - intros x Hx. apply in_map_iff in Hx as [t [<- Hx]]. apply filter_In in Hx as [Ht Hb]. apply Nat.leb_le in Hb. destruct (HP t Ht) as [P1 [P2 P3]]. unfold key. apply questions_In.
    assert (In_u : forall q, mentions t q -> In q m0 -> In q u).
    { intros q Hq Hm. apply filter_In. split; [exact Hm|]. apply lmem_In, HK; [exact Hm|]. exact (mentions_open b t q Ht Hb Hq). }
    split; [apply In_u; [left; reflexivity|exact P1]|]. split; [|exact P3].
    assert (Hin : forall q, In q (given t) -> In q u) by (intros q Hq; apply In_u; [right; exact Hq|exact (sublist_In _ _ _ P2 Hq)]).
    exact (sub_filter _ m0 _ m0_NoDup P2 Hin).
Qed.
Lemma count_all : length log <= length m0 * 2 ^ (length m0 - 1).
Proof. pose proof (count_after 0 m0 (fun p H _ => H)) as K. rewrite filter_true in K; [exact K|reflexivity]. Qed.
Lemma count_zero : length (filter (fun t => length (given t) =? 0) log) <= length m0.
Proof.
  destruct watch_facts as [[T1 _] [HP _]]. rewrite <- (map_length about). apply NoDup_incl_length.
  - clear - T1. induction log as [|t l IH]; [constructor|]. cbn [map] in T1. apply NoDup_cons_iff in T1 as [A B]. cbn [filter]. destruct (Nat.eqb_spec (length (given t)) 0) as [E|]; [|apply IH, B]. cbn [map].
    constructor; [|apply IH, B]. intros K. apply A. apply in_map_iff in K as [t' [K1 K2]]. apply filter_In in K2 as [K2 K3]. apply Nat.eqb_eq in K3. apply in_map_iff. exists t'. split; [|exact K2].
    unfold key. rewrite K1. f_equal. destruct (given t'), (given t); try discriminate. reflexivity.
  - intros x Hx. apply in_map_iff in Hx as [t [<- Hx]]. apply filter_In in Hx as [Hx _]. apply HP, Hx.
Qed.
Lemma split_count {A} (f : A -> nat) l : length l = length (filter (fun t => f t =? 0) l) + length (filter (fun t => 1 <=? f t) l).
Proof. induction l as [|x l IH]; [reflexivity|]. cbn [filter length]. assert (E : (1 <=? f x) = negb (f x =? 0)) by (destruct (f x); reflexivity). rewrite E. destruct (f x =? 0); cbn [negb length]; lia. Qed.
Lemma count_sparse kept : (forall p, In p m0 -> ~ In (MkAsked p [] true) log -> In p kept) -> length log <= length m0 + length kept * 2 ^ (length kept - 1).
Proof.
  intros H. rewrite (split_count (fun t => length (given t)) log). apply Nat.add_le_mono; [exact count_zero|]. apply count_after. intros p Hp K. apply H; [exact Hp|].
  intros L. apply K. exists (MkAsked p [] true). split; [exact L|]. cbn [about separated given length]. auto.
Qed.
Lemma count_at_least ps : NoDup ps -> (forall p, In p ps -> In (p, v) es /\ mat_get (st_matrix st') (idx_of s p) (idx_of s v) = Ok true) ->
  length ps * 2 ^ (length ps - 1) <= length log.
Proof.
  destruct watch_facts as [_ [_ [HE HC]]]. intros Hn Hp. set (u := filter (open_in log) m0) in *.
  assert (Nu : NoDup u) by apply NoDup_filter', m0_NoDup.
  assert (Hi : incl ps u) by (intros p Hq; apply Hp in Hq as [Hq _]; apply HE in Hq; tauto).
  destruct (subset_list ps u Hn Hi Nu) as [q [Q1 [Q2 Q3]]]. assert (Nq : NoDup q) by exact (sublist_NoDup _ _ Q1 Nu).
  rewrite <- Q3, <- (questions_length q Nq), <- (map_length key log). apply NoDup_incl_length; [apply questions_NoDup, Nq|].
  intros [p S] H. apply questions_In in H as [H1 [H2 H3]]. change (p, S) with (key (MkAsked p S false)). apply in_map, HC; [exact (sublist_In _ _ _ Q1 H1)|apply Hp, Q2, H1|exact (sublist_trans _ _ _ H2 Q1)|exact H3].
Qed.
Lemma parents_found p : In (p, v) es <-> In p m0 /\ ~ found_separated log p.
Proof. destruct watch_facts as [_ [_ [HE _]]]. rewrite HE, filter_In, open_spec. tauto. Qed.
End search.

(** ** The parent sets whose parameters are estimated *)
Definition distinct_sets (ks : list (list label)) : Prop := forall i j a b, nth_error ks i = Some a -> nth_error ks j = Some b -> same_set a b -> i = j.
Lemma put_once_distinct ks k ks' : put_once ks k ks' -> distinct_sets ks -> distinct_sets ks'.
Proof.
  intros [[_ ->]|[N ->]] H; [exact H|]. intros i j a b Ha Hb E.
  assert (K : forall n x, nth_error (ks ++ [k]) n = Some x -> nth_error ks n = Some x \/ n = length ks /\ x = k).
  { intros n x Hx. destruct (Nat.lt_ge_cases n (length ks)) as [L|L]; [left; rewrite nth_error_app1 in Hx by exact L; exact Hx|]. rewrite nth_error_app2 in Hx by exact L.
    destruct (n - length ks) as [|d] eqn:Ed; [right; cbn in Hx; split; [lia|congruence]|destruct d; discriminate]. }
  apply K in Ha as [Ha|[-> ->]]; apply K in Hb as [Hb|[-> ->]]; [exact (H i j a b Ha Hb E)| | |reflexivity]; exfalso; apply N.
  - exists a. split; [exact (nth_error_In _ _ Ha)|apply same_set_sym, E].
  - exists b. split; [exact (nth_error_In _ _ Hb)|exact E].
Qed.
Definition keys_inv (s : structure) (v : label) (x : cb_state * list asked) : Prop :=
  let ks := c_keys (st_cache (fst x)) in
  distinct_sets ks /\ (forall k, In k ks -> incl k (others s v))
  /\ (forall k, known_key ks k <-> exists t, In t (snd x) /\ (same_set k (given t) \/ same_set k (about t :: given t))).
Lemma known_put ks k ks' k0 : put_once ks k ks' -> (known_key ks' k0 <-> known_key ks k0 \/ same_set k0 k).
Proof.
  intros [[[k1 [K1 K2]] ->]|[N ->]].
  - split; [auto|]. intros [H|H]; [exact H|]. exists k1. split; [exact K1|exact (same_set_trans _ _ _ H K2)].
  - unfold known_key. split.
    + intros [k' [H1 H2]]. apply in_app_iff in H1 as [H1|[<-|[]]]; eauto.
    + intros [[k' [H1 H2]]|H]; [exists k'; split; [apply in_app_iff; left; exact H1|exact H2]|exists k; split; [apply in_app_iff; right; left; reflexivity|exact H]].
Qed.
Lemma put_incl ks k ks' u : put_once ks k ks' -> (forall k0, In k0 ks -> incl k0 u) -> incl k u -> forall k0, In k0 ks' -> incl k0 u.
Proof. intros [[_ ->]|[_ ->]] H Hk k0 H0; [apply H, H0|]. apply in_app_iff in H0 as [H0|[<-|[]]]; [apply H, H0|exact Hk]. Qed.
Lemma estimated_keys e tot v m es st' log : wf_structure (e_struct e) -> watch e tot (MkState m empty_cache) v = Ok (es, (st', log)) -> keys_inv (e_struct e) v (st', log).
Proof.
  intros Hwf H. unfold watch in H. refine (keep_optimize (e_struct e) v _ _ (keys_inv (e_struct e) v) Hwf _ _ _ _ _ H).
  - intros [x l] p ps cs i j b [x' l'] [I1 [I2 I3]] Hp Hs Hn HC. unfold noting in HC. cbn [fst snd] in *. apply bind_ok in HC as [[b1 x1] [HC E]].
    assert (b1 = b /\ x1 = x' /\ l' = l ++ [MkAsked p ps b]) as [-> [-> ->]] by (injection E; intros; subst; auto). apply test_facts in HC as [_ [ks1 [P1 P2]]].
    assert (Is : incl ps (others (e_struct e) v)) by (intros q Hq; exact (sublist_In _ _ _ Hs Hq)). unfold keys_inv. cbn [fst snd]. split; [|split].
    + exact (put_once_distinct _ _ _ P2 (put_once_distinct _ _ _ P1 I1)).
    + refine (put_incl _ _ _ _ P2 (put_incl _ _ _ _ P1 I2 _) Is). intros q [<-|Hq]; [exact Hp|exact (Is q Hq)].
    + intros k. rewrite (known_put _ _ _ k P2), (known_put _ _ _ k P1), I3. split.
      * intros [[[t [T1 T2]]|K]|K]; [exists t; split; [apply in_app_iff; left; exact T1|exact T2]| |]; exists (MkAsked p ps b); (split; [apply in_app_iff; right; left; reflexivity|]); cbn [about given]; auto.
      * intros [t [T1 T2]]. apply in_app_iff in T1 as [T1|[<-|[]]]; [left; left; eauto|]. cbn [about given] in T2. tauto.
  - unfold keys_inv. cbn. split; [intros [|i] j a b; discriminate|]. split; [intros k []|]. intros k. split; [intros [k' [[] _]]|intros [t [[] _]]].
Qed.
Lemma distinct_count ks (u : list label) : NoDup u -> distinct_sets ks -> (forall k, In k ks -> incl k u) -> length ks <= 2 ^ length u.
Proof.
  intros Hu HD HI. set (f := fun k => filter (fun x => lmem x k) u). rewrite <- (map_length f), <- (all_sub_length u). apply NoDup_incl_length.
  - apply NoDup_nth_error. intros i j Hi E. rewrite map_length in Hi. rewrite !nth_error_map in E. destruct (nth_error ks i) as [a|] eqn:Ea; [|apply nth_error_None in Ea; lia]. cbn [option_map] in E.
    destruct (nth_error ks j) as [b|] eqn:Eb; [|discriminate]. cbn [option_map] in E. assert (Ef : f a = f b) by congruence. apply (HD i j a b Ea Eb).
    assert (K : forall c x, In c ks -> (In x c <-> In x (f c))) by (intros c x Hc; unfold f; rewrite filter_In, lmem_In; split; [intros H; split; [exact (HI c Hc x H)|exact H]|tauto]).
    intros x. rewrite (K a x (nth_error_In _ _ Ea)), (K b x (nth_error_In _ _ Eb)), Ef. reflexivity.
  - intros k Hk. apply in_map_iff in Hk as [c [<- _]]. apply all_sub_In, sublist_filter.
Qed.

(** ** A whole run *)
Lemma watching e tot st v : optimize_structure e tot st v
  = let* (es, (st1, _)) := watch e tot st v in Ok (es, MkState (st_matrix st1) empty_cache).
Proof.
  unfold optimize_structure, watch. pose proof (optimize_erase (e_struct e) v st_matrix (fun st p ps cs i j => complete_test e st p v ps cs tot i j) (st, [])) as H. cbn [fst] in H. rewrite <- H.
  destruct (optimize_with (e_struct e) v _ (noting _) (st, [])) as [[es [st1 log]]|z]; reflexivity.
Qed.
Lemma others_count s v : wf_structure s -> In v (nodes_labels s) -> length (others s v) = length (nodes_labels s) - 1.
Proof. intros Hwf Hv. exact (drop_length v (nodes_labels s) (proj1 Hwf) Hv). Qed.
Lemma run_count (sq : bool) e tot nodes : wf_structure (e_struct e) -> incl nodes (nodes_labels (e_struct e)) -> forall st,
  (if sq then exists r, sequential_run e tot st nodes = Ok r else exists r, pool_run e tot st nodes = Ok r) ->
  exists logs, watch_nodes sq e tot st nodes = Ok logs /\ length logs = length nodes
    /\ length (concat logs) <= length nodes * ((length (nodes_labels (e_struct e)) - 1) * 2 ^ (length (nodes_labels (e_struct e)) - 2)).
Proof.
  intros Hwf Hi. induction nodes as [|v nodes IH]; intros st H; [exists []; split; [reflexivity|split; [reflexivity|cbn; lia]]|]. cbn [watch_nodes].
  assert (Hv : In v (nodes_labels (e_struct e))) by (apply Hi; left; reflexivity).
  assert (K : exists es st1 log, watch e tot st v = Ok (es, (st1, log)) /\ exists logs, watch_nodes sq e tot (if sq then MkState (st_matrix st1) empty_cache else st) nodes = Ok logs /\ length logs = length nodes
    /\ length (concat logs) <= length nodes * ((length (nodes_labels (e_struct e)) - 1) * 2 ^ (length (nodes_labels (e_struct e)) - 2))).
  { destruct sq.
    - destruct H as [r H]. cbn [sequential_run] in H. apply bind_ok in H as [[es st'] [H1 H]]. apply bind_ok in H as [[ess st''] [H2 _]]. rewrite watching in H1.
      apply bind_ok in H1 as [[es1 [st1 log]] [H1 E]]. exists es1, st1, log. split; [exact H1|]. apply IH; [intros x Hx; apply Hi; right; exact Hx|]. assert (st' = MkState (st_matrix st1) empty_cache) as <- by congruence. eauto.
    - destruct H as [r H]. unfold pool_run in H. apply bind_ok in H as [ess [H _]]. cbn [res_map] in H. apply bind_ok in H as [es [H1 H]]. apply bind_ok in H1 as [[es0 st'] [H1 _]]. rewrite watching in H1.
      apply bind_ok in H1 as [[es1 [st1 log]] [H1 _]]. exists es1, st1, log. split; [exact H1|]. apply IH; [intros x Hx; apply Hi; right; exact Hx|]. apply bind_ok in H as [ess' [H2 _]].
      exists (ess', st). unfold pool_run. rewrite H2. reflexivity. }
  destruct K as [es [st1 [log [E1 [logs [E2 [L1 L2]]]]]]]. rewrite E1. cbn [bind]. rewrite E2. cbn [bind]. exists (log :: logs). split; [reflexivity|]. split; [cbn [length]; lia|].
  cbn [concat length]. rewrite app_length. pose proof (count_all e tot v Hwf Hv st st1 es log E1) as C. rewrite (others_count _ v Hwf Hv) in C.
  replace (length (nodes_labels (e_struct e)) - 1 - 1) with (length (nodes_labels (e_struct e)) - 2) in C by lia. cbn [Nat.mul]. lia.
Qed.
Lemma estimate_count est sq es est' : wf_structure (e_struct (cb_e est)) -> cb_estimate_structure est sq = Ok (es, est') ->
  let n := length (nodes_labels (e_struct (cb_e est))) in
  exists logs, tests_of est sq = Ok logs /\ length logs = n /\ length (concat logs) <= n * (n - 1) * 2 ^ (n - 2).
Proof.
  intros Hwf H n. unfold cb_estimate_structure in H. set (e := MkEnv (clean_structure_edges (e_struct (cb_e est))) _ _ _) in H.
  destruct (run_count sq e (cb_tot est) (nodes_labels (e_struct e)) Hwf (fun x Hx => Hx) (cb_st est)) as [logs [A [B C]]].
  - apply bind_ok in H as [r [H _]]. destruct sq; exists r; exact H.
  - exists logs. split; [exact A|]. split; [exact B|]. rewrite <- Nat.mul_assoc. exact C.
Qed.
