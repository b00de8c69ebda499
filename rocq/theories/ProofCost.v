(** The tests performed by the constraint-based search (C86): the log of a search with arbitrary tests. *)
From Verif Require Import Base Lib ModelStructure ModelGraph ModelCims ModelData ModelParams ModelCache ModelCtpc
  SpecStructure SpecGraph SpecComb SpecParams SpecData SpecCtpc SpecCost
  ProofStructure ProofGraph ProofComb ProofCache ProofCtpc ProofCtpc2 ProofCtpc3.

(** ** The logbook changes nothing *)
Section erase.
Context {St : Type}.
Variables (s : structure) (v : label) (gm : St -> list (list bool))
  (ct : St -> label -> list label -> nat -> nat -> nat -> result (bool * St)).
Let gmn := fun x : St * list asked => gm (fst x).
Definition forget {A} (r : result (A * (St * list asked))) : result (A * St) := let* (a, x) := r in Ok (a, fst x).
Lemma try_erase p cs i j : forall sets x, forget (try_sets (noting ct) x p sets cs i j) = try_sets ct (fst x) p sets cs i j.
Proof.
  induction sets as [|S sets IH]; intros x; cbn [try_sets]; [reflexivity|]. unfold noting at 1. destruct (ct (fst x) p S cs i j) as [[b st]|z]; cbn [bind forget]; [|reflexivity].
  destruct b; [reflexivity|]. apply IH.
Qed.
Lemma inner_erase b cs : forall fuel idx u g x, forget (inner_loop s v gmn (noting ct) fuel b cs idx u g x) = inner_loop s v gm ct fuel b cs idx u g (fst x).
Proof.
  induction fuel as [|fuel IH]; intros idx u g x; cbn [inner_loop]; [reflexivity|]. destruct (idx <? length u); [|reflexivity].
  destruct (nth_res u idx) as [p|z]; cbn [bind forget]; [|reflexivity]. destruct (structure_get_node_indx s p) as [i|z]; cbn [bind forget]; [|reflexivity].
  destruct (structure_get_node_indx s v) as [j|z]; cbn [bind forget]; [|reflexivity]. unfold gmn at 1. destruct (mat_get (gm (fst x)) i j) as [rm|z]; cbn [bind forget]; [|reflexivity].
  destruct rm; cbn [bind]; [|apply IH]. destruct (generate_possible_sub_sets_of_size u b p) as [sets|z]; cbn [bind forget]; [|reflexivity].
  rewrite <- (try_erase p cs i j sets x). destruct (try_sets (noting ct) x p sets cs i j) as [[r y]|z]; cbn [bind forget]; [|reflexivity].
  destruct r; [|apply IH]. destruct (py_remove String.eqb p u) as [u'|z]; cbn [bind forget]; [|reflexivity]. apply IH.
Qed.
Lemma outer_erase n cs : forall fuel b u g x, forget (outer_loop s v gmn (noting ct) fuel n b cs u g x) = outer_loop s v gm ct fuel n b cs u g (fst x).
Proof.
  induction fuel as [|fuel IH]; intros b u g x; cbn [outer_loop]; [reflexivity|]. destruct (b <? length u); [|reflexivity].
  rewrite <- (inner_erase b cs n 0 u g x). destruct (inner_loop s v gmn (noting ct) n b cs 0 u g x) as [[[u' g'] y]|z]; cbn [bind forget]; [|reflexivity]. apply IH.
Qed.
Lemma optimize_erase x : forget (optimize_with s v gmn (noting ct) x) = optimize_with s v gm ct (fst x).
Proof.
  unfold optimize_with. destruct (structure_get_states_number s v) as [cs|z]; cbn [bind forget]; [|reflexivity].
  match goal with |- context [outer_loop s v gmn (noting ct) ?f ?n ?b cs ?u ?g x] => rewrite <- (outer_erase n cs f b u g x); destruct (outer_loop s v gmn (noting ct) f n b cs u g x) as [[[u' g'] y]|z] end; reflexivity.
Qed.
End erase.

(** ** What the log looks like *)
Definition key (t : asked) : label * list label := (about t, given t).
Definition mentions (t : asked) (q : label) : Prop := q = about t \/ In q (given t).
(** no question twice, small sets first, and nothing found separated is mentioned again *)
Definition tidy (log : list asked) : Prop :=
  NoDup (map key log)
  /\ (forall l1 t l2, log = l1 ++ t :: l2 -> forall t', In t' l2 -> length (given t) <= length (given t'))
  /\ (forall l1 t l2, log = l1 ++ t :: l2 -> separated t = true -> forall t', In t' l2 -> ~ mentions t' (about t)).
Definition open_in (log : list asked) (p : label) : bool := negb (existsb (fun t => String.eqb (about t) p && separated t) log).
Lemma open_spec log p : open_in log p = true <-> ~ found_separated log p.
Proof.
  unfold open_in. rewrite negb_true_iff. split.
  - intros H [t [A [B C]]]. enough (existsb (fun t => String.eqb (about t) p && separated t) log = true) by congruence. apply existsb_exists. exists t. split; [exact A|].
    rewrite B, C, String.eqb_refl. reflexivity.
  - intros H. apply not_true_iff_false. intros K. apply existsb_exists in K as [t [A B]]. apply andb_true_iff in B as [B C]. apply String.eqb_eq in B. apply H. exists t. auto.
Qed.
Lemma open_snoc log t p : open_in (log ++ [t]) p = open_in log p && negb (String.eqb (about t) p && separated t).
Proof. unfold open_in. rewrite existsb_app. cbn [existsb]. rewrite orb_false_r, negb_orb. reflexivity. Qed.
Lemma snoc_split {A} (log : list A) t l1 x l2 : log ++ [t] = l1 ++ x :: l2 -> (l2 = [] /\ x = t /\ l1 = log) \/ exists l2', l2 = l2' ++ [t] /\ log = l1 ++ x :: l2'.
Proof.
  induction l2 as [|y l2' _] using rev_ind.
  - intros H. apply app_inj_tail in H as [H1 H2]. left. auto.
  - intros H. right. exists l2'. replace (l1 ++ x :: l2' ++ [y]) with ((l1 ++ x :: l2') ++ [y]) in H by (rewrite <- app_assoc; reflexivity). apply app_inj_tail in H as [-> ->]. auto.
Qed.
Lemma snoc_tidy log t : tidy log -> (forall t', In t' log -> length (given t') <= length (given t)) -> ~ In (key t) (map key log) ->
  (forall q, mentions t q -> open_in log q = true) -> tidy (log ++ [t]).
Proof.
  intros [T1 [T2 T3]] HL HK HO. split; [|split].
  - rewrite map_app. apply NoDup_app_intro; [exact T1|repeat constructor; intros []|]. intros x Hx [<-|[]]. apply HK, Hx.
  - intros l1 x l2 E t' Ht'. apply snoc_split in E as [[-> _]|[l2' [-> E]]]; [destruct Ht'|]. apply in_app_iff in Ht' as [Ht'|[<-|[]]].
    + exact (T2 l1 x l2' E t' Ht').
    + apply HL. rewrite E. apply in_app_iff. right; left; reflexivity.
  - intros l1 x l2 E Hx t' Ht'. apply snoc_split in E as [[-> _]|[l2' [-> E]]]; [destruct Ht'|]. apply in_app_iff in Ht' as [Ht'|[<-|[]]].
    + exact (T3 l1 x l2' E Hx t' Ht').
    + intros Hm. apply HO in Hm. apply open_spec in Hm. apply Hm. exists x. split; [rewrite E; apply in_app_iff; right; left; reflexivity|auto].
Qed.

Section log.
Context {St : Type}.
Variables (s : structure) (v : label) (gm : St -> list (list bool))
  (ct : St -> label -> list label -> nat -> nat -> nat -> result (bool * St)).
Hypothesis Hwf : wf_structure s.
Hypothesis Hv : In v (nodes_labels s).
Let m0 := others s v.
Let jv := idx_of s v.
Let gmn := fun x : St * list asked => gm (fst x).
(** the tests only ever take removability away *)
Hypothesis Hmono : forall st p ps cs i j b st' k l, ct st p ps cs i j = Ok (b, st') -> mat_get (gm st') k l = Ok true -> mat_get (gm st) k l = Ok true.

Definition proper (log : list asked) : Prop := forall t, In t log -> In (about t) m0 /\ sublist (given t) m0 /\ ~ In (about t) (given t).
Definition sizes (b : nat) (log : list asked) : Prop := forall t, In t log -> length (given t) <= b.

Lemma log_try p cs b : forall sets st log r st' log', NoDup sets -> In p m0 ->
  (forall S, In S sets -> sublist S m0 /\ ~ In p S /\ length S = b) ->
  (forall S q, In S sets -> q = p \/ In q S -> open_in log q = true) -> (forall S, In S sets -> ~ In (p, S) (map key log)) ->
  tidy log -> proper log -> sizes b log ->
  try_sets (noting ct) (st, log) p sets cs (idx_of s p) jv = Ok (r, (st', log')) ->
  tidy log' /\ proper log' /\ sizes b log' /\ (exists extra, log' = log ++ extra /\ forall t, In t extra -> about t = p /\ length (given t) = b)
  /\ (forall q, open_in log' q = open_in log q && negb (r && String.eqb p q))
  /\ (r = false -> forall S, In S sets -> In (MkAsked p S false) log')
  /\ (forall k l, mat_get (gm st') k l = Ok true -> mat_get (gm st) k l = Ok true).
Proof.
  induction sets as [|S sets IH]; intros st log r st' log' Hn Hp HS HO HK HT HP HZ H; cbn [try_sets] in H.
  - injection H as <- <- <-. split; [exact HT|]. split; [exact HP|]. split; [exact HZ|]. split; [exists []; split; [symmetry; apply app_nil_r|intros t []]|].
    split; [intros q; cbn [andb negb]; rewrite andb_true_r; reflexivity|]. split; [intros _ S []|auto].
  - unfold noting at 1 in H. cbn [fst snd] in H. destruct (ct st p S cs (idx_of s p) jv) as [[b1 st1]|z] eqn:EC; cbn [bind] in H; [|discriminate].
    apply NoDup_cons_iff in Hn as [Hn1 Hn2]. destruct (HS S (or_introl eq_refl)) as [S1 [S2 S3]].
    set (t := MkAsked p S b1) in *. set (log1 := log ++ [t]) in *.
    assert (T1 : tidy log1).
    { apply snoc_tidy; [exact HT|intros t' Ht'; cbn [given t]; rewrite S3; apply HZ, Ht'|exact (HK S (or_introl eq_refl))|]. intros q Hq. exact (HO S q (or_introl eq_refl) Hq). }
    assert (P1 : proper log1) by (intros t' Ht'; apply in_app_iff in Ht' as [Ht'|[<-|[]]]; [apply HP, Ht'|cbn [about given t]; auto]).
    assert (Z1 : sizes b log1) by (intros t' Ht'; apply in_app_iff in Ht' as [Ht'|[<-|[]]]; [apply HZ, Ht'|cbn [given t]; lia]).
    destruct b1.
    + injection H as <- <- <-. split; [exact T1|]. split; [exact P1|]. split; [exact Z1|]. split; [exists [t]; split; [reflexivity|intros t' [<-|[]]; split; [reflexivity|exact S3]]|].
      split; [intros q; unfold log1; rewrite open_snoc; cbn [about separated t andb]; rewrite andb_true_r; reflexivity|]. split; [discriminate|].
      intros k l E. exact (Hmono _ _ _ _ _ _ _ _ _ _ EC E).
    + assert (O1 : forall q, open_in log1 q = open_in log q) by (intros q; unfold log1; rewrite open_snoc; cbn [separated t]; rewrite andb_false_r; cbn [negb]; apply andb_true_r).
      destruct (IH st1 log1 r st' log' Hn2 Hp (fun S' H' => HS S' (or_intror H'))) as [A1 [A2 [A3 [[ex [A4 A4']] [A5 [A6 A7]]]]]]; [| |exact T1|exact P1|exact Z1|exact H|].
      * intros S' q HS' Hq. rewrite O1. exact (HO S' q (or_intror HS') Hq).
      * intros S' HS' K. unfold log1 in K. rewrite map_app in K. apply in_app_iff in K as [K|[K|[]]]; [exact (HK S' (or_intror HS') K)|]. unfold key in K. cbn [about given t] in K. injection K as ->. contradiction.
      * split; [exact A1|]. split; [exact A2|]. split; [exact A3|]. split.
        { exists (t :: ex). split; [rewrite A4; unfold log1; rewrite <- app_assoc; reflexivity|]. intros t' [<-|Ht']; [split; [reflexivity|exact S3]|apply A4', Ht']. }
        split; [intros q; rewrite A5, O1; reflexivity|]. split.
        { intros Er S' [<-|HS']; [|exact (A6 Er S' HS')]. rewrite A4. unfold log1. apply in_app_iff. left. apply in_app_iff. right; left; reflexivity. }
        intros k l E. exact (Hmono _ _ _ _ _ _ _ _ _ _ EC (A7 k l E)).
Qed.

(** every question about an unprotected candidate of [u] with a set of candidates of [u] has been asked, up to size [b]
    (size [b] itself only about the candidates in [done]) *)
Definition covered (b : nat) (done u : list label) (st : St) (log : list asked) : Prop :=
  forall p, In p u -> mat_get (gm st) (idx_of s p) jv = Ok true -> forall S, sublist S u -> ~ In p S ->
    length S < b \/ length S = b /\ In p done -> In (MkAsked p S false) log.

Lemma filter_filter_open log log' p : (forall q, open_in log' q = open_in log q && negb (String.eqb p q)) ->
  filter (open_in log') m0 = filter (fun x => negb (String.eqb x p)) (filter (open_in log) m0).
Proof.
  intros H. induction m0 as [|x l IH]; [reflexivity|]. cbn [filter]. rewrite H. destruct (open_in log x); cbn [andb filter]; [|exact IH].
  rewrite String.eqb_sym. destruct (String.eqb x p); cbn [negb]; [exact IH|f_equal; exact IH].
Qed.

Lemma log_round b cs : forall post pre fuel g st log u' g' st' log', length post < fuel -> pre ++ post = filter (open_in log) m0 ->
  tidy log -> proper log -> sizes b log -> (forall t, In t log -> length (given t) = b -> ~ In (about t) post) ->
  covered b pre (pre ++ post) st log -> graph_of v g (pre ++ post) ->
  inner_loop s v gmn (noting ct) fuel b cs (length pre) (pre ++ post) g (st, log) = Ok (u', g', (st', log')) ->
  u' = filter (open_in log') m0 /\ tidy log' /\ proper log' /\ sizes b log' /\ covered (S b) [] u' st' log' /\ graph_of v g' u'
  /\ (exists extra, log' = log ++ extra) /\ (forall k l, mat_get (gm st') k l = Ok true -> mat_get (gm st) k l = Ok true).
Proof.
  assert (N0 : NoDup m0) by apply NoDup_filter', Hwf.
  induction post as [|p post IH]; intros pre fuel g st log u' g' st' log' Hf HU HT HP HZ HD HC HG H.
  - destruct fuel as [|fuel]; [cbn [length] in Hf; lia|]. cbn [inner_loop] in H. rewrite app_nil_r in *. rewrite Nat.ltb_irrefl in H. injection H as <- <- <- <-.
    split; [exact HU|]. split; [exact HT|]. split; [exact HP|]. split; [exact HZ|]. split; [|split; [exact HG|split; [exists []; symmetry; apply app_nil_r|auto]]].
    intros p Hp Hm S S1 S2 S3. apply (HC p Hp Hm S S1 S2). destruct S3 as [S3|[_ []]]. destruct (Nat.eq_dec (length S) b); [right; auto|left; lia].
  - destruct fuel as [|fuel]; [cbn [length] in Hf; lia|]. cbn [length] in Hf. cbn [inner_loop] in H.
    set (u := pre ++ p :: post) in *.
    assert (Nu : NoDup u) by (rewrite HU; apply NoDup_filter', N0).
    assert (Hu : forall q, In q u <-> In q m0 /\ open_in log q = true) by (intros q; rewrite HU; apply filter_In).
    assert (Hpu : In p u) by (apply in_app_iff; right; left; reflexivity). assert (Hpm : In p m0) by (apply Hu, Hpu).
    assert (Hpl : In p (nodes_labels s)) by (apply others_In in Hpm; tauto).
    replace (length pre <? length u) with true in H by (symmetry; apply Nat.ltb_lt; unfold u; rewrite app_length; cbn [length]; lia).
    assert (EN : nth_res u (length pre) = Ok p) by (apply nth_res_ok; unfold u; rewrite nth_error_app2 by lia; rewrite Nat.sub_diag; reflexivity).
    rewrite EN in H. cbn [bind] in H. destruct (wf_lookup s p Hwf Hpl) as [_ [_ [_ [_ [Ei _]]]]]. rewrite Ei in H. cbn [bind] in H.
    destruct (wf_lookup s v Hwf Hv) as [_ [_ [_ [_ [Ej _]]]]]. rewrite Ej in H. cbn [bind] in H. fold jv in H. unfold gmn at 1 in H. cbn [fst] in H.
    destruct (mat_get (gm st) (idx_of s p) jv) as [rm|z] eqn:EM; cbn [bind] in H; [|discriminate].
    assert (Eu : u = (pre ++ [p]) ++ post) by (unfold u; rewrite <- app_assoc; reflexivity).
    assert (EL : S (length pre) = length (pre ++ [p])) by (rewrite app_length; cbn [length]; lia).
    destruct rm; cbn [bind] in H.
    2:{ rewrite Eu, EL in H. refine (IH (pre ++ [p]) fuel g st log u' g' st' log' _ _ _ _ _ _ _ _ H); [lia|rewrite <- Eu; exact HU|exact HT|exact HP|exact HZ| | |rewrite <- Eu; exact HG].
        - intros t Ht Hs K. apply (HD t Ht Hs). right; exact K.
        - rewrite <- Eu. intros q Hq Hm S S1 S2 S3. apply (HC q Hq Hm S S1 S2). destruct S3 as [S3|[S3 S4]]; [left; exact S3|]. apply in_app_iff in S4 as [S4|[<-|[]]]; [right; auto|congruence]. }
    destruct (proj1 (subsets_spec u b p Nu) Hpu) as [sets [ES [NS HS]]]. rewrite ES in H. cbn [bind] in H.
    destruct (try_sets (noting ct) (st, log) p sets cs (idx_of s p) jv) as [[r [st1 log1]]|z] eqn:ET; cbn [bind] in H; [|discriminate].
    assert (SU : sublist u m0) by (rewrite HU; apply sublist_filter).
    destruct (log_try p cs b sets st log r st1 log1 NS Hpm) as [A1 [A2 [A3 [[ex [A4 A4']] [A5 [A6 A7]]]]]]; [| | |exact HT|exact HP|exact HZ|exact ET|].
    { intros S HS'. apply HS in HS' as [S1 [S2 S3]]. split; [exact (sublist_trans _ _ _ S1 SU)|auto]. }
    { intros S q HS' Hq. apply HS in HS' as [S1 _]. apply Hu. destruct Hq as [->|Hq]; [exact Hpu|exact (sublist_In _ _ _ S1 Hq)]. }
    { intros S HS' K. apply HS in HS' as [S1 [S2 S3]]. apply in_map_iff in K as [t [K1 K2]]. unfold key in K1. injection K1 as K0 K1. apply (HD t K2); [rewrite K1; exact S3|]. rewrite K0. left; reflexivity. }
    assert (In1 : forall t, In t log -> In t log1) by (intros t Ht; rewrite A4; apply in_app_iff; left; exact Ht).
    assert (Nd : ~ In p post /\ ~ In p pre) by (pose proof (NoDup_remove_2 _ _ _ Nu) as K; rewrite in_app_iff in K; tauto).
    destruct r.
    + rewrite (py_remove_filter p u Nu Hpu) in H. cbn [bind] in H.
      assert (Eu1 : filter (fun x => negb (String.eqb x p)) u = pre ++ post).
      { unfold u. rewrite filter_app. cbn [filter]. rewrite String.eqb_refl. cbn [negb]. rewrite !filter_true; [reflexivity| |]; intros a Ha; apply negb_true_iff, String.eqb_neq; intros ->; tauto. }
      pose proof (graph_of_remove v g u p HG) as HG1. rewrite Eu1 in H, HG1.
      assert (Sub1 : sublist (pre ++ post) u) by (rewrite <- Eu1; apply sublist_filter).
      apply (IH pre fuel (ng_remove_edges g [(p, v)]) st1 log1 u' g' st' log' ltac:(lia)) in H; [|rewrite <- Eu1, HU; symmetry; apply filter_filter_open; exact A5|exact A1|exact A2|exact A3| | |exact HG1].
      * destruct H as [B1 [B2 [B3 [B4 [B5 [B6 [[ex2 B7] B8]]]]]]]. split; [exact B1|]. split; [exact B2|]. split; [exact B3|]. split; [exact B4|]. split; [exact B5|]. split; [exact B6|].
        split; [exists (ex ++ ex2); rewrite B7, A4, <- app_assoc; reflexivity|]. intros k l E. apply A7, B8, E.
      * intros t Ht Hs K. rewrite A4 in Ht. apply in_app_iff in Ht as [Ht|Ht]; [apply (HD t Ht Hs); right; exact K|]. destruct (A4' t Ht) as [Ea _]. rewrite Ea in K. tauto.
      * intros q Hq Hm S S1 S2 S3. apply In1, (HC q); [exact (sublist_In _ _ _ Sub1 Hq)|apply A7, Hm|exact (sublist_trans _ _ _ S1 Sub1)|exact S2|exact S3].
    + assert (OE : forall q, open_in log1 q = open_in log q) by (intros q; rewrite A5; cbn [andb negb]; apply andb_true_r).
      rewrite Eu, EL in H. apply (IH (pre ++ [p]) fuel g st1 log1 u' g' st' log' ltac:(lia)) in H; [| |exact A1|exact A2|exact A3| | |rewrite <- Eu; exact HG].
      * destruct H as [B1 [B2 [B3 [B4 [B5 [B6 [[ex2 B7] B8]]]]]]]. split; [exact B1|]. split; [exact B2|]. split; [exact B3|]. split; [exact B4|]. split; [exact B5|]. split; [exact B6|].
        split; [exists (ex ++ ex2); rewrite B7, A4, <- app_assoc; reflexivity|]. intros k l E. apply A7, B8, E.
      * rewrite <- Eu, HU. apply filter_ext. intros q. symmetry. apply OE.
      * intros t Ht Hs K. rewrite A4 in Ht. apply in_app_iff in Ht as [Ht|Ht]; [apply (HD t Ht Hs); right; exact K|]. destruct (A4' t Ht) as [Ea _]. rewrite Ea in K. tauto.
      * rewrite <- Eu. intros q Hq Hm S S1 S2 S3. assert (K : In q pre \/ length S < b \/ q = p /\ length S = b) by (destruct S3 as [S3|[S3 S4]]; [auto|apply in_app_iff in S4 as [S4|[<-|[]]]; auto]).
        destruct (string_dec q p) as [->|Nq].
        -- destruct S3 as [S3|[S3 _]]; [apply In1, (HC p Hq (A7 _ _ Hm) S S1 S2); left; exact S3|]. apply (A6 eq_refl), HS. auto.
        -- apply In1, (HC q Hq (A7 _ _ Hm) S S1 S2). destruct S3 as [S3|[S3 S4]]; [left; exact S3|]. right. split; [exact S3|]. apply in_app_iff in S4 as [S4|[S4|[]]]; [exact S4|congruence].
Qed.

Lemma log_outer n cs : forall fuel b u g st log u' g' st' log', length m0 < n -> u = filter (open_in log) m0 ->
  tidy log -> proper log -> (forall t, In t log -> length (given t) < b) -> covered b [] u st log -> graph_of v g u ->
  outer_loop s v gmn (noting ct) fuel n b cs u g (st, log) = Ok (u', g', (st', log')) ->
  u' = filter (open_in log') m0 /\ tidy log' /\ proper log' /\ graph_of v g' u'
  /\ forall p, In p u' -> mat_get (gm st') (idx_of s p) jv = Ok true -> forall S, sublist S u' -> ~ In p S -> In (MkAsked p S false) log'.
Proof.
  induction fuel as [|fuel IH]; intros b u g st log u' g' st' log' Hn HU HT HP HZ HC HG H; [discriminate|]. cbn [outer_loop] in H.
  destruct (Nat.ltb_spec b (length u)) as [Hb|Hb].
  - destruct (inner_loop s v gmn (noting ct) n b cs 0 u g (st, log)) as [[[u1 g1] [st1 log1]]|z] eqn:EI; cbn [bind] in H; [|discriminate].
    destruct (log_round b cs u [] n g st log u1 g1 st1 log1) as [B1 [B2 [B3 [B4 [B5 [B6 _]]]]]]; [|exact HU|exact HT|exact HP| | | |exact HG|exact EI|].
    + rewrite HU. pose proof (sublist_length _ _ (sublist_filter (open_in log) m0)). lia.
    + intros t Ht. pose proof (HZ t Ht). lia.
    + intros t Ht Hs. pose proof (HZ t Ht). lia.
    + cbn [app]. exact HC.
    + apply (IH (S b) u1 g1 st1 log1 u' g' st' log' Hn B1 B2 B3); [|exact B5|exact B6|exact H]. intros t Ht. pose proof (B4 t Ht). lia.
  - injection H as <- <- <- <-. split; [exact HU|]. split; [exact HT|]. split; [exact HP|]. split; [exact HG|].
    intros p Hp Hm S S1 S2. apply (HC p Hp Hm S S1 S2). left.
    assert (Nu : NoDup u) by (rewrite HU; apply NoDup_filter', NoDup_filter', Hwf).
    assert (NS : NoDup (p :: S)) by (constructor; [exact S2|eapply sublist_NoDup; eassumption]).
    assert (K : length (p :: S) <= length u) by (apply NoDup_incl_length; [exact NS|]; intros x [<-|Hx]; [exact Hp|eapply sublist_In; eassumption]). cbn [length] in K. lia.
Qed.

Lemma log_optimize st es st' log : optimize_with s v gmn (noting ct) (st, []) = Ok (es, (st', log)) ->
  tidy log /\ proper log /\ (forall a b, In (a, b) es <-> In a (filter (open_in log) m0) /\ b = v)
  /\ forall p, In p (filter (open_in log) m0) -> mat_get (gm st') (idx_of s p) jv = Ok true ->
       forall S, sublist S (filter (open_in log) m0) -> ~ In p S -> In (MkAsked p S false) log.
Proof.
  unfold optimize_with. intros H. apply bind_ok in H as [cs [_ H]]. fold (others s v) in H. fold m0 in H. set (n := S (length m0)) in *. set (g0 := fold_left _ m0 (new_netgraph s)) in *.
  apply bind_ok in H as [[[u' g'] [st1 log1]] [H E]]. assert (es = ng_edges g' /\ st1 = st' /\ log1 = log) as [-> [-> ->]] by (injection E; auto). clear E.
  assert (N0 : NoDup m0) by apply NoDup_filter', Hwf.
  destruct (log_outer n cs n 0 m0 g0 st [] u' g' st' log) as [A1 [A2 [A3 [[D A4] A5]]]]; [unfold n; lia| | | | | | |exact H|].
  - symmetry. apply filter_true. reflexivity.
  - split; [constructor|]. split; intros l1 t l2 K; destruct l1; discriminate.
  - intros t [].
  - intros t [].
  - intros p _ _ S _ _ [K|[_ []]]. lia.
  - exact (initial_graph (MkEnv s (MkTrajectory [] [] 0 0) 0%Qc (fun _ _ _ => true)) v m0 N0).
  - split; [exact A2|]. split; [exact A3|]. split.
    + destruct (edges_view_spec _ D) as [_ V2]. intros a b. unfold ng_edges. rewrite V2, A4, A1. reflexivity.
    + rewrite <- A1. exact A5.
Qed.
(** ** Only removable candidates are tested *)
Definition allowed (st : St) (log log' : list asked) : Prop :=
  exists extra, log' = log ++ extra /\ forall t, In t extra -> exists i, structure_get_node_indx s (about t) = Ok i /\ mat_get (gm st) i jv = Ok true.
Lemma allowed_refl st log : allowed st log log.
Proof. exists []. split; [symmetry; apply app_nil_r|intros t []]. Qed.
Lemma allowed_trans st st1 a b c : (forall k l, mat_get (gm st1) k l = Ok true -> mat_get (gm st) k l = Ok true) -> allowed st a b -> allowed st1 b c -> allowed st a c.
Proof.
  intros HM [x [-> X]] [y [-> Y]]. exists (x ++ y). split; [symmetry; apply app_assoc|]. intros t Ht. apply in_app_iff in Ht as [Ht|Ht]; [apply X, Ht|]. destruct (Y t Ht) as [i [A B]]. exists i. auto.
Qed.
Lemma allowed_try p cs i : structure_get_node_indx s p = Ok i -> forall sets st0 st log r st' log', mat_get (gm st0) i jv = Ok true -> (forall k l, mat_get (gm st) k l = Ok true -> mat_get (gm st0) k l = Ok true) ->
  try_sets (noting ct) (st, log) p sets cs i jv = Ok (r, (st', log')) -> allowed st0 log log' /\ forall k l, mat_get (gm st') k l = Ok true -> mat_get (gm st0) k l = Ok true.
Proof.
  intros Hp. induction sets as [|S sets IH]; intros st0 st log r st' log' H0 HM H; cbn [try_sets] in H.
  - injection H as <- <- <-. split; [apply allowed_refl|exact HM].
  - unfold noting at 1 in H. cbn [fst snd] in H. destruct (ct st p S cs i jv) as [[b1 st1]|z] eqn:EC; cbn [bind] in H; [|discriminate].
    assert (K : allowed st0 log (log ++ [MkAsked p S b1])) by (eexists; split; [reflexivity|]; intros t [<-|[]]; exists i; auto).
    assert (HM1 : forall k l, mat_get (gm st1) k l = Ok true -> mat_get (gm st0) k l = Ok true) by (intros k l E; apply HM; exact (Hmono _ _ _ _ _ _ _ _ _ _ EC E)).
    destruct b1; [injection H as <- <- <-; auto|]. destruct (IH st0 st1 _ r st' log' H0 HM1 H) as [A B]. split; [|exact B]. exact (allowed_trans st0 st0 _ _ _ (fun k l E => E) K A).
Qed.
Lemma allowed_inner b cs : forall fuel idx u g st log u' g' st' log', inner_loop s v gmn (noting ct) fuel b cs idx u g (st, log) = Ok (u', g', (st', log')) ->
  allowed st log log' /\ forall k l, mat_get (gm st') k l = Ok true -> mat_get (gm st) k l = Ok true.
Proof.
  induction fuel as [|fuel IH]; intros idx u g st log u' g' st' log' H; cbn [inner_loop] in H; [discriminate|].
  destruct (idx <? length u); [|injection H as <- <- <- <-; split; [apply allowed_refl|auto]].
  apply bind_ok in H as [p [_ H]]. apply bind_ok in H as [i [Ei H]]. apply bind_ok in H as [j [Ej H]]. apply bind_ok in H as [rm [Em H]]. unfold gmn at 1 in Em. cbn [fst] in Em.
  destruct (wf_lookup s v Hwf Hv) as [_ [_ [_ [_ [Ej' _]]]]]. assert (j = jv) as -> by (unfold jv; congruence).
  apply bind_ok in H as [[r [st1 log1]] [H1 H]]. assert (K : allowed st log log1 /\ forall k l, mat_get (gm st1) k l = Ok true -> mat_get (gm st) k l = Ok true).
  { destruct rm; [|injection H1 as <- <- <-; split; [apply allowed_refl|auto]]. apply bind_ok in H1 as [sets [_ H1]]. exact (allowed_try p cs i Ei sets st st log r st1 log1 Em (fun k l E => E) H1). }
  destruct K as [K1 K2]. assert (H' : exists u1 g1 idx1, inner_loop s v gmn (noting ct) fuel b cs idx1 u1 g1 (st1, log1) = Ok (u', g', (st', log'))) by (destruct r; [apply bind_ok in H as [u1 [_ H]]|]; eauto).
  destruct H' as [u1 [g1 [idx1 H']]]. destruct (IH idx1 u1 g1 st1 log1 u' g' st' log' H') as [A B]. split; [exact (allowed_trans st st1 _ _ _ K2 K1 A)|]. intros k l E. apply K2, B, E.
Qed.
Lemma allowed_outer n cs : forall fuel b u g st log u' g' st' log', outer_loop s v gmn (noting ct) fuel n b cs u g (st, log) = Ok (u', g', (st', log')) -> allowed st log log'.
Proof.
  induction fuel as [|fuel IH]; intros b u g st log u' g' st' log' H; cbn [outer_loop] in H; [discriminate|]. destruct (b <? length u); [|injection H as <- <- <- <-; apply allowed_refl].
  apply bind_ok in H as [[[u1 g1] [st1 log1]] [H1 H]]. destruct (allowed_inner b cs n 0 u g st log u1 g1 st1 log1 H1) as [A B]. exact (allowed_trans st st1 _ _ _ B A (IH _ _ _ _ _ _ _ _ _ H)).
Qed.
Lemma allowed_optimize st es st' log : optimize_with s v gmn (noting ct) (st, []) = Ok (es, (st', log)) -> allowed st [] log.
Proof.
  unfold optimize_with. intros H. apply bind_ok in H as [cs [_ H]]. apply bind_ok in H as [[[u' g'] [st1 log1]] [H E]]. assert (log1 = log) as -> by (injection E; auto). exact (allowed_outer _ cs _ 0 _ _ _ _ _ _ _ _ H).
Qed.
End log.
