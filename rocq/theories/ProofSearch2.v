(** The hill-climbing and tabu loops; consequences of a search path. *)
From Verif Require Import Base Lib ModelStructure ModelGraph ModelCims ModelData ModelParams ModelCtpc ModelSearch
  SpecStructure SpecGraph SpecParams SpecCtpc SpecSearch ProofStructure ProofGraph ProofParams ProofCtpc ProofCtpc2 ProofSearch.

(** ** consequences of a path *)
Lemma neighbour_ext mp P c Q Q' : neighbour mp P c Q -> same_set Q Q' -> neighbour mp P c Q'.
Proof.
  intros H E. destruct H as [[H1 H2]|[[H1 [H2 H3]]|[H1 [H2 [q [H3 H4]]]]]].
  - left. split; [exact H1|]. intros x. rewrite <- (E x). apply H2.
  - right; left. split; [exact H1|]. split; [exact H2|]. intros x. rewrite <- (E x). apply H3.
  - right; right. split; [exact H1|]. split; [exact H2|]. exists q. split; [exact H3|]. intros x. rewrite <- (E x). apply H4.
Qed.

Section paths.
Context {Sc : Type}.
Variables (v : label) (cands : list label) (mp : option nat).
Notation path := (search_path (Sc := Sc) v cands mp).

Lemma path_incl P tr R : path P tr R -> forall x, In x R -> In x P \/ In x cands.
Proof.
  induction 1 as [P R N S|P e Q tr R N C A Hn D E H IH|P e Q P' tr R N C A Hn D E S H IH]; intros x Hx.
  - left. apply S, Hx.
  - destruct (IH x Hx) as [K|K]; [|auto]. destruct Hn as [[_ K2]|[[_ [_ K2]]|[_ [_ [q [_ K2]]]]]]; apply K2 in K;
    intuition (subst; auto).
  - destruct (IH x Hx) as [K|K]; [|auto]. left. apply S, K.
Qed.

Lemma path_keeps x P tr R : mp = None -> ~ In x cands -> path P tr R -> In x P -> In x R.
Proof.
  intros Hm Hx. induction 1 as [P R N S|P e Q tr R N C A Hn D E H IH|P e Q P' tr R N C A Hn D E S H IH]; intros K.
  - apply S, K.
  - apply IH. destruct Hn as [[_ K2]|[[_ [_ K2]]|[_ [K3 _]]]]; [apply K2; split; [exact K|intros ->; contradiction]|apply K2; auto|].
    exfalso. apply K3. rewrite Hm. exact I.
  - apply IH, S, K.
Qed.

Lemma length_drop (P Q : list label) c : NoDup P -> NoDup Q -> In c P -> (forall x, In x Q <-> In x P /\ x <> c) -> S (length Q) = length P.
Proof.
  intros NP NQ Hc H. apply (same_set_length (c :: Q) P).
  - constructor; [|exact NQ]. intros K. apply H in K. tauto.
  - exact NP.
  - intros x. cbn [In]. rewrite H. destruct (string_dec c x) as [->|Hx]; [tauto|]. split; [intros [->|K]; tauto|]. intros K. right; split; congruence.
Qed.
Lemma length_add (P Q : list label) c : NoDup P -> NoDup Q -> ~ In c P -> (forall x, In x Q <-> In x P \/ x = c) -> length Q = S (length P).
Proof.
  intros NP NQ Hc H. apply (same_set_length Q (c :: P)); [exact NQ|constructor; assumption|].
  intros x. cbn [In]. rewrite H. intuition.
Qed.
Lemma path_start P tr R : path P tr R -> NoDup P. Proof. destruct 1; assumption. Qed.
Lemma path_max n P tr R : mp = Some n -> 0 < n -> path P tr R -> NoDup R -> length P <= n -> length R <= n.
Proof.
  intros Hm Hn0. induction 1 as [P R N S|P e Q tr R N C A Hn D E H IH|P e Q P' tr R N C A Hn D E S H IH]; intros NR L.
  - rewrite <- (same_set_length P R N NR S). exact L.
  - apply IH; [exact NR|]. pose proof (path_start _ _ _ H) as NQ.
    destruct Hn as [[K1 K2]|[[K1 [K3 K2]]|[K1 [K3 [q [K4 K2]]]]]].
    + pose proof (length_drop P Q _ N NQ K1 K2). lia.
    + pose proof (length_add P Q _ N NQ K1 K2). rewrite Hm in K3. simpl in K3. lia.
    + set (P1 := filter (fun x => negb (String.eqb x q)) P).
      assert (H1 : forall x, In x P1 <-> In x P /\ x <> q) by (intros x; subst P1; rewrite filter_In, negb_true_iff, String.eqb_neq; tauto).
      assert (N1 : NoDup P1) by apply NoDup_filter, N.
      pose proof (length_drop P P1 q N N1 K4 H1). pose proof (length_add P1 Q (sl_candidate e) N1 NQ).
      rewrite H2; [lia| |]. { intros K. apply H1 in K. tauto. } { intros x. rewrite K2, H1. tauto. }
  - pose proof (path_start _ _ _ H) as NP'. apply IH; [exact NR|]. rewrite <- (same_set_length P P' N NP' S). exact L.
Qed.
Lemma path_all_rejected P tr R : path P tr R -> (forall e, In e tr -> sl_accepted e = false) -> same_set P R.
Proof.
  induction 1 as [P R N S|P e Q tr R N C A Hn D E H IH|P e Q P' tr R N C A Hn D E S H IH]; intros K.
  - exact S.
  - specialize (K e (or_introl eq_refl)). congruence.
  - intros x. rewrite (S x). apply IH. intros e' He'. apply K. right; exact He'.
Qed.
Lemma improving_cases (gt : Sc -> Sc -> bool) b tr b' : strict_order gt -> improving gt b tr b' ->
  gt b' b = true \/ (b' = b /\ forall e, In e tr -> sl_accepted e = false).
Proof.
  intros [Hi Ht]. induction 1 as [b|b e tr b' A G H IH|b e tr b' A G H IH].
  - right. split; [reflexivity|intros e []].
  - left. destruct IH as [K|[-> _]]; [exact (Ht _ _ _ K G)|exact G].
  - destruct IH as [K|[-> K]]; [left; exact K|]. right. split; [reflexivity|]. intros e' [<-|He]; auto.
Qed.
End paths.

(** ** patience *)
Definition run_count {Sc} (c : nat) (tr : list (step_log Sc)) : nat :=
  fold_left (fun c e => if sl_accepted e then 0 else S c) tr c.
Lemma trailing_run {Sc} (tr : list (step_log Sc)) : trailing_rejections tr = run_count 0 tr.
Proof.
  unfold trailing_rejections, run_count. rewrite <- fold_left_rev_right. induction (rev tr) as [|e r IH]; cbn; [reflexivity|].
  rewrite IH. reflexivity.
Qed.
Definition stops_from {Sc} (n : nat) (patience : option nat) (c : nat) (tr : list (step_log Sc)) : Prop :=
  length tr <= n
  /\ (length tr = n \/ exists p, patience = Some p /\ run_count c tr = S p)
  /\ (forall p pre post, patience = Some p -> tr = pre ++ post -> post <> [] -> run_count c pre <= p).
Lemma stops_from_nil {Sc} pat c : stops_from (Sc := Sc) 0 pat c [].
Proof.
  split; [auto|]. split; [auto|]. intros p pre post _ H K. symmetry in H. apply app_eq_nil in H. tauto.
Qed.
Lemma stops_from_last {Sc} n pat c (e : step_log Sc) : (forall p, pat = Some p -> c <= p) ->
  out_of_patience pat (if sl_accepted e then 0 else S c) = true -> stops_from (S n) pat c [e].
Proof.
  intros Hc H. unfold out_of_patience in H. destruct pat as [p|]; [|discriminate]. apply Nat.ltb_lt in H.
  specialize (Hc p eq_refl). split; [simpl; lia|]. split.
  - right. exists p. split; [reflexivity|]. cbn. destruct (sl_accepted e); lia.
  - intros p' pre post E K Hp. injection E as <-. destruct pre as [|x pre]; [exact Hc|].
    destruct pre; [|destruct pre; discriminate]. destruct post; [congruence|discriminate].
Qed.
Lemma stops_from_cons {Sc} n pat c (e : step_log Sc) tr : (forall p, pat = Some p -> c <= p) ->
  stops_from n pat (if sl_accepted e then 0 else S c) tr -> stops_from (S n) pat c (e :: tr).
Proof.
  intros Hc [H1 [H2 H3]]. split; [simpl; lia|]. split.
  - destruct H2 as [H2|[p [H2 H4]]]; [left; simpl; lia|right; exists p; split; [exact H2|exact H4]].
  - intros p pre post Ep E Hp. destruct pre as [|x pre]; [exact (Hc p Ep)|]. injection E as <- E. exact (H3 p pre post Ep E Hp).
Qed.
Lemma stops_from_documented {Sc} n pat (tr : list (step_log Sc)) : stops_from n pat 0 tr -> stops_as_documented n pat tr.
Proof.
  intros [H1 [H2 H3]]. split; [exact H1|]. split; [rewrite trailing_run; exact H2|].
  intros p pre post. rewrite trailing_run. apply H3.
Qed.
Lemma patience_ok pat c : out_of_patience pat c = false -> forall p, pat = Some p -> c <= p.
Proof. intros H p ->. apply Nat.ltb_ge in H. exact H. Qed.

Section loops.
Variables (Sc : Type) (score : list cim -> result Sc) (gt : Sc -> Sc -> bool) (t : trajectory) (draws : nat -> nat).
Variables (s : structure) (v : label).
Hypothesis Hwf : wf_structure s.
Hypothesis Hed : edges_list s = [].
Hypothesis Hv : In v (nodes_labels s).
Notation labels := (nodes_labels s).
Notation psc := (pscore Sc score t s v).
Notation rp := (rep s v).
Variables (cands : list label) (mp pat : option nat).
Hypothesis Hcands : forall c, In c cands -> In c labels.

Lemma extend_path P best e P' best' tr R : NoDup P -> NoDup P' -> In (sl_candidate e) cands ->
  step_result Sc score gt t s v mp P best e P' best' ->
  search_path v cands mp P' tr R -> search_path v cands mp P (e :: tr) R.
Proof.
  intros NP NP' Hc [Q [Hn [D [E [NQ [_ [_ [Ha [_ HS]]]]]]]]] Hp. destruct (sl_accepted e) eqn:Ea.
  - apply (path_keep v cands mp P e P' tr R NP Hc Ea); [|exact D| |exact Hp].
    + apply (neighbour_ext _ _ _ Q); [exact Hn|]. intros x. symmetry. apply HS.
    + intros x. rewrite E, !edges_into_In, (HS (fst x)). reflexivity.
  - apply (path_undo v cands mp P e Q P' tr R NP Hc Ea Hn D E); [|exact Hp]. intros x. symmetry. apply HS.
Qed.
Lemma extend_improving P best e P' best' tr b : step_result Sc score gt t s v mp P best e P' best' ->
  improving gt best' tr b -> improving gt best (e :: tr) b.
Proof.
  intros [Q [_ [_ [_ [_ [_ [_ [Ha [-> _]]]]]]]]] H. destruct (sl_accepted e) eqn:Ea.
  - apply imp_keep; [exact Ea|congruence|exact H].
  - apply imp_undo; [exact Ea|congruence|exact H].
Qed.
Lemma step_score P best e P' best' : psc P = Ok best -> step_result Sc score gt t s v mp P best e P' best' -> psc P' = Ok best'.
Proof.
  intros HP [Q [_ [_ [_ [_ [_ [HQ [_ [-> HS]]]]]]]]]. rewrite (pscore_ext Sc score t s v _ _ HS). destruct (sl_accepted e); assumption.
Qed.
Lemma step_logged P best e P' best' : step_result Sc score gt t s v mp P best e P' best' ->
  exists Q, NoDup Q /\ (forall p, In p Q -> In p labels) /\ psc Q = Ok (sl_score e) /\ forall x, In x (sl_edges e) <-> In x (edges_into v Q).
Proof. intros [Q [_ [_ [E [N [W [HQ _]]]]]]]. exists Q. auto. Qed.

Definition logged_ok (e : step_log Sc) : Prop :=
  exists Q, NoDup Q /\ (forall p, In p Q -> In p labels) /\ psc Q = Ok (sl_score e) /\ forall x, In x (sl_edges e) <-> In x (edges_into v Q).
Definition run_ok (n c : nat) (P : list label) (best : Sc) (tr : list (step_log Sc)) (g' : netgraph) : Prop :=
  exists R b, rp g' R /\ search_path v cands mp P tr R /\ improving gt best tr b /\ psc R = Ok b
    /\ stops_from n pat c tr /\ Forall logged_ok tr.

Lemma run_ok_cons n c P best e P' best' tr g' : NoDup P -> NoDup P' -> psc P = Ok best -> In (sl_candidate e) cands ->
  step_result Sc score gt t s v mp P best e P' best' -> (forall p, pat = Some p -> c <= p) ->
  run_ok n (if sl_accepted e then 0 else S c) P' best' tr g' -> run_ok (S n) c P best (e :: tr) g'.
Proof.
  intros NP NP' HP Hc HS Hp [R [b [H1 [H2 [H3 [H4 [H5 H6]]]]]]]. exists R, b. split; [exact H1|].
  split; [eapply extend_path; eassumption|]. split; [eapply extend_improving; eassumption|]. split; [exact H4|].
  split; [apply stops_from_cons; assumption|]. constructor; [eapply step_logged; exact HS|exact H6].
Qed.
Lemma run_ok_last n c P best e P' best' g' : NoDup P -> psc P = Ok best -> In (sl_candidate e) cands ->
  step_result Sc score gt t s v mp P best e P' best' -> (forall p, pat = Some p -> c <= p) -> rp g' P' ->
  out_of_patience pat (if sl_accepted e then 0 else S c) = true -> run_ok (S n) c P best [e] g'.
Proof.
  intros NP HP Hc HS Hp HR Hout. exists P', best'. assert (NP' : NoDup P') by apply HR. split; [exact HR|].
  split; [eapply extend_path; [exact NP|exact NP'|exact Hc|exact HS|]; apply path_done; [exact NP'|intros x; tauto]|].
  split; [eapply extend_improving; [exact HS|apply imp_done]|]. split; [eapply step_score; eassumption|].
  split; [apply stops_from_last; assumption|]. constructor; [eapply step_logged; exact HS|constructor].
Qed.

Lemma hill_spec n : forall g P best c k g' tr, rp g P -> psc P = Ok best -> (forall p, pat = Some p -> c <= p) ->
  hill_loop Sc score gt t draws n v cands mp pat g best c k = Ok (g', tr) -> run_ok n c P best tr g'.
Proof.
  induction n as [|n IH]; intros g P best c k g' tr R HP Hp H; cbn [hill_loop] in H.
  - injection H as <- <-. exists P, best. split; [exact R|]. split; [apply path_done; [apply R|intros x; tauto]|].
    split; [apply imp_done|]. split; [exact HP|]. split; [apply stops_from_nil|constructor].
  - apply bind_ok in H as [cand [Ec H]]. apply bind_ok in H as [[[[g1 added] ev] k1] [Ep H]].
    apply bind_ok in H as [[sc g2] [Es H]].
    apply choice_In in Ec.
    pose proof (iteration_spec Sc score gt t draws s v Hwf Hed Hv mp g P best (S k) cand g1 added ev k1 R (Hcands _ Ec) Ep) as HI.
    rewrite Es in HI. cbn zeta in HI. destruct HI as [P' [R' HS]].
    assert (NP' : NoDup P') by apply R'. assert (NP : NoDup P) by apply R.
    pose proof (step_score _ _ _ _ _ HP HS) as HP'.
    destruct (out_of_patience pat (if gt sc best then 0 else S c)) eqn:Eo.
    + injection H as <- <-. exact (run_ok_last n c P best (MkStep cand (ng_edges g2) sc (gt sc best)) P' _ _ NP HP Ec HS Hp R' Eo).
    + apply bind_ok in H as [[g4 tr4] [H E]]. injection E as <- <-. apply (run_ok_cons n c P best (MkStep cand (ng_edges g2) sc (gt sc best)) P' _ _ _ NP NP' HP Ec HS Hp).
      cbn [sl_accepted]. eapply IH; [exact R'|exact HP'|apply patience_ok, Eo|exact H].
Qed.

Lemma hill_err n : forall g P best c k x, rp g P -> psc P = Ok best ->
  hill_loop Sc score gt t draws n v cands mp pat g best c k = Err x ->
  (x = IndexError /\ (cands = [] \/ mp = Some 0)) \/ exists Q, NoDup Q /\ (forall p, In p Q -> In p labels) /\ psc Q = Err x.
Proof.
  induction n as [|n IH]; intros g P best c k x R HP H; cbn [hill_loop] in H; [discriminate|].
  destruct (rand_choice draws k cands) as [cand|y] eqn:Ec; cbn [bind] in H.
  2:{ injection H as ->. apply choice_err in Ec as [E ->]. left. auto. }
  apply choice_In in Ec.
  pose proof (propose_spec draws s v Hv mp g P (S k) cand R (Hcands _ Ec)) as HPr.
  destruct (propose draws v mp g (S k) cand) as [[[[g1 added] ev] k1]|y] eqn:Ep; cbn [bind] in H.
  2:{ injection H as ->. destruct HPr as [-> [E _]]. left. auto. }
  pose proof (iteration_spec Sc score gt t draws s v Hwf Hed Hv mp g P best (S k) cand g1 added ev k1 R (Hcands _ Ec) Ep) as HI.
  destruct (get_score_from_graph Sc score t g1 v) as [[sc g2]|y] eqn:Es; cbn [bind] in H.
  2:{ injection H as ->. right. exact HI. }
  cbn zeta in HI. destruct HI as [P' [R' HS]]. pose proof (step_score _ _ _ _ _ HP HS) as HP'.
  destruct (out_of_patience pat _); [discriminate|].
  destruct (hill_loop _ _ _ _ _ n _ _ _ _ _ _ _ k1) as [[g4 tr4]|y] eqn:El; cbn [bind] in H; [discriminate|].
  injection H as ->. eapply IH; [exact R'|exact HP'|exact El].
Qed.

(** ** tabu list *)
Variables (len dur : nat).
Definition tinv (q ts : list label) : Prop := NoDup q /\ same_set q ts /\ (forall y, In y q -> In y cands).

Lemma set_remove_ok x q ts : tinv (x :: q) ts -> exists ts', set_remove x ts = Ok ts' /\ tinv q ts' /\ ~ In x q.
Proof.
  intros [N [S I]]. unfold set_remove. assert (K : lmem x ts = true) by (apply lmem_In, S; left; reflexivity). rewrite K.
  apply NoDup_cons_iff in N as [N1 N2]. eexists. split; [reflexivity|]. split; [|exact N1]. split; [exact N2|]. split.
  - intros y. rewrite filter_In, negb_true_iff, String.eqb_neq, <- (S y). cbn [In]. split.
    + intros H. split; [auto|]. intros ->. contradiction.
    + intros [[->|H] K2]; [congruence|exact H].
  - intros y Hy. apply I. right; exact Hy.
Qed.
Lemma set_add_spec x q ts : tinv q ts -> ~ In x q -> In x cands -> tinv (q ++ [x]) (set_add x ts).
Proof.
  intros [N [S I]] Hx Hc. split; [apply NoDup_snoc; assumption|]. split.
  - intros y. unfold set_add. rewrite snoc_if_In, in_app_iff, (S y). simpl. intuition.
  - intros y Hy. apply in_app_iff in Hy as [Hy|[<-|[]]]; auto.
Qed.

Lemma tabu_pick_spec q ts k : tinv q ts ->
  match tabu_pick draws cands q ts k with
  | Ok (c, q', ts', k') => In c cands /\ ~ In c q' /\ tinv q' ts'
      /\ ((exists y, In y cands /\ ~ In y q) -> ~ In c q /\ q' = q)
      /\ ((forall y, In y cands -> In y q) -> q = c :: q')
  | Err x => x = Blocked /\ cands = []
  end.
Proof.
  intros T. pose proof T as [N [S I]]. unfold tabu_pick. set (possible := filter (fun x => negb (lmem x ts)) cands).
  assert (HP : forall y, In y possible <-> In y cands /\ ~ In y q).
  { intros y. subst possible. rewrite filter_In, negb_true_iff, lmem_false, (S y). tauto. }
  destruct (Nat.ltb_spec 0 (length possible)) as [H|H].
  - destruct (choice_ok draws k possible) as [c [E Hc]]; [intros K; rewrite K in H; simpl in H; lia|]. rewrite E. cbn [bind].
    apply HP in Hc as [Hc1 Hc2]. split; [exact Hc1|]. split; [exact Hc2|]. split; [exact T|]. split; [auto|].
    intros K. exfalso. apply Hc2, K, Hc1.
  - assert (HC : forall y, In y cands -> In y q).
    { intros y Hy. destruct (in_dec string_dec y q) as [K|K]; [exact K|]. exfalso. assert (In y possible) by (apply HP; auto).
      destruct possible; [assumption|simpl in H; lia]. }
    destruct q as [|c q]; cbn [queue_get bind].
    + split; [reflexivity|]. destruct cands as [|y l]; [reflexivity|]. destruct (HC y (or_introl eq_refl)).
    + destruct (set_remove_ok c q ts T) as [ts' [-> [T' Hn]]]. cbn [bind]. split; [apply I; left; reflexivity|].
      split; [exact Hn|]. split; [exact T'|]. split; [|reflexivity]. intros [y [K1 K2]]. exfalso. apply K2, HC, K1.
Qed.

Lemma tabu_update_spec c q ts tc : tinv q ts -> ~ In c q -> In c cands -> length q <= len ->
  match tabu_update len dur c q ts tc with
  | Ok (q', ts', tc') => tinv q' ts' /\ length q' <= len /\ 0 < len /\ 0 < dur
  | Err x => (x = Blocked /\ len = 0) \/ (x = ZeroDivisionError /\ 0 < len /\ dur = 0)
  end.
Proof.
  intros T Hc1 Hc2 HL. unfold tabu_update.
  assert (K : len = 0 \/ (0 < len /\ exists q1 s1, (if len <=? length q then let* (r, q0) := queue_get q in let* ts0 := set_remove r ts in Ok (q0, ts0)
                          else Ok (q, ts)) = Ok (q1, s1) /\ tinv q1 s1 /\ ~ In c q1 /\ length q1 < len)).
  { destruct (Nat.eq_dec len 0) as [E|E]; [auto|]. right. split; [lia|]. destruct (Nat.leb_spec len (length q)) as [H|H].
    - destruct q as [|r q]; [simpl in H; lia|]. cbn [queue_get bind]. destruct (set_remove_ok r q ts T) as [ts' [-> [T' Hn]]]. cbn [bind].
      exists q, ts'. split; [reflexivity|]. split; [exact T'|]. split; [intros K; apply Hc1; right; exact K|]. simpl in HL. lia.
    - exists q, ts. auto. }
  destruct K as [->|[L0 [q1 [s1 [-> [T1 [Hc3 L1]]]]]]].
  - destruct q as [|r q]; [|simpl in HL; lia]. cbn. left. auto.
  - cbn [bind]. destruct (Nat.eqb_spec dur 0) as [E|E]; [right; auto|].
    pose proof (set_add_spec c q1 s1 T1 Hc3 Hc2) as T2.
    assert (L2 : length (q1 ++ [c]) <= len) by (rewrite app_length; simpl; lia).
    destruct (Datatypes.S tc mod dur =? 0); [|auto with arith].
    destruct (Nat.ltb_spec 0 (length (q1 ++ [c]))) as [H|H]; [|rewrite app_length in H; simpl in H; lia].
    destruct (q1 ++ [c]) as [|r q3]; [simpl in H; lia|]. cbn [queue_get bind].
    destruct (set_remove_ok r q3 _ T2) as [ts' [-> [T' Hn]]]. cbn [bind]. simpl in L2. split; [exact T'|]. lia.
    split; [exact T2|]. lia.
Qed.

Notation tloop := (tabu_loop Sc score gt t draws).
Lemma tabu_spec n : forall g P best c k q ts tc g' tr, rp g P -> psc P = Ok best -> (forall p, pat = Some p -> c <= p) ->
  tinv q ts -> length q <= len ->
  tloop n v cands mp pat len dur g best c k q ts tc = Ok (g', tr) ->
  run_ok n c P best (map fst tr) g' /\ Forall (tabu_entry_ok cands len) tr.
Proof.
  induction n as [|n IH]; intros g P best c k q ts tc g' tr R HP Hp T HL H; cbn [tabu_loop] in H.
  - injection H as <- <-. split; [|constructor]. exists P, best. split; [exact R|]. split; [apply path_done; [apply R|intros x; tauto]|].
    split; [apply imp_done|]. split; [exact HP|]. split; [apply stops_from_nil|constructor].
  - apply bind_ok in H as [[[[cand q1] s1] k0] [Ec H]]. apply bind_ok in H as [[[[g1 added] ev] k1] [Ep H]].
    apply bind_ok in H as [[sc g2] [Es H]]. apply bind_ok in H as [[[q2 s2] tc2] [Eu H]].
    pose proof (tabu_pick_spec q ts k T) as HK. rewrite Ec in HK. destruct HK as [Hc1 [Hc2 [T1 [HA HB]]]].
    assert (L1 : length q1 <= len).
    { destruct (Forall_Exists_dec (fun y => In y q) (fun y => in_dec string_dec y q) cands) as [HF|HE].
      - rewrite Forall_forall in HF. rewrite (HB HF) in HL. simpl in HL. lia.
      - apply Exists_exists in HE as [y [K1 K2]]. destruct HA as [_ ->]; [exists y; auto|exact HL]. }
    pose proof (tabu_update_spec cand q1 s1 tc T1 Hc2 Hc1 L1) as HU. rewrite Eu in HU. destruct HU as [T2 [L2 _]].
    pose proof (iteration_spec Sc score gt t draws s v Hwf Hed Hv mp g P best k0 cand g1 added ev k1 R (Hcands _ Hc1) Ep) as HI.
    rewrite Es in HI. cbn zeta in HI. destruct HI as [P' [R' HS]].
    assert (NP' : NoDup P') by apply R'. assert (NP : NoDup P) by apply R.
    pose proof (step_score _ _ _ _ _ HP HS) as HP'.
    assert (HE : tabu_entry_ok cands len (MkStep cand (ng_edges g2) sc (gt sc best), (q, ts))).
    { unfold tabu_entry_ok. cbn [fst snd sl_candidate]. destruct T as [T3 [T4 T5]]. split; [exact T3|]. split; [exact T4|].
      split; [exact HL|]. split; [exact T5|]. split; [exact Hc1|]. split; [intros K; apply (HA K)|]. intros K. exists q1. exact (HB K). }
    destruct (out_of_patience pat (if gt sc best then 0 else S c)) eqn:Eo.
    + injection H as <- <-. split; [|constructor; [exact HE|constructor]]. cbn [map fst].
      exact (run_ok_last n c P best (MkStep cand (ng_edges g2) sc (gt sc best)) P' _ _ NP HP Hc1 HS Hp R' Eo).
    + apply bind_ok in H as [[g4 tr4] [H E]]. injection E as <- <-.
      destruct (IH _ _ _ _ _ _ _ _ _ _ R' HP' (patience_ok _ _ Eo) T2 L2 H) as [I1 I2].
      split; [|constructor; assumption]. cbn [map fst]. apply (run_ok_cons n c P best (MkStep cand (ng_edges g2) sc (gt sc best)) P' _ _ _ NP NP' HP Hc1 HS Hp). exact I1.
Qed.

Lemma tabu_err n : forall g P best c k q ts tc x, rp g P -> psc P = Ok best ->
  tinv q ts -> length q <= len ->
  tloop n v cands mp pat len dur g best c k q ts tc = Err x ->
  (x = IndexError /\ mp = Some 0) \/ (x = Blocked /\ (cands = [] \/ len = 0)) \/ (x = ZeroDivisionError /\ cands <> [] /\ dur = 0)
  \/ exists Q, NoDup Q /\ (forall p, In p Q -> In p labels) /\ psc Q = Err x.
Proof.
  induction n as [|n IH]; intros g P best c k q ts tc x R HP T HL H; cbn [tabu_loop] in H; [discriminate|].
  pose proof (tabu_pick_spec q ts k T) as HK.
  destruct (tabu_pick draws cands q ts k) as [[[[cand q1] s1] k0]|y] eqn:Ec; cbn [bind] in H.
  2:{ injection H as ->. destruct HK as [-> E]. right; left. auto. }
  destruct HK as [Hc1 [Hc2 [T1 [HA HB]]]].
  assert (L1 : length q1 <= len).
  { destruct (Forall_Exists_dec (fun y => In y q) (fun y => in_dec string_dec y q) cands) as [HF|HE].
    - rewrite Forall_forall in HF. rewrite (HB HF) in HL. simpl in HL. lia.
    - apply Exists_exists in HE as [y [K1 K2]]. destruct HA as [_ ->]; [exists y; auto|exact HL]. }
  pose proof (propose_spec draws s v Hv mp g P k0 cand R (Hcands _ Hc1)) as HPr.
  destruct (propose draws v mp g k0 cand) as [[[[g1 added] ev] k1]|y] eqn:Ep; cbn [bind] in H.
  2:{ injection H as ->. destruct HPr as [-> [E _]]. left. auto. }
  pose proof (iteration_spec Sc score gt t draws s v Hwf Hed Hv mp g P best k0 cand g1 added ev k1 R (Hcands _ Hc1) Ep) as HI.
  destruct (get_score_from_graph Sc score t g1 v) as [[sc g2]|y] eqn:Es; cbn [bind] in H.
  2:{ injection H as ->. right; right; right. exact HI. }
  cbn zeta in HI. destruct HI as [P' [R' HS]]. pose proof (step_score _ _ _ _ _ HP HS) as HP'.
  pose proof (tabu_update_spec cand q1 s1 tc T1 Hc2 Hc1 L1) as HU.
  destruct (tabu_update len dur cand q1 s1 tc) as [[[q2 s2] tc2]|y]; cbn [bind] in H.
  2:{ injection H as ->. destruct HU as [[-> E]|HU]; [right; left; auto|right; right; left]; destruct HU as [-> [_ E]]; split; [reflexivity|]; split; [|exact E]; intros K; rewrite K in Hc1; exact Hc1. }
  destruct HU as [T2 [L2 _]].
  destruct (out_of_patience pat _); [discriminate|].
  destruct (tabu_loop _ _ _ _ _ n _ _ _ _ _ _ _ _ _ k1 _ _ _) as [[g4 tr4]|y] eqn:El; cbn [bind] in H; [discriminate|].
  injection H as ->. eapply IH; [exact R'|exact HP'|exact T2|exact L2|exact El].
Qed.
End loops.
