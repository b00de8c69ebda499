(** The whole searches: initial graph, results, failures. *)
From Verif Require Import Base Lib ModelStructure ModelGraph ModelCims ModelData ModelParams ModelCtpc ModelSearch
  SpecStructure SpecGraph SpecParams SpecCtpc SpecSearch ProofStructure ProofGraph ProofParams ProofParams3 ProofCache ProofCtpc ProofCtpc2
  ProofSearch ProofSearch2.

Lemma idx_seq s : wf_structure s -> nodes_indexes s = seq 0 (length (nodes_labels s)) ->
  forall i l, nth_error (nodes_labels s) i = Some l -> idx_of s l = i.
Proof.
  intros Hwf Hi i l H. destruct (wf_lookup s l Hwf) as [j [J1 [J2 _]]]; [eapply nth_error_In; exact H|].
  assert (j = i) by (eapply NoDup_nth_error_inj; [apply Hwf|exact J1|exact H]). subst j.
  rewrite Hi, nth_error_seq' in J2. destruct (i <? _); [injection J2 as <-; reflexivity|discriminate].
Qed.

Section whole.
Variables (Sc : Type) (score : list cim -> result Sc) (gt : Sc -> Sc -> bool) (t : trajectory) (draws : nat -> nat).
Variables (s : structure) (known : list edge) (m : list (list bool)) (v : label).
Hypothesis Hok : search_ready s known m v.
Notation labels := (nodes_labels s).
Notation psc := (pscore Sc score t s v).

Lemma Hwf : wf_structure s. Proof. apply Hok. Qed.
Lemma Hed : edges_list s = []. Proof. apply Hok. Qed.
Lemma Hv : In v labels. Proof. apply Hok. Qed.
Lemma Hidx : nodes_indexes s = seq 0 (length labels). Proof. apply Hok. Qed.
Lemma Hkn : edges_within labels known. Proof. apply Hok. Qed.

Lemma known_parents_In p : In p (known_parents s known v) <-> In (p, v) known.
Proof.
  unfold known_parents. rewrite filter_In, emem_In. split; [tauto|]. intros H. split; [apply (Hkn _ H)|exact H].
Qed.
Lemma candidates_In p : In p (candidate_parents s known v) <-> In p labels /\ p <> v /\ ~ In (p, v) known.
Proof.
  unfold candidate_parents. rewrite filter_In, andb_true_iff, !negb_true_iff, String.eqb_neq, emem_false. tauto.
Qed.

Lemma prior_fold : forall suf pre acc, labels = pre ++ suf ->
  fold_left (fun acc i => let* ps := acc in let* r := mat_get m i (idx_of s v) in
               if r then Ok ps else let* p := structure_get_node_id s (Z.of_nat i) in Ok (ps ++ [p]))
            (seq (length pre) (length suf)) (Ok acc) = Ok (acc ++ filter (fun l => emem (l, v) known) suf).
Proof.
  destruct (proj1 (removable_matrix s (length labels) known Hwf ltac:(intros l Hl; destruct (In_nth_error _ _ Hl) as [i Hi];
    rewrite (idx_seq s Hwf Hidx i l Hi); apply nth_error_Some; congruence)) Hkn) as [m' [E [_ G]]].
  assert (m' = m). { destruct Hok as [_ [_ [_ [_ [E2 _]]]]]. congruence. } subst m'.
  assert (Lv : idx_of s v < length labels).
  { destruct (In_nth_error _ _ Hv) as [i Hi]. rewrite (idx_seq s Hwf Hidx i v Hi). apply nth_error_Some; congruence. }
  induction suf as [|l suf IH]; intros pre acc Hl; cbn [length seq fold_left filter].
  - rewrite app_nil_r. reflexivity.
  - cbn [bind].
    assert (Hnth : nth_error labels (length pre) = Some l).
    { rewrite Hl, nth_error_app2, Nat.sub_diag by lia. reflexivity. }
    assert (Li : length pre < length labels) by (apply nth_error_Some; congruence).
    rewrite (G _ _ Li Lv). cbn [bind].
    assert (EK : known_at s known (length pre) (idx_of s v) = emem (l, v) known).
    { rewrite <- (idx_seq s Hwf Hidx _ _ Hnth).
      apply known_at_spec; [apply Hwf|rewrite Hidx; apply seq_NoDup|apply Hkn|eapply nth_error_In; exact Hnth|apply Hv]. }
    rewrite EK.
    assert (Hl' : labels = (pre ++ [l]) ++ suf) by (rewrite <- app_assoc; exact Hl).
    destruct (emem (l, v) known); cbn [negb].
    + unfold structure_get_node_id, py_get. replace (0 <=? Z.of_nat (length pre))%Z with true by (symmetry; apply Z.leb_le; lia).
      rewrite Nat2Z.id. unfold nth_res. rewrite Hnth. cbn [bind].
      specialize (IH (pre ++ [l]) (acc ++ [l]) Hl'). rewrite app_length, Nat.add_1_r, <- app_assoc in IH. exact IH.
    + specialize (IH (pre ++ [l]) acc Hl'). rewrite app_length, Nat.add_1_r in IH. exact IH.
Qed.

Lemma matrix_length : length m = length labels.
Proof.
  destruct (proj1 (removable_matrix s (length labels) known Hwf ltac:(intros l Hl; destruct (In_nth_error _ _ Hl) as [i Hi];
    rewrite (idx_seq s Hwf Hidx i l Hi); apply nth_error_Some; congruence)) Hkn) as [m' [E [[D _] _]]].
  destruct Hok as [_ [_ [_ [_ [E2 _]]]]]. congruence.
Qed.

Lemma start_spec : exists g P, search_start s m v = Ok (g, candidate_parents s known v) /\ rep0 s v g P /\ same_set P (known_parents s known v).
Proof.
  unfold search_start. destruct (wf_lookup s v Hwf Hv) as [_ [_ [_ [_ [E _]]]]]. rewrite E. cbn [bind].
  unfold prior_parents_of. rewrite matrix_length.
  pose proof (prior_fold labels [] [] eq_refl) as HF. cbn [length] in HF. rewrite HF. cbn [bind app].
  fold (known_parents s known v). set (K := known_parents s known v).
  assert (HG : forall l g P, rep0 s v g P -> (forall p, In p l -> In p labels) ->
    exists P', rep0 s v (fold_left (fun g p => ng_add_edges g [(p, v)]) l g) P' /\ forall x, In x P' <-> In x P \/ In x l).
  { induction l as [|p l IH]; intros g P R Hl; cbn [fold_left].
    - exists P. split; [exact R|]. simpl; tauto.
    - destruct (rep0_add s v g P p R (Hl p (or_introl eq_refl))) as [Q [RQ HQ]].
      destruct (IH _ Q RQ (fun x Hx => Hl x (or_intror Hx))) as [P' [RP HP]]. exists P'. split; [exact RP|].
      intros x. rewrite HP, HQ. simpl. intuition. }
  destruct (HG K (new_netgraph s) []) as [P [RP HP]].
  { split; [reflexivity|]. split; [apply dinv_empty|]. split; [constructor|]. split; [intros p []|]. simpl. tauto. }
  { intros p Hp. apply filter_In in Hp. tauto. }
  eexists _, P. split; [|split; [exact RP|intros x; rewrite HP; simpl; tauto]].
  f_equal. f_equal. unfold candidate_parents. apply filter_ext_In. intros l Hl. f_equal. f_equal.
  apply eq_true_iff_eq. rewrite lmem_In, emem_In. apply known_parents_In.
Qed.

(** the score of an edge list = the score of a parent set *)
Lemma score_of_pscore es P : NoDup P -> (forall p, In p P -> In p labels) -> (forall e, In e es <-> In e (edges_into v P)) ->
  score_of score t s v es = psc P.
Proof.
  intros N W He. assert (R : rep0 s v (fresh_graph s es) P).
  { assert (HW : edges_within labels es). { intros e H. apply He, edges_into_In in H as [H1 H2]. rewrite H2. split; [apply W, H1|apply Hv]. }
    split; [reflexivity|]. split; [apply (fresh_ginv s es Hwf HW)|]. split; [exact N|]. split; [exact W|].
    intros e. rewrite (fresh_edges s es Hwf). apply He. }
  destruct (rep_init t s v Hwf Hed Hv _ P R) as [g' [E1 [_ E2]]]. unfold score_of, pscore. rewrite E1. cbn [bind]. rewrite E2. reflexivity.
Qed.
Lemma score_of_logged e : logged_ok Sc score t s v e -> score_of score t s v (sl_edges e) = Ok (sl_score e).
Proof. intros [Q [N [W [E H]]]]. rewrite (score_of_pscore _ Q N W H). exact E. Qed.
Lemma computable_psc : scores_computable score t s v -> forall Q x, NoDup Q -> (forall p, In p Q -> In p labels) -> psc Q <> Err x.
Proof.
  intros H Q x N W K. destruct (H Q W) as [sc E]. rewrite (score_of_pscore _ Q N W) in E by (intros; tauto). congruence.
Qed.

(** what every run returns *)
Definition search_outcome (mp : option nat) (iterations : nat) (patience : option nat) (es : list edge) (tr : list (step_log Sc)) : Prop :=
  exists K R sc0 sc, same_set K (known_parents s known v) /\ NoDup K /\ NoDup R /\ (forall p, In p R -> In p labels)
   /\ NoDup es /\ (forall e, In e es <-> In e (edges_into v R))
   /\ search_path v (candidate_parents s known v) mp K tr R /\ improving gt sc0 tr sc
   /\ score_of score t s v (edges_into v (known_parents s known v)) = Ok sc0 /\ score_of score t s v es = Ok sc
   /\ stops_as_documented iterations patience tr
   /\ Forall (fun e => score_of score t s v (sl_edges e) = Ok (sl_score e)) tr.

Lemma outcome_of_run mp n pat P best tr g es : rep0 s v g P -> rep0 s v g P -> same_set P (known_parents s known v) ->
  psc P = Ok best -> (exists g', run_ok Sc score gt t s v (candidate_parents s known v) mp pat n 0 P best tr g' /\ es = ng_edges g') ->
  search_outcome mp n pat es tr.
Proof.
  intros R0 _ HK HP [g' [[R [b [H1 [H2 [H3 [H4 [H5 H6]]]]]]] ->]].
  destruct (rep_edges s v g' R (proj2 H1)) as [V1 V2]. assert (NR : NoDup R) by apply H1. assert (WR : forall p, In p R -> In p labels) by apply H1.
  assert (NP : NoDup P) by apply R0. assert (WP : forall p, In p P -> In p labels) by apply R0.
  exists P, R, best, b. repeat (split; [assumption|]).
  split; [rewrite (score_of_pscore _ P NP WP); [exact HP|]; intros e; rewrite !edges_into_In, (HK (fst e)); tauto|].
  split; [rewrite (score_of_pscore _ R NR WR V2); exact H4|]. split; [apply stops_from_documented, H5|].
  eapply Forall_impl; [|exact H6]. intros e. apply score_of_logged.
Qed.

Lemma hill_outcome mp n pat es tr : hill_climbing Sc score gt t draws s m v mp n pat = Ok (es, tr) -> search_outcome mp n pat es tr.
Proof.
  unfold hill_climbing. destruct start_spec as [g [P [-> [R HK]]]]. cbn [bind]. intros H. apply bind_ok in H as [[best g1] [E1 H]].
  apply bind_ok in H as [[g2 tr2] [H E]]. injection E as <- <-.
  pose proof (rep_score Sc score t s v Hwf Hed Hv g P R) as HS. destruct (psc P) as [sc|x] eqn:EP; [|congruence].
  destruct HS as [g1' [E1' R1]]. assert (sc = best /\ g1' = g1) as [-> ->] by (split; congruence).
  apply (outcome_of_run mp n pat P best tr2 g); auto. exists g2. split; [|reflexivity].
  eapply hill_spec; [exact Hwf|exact Hed|exact Hv| |exact R1|exact EP| |exact H].
  - intros c Hc. apply candidates_In in Hc. tauto.
  - intros; lia.
Qed.

Lemma set_of_list_NoDup l : NoDup l -> set_of_list l = l.
Proof.
  unfold set_of_list. assert (H : forall l acc, NoDup (acc ++ l) -> fold_left (fun acc x => set_add x acc) l acc = acc ++ l).
  { induction l0 as [|x l0 IH]; intros acc N; cbn [fold_left]; [rewrite app_nil_r; reflexivity|].
    unfold set_add at 2. assert (E : lmem x acc = false).
    { apply lmem_false. intros K. apply NoDup_remove_2 in N. apply N, in_app_iff. auto. }
    rewrite E. replace (acc ++ x :: l0) with ((acc ++ [x]) ++ l0) in * by (rewrite <- app_assoc; reflexivity). apply IH, N. }
  intros N. apply (H l []). exact N.
Qed.
Lemma cands_set : set_of_list (candidate_parents s known v) = candidate_parents s known v.
Proof. apply set_of_list_NoDup. apply NoDup_filter, Hwf. Qed.

Lemma tabu_outcome mp n pat len dur es tr : tabu_search Sc score gt t draws s m v mp n pat len dur = Ok (es, tr) ->
  search_outcome mp n pat es (map fst tr)
  /\ Forall (tabu_entry_ok (candidate_parents s known v) (opt_default len (length (candidate_parents s known v)))) tr.
Proof.
  unfold tabu_search. destruct start_spec as [g [P [-> [R HK]]]]. cbn [bind]. rewrite cands_set. intros H. apply bind_ok in H as [[best g1] [E1 H]].
  apply bind_ok in H as [[g2 tr2] [H E]]. injection E as <- <-.
  pose proof (rep_score Sc score t s v Hwf Hed Hv g P R) as HS. destruct (psc P) as [sc|x] eqn:EP; [|congruence].
  destruct HS as [g1' [E1' R1]]. assert (sc = best /\ g1' = g1) as [-> ->] by (split; congruence).
  eapply (tabu_spec Sc score gt t draws s v Hwf Hed Hv) in H; [|intros c Hc; apply candidates_In in Hc; tauto|exact R1|exact EP|intros; lia| |simpl; lia].
  2:{ split; [constructor|]. split; [intros x; simpl; tauto|intros y []]. }
  destruct H as [H1 H2]. split; [|exact H2].
  apply (outcome_of_run mp n pat P best (map fst tr2) g); auto. exists g2. split; [exact H1|reflexivity].
Qed.

(** ** failures *)
Lemma hill_errors mp n pat x : scores_computable score t s v -> hill_climbing Sc score gt t draws s m v mp n pat = Err x ->
  x = IndexError /\ 0 < n /\ (candidate_parents s known v = [] \/ mp = Some 0).
Proof.
  intros HC. unfold hill_climbing. destruct start_spec as [g [P [-> [R HK]]]]. cbn [bind].
  pose proof (rep_score Sc score t s v Hwf Hed Hv g P R) as HS. destruct (psc P) as [sc|y] eqn:EP.
  2:{ exfalso. apply (computable_psc HC P y); [apply R|apply R|exact EP]. }
  destruct HS as [g1 [-> R1]]. cbn [bind]. intros H.
  destruct (hill_loop _ _ _ _ _ n _ _ _ _ _ _ _ _) as [[g2 tr2]|y] eqn:El; cbn [bind] in H; [discriminate|]. injection H as ->.
  assert (Hn : 0 < n). { destruct n; [discriminate El|lia]. }
  eapply (hill_err Sc score gt t draws s v Hwf Hed Hv) in El; [|intros c Hc; apply candidates_In in Hc; tauto|exact R1|exact EP].
  destruct El as [[-> K]|[Q [N [W K]]]]; [auto|]. exfalso. exact (computable_psc HC Q x N W K).
Qed.

Lemma hill_no_candidates mp n pat : scores_computable score t s v -> 0 < n -> candidate_parents s known v = [] ->
  hill_climbing Sc score gt t draws s m v mp n pat = Err IndexError.
Proof.
  intros HC Hn Hc. unfold hill_climbing. destruct start_spec as [g [P [-> [R HK]]]]. cbn [bind].
  pose proof (rep_score Sc score t s v Hwf Hed Hv g P R) as HS. destruct (psc P) as [sc|y] eqn:EP.
  2:{ exfalso. apply (computable_psc HC P y); [apply R|apply R|exact EP]. }
  destruct HS as [g1 [-> R1]]. cbn [bind]. rewrite Hc. destruct n; [lia|]. cbn [hill_loop]. unfold rand_choice.
  unfold nth_res. destruct (_ mod _); reflexivity.
Qed.

Lemma no_parents_propose g P k c : rep s v g P -> P = [] -> propose draws v (Some 0) g k c = Err IndexError.
Proof.
  intros R ->. unfold propose. rewrite (rep_has_edge s v g [] c (proj2 R)). cbn [lmem existsb].
  destruct (rep_parents s v Hv g [] R) as [ps [-> [_ [_ L]]]]. cbn [bind]. destruct ps; [|discriminate]. cbn [length Nat.leb].
  unfold rand_choice, nth_res. destruct (_ mod _); reflexivity.
Qed.
Lemma empty_known P : same_set P (known_parents s known v) -> known_parents s known v = [] -> P = [].
Proof. intros H E. rewrite E in H. destruct P as [|x P]; [reflexivity|]. destruct (proj1 (H x) (or_introl eq_refl)). Qed.

Lemma hill_no_room n pat : scores_computable score t s v -> 0 < n -> candidate_parents s known v <> [] -> known_parents s known v = [] ->
  hill_climbing Sc score gt t draws s m v (Some 0) n pat = Err IndexError.
Proof.
  intros HC Hn Hc Hkp. unfold hill_climbing. destruct start_spec as [g [P [-> [R HK]]]]. cbn [bind].
  pose proof (rep_score Sc score t s v Hwf Hed Hv g P R) as HS. destruct (psc P) as [sc|y] eqn:EP.
  2:{ exfalso. apply (computable_psc HC P y); [apply R|apply R|exact EP]. }
  destruct HS as [g1 [-> R1]]. cbn [bind]. destruct n; [lia|]. cbn [hill_loop].
  destruct (choice_ok draws 0 _ Hc) as [c [-> _]]. cbn [bind].
  rewrite (no_parents_propose g1 P 1 c R1 (empty_known P HK Hkp)). reflexivity.
Qed.

Lemma tabu_errors mp n pat len dur x : scores_computable score t s v ->
  tabu_search Sc score gt t draws s m v mp n pat len dur = Err x ->
  0 < n /\ ((x = IndexError /\ mp = Some 0) \/ (x = Blocked /\ (candidate_parents s known v = [] \/ len = Some 0))
            \/ (x = ZeroDivisionError /\ dur = Some 0)).
Proof.
  intros HC. unfold tabu_search. destruct start_spec as [g [P [-> [R HK]]]]. cbn [bind]. rewrite cands_set.
  pose proof (rep_score Sc score t s v Hwf Hed Hv g P R) as HS. destruct (psc P) as [sc|y] eqn:EP.
  2:{ exfalso. apply (computable_psc HC P y); [apply R|apply R|exact EP]. }
  destruct HS as [g1 [-> R1]]. cbn [bind]. intros H.
  set (C := candidate_parents s known v) in *.
  destruct (tabu_loop _ _ _ _ _ n _ _ _ _ _ _ _ _ _ _ _ _ _) as [[g2 tr2]|y] eqn:El; cbn [bind] in H; [discriminate|]. injection H as ->.
  assert (Hn : 0 < n). { destruct n; [discriminate El|lia]. } split; [exact Hn|].
  eapply (tabu_err Sc score gt t draws s v Hwf Hed Hv) in El; [|intros c Hc; apply candidates_In in Hc; tauto|exact R1|exact EP| |simpl; lia].
  2:{ split; [constructor|]. split; [intros y; simpl; tauto|intros y []]. }
  assert (Hlen : opt_default len (length C) = 0 -> C = [] \/ len = Some 0).
  { destruct len as [l|]; cbn; [intros ->; auto|]. intros E. left. destruct C; [reflexivity|discriminate]. }
  destruct El as [K|[[-> K]|[[-> [K1 K2]]|[Q [N [W K]]]]]]; [auto| | |exfalso; exact (computable_psc HC Q x N W K)].
  - right; left. split; [reflexivity|]. destruct K as [K|K]; [auto|apply Hlen, K].
  - destruct dur as [d|]; cbn in K2; [subst; auto|]. exfalso. apply K1. destruct C; [reflexivity|discriminate].
Qed.

Lemma tabu_first n mp pat len dur : scores_computable score t s v -> exists g P best, rep s v g P
  /\ same_set P (known_parents s known v) /\ psc P = Ok best
  /\ let C := candidate_parents s known v in
     tabu_search Sc score gt t draws s m v mp n pat len dur =
     (let* (g2, tr) := tabu_loop Sc score gt t draws n v C mp pat (opt_default len (length C)) (opt_default dur (length C)) g best 0 0 [] [] 0 in
      Ok (ng_edges g2, tr)).
Proof.
  intros HC. unfold tabu_search. destruct start_spec as [g [P [-> [R HK]]]]. cbn [bind]. rewrite cands_set.
  pose proof (rep_score Sc score t s v Hwf Hed Hv g P R) as HS. destruct (psc P) as [sc|y] eqn:EP.
  2:{ exfalso. apply (computable_psc HC P y); [apply R|apply R|exact EP]. }
  destruct HS as [g1 [-> R1]]. cbn [bind]. exists g1, P, sc. auto.
Qed.

Lemma tabu_no_candidates mp n pat len dur : scores_computable score t s v -> 0 < n -> candidate_parents s known v = [] ->
  tabu_search Sc score gt t draws s m v mp n pat len dur = Err Blocked.
Proof.
  intros HC Hn Hc. destruct (tabu_first n mp pat len dur HC) as [g [P [best [R [HK [EP E]]]]]]. cbn zeta in E. rewrite E, Hc.
  destruct n; [lia|]. reflexivity.
Qed.
Lemma first_pick : candidate_parents s known v <> [] -> exists c, In c (candidate_parents s known v)
  /\ tabu_pick draws (candidate_parents s known v) [] [] 0 = Ok (c, [], [], 1).
Proof.
  intros Hc. unfold tabu_pick. rewrite filter_true by reflexivity. destruct (choice_ok draws 0 _ Hc) as [c [-> Hi]].
  exists c. split; [exact Hi|]. destruct (candidate_parents s known v); [congruence|reflexivity].
Qed.
Lemma tabu_no_room n pat len dur : scores_computable score t s v -> 0 < n -> candidate_parents s known v <> [] -> known_parents s known v = [] ->
  tabu_search Sc score gt t draws s m v (Some 0) n pat len dur = Err IndexError.
Proof.
  intros HC Hn Hc Hkp. destruct (tabu_first n (Some 0) pat len dur HC) as [g [P [best [R [HK [EP E]]]]]]. cbn zeta in E. rewrite E.
  destruct n; [lia|]. cbn [tabu_loop]. destruct (first_pick Hc) as [c [_ ->]]. cbn [bind].
  rewrite (no_parents_propose g P 1 c R (empty_known P HK Hkp)). reflexivity.
Qed.
Lemma tabu_length_zero mp n pat dur : scores_computable score t s v -> 0 < n -> candidate_parents s known v <> [] -> mp <> Some 0 ->
  tabu_search Sc score gt t draws s m v mp n pat (Some 0) dur = Err Blocked.
Proof.
  intros HC Hn Hc Hmp. destruct (tabu_first n mp pat (Some 0) dur HC) as [g [P [best [R [HK [EP E]]]]]]. cbn zeta in E. rewrite E.
  destruct n; [lia|]. cbn [tabu_loop]. destruct (first_pick Hc) as [c [Hi ->]]. cbn [bind].
  assert (Hcl : In c labels) by (apply candidates_In in Hi; tauto).
  pose proof (propose_spec draws s v Hv mp g P 1 c R Hcl) as HP.
  destruct (propose draws v mp g 1 c) as [[[[g1 added] ev] k1]|y] eqn:Ep; [|destruct HP as [_ [K _]]; congruence]. cbn [bind].
  pose proof (iteration_spec Sc score gt t draws s v Hwf Hed Hv mp g P best 1 c g1 added ev k1 R Hcl Ep) as HI.
  destruct (get_score_from_graph Sc score t g1 v) as [[sc g2]|y]; [|destruct HI as [Q [N [W K]]]; exfalso; exact (computable_psc HC Q y N W K)].
  reflexivity.
Qed.
Lemma tabu_duration_zero mp n pat len : scores_computable score t s v -> 0 < n -> candidate_parents s known v <> [] -> mp <> Some 0 -> len <> Some 0 ->
  tabu_search Sc score gt t draws s m v mp n pat len (Some 0) = Err ZeroDivisionError.
Proof.
  intros HC Hn Hc Hmp Hlen. destruct (tabu_first n mp pat len (Some 0) HC) as [g [P [best [R [HK [EP E]]]]]]. cbn zeta in E. rewrite E.
  destruct n; [lia|]. cbn [tabu_loop]. destruct (first_pick Hc) as [c [Hi ->]]. cbn [bind].
  assert (Hcl : In c labels) by (apply candidates_In in Hi; tauto).
  pose proof (propose_spec draws s v Hv mp g P 1 c R Hcl) as HP.
  destruct (propose draws v mp g 1 c) as [[[[g1 added] ev] k1]|y] eqn:Ep; [|destruct HP as [_ [K _]]; congruence]. cbn [bind].
  pose proof (iteration_spec Sc score gt t draws s v Hwf Hed Hv mp g P best 1 c g1 added ev k1 R Hcl Ep) as HI.
  destruct (get_score_from_graph Sc score t g1 v) as [[sc g2]|y]; [|destruct HI as [Q [N [W K]]]; exfalso; exact (computable_psc HC Q y N W K)].
  cbn [bind]. unfold tabu_update. cbn [length].
  assert (HL : 0 < opt_default len (length (candidate_parents s known v))).
  { destruct len as [l|]; cbn; [destruct l; [congruence|lia]|]. destruct (candidate_parents s known v); [congruence|simpl; lia]. }
  destruct (Nat.leb_spec (opt_default len (length (candidate_parents s known v))) 0); [lia|]. reflexivity.
Qed.
End whole.

Lemma path_change_start {Sc} v cands mp P (tr : list (step_log Sc)) R P' : search_path v cands mp P tr R -> NoDup P' -> same_set P P' ->
  search_path v cands mp P' tr R.
Proof.
  intros H N' S.
  assert (Hn : forall c Q, NoDup P -> neighbour mp P c Q -> neighbour mp P' c Q).
  { intros c Q N K. assert (L : length P = length P') by (apply same_set_length; assumption).
    assert (HR : room mp P <-> room mp P') by (unfold room; destruct mp; [rewrite L|]; tauto).
    destruct K as [[K1 K2]|[[K1 [K2 K3]]|[K1 [K2 [q [K3 K4]]]]]].
    - left. split; [apply S, K1|]. intros x. rewrite <- (S x). apply K2.
    - right; left. split; [rewrite <- (S c); exact K1|]. split; [tauto|]. intros x. rewrite <- (S x). apply K3.
    - right; right. split; [rewrite <- (S c); exact K1|]. split; [tauto|]. exists q. split; [apply S, K3|]. intros x. rewrite <- (S x). apply K4. }
  destruct H as [P R N H|P e Q tr R N C A K D E H|P e Q P1 tr R N C A K D E H1 H].
  - apply path_done; [exact N'|]. intros x. rewrite <- (S x). apply H.
  - apply (path_keep _ _ _ _ _ Q); auto.
  - apply (path_undo _ _ _ _ _ Q P1); auto. intros x. rewrite <- (S x). apply H1.
Qed.

Lemma uniform_computable {Sc} (score : list cim -> result Sc) t s v k : wf_structure s -> data_ok s t -> edges_list s = [] ->
  In v (nodes_labels s) -> 0 < k -> (forall x, In x (nodes_values s) -> x = k) ->
  (forall cims, exists sc, score cims = Ok sc) -> scores_computable score t s v.
Proof.
  intros Hwf Hd He Hv Hk HV HS ps Hps. unfold score_of.
  set (es := edges_into v ps). set (par := filter (fun l => emem (l, v) (es ++ edges_list s)) (nodes_labels s)).
  assert (Hval : forall l, In l (nodes_labels s) -> val_of s l = k).
  { intros l Hl. destruct (wf_lookup s l Hwf Hl) as [i [_ [_ [E _]]]]. apply HV. eapply nth_error_In; exact E. }
  destruct (wf_lookup s v Hwf Hv) as [_ [_ [_ [_ [Ei Ec]]]]].
  destruct (fresh_params s t es v (val_of s v) (idx_of s v) (map (idx_of s) par) (map (val_of s) par)) as [g [-> E2]]; auto.
  - intros e H. apply edges_into_In in H as [H1 H2]. rewrite H2. auto.
  - rewrite He. intros e [].
  - split; [exact Ec|]. split; [exact Ei|]. fold par.
    assert (HF : forall (f : structure -> label -> nat) (look : structure -> label -> result nat), (forall l, In l (nodes_labels s) -> look s l = Ok (f s l)) ->
      Forall2 (fun p i => look s p = Ok i) par (map (f s) par)).
    { intros f look HL. assert (HI : forall p, In p par -> In p (nodes_labels s)) by (intros p Hp; apply filter_In in Hp; tauto).
      induction par as [|p r IH]; constructor; [apply HL, HI; left; reflexivity|apply IH; intros q Hq; apply HI; right; exact Hq]. }
    split; apply HF; intros l Hl; destruct (wf_lookup s l Hwf Hl) as [_ [_ [_ [_ [A B]]]]]; assumption.
  - rewrite Hval by exact Hv. exact Hk.
  - rewrite Hval by exact Hv. intros p Hp _. apply in_map_iff in Hp as [l [<- Hl]]. apply Hval. apply filter_In in Hl. tauto.
  - cbn [bind]. rewrite E2. cbn [bind so_actual_cims]. apply HS.
Qed.

(** the shared conclusions *)
Section conclusions.
Variables (Sc : Type) (score : list cim -> result Sc) (gt : Sc -> Sc -> bool) (t : trajectory).
Variables (s : structure) (known : list edge) (m : list (list bool)) (v : label).
Hypothesis Hok : search_ready s known m v.
Variables (mp : option nat) (n : nat) (pat : option nat) (es : list edge) (tr : list (step_log Sc)).
Hypothesis Hout : search_outcome Sc score gt t s known v mp n pat es tr.
Notation kp := (known_parents s known v).

Lemma kp_NoDup : NoDup kp. Proof. apply NoDup_filter. apply Hok. Qed.
Lemma concl_improves : strict_order gt -> exists sc0 sc, score_of score t s v (edges_into v kp) = Ok sc0 /\ score_of score t s v es = Ok sc
  /\ (gt sc sc0 = true \/ (sc = sc0 /\ forall e, In e es <-> In e (edges_into v kp)))
  /\ improving gt sc0 tr sc /\ Forall (fun e => score_of score t s v (sl_edges e) = Ok (sl_score e)) tr.
Proof.
  intros HG. destruct Hout as [K [R [sc0 [sc [HK [NK [NR [WR [Ne [He [Hp [Hi [E0 [E1 [_ Hl]]]]]]]]]]]]]]].
  exists sc0, sc. split; [exact E0|]. split; [exact E1|]. split; [|split; assumption].
  destruct (improving_cases gt sc0 tr sc HG Hi) as [H|[H1 H2]]; [auto|]. right. split; [exact H1|].
  pose proof (path_all_rejected _ _ _ _ _ _ Hp H2) as HS. intros e. rewrite He, !edges_into_In, <- (HS (fst e)), (HK (fst e)). tauto.
Qed.
Lemma concl_path : exists R, NoDup R /\ search_path v (candidate_parents s known v) mp kp tr R /\ NoDup es /\ forall e, In e es <-> In e (edges_into v R).
Proof.
  destruct Hout as [K [R [sc0 [sc [HK [NK [NR [WR [Ne [He [Hp _]]]]]]]]]]]. exists R. split; [exact NR|]. split; [|auto].
  eapply path_change_start; [exact Hp|apply kp_NoDup|exact HK].
Qed.
Lemma concl_max k : mp = Some k -> 0 < k -> length kp <= k -> length es <= k.
Proof.
  intros Hm Hk HL. destruct concl_path as [R [NR [Hp [Ne He]]]]. pose proof (path_max v _ mp k _ _ _ Hm Hk Hp NR HL) as L.
  assert (E : length es = length (edges_into v R)).
  { apply Nat.le_antisymm; apply NoDup_incl_length.
    - exact Ne. - intros e H. apply He, H.
    - apply FinFun.Injective_map_NoDup; [intros a b K; congruence|exact NR]. - intros e H. apply He, H. }
  rewrite E. unfold edges_into. rewrite map_length. exact L.
Qed.
Lemma concl_known a : mp = None -> In (a, v) known -> In (a, v) es.
Proof.
  intros Hm Ha. destruct concl_path as [R [NR [Hp [Ne He]]]]. apply He, edges_into_In. split; [|reflexivity]. cbn [fst].
  apply (path_keeps v (candidate_parents s known v) mp a kp tr R Hm); [|exact Hp|apply (known_parents_In s known m v Hok), Ha].
  intros K. apply (candidates_In s known v) in K. tauto.
Qed.
Lemma concl_shape : NoDup es /\ forall a b, In (a, b) es -> b = v /\ In a (nodes_labels s) /\ (a <> v \/ In (v, v) known).
Proof.
  destruct concl_path as [R [NR [Hp [Ne He]]]]. split; [exact Ne|]. intros a b H. apply He, edges_into_In in H as [H1 H2]. cbn [fst snd] in *.
  subst b. split; [reflexivity|]. destruct (path_incl v _ mp _ _ _ Hp a H1) as [K|K].
  - pose proof K as K'. apply (known_parents_In s known m v Hok) in K. unfold known_parents in K'. apply filter_In in K' as [K' _]. split; [exact K'|].
    destruct (string_dec a v) as [->|Hn]; auto.
  - apply (candidates_In s known v) in K. tauto.
Qed.
Lemma concl_stops : stops_as_documented n pat tr.
Proof. destruct Hout as [K [R [sc0 [sc H]]]]. tauto. Qed.
End conclusions.
