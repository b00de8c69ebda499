(** Score-based search: the graph as a parent set, one step, the loops. *)
From Verif Require Import Base Lib ModelStructure ModelGraph ModelCims ModelData ModelParams ModelCtpc ModelSearch
  SpecStructure SpecGraph SpecParams SpecCtpc SpecSearch ProofStructure ProofGraph ProofParams ProofCtpc ProofCtpc2.

Lemma edges_into_In v ps e : In e (edges_into v ps) <-> In (fst e) ps /\ snd e = v.
Proof.
  unfold edges_into. rewrite in_map_iff. destruct e as [a b]; simpl. split.
  - intros [x [E Hx]]. injection E as <- <-. auto.
  - intros [H <-]. exists a. auto.
Qed.

Section setup.
Variables (Sc : Type) (score : list cim -> result Sc) (gt : Sc -> Sc -> bool) (t : trajectory) (draws : nat -> nat).
Variables (s : structure) (v : label).
Hypothesis Hwf : wf_structure s.
Hypothesis Hed : edges_list s = [].
Hypothesis Hv : In v (nodes_labels s).
Notation labels := (nodes_labels s).
Notation within P := (forall p, In p P -> In p labels).

Definition pscore (P : list label) : result Sc :=
  let* so := set_params s t (total_variables_number s) v P in score (so_actual_cims so).
Lemma pscore_ext P Q : same_set P Q -> pscore P = pscore Q.
Proof. intros H. unfold pscore. rewrite (set_params_ext s t _ v P Q H). reflexivity. Qed.

Definition rep0 (g : netgraph) (P : list label) : Prop :=
  ng_struct g = s /\ dinv (ng_graph g) /\ NoDup P /\ within P
  /\ forall e, In e (g_edges (ng_graph g)) <-> In e (edges_into v P).
Definition rep (g : netgraph) (P : list label) : Prop := ginv g /\ rep0 g P.

Lemma rep0_within g P : rep0 g P -> edges_within (nodes_labels (ng_struct g)) (g_edges (ng_graph g)).
Proof.
  intros [-> [_ [_ [Hi He]]]] e H. apply He, edges_into_In in H as [H1 H2]. rewrite H2. auto.
Qed.

Lemma rep_init g P : rep0 g P -> exists g', ng_fast_init g v = Ok g' /\ rep g' P
  /\ compute_parameters_for_node t g' v = set_params s t (total_variables_number s) v P.
Proof.
  intros R. pose proof (rep0_within g P R) as Hin. destruct R as [Es [Hd [Hn [Hi He]]]].
  destruct (fast_init_canonical g v) as [g' [E1 [G1 [S1 [D1 F1]]]]].
  { rewrite Es. exact Hwf. } { exact Hd. } { exact Hin. } { rewrite Es, Hed. intros e []. } { rewrite Es. exact Hv. }
  exists g'. split; [exact E1|]. rewrite Es in S1.
  assert (HE : forall e, In e (g_edges (ng_graph g')) <-> In e (edges_into v P)).
  { intros e. rewrite D1, Es, Hed, He. simpl. tauto. }
  split.
  - split; [exact G1|]. split; [exact S1|]. split; [apply G1|]. auto.
  - rewrite Es in F1. apply (canonical_params s s t _ v g' _ P G1 S1 F1 Hv eq_refl); [auto|].
    unfold parents_in. apply filter_ext_In. intros l Hl. rewrite Hed. cbn [emem existsb]. rewrite orb_false_r.
    apply eq_true_iff_eq. rewrite emem_In, lmem_In, He, edges_into_In. simpl. tauto.
Qed.

Lemma rep_score g P : rep0 g P ->
  match pscore P with
  | Ok sc => exists g', get_score_from_graph Sc score t g v = Ok (sc, g') /\ rep g' P
  | Err x => get_score_from_graph Sc score t g v = Err x
  end.
Proof.
  intros R. destruct (rep_init g P R) as [g' [E1 [R1 E2]]]. unfold get_score_from_graph, pscore.
  rewrite E1. cbn [bind]. rewrite E2. destruct (set_params s t _ v P) as [so|x]; cbn [bind]; [|reflexivity].
  destruct (score (so_actual_cims so)); cbn [bind]; [eauto|reflexivity].
Qed.

Lemma rep0_add g P p : rep0 g P -> In p labels -> exists Q, rep0 (ng_add_edges g [(p, v)]) Q /\ forall x, In x Q <-> In x P \/ x = p.
Proof.
  intros [Es [Hd [Hn [Hi He]]]] Hp. destruct (add_edges_from_spec (ng_graph g) [(p, v)] Hd) as [D1 [D2 _]].
  exists (if lmem p P then P else P ++ [p]).
  assert (HQ : forall x, In x (if lmem p P then P else P ++ [p]) <-> In x P \/ x = p) by (intros x; apply snoc_if_In).
  split; [|exact HQ]. split; [exact Es|]. split; [exact D1|]. split; [apply snoc_if_NoDup, Hn|]. split.
  - intros x Hx. apply HQ in Hx as [Hx| ->]; auto.
  - intros [a b]. unfold ng_add_edges, with_graph; cbn [ng_graph]. rewrite D2, He, !edges_into_In, HQ. simpl. split.
    + intros [[A B]|[E|[]]]; [auto|]. injection E as <- <-. auto.
    + intros [[A| ->] ->]; auto.
Qed.
Lemma rep0_remove g P p : rep0 g P -> exists Q, rep0 (ng_remove_edges g [(p, v)]) Q /\ forall x, In x Q <-> In x P /\ x <> p.
Proof.
  intros [Es [Hd [Hn [Hi He]]]]. destruct (remove_edges_from_spec (ng_graph g) [(p, v)] Hd) as [D1 [D2 _]].
  exists (filter (fun x => negb (String.eqb x p)) P).
  assert (HQ : forall x, In x (filter (fun x => negb (String.eqb x p)) P) <-> In x P /\ x <> p).
  { intros x. rewrite filter_In, negb_true_iff, String.eqb_neq. tauto. }
  split; [|exact HQ]. split; [exact Es|]. split; [exact D1|]. split; [apply NoDup_filter, Hn|]. split.
  - intros x Hx. apply HQ in Hx as [Hx _]; auto.
  - intros [a b]. unfold ng_remove_edges, with_graph; cbn [ng_graph]. rewrite D2, He, !edges_into_In, HQ. simpl. split.
    + intros [[A B] C]. split; [|exact B]. split; [exact A|]. intros ->. apply C. left. congruence.
    + intros [[A B] ->]. split; [auto|]. intros [E|[]]. injection E as <-. congruence.
Qed.
Lemma rep_add g P p : rep g P -> In p labels -> exists Q, rep (ng_add_edges g [(p, v)]) Q /\ forall x, In x Q <-> In x P \/ x = p.
Proof.
  intros [G R] Hp. destruct (rep0_add g P p R Hp) as [Q [R' HQ]]. exists Q. split; [|exact HQ]. split; [|exact R'].
  apply ginv_add_edges; [exact G|]. destruct R as [-> _]. intros e [<-|[]]. simpl. auto.
Qed.
Lemma rep_remove g P p : rep g P -> exists Q, rep (ng_remove_edges g [(p, v)]) Q /\ forall x, In x Q <-> In x P /\ x <> p.
Proof.
  intros [G R]. destruct (rep0_remove g P p R) as [Q [R' HQ]]. exists Q. split; [|exact HQ]. split; [|exact R'].
  apply ginv_remove_edges, G.
Qed.

Lemma rep_has_edge g P c : rep0 g P -> ng_has_edge g (c, v) = lmem c P.
Proof.
  intros [_ [_ [_ [_ He]]]]. apply eq_true_iff_eq. unfold ng_has_edge, g_has_edge. rewrite emem_In, lmem_In, He, edges_into_In.
  simpl. tauto.
Qed.
Lemma rep_parents g P : rep g P -> exists ps, ng_get_parents_by_id g v = Ok ps /\ NoDup ps /\ same_set ps P /\ length ps = length P.
Proof.
  intros [G [Es [Hd [Hn [Hi He]]]]]. destruct (proj1 (predecessors_spec (ng_graph g) v Hd)) as [ps [E [N H]]].
  { apply ginv_names; [exact G|]. rewrite Es. exact Hv. }
  exists ps. split; [exact E|]. split; [exact N|].
  assert (S : same_set ps P). { intros x. rewrite H, He, edges_into_In. simpl. tauto. }
  split; [exact S|]. apply same_set_length; assumption.
Qed.
Lemma rep_edges g P : rep0 g P -> NoDup (ng_edges g) /\ forall e, In e (ng_edges g) <-> In e (edges_into v P).
Proof.
  intros [_ [Hd [_ [_ He]]]]. unfold ng_edges. destruct (edges_view_spec _ Hd) as [V1 V2]. split; [exact V1|].
  intros e. rewrite V2. apply He.
Qed.

Lemma choice_ok {A} k (l : list A) : l <> [] -> exists x, rand_choice draws k l = Ok x /\ In x l.
Proof.
  intros H. unfold rand_choice. destruct (nth_res_lt l (draws k mod length l)) as [x E].
  { apply Nat.mod_upper_bound. destruct l; [congruence|discriminate]. }
  exists x. split; [exact E|]. apply nth_res_ok in E. eapply nth_error_In; exact E.
Qed.
Lemma choice_In {A} k (l : list A) x : rand_choice draws k l = Ok x -> In x l.
Proof. intros E. apply nth_res_ok in E. eapply nth_error_In; exact E. Qed.
Lemma choice_err {A} k (l : list A) e : rand_choice draws k l = Err e -> l = [] /\ e = IndexError.
Proof.
  intros E. destruct l as [|a l]; [split; [reflexivity|]; unfold rand_choice in E; apply nth_res_err in E; tauto|].
  destruct (choice_ok k (a :: l)) as [x [Ex _]]; congruence.
Qed.

(** one proposal *)
Definition undo_set (P : list label) (c : label) (added : bool) (ev : option label) (Q : list label) : Prop :=
  if added then match ev with
                | Some q => forall R, (forall x, In x R <-> In x Q /\ x <> c) -> forall x, In x P <-> In x R \/ x = q
                | None => forall x, In x P <-> In x Q /\ x <> c end
  else forall x, In x P <-> In x Q \/ x = c.

Lemma propose_spec mp g P k c : rep g P -> In c labels ->
  match propose draws v mp g k c with
  | Ok (g1, added, ev, k1) => exists Q, rep g1 Q /\ neighbour mp P c Q /\ undo_set P c added ev Q
                                /\ (forall q, ev = Some q -> In q labels)
  | Err x => x = IndexError /\ mp = Some 0 /\ P = []
  end.
Proof.
  intros R Hc. unfold propose. rewrite (rep_has_edge g P c (proj2 R)).
  destruct (lmem c P) eqn:Ec.
  - apply lmem_In in Ec. destruct (rep_remove g P c R) as [Q [RQ HQ]]. exists Q. split; [exact RQ|]. split; [left; auto|].
    split; [|discriminate]. intros x. rewrite HQ. destruct (string_dec x c) as [->|Hx]; tauto.
  - apply lmem_false in Ec. destruct mp as [n|]; cbn [bind].
    + destruct (rep_parents g P R) as [ps [E [N [S L]]]]. rewrite E. cbn [bind]. destruct (Nat.leb_spec n (length ps)) as [Hle|Hlt].
      * destruct (rand_choice draws k ps) as [q|x] eqn:Eq; cbn [bind].
        -- apply choice_In in Eq. apply S in Eq. destruct (rep_remove g P q R) as [Q1 [R1 H1]].
           destruct (rep_add _ Q1 c R1 Hc) as [Q [RQ HQ]]. exists Q. split; [exact RQ|]. split.
           ++ right; right. split; [exact Ec|]. split; [simpl; lia|]. exists q. split; [exact Eq|]. intros x. rewrite HQ, H1. tauto.
           ++ split; [|intros q' E'; injection E' as <-; apply R, Eq]. cbn. intros R2 HR2 x. rewrite HR2, HQ, H1.
              destruct (string_dec x q) as [->|Hx]; [tauto|]. split; [|tauto]. intros K. left.
              split; [tauto|]. intros ->. contradiction.
        -- apply choice_err in Eq as [-> ->]. simpl in L, Hle. destruct P; [|discriminate]. split; [reflexivity|].
           split; [f_equal; lia|reflexivity].
      * cbn [bind]. destruct (rep_add g P c R Hc) as [Q [RQ HQ]]. exists Q. split; [exact RQ|]. split.
        -- right; left. split; [exact Ec|]. split; [simpl; lia|exact HQ].
        -- split; [|discriminate]. cbn. intros x. rewrite HQ. split; [intros K; split; [tauto|intros ->; contradiction]|tauto].
    + destruct (rep_add g P c R Hc) as [Q [RQ HQ]]. exists Q. split; [exact RQ|]. split.
      * right; left. split; [exact Ec|]. split; [exact I|exact HQ].
      * split; [|discriminate]. cbn. intros x. rewrite HQ. split; [intros K; split; [tauto|intros ->; contradiction]|tauto].
Qed.

Lemma undo_spec g P Q c added ev : rep g Q -> undo_set P c added ev Q -> In c labels -> (forall q, ev = Some q -> In q labels) ->
  exists P', rep (undo v g c added ev) P' /\ same_set P P'.
Proof.
  intros R U Hc Hq. unfold undo, undo_set in *. destruct added.
  - destruct (rep_remove g Q c R) as [Q1 [R1 H1]]. destruct ev as [q|].
    + destruct (rep_add _ Q1 q R1 (Hq q eq_refl)) as [P' [RP HP]]. exists P'. split; [exact RP|]. intros x. rewrite HP. apply U, H1.
    + exists Q1. split; [exact R1|]. intros x. rewrite H1. apply U.
  - destruct (rep_add g Q c R Hc) as [P' [RP HP]]. exists P'. split; [exact RP|]. intros x. rewrite HP. apply U.
Qed.

(** one iteration: what happens to the parent set *)
Definition step_result (mp : option nat) (P : list label) (best : Sc) (e : step_log Sc) (P' : list label) (best' : Sc) : Prop :=
  exists Q, neighbour mp P (sl_candidate e) Q /\ NoDup (sl_edges e) /\ (forall x, In x (sl_edges e) <-> In x (edges_into v Q))
   /\ NoDup Q /\ within Q
   /\ pscore Q = Ok (sl_score e) /\ sl_accepted e = gt (sl_score e) best
   /\ best' = (if sl_accepted e then sl_score e else best) /\ same_set P' (if sl_accepted e then Q else P).

Lemma iteration_spec mp g P best k c g1 added ev k1 : rep g P -> In c labels -> propose draws v mp g k c = Ok (g1, added, ev, k1) ->
  match get_score_from_graph Sc score t g1 v with
  | Ok (sc, g2) =>
      let acc := gt sc best in
      exists P', rep (if acc then g2 else undo v g2 c added ev) P'
        /\ step_result mp P best (MkStep c (ng_edges g2) sc acc) P' (if acc then sc else best)
  | Err x => exists Q, NoDup Q /\ within Q /\ pscore Q = Err x
  end.
Proof.
  intros R Hc Ep. pose proof (propose_spec mp g P k c R Hc) as HP. rewrite Ep in HP. destruct HP as [Q [RQ [HN [HU Hev]]]].
  pose proof (rep_score g1 Q (proj2 RQ)) as HS. assert (NQ : NoDup Q) by apply RQ.
  assert (WQ : within Q) by apply RQ.
  destruct (pscore Q) as [sc|x] eqn:Es.
  - destruct HS as [g2 [-> R2]]. cbn zeta. destruct (rep_edges g2 Q (proj2 R2)) as [V1 V2].
    destruct (gt sc best) eqn:Eg.
    + exists Q. split; [exact R2|]. exists Q. cbn [sl_candidate sl_edges sl_score sl_accepted]. repeat split; auto; apply V2.
    + destruct (undo_spec g2 P Q c added ev R2 HU Hc Hev) as [P' [RP HS']]. exists P'. split; [exact RP|]. exists Q.
      cbn [sl_candidate sl_edges sl_score sl_accepted]. repeat split; auto; try apply V2; apply HS'.
  - rewrite HS. exists Q. auto.
Qed.
End setup.
