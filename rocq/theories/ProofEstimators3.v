(** C57: a search started on a structure that still has edges keeps all of them. *)
From Verif Require Import Base Lib ModelStructure ModelGraph ModelCims ModelData ModelParams ModelCtpc ModelSearch ModelEstimators
  SpecStructure SpecGraph SpecCtpc SpecSearch SpecEstimators ProofStructure ProofGraph.

Section keep.
Variables (Sc : Type) (score : list cim -> result Sc) (gt : Sc -> Sc -> bool) (t : trajectory) (draws : nat -> nat).
Variables (s : structure) (v : label).
Definition base (g : netgraph) : Prop := ng_struct g = s /\ dinv (ng_graph g).
Definition keeps (g : netgraph) : Prop := base g /\ forall e, In e (edges_list s) -> In e (g_edges (ng_graph g)).

Lemma base_add g es : base g -> base (ng_add_edges g es) /\ forall x, In x (g_edges (ng_graph (ng_add_edges g es))) <-> In x (g_edges (ng_graph g)) \/ In x es.
Proof. intros [H1 H2]. destruct (add_edges_from_spec (ng_graph g) es H2) as [D1 [D2 _]]. split; [split; [exact H1|exact D1]|exact D2]. Qed.
Lemma base_remove g es : base g -> base (ng_remove_edges g es) /\ forall x, In x (g_edges (ng_graph (ng_remove_edges g es))) <-> In x (g_edges (ng_graph g)) /\ ~ In x es.
Proof. intros [H1 H2]. destruct (remove_edges_from_spec (ng_graph g) es H2) as [D1 [D2 _]]. split; [split; [exact H1|exact D1]|exact D2]. Qed.

Lemma score_keeps g sc g' : base g -> get_score_from_graph Sc score t g v = Ok (sc, g') ->
  keeps g' /\ forall x, In x (g_edges (ng_graph g')) <-> In x (g_edges (ng_graph g)) \/ In x (edges_list s).
Proof.
  intros [H1 H2] H. unfold get_score_from_graph in H. apply bind_ok in H as [g1 [H H']]. apply bind_ok in H' as [so [_ H']].
  apply bind_ok in H' as [sc' [_ E]]. injection E as _ <-. unfold ng_fast_init in H.
  apply bind_ok in H as [pinfo [_ H]]. apply bind_ok in H as [ns [_ H]]. apply bind_ok in H as [ni [_ H]]. injection H as <-.
  cbn [ng_struct ng_graph].
  destruct (add_nodes_loop_dspec (nodes_labels (ng_struct g)) (ng_graph g) 0 (nodes_indexes (ng_struct g)) (nodes_values (ng_struct g)) H2) as [A1 [A2 _]].
  destruct (add_edges_from_spec _ (edges_list (ng_struct g)) A1) as [D1 [D2 _]].
  assert (HE : forall x, In x (g_edges (g_add_edges_from (add_nodes_loop (ng_graph g) 0 (nodes_labels (ng_struct g)) (nodes_indexes (ng_struct g)) (nodes_values (ng_struct g))) (edges_list (ng_struct g)))) <-> In x (g_edges (ng_graph g)) \/ In x (edges_list s)).
  { intros x. rewrite D2, A2, <- H1. tauto. }
  split; [|exact HE]. split; [split; [exact H1|exact D1]|]. intros e He. apply HE. right. exact He.
Qed.

(** one proposal followed by its undo *)
Lemma step_keeps mp g k cand g1 added ev k1 sc g2 : keeps g -> propose draws v mp g k cand = Ok (g1, added, ev, k1) ->
  get_score_from_graph Sc score t g1 v = Ok (sc, g2) -> keeps g2 /\ keeps (undo v g2 cand added ev).
Proof.
  intros [HB HK] HP HS. unfold propose in HP.
  assert (K : base g1 /\ (added = true -> ~ In (cand, v) (edges_list s))).
  { destruct (ng_has_edge g (cand, v)) eqn:E.
    - injection HP as <- <- <- <-. split; [apply base_remove, HB|discriminate].
    - apply bind_ok in HP as [[[g0 e0] k0] [H0 HP]]. injection HP as <- <- <- <-.
      assert (B0 : base g0).
      { destruct mp as [mm|]; [|injection H0 as <- <- <-; exact HB]. apply bind_ok in H0 as [ps [_ H0]].
        destruct (mm <=? length ps); [|injection H0 as <- <- <-; exact HB].
        apply bind_ok in H0 as [q [_ H0]]. injection H0 as <- <- <-. apply base_remove, HB. }
      split; [apply base_add, B0|]. intros _ Hin. apply HK, emem_In in Hin. unfold ng_has_edge, g_has_edge in E. congruence. }
  destruct K as [B1 K]. destruct (score_keeps g1 sc g2 B1 HS) as [K2 _]. split; [exact K2|].
  destruct K2 as [B2 K2]. unfold undo. destruct added.
  - destruct (base_remove g2 [(cand, v)] B2) as [B3 K3].
    assert (K4 : keeps (ng_remove_edges g2 [(cand, v)])).
    { split; [exact B3|]. intros e He. apply K3. split; [apply K2, He|]. intros [<-|[]]. exact (K eq_refl He). }
    destruct ev as [q|]; [|exact K4]. destruct (base_add (ng_remove_edges g2 [(cand, v)]) [(q, v)] B3) as [B5 K5].
    split; [exact B5|]. intros e He. apply K5. left. apply K4, He.
  - destruct (base_add g2 [(cand, v)] B2) as [B3 K3]. split; [exact B3|]. intros e He. apply K3. left. apply K2, He.
Qed.

Lemma hill_loop_keeps cands mp pat n : forall g best count k g' tr, keeps g ->
  hill_loop Sc score gt t draws n v cands mp pat g best count k = Ok (g', tr) -> keeps g'.
Proof.
  induction n as [|n IH]; intros g best count k g' tr HK H; cbn [hill_loop] in H; [injection H as <- <-; exact HK|].
  apply bind_ok in H as [cand [_ H]]. apply bind_ok in H as [[[[g1 added] ev] k1] [HP H]]. apply bind_ok in H as [[sc g2] [HS H]].
  destruct (step_keeps _ _ _ _ _ _ _ _ _ _ HK HP HS) as [S1 S2].
  assert (S3 : keeps (if gt sc best then g2 else undo v g2 cand added ev)) by (destruct (gt sc best); assumption).
  destruct (out_of_patience pat (if gt sc best then 0 else S count)); [injection H as <- <-; exact S3|].
  apply bind_ok in H as [[g4 tr4] [H E]]. injection E as <- <-. exact (IH _ _ _ _ _ _ S3 H).
Qed.
Lemma tabu_loop_keeps cands mp pat len dur n : forall g best count k q ts tc g' tr, keeps g ->
  tabu_loop Sc score gt t draws n v cands mp pat len dur g best count k q ts tc = Ok (g', tr) -> keeps g'.
Proof.
  induction n as [|n IH]; intros g best count k q ts tc g' tr HK H; cbn [tabu_loop] in H; [injection H as <- <-; exact HK|].
  apply bind_ok in H as [[[[cand q1] s1] k0] [_ H]]. apply bind_ok in H as [[[[g1 added] ev] k1] [HP H]]. apply bind_ok in H as [[sc g2] [HS H]].
  destruct (step_keeps _ _ _ _ _ _ _ _ _ _ HK HP HS) as [S1 S2].
  assert (S3 : keeps (if gt sc best then g2 else undo v g2 cand added ev)) by (destruct (gt sc best); assumption).
  apply bind_ok in H as [[[q2 s2] tc2] [_ H]].
  destruct (out_of_patience pat (if gt sc best then 0 else S count)); [injection H as <- <-; exact S3|].
  apply bind_ok in H as [[g4 tr4] [H E]]. injection E as <- <-. exact (IH _ _ _ _ _ _ _ _ _ S3 H).
Qed.
Lemma start_base m g cands : search_start s m v = Ok (g, cands) -> base g.
Proof.
  unfold search_start. intros H. apply bind_ok in H as [i [_ H]]. apply bind_ok in H as [ps [_ H]]. injection H as <- _.
  assert (HG : forall ps g, base g -> base (fold_left (fun g p => ng_add_edges g [(p, v)]) ps g)).
  { clear. induction ps as [|p ps IH]; intros g H; cbn [fold_left]; [exact H|]. apply IH, base_add, H. }
  apply HG. split; [reflexivity|apply dinv_empty].
Qed.
Lemma keeps_view g : keeps g -> forall e, In e (edges_list s) -> In e (ng_edges g).
Proof. intros [[_ B] K] e He. unfold ng_edges. apply (edges_view_spec _ B), K, He. Qed.
Lemma hill_keeps m mp n pat es tr : hill_climbing Sc score gt t draws s m v mp n pat = Ok (es, tr) -> forall e, In e (edges_list s) -> In e es.
Proof.
  unfold hill_climbing. intros H. apply bind_ok in H as [[g cands] [H0 H]]. apply bind_ok in H as [[best g1] [H1 H]]. apply bind_ok in H as [[g2 tr2] [H2 E]].
  injection E as <- <-. apply keeps_view. eapply hill_loop_keeps; [|exact H2]. exact (proj1 (score_keeps _ _ _ (start_base _ _ _ H0) H1)).
Qed.
Lemma tabu_keeps m mp n pat len dur es tr : tabu_search Sc score gt t draws s m v mp n pat len dur = Ok (es, tr) -> forall e, In e (edges_list s) -> In e es.
Proof.
  unfold tabu_search. intros H. apply bind_ok in H as [[g cands] [H0 H]]. apply bind_ok in H as [[best g1] [H1 H]]. apply bind_ok in H as [[g2 tr2] [H2 E]].
  injection E as <- <-. apply keeps_view. eapply tabu_loop_keeps; [|exact H2]. exact (proj1 (score_keeps _ _ _ (start_base _ _ _ H0) H1)).
Qed.
End keep.
Lemma estimate_parents_keeps Sc score gt est draws v p es : estimate_parents Sc score gt est draws v p = Ok es ->
  forall e, In e (edges_list (sb_struct est)) -> In e es.
Proof.
  unfold estimate_parents. destruct (String.eqb (sp_optimizer p) "tabu"); intros H; apply bind_ok in H as [[es' tr] [H E]]; injection E as <-.
  - exact (tabu_keeps _ _ _ _ _ _ _ _ _ _ _ _ _ _ _ H).
  - exact (hill_keeps _ _ _ _ _ _ _ _ _ _ _ _ _ H).
Qed.
