From Coq Require Import Qround Lqa.
From Verif Require Import Base Lib ModelStructure ModelGraph ModelCims ModelGenerator ModelSample
  SpecStructure SpecGraph SpecComb SpecGenerator SpecSample ProofStructure ProofGraph ProofComb ProofParams ProofParams2 ProofFamScore2 LibQc
  ProofGenerator ProofGenerator2 ProofGenerator3 ProofSample ProofSample2 ProofSample3.
Open Scope nat_scope.

(** ** parents read from the edge list of the generated graph *)
Lemma add_nodes_names ls : forall d pos is vs, length is = length ls -> length vs = length ls -> NoDup (names d ++ ls) ->
  names (add_nodes_loop d pos ls is vs) = names d ++ ls.
Proof.
  induction ls as [|l ls IH]; intros d pos is vs L1 L2 N; [cbn; symmetry; apply app_nil_r|].
  destruct is as [|i is]; [discriminate|]. destruct vs as [|v vs]; [discriminate|]. cbn [add_nodes_loop].
  assert (E : names (g_add_node d l (MkNattr i v pos)) = names d ++ [l]).
  { unfold names, g_add_node; cbn [g_nodes]. rewrite upsert_names. fold (names d). destruct (lmem l (names d)) eqn:E; [|reflexivity].
    apply lmem_In in E. exfalso. apply NoDup_remove_2 in N. apply N, in_or_app. auto. }
  rewrite IH; [rewrite E, <- app_assoc; reflexivity|cbn in L1; lia|cbn in L2; lia|rewrite E, <- app_assoc; exact N].
Qed.
Lemma add_edges_names es : forall d, (forall e, In e es -> In (fst e) (names d) /\ In (snd e) (names d)) -> names (g_add_edges_from d es) = names d.
Proof.
  unfold g_add_edges_from. induction es as [|e es IH]; intros d H; [reflexivity|]. cbn [fold_left].
  assert (E : names (g_add_edge d e) = names d).
  { destruct (H e (or_introl eq_refl)) as [A B]. unfold names, g_add_edge; cbn [g_nodes]. rewrite !ensure_names.
    apply lmem_In in A, B. unfold names in A, B. rewrite A, B. reflexivity. }
  rewrite IH; [exact E|]. intros x Hx. rewrite E. apply H. right; exact Hx.
Qed.
Lemma fresh_names s es : wf_structure s -> edges_within (nodes_labels s) es -> names (ng_graph (fresh_graph s es)) = nodes_labels s.
Proof.
  intros [N [L1 L2]] W. unfold fresh_graph, ng_add_edges, ng_add_nodes, with_graph; cbn [ng_graph ng_struct new_netgraph].
  assert (E : names (add_nodes_loop empty_digraph 0 (nodes_labels s) (nodes_indexes s) (nodes_values s)) = nodes_labels s).
  { rewrite add_nodes_names; [reflexivity|lia|lia|exact N]. }
  rewrite add_edges_names; [exact E|]. rewrite E. exact W.
Qed.

Lemma filter_filter {A} (p q : A -> bool) l : filter p (filter q l) = filter (fun a => q a && p a) l.
Proof. induction l as [|a l IH]; cbn [filter]; [reflexivity|]. destruct (q a); cbn [filter andb]; [destruct (p a); rewrite IH; reflexivity|exact IH]. Qed.
Lemma filter_flat_map {A B} (p : B -> bool) (f : A -> list B) l : filter p (flat_map f l) = flat_map (fun a => filter p (f a)) l.
Proof. induction l as [|a l IH]; cbn [flat_map]; [reflexivity|]. rewrite filter_app, IH. reflexivity. Qed.
Lemma filter_edge (e : edge) es : NoDup es -> filter (fun x => edge_eqb e x) es = if emem e es then [e] else [].
Proof.
  induction es as [|a es IH]; intro N; [reflexivity|]. apply NoDup_cons_iff in N as [N1 N2]. unfold emem in *. cbn [filter existsb].
  destruct (edge_eqb_spec e a) as [->|Ne]; [|apply IH, N2]. cbn [orb]. rewrite filter_false; [reflexivity|].
  intros b Hb. destruct (edge_eqb_spec a b); [subst; contradiction|reflexivity].
Qed.
Lemma parents_of_view d v : dinv d -> parents_of (g_edges_view d) v = filter (fun l => emem (l, v) (g_edges d)) (names d).
Proof.
  intros [_ [N _]]. unfold parents_of, g_edges_view. fold (names d). rewrite filter_flat_map. induction (names d) as [|n ns IH]; [reflexivity|].
  cbn [flat_map filter]. rewrite map_app, IH. rewrite filter_filter.
  rewrite (filter_ext _ (fun x => edge_eqb (n, v) x)).
  2:{ intros [a b]. unfold edge_eqb. cbn [fst snd]. rewrite (String.eqb_sym a), (String.eqb_sym b). reflexivity. }
  rewrite filter_edge by exact N. destruct (emem (n, v) (g_edges d)); reflexivity.
Qed.

Lemma parents_dict E : forall vs d v, dict_get (fold_left (fun d v => dict_set d v (parents_of E v)) vs d) v =
  if lmem v vs then Ok (parents_of E v) else dict_get d v.
Proof.
  induction vs as [|w vs IH]; intros d v; [reflexivity|]. cbn [fold_left]. rewrite IH. unfold lmem. cbn [existsb].
  fold (lmem v vs). destruct (lmem v vs); [rewrite orb_true_r; reflexivity|]. rewrite orb_false_r, dict_get_set, (String.eqb_sym v w).
  destruct (String.eqb_spec w v) as [->|]; reflexivity.
Qed.
Lemma parents_dict_keys E : forall vs d, NoDup (map fst d ++ vs) -> map fst (fold_left (fun d v => dict_set d v (parents_of E v)) vs d) = map fst d ++ vs.
Proof.
  induction vs as [|w vs IH]; intros d N; [cbn; symmetry; apply app_nil_r|]. cbn [fold_left].
  assert (K : map fst (dict_set d w (parents_of E w)) = map fst d ++ [w]).
  { rewrite dict_set_keys. destruct (lmem w (map fst d)) eqn:Ew; [|reflexivity]. apply lmem_In in Ew. exfalso.
    apply NoDup_remove_2 in N. apply N, in_or_app. auto. }
  rewrite IH; rewrite K, <- app_assoc; [reflexivity|exact N].
Qed.

Lemma variables_fst g vars : variables g = Ok vars -> map fst vars = gn_labels g.
Proof.
  unfold variables. intro H. apply res_map_ok in H.
  assert (G : forall (L : list (nat * label)) vars, Forall2 (fun il b => (let* v := nth_res (gn_vals g) (fst il) in Ok (snd il, v)) = Ok b) L vars -> map fst vars = map snd L).
  { clear. induction 1 as [|a b l bs H _ IH]; [reflexivity|]. cbn [map]. rewrite IH. f_equal. apply bind_ok in H as [v [_ H]]. injection H as <-. reflexivity. }
  rewrite (G _ _ H). clear. generalize 0. induction (gn_labels g) as [|l ls IH]; intro n; [reflexivity|]. cbn [length seq combine map snd]. f_equal. apply IH.
Qed.

(** what the pipeline yields *)
Lemma pipeline_facts labels vals u lo hi E cs tg : sampled_from_generator labels vals u lo hi E cs tg ->
  NoDup labels /\ length vals = length labels /\ tg_vnames tg = labels /\ tg_cims tg = cs
  /\ map fst (tg_parents tg) = labels /\ map fst cs = labels
  /\ (forall v, In v labels -> dict_get (tg_parents tg) v = Ok (gen_parents labels E v))
  /\ (forall v c pcs, card_in labels vals v c -> Forall2 (card_in labels vals) (gen_parents labels E v) pcs ->
        exists so, dict_get cs v = Ok so /\ so_p_combs so = le_enum (swap01 pcs) /\ length (so_actual_cims so) = nat_prod pcs
          /\ forall m, In m (so_actual_cims so) -> (length m = c /\ forall row, In row m -> length row = c)
              /\ ((0 <= lo)%Qc -> (lo <= hi)%Qc -> 2 <= c -> (forall n, 0 < u n)%Qc -> (forall n, u n <= 1)%Qc ->
                  forall i row, nth_error m i = Some row -> exists raw, rate_row lo hi c i raw /\ Forall2 rounded4 raw row)).
Proof.
  intros [N [L [density [fixed [shuffle [coin [g1 [g2 [vars [Sh [H1 [H2 [H3 [H4 [H5 ->]]]]]]]]]]]]]]].
  split; [exact N|]. split; [exact L|].
  pose proof H1 as H1'. apply generate_graph_inv in H1' as [es [Es Eg1]]. cbn [gn_labels gn_vals new_netgen] in *.
  assert (HE1 : dyn_str g1 = Ok (ng_edges (fresh_graph (gen_structure (new_netgen labels vals) es) es))) by (rewrite Eg1; reflexivity).
  destruct (generated_cims (new_netgen labels vals) density fixed shuffle coin g1 _ u lo hi N L Sh H1 HE1)
    as [g2' [cs' [G1 [G2 [G3 [G4 [G5 [G6 G7]]]]]]]].
  rewrite G1 in H2. injection H2 as <-. rewrite G2 in H3. injection H3 as <-. rewrite G5 in H4. injection H4 as <-.
  apply variables_fst in H5. rewrite G3 in H5. cbn [new_netgen gn_labels gn_vals] in *.
  assert (W : edges_within labels es).
  { intros e He. destruct (generate_edges_within _ _ _ _ _ _ Sh Es e He) as [A [B _]]. auto. }
  unfold new_trajgen. cbn [tg_vnames tg_cims tg_parents]. rewrite H5. split; [reflexivity|]. split; [reflexivity|].
  split; [rewrite parents_dict_keys; [reflexivity|exact N]|]. split; [exact G6|]. split.
  - intros v Hv. rewrite parents_dict. apply lmem_In in Hv. rewrite Hv. f_equal.
    set (s := gen_structure (new_netgen labels vals) es).
    assert (Hwf : wf_structure s) by (split; [exact N|split; [apply seq_length|exact L]]).
    unfold ng_edges. rewrite parents_of_view by (apply (fresh_ginv s es Hwf W)).
    rewrite (fresh_names s es Hwf W). change (nodes_labels s) with labels.
    apply filter_ext. intro l. apply eq_true_iff_eq. rewrite !emem_In.
    rewrite (proj2 (fresh_edges_any s es)). apply fresh_edges, Hwf.
  - intros v c pcs Hc Hp. destruct (G7 v c pcs Hc Hp) as [so [D1 [D2 [D3 D4]]]]. exists so. split; [exact D1|].
    split; [rewrite D2; apply p_comb_le|]. split; [exact D3|]. intros m Hm. destruct (D4 m Hm) as [A B]. split; [exact A|].
    intros X1 X2 X3 X4 X5 i row Hr. destruct (B X1 X2 X3 X4 X5 i row Hr) as [raw [R1 [R2 _]]]. exists raw. auto.
Qed.

(** ** selection *)
Lemma combine_filter_unique {C} (rows : list (list nat)) (cs : list C) (p : list nat -> bool) : NoDup rows -> forall k u m,
  nth_error rows k = Some u -> nth_error cs k = Some m -> (forall r, In r rows -> (p r = true <-> r = u)) ->
  map snd (filter (fun rc => p (fst rc)) (combine rows cs)) = [m].
Proof.
  revert cs. induction rows as [|r rows IH]; intros cs N [|k] u m Hr Hc P; try discriminate.
  - cbn [nth_error] in Hr. injection Hr as ->. destruct cs as [|c cs]; [discriminate|]. cbn [nth_error] in Hc. injection Hc as ->.
    cbn [combine filter fst]. rewrite (proj2 (P u (or_introl eq_refl)) eq_refl). cbn [map snd]. f_equal.
    apply NoDup_cons_iff in N as [N1 N2]. rewrite filter_false; [reflexivity|].
    intros [r c] Hrc. cbn [fst]. destruct (p r) eqn:E; [|reflexivity]. pose proof (in_combine_l _ _ _ _ Hrc) as Hin.
    apply P in E; [subst; contradiction|right; exact Hin].
  - cbn [nth_error] in *. destruct cs as [|c cs]; [discriminate|]. cbn [nth_error] in Hc. apply NoDup_cons_iff in N as [N1 N2].
    cbn [combine filter fst]. destruct (p r) eqn:E.
    + apply P in E; [|left; reflexivity]. subst r. exfalso. apply N1. eapply nth_error_In; eauto.
    + apply (IH cs N2 k u m Hr Hc). intros r' Hr'. apply P. right; exact Hr'.
Qed.
Lemma combine_filter_none {C} (rows : list (list nat)) (cs : list C) (p : list nat -> bool) :
  (forall r, In r rows -> p r = false) -> map snd (filter (fun rc => p (fst rc)) (combine rows cs)) = [].
Proof.
  intro H. rewrite filter_false; [reflexivity|]. intros [r c] Hr. cbn [fst]. apply H. eapply in_combine_l; eauto.
Qed.

Lemma config_length sh u : config_ok sh u -> length u = length sh. Proof. apply Forall2_length. Qed.
Lemma swap01_length {A} (l : list A) : length (swap01 l) = length l.
Proof. destruct l as [|a [|b r]]; reflexivity. Qed.

Lemma select_enum tg xs v ps so sh u : dict_get (tg_parents tg) v = Ok ps -> dict_get (tg_cims tg) v = Ok so ->
  res_map (value_of (tg_vnames tg) xs) ps = Ok u -> length sh = length ps ->
  so_p_combs so = le_enum sh -> length (so_actual_cims so) = nat_prod sh ->
  (config_ok sh u -> select_cim tg xs v = nth_res (so_actual_cims so) (config_rank sh u))
  /\ (2 <= length ps -> ~ config_ok sh u -> select_cim tg xs v = Err IndexError).
Proof.
  intros H1 H2 H3 L H4 H5. unfold select_cim. rewrite H1, H2. cbn [bind]. rewrite H3. cbn [bind].
  rewrite filter_cims_spec by (rewrite H4, le_enum_length; lia). rewrite map_length. cbn [bind].
  pose proof (res_map_length _ _ _ H3) as Lu.
  assert (AG : forall r, In r (le_enum sh) -> (agrees_on (map (fun _ => true) ps) r u = true <-> r = u)).
  { intros r Hr. apply agrees_true_iff. apply le_enum_ok in Hr. rewrite (config_length _ _ Hr). exact L. }
  split.
  - intro Hu. destruct (Nat.eqb_spec (length ps) 1) as [One|NotOne].
    + rewrite One. cbn [Nat.leb]. destruct sh as [|c [|]]; cbn [length] in L; try lia.
      inversion Hu as [|x y u' ? Hx Hnil E1 E2]; subst. inversion Hnil; subst. cbn [config_rank nth_res nth_error bind].
      rewrite Nat.mul_0_r, Nat.add_0_r. reflexivity.
    + destruct (Nat.leb_spec (length ps) 1) as [Le|Gt].
      * destruct sh as [|c sh]; cbn [length] in L; [|lia]. inversion Hu; subst. reflexivity.
      * pose proof (config_rank_lt sh u Hu) as Hlt.
        destruct (nth_error (so_actual_cims so) (config_rank sh u)) as [m|] eqn:Em; [|apply nth_error_None in Em; lia].
        rewrite H4. rewrite (combine_filter_unique (le_enum sh) (so_actual_cims so) (fun r => agrees_on (map (fun _ => true) ps) r u) (le_enum_NoDup sh) _ u m (le_enum_rank sh u Hu) Em AG).
        rewrite (proj2 (nth_res_ok _ _ _) Em). reflexivity.
  - intros Hp Hu. destruct (Nat.eqb_spec (length ps) 1); [lia|]. destruct (Nat.leb_spec (length ps) 1); [lia|].
    rewrite H4, (combine_filter_none (le_enum sh) (so_actual_cims so) (fun r => agrees_on (map (fun _ => true) ps) r u)); [reflexivity|].
    intros r Hr. destruct (agrees_on _ r u) eqn:E; [|reflexivity]. apply AG in E; [|exact Hr]. subst r. apply le_enum_ok in Hr. contradiction.
Qed.

Lemma in_states_values labels xs ps u : NoDup labels -> in_states labels xs ps u -> res_map (value_of labels xs) ps = Ok u.
Proof.
  intros N H. induction H as [|p x ps u [i [A B]] _ IH]; [reflexivity|]. cbn [res_map].
  assert (V : value_of labels xs p = Ok x).
  { clear -N A B. revert i xs A B. induction labels as [|l ls IHl]; intros [|i] [|x' xs] A B; try discriminate; cbn [nth_error] in *.
    - injection A as ->. injection B as ->. cbn [value_of]. rewrite String.eqb_refl. reflexivity.
    - apply NoDup_cons_iff in N as [N1 N2]. cbn [value_of]. destruct (String.eqb_spec l p) as [->|]; [|eapply IHl; eauto].
      exfalso. apply N1. eapply nth_error_In; eauto. }
  rewrite V. cbn [bind]. rewrite IH. reflexivity.
Qed.

Lemma selected_cim labels vals u lo hi E cs tg v c pcs xs w :
  sampled_from_generator labels vals u lo hi E cs tg ->
  card_in labels vals v c -> Forall2 (card_in labels vals) (gen_parents labels E v) pcs ->
  in_states labels xs (gen_parents labels E v) w -> config_ok pcs w ->
  (length pcs < 2 \/ exists a r, pcs = a :: a :: r) ->
  exists so m, dict_get cs v = Ok so /\ length (so_actual_cims so) = nat_prod pcs
    /\ nth_error (so_p_combs so) (config_rank pcs w) = Some w
    /\ nth_error (so_actual_cims so) (config_rank pcs w) = Some m /\ select_cim tg xs v = Ok m.
Proof.
  intros P Hc Hp Hs Hw Eq. destruct (pipeline_facts _ _ _ _ _ _ _ _ P) as [N [L [F1 [F2 [F3 [F6 [F4 F5]]]]]]].
  destruct (F5 v c pcs Hc Hp) as [so [D1 [D2 [D3 D4]]]].
  rewrite (swap01_fix pcs Eq) in D2.
  assert (Hv : In v labels) by (destruct Hc as [i [Hi _]]; eapply nth_error_In; eauto).
  pose proof (in_states_values labels xs _ w N Hs) as Vw. rewrite <- F1 in Vw at 1.
  destruct (select_enum tg xs v _ so pcs w (F4 v Hv) ltac:(rewrite F2; exact D1) Vw
              ltac:(symmetry; eapply Forall2_length; exact Hp) D2 D3) as [Sel _].
  pose proof (config_rank_lt pcs w Hw) as Hlt.
  destruct (nth_error (so_actual_cims so) (config_rank pcs w)) as [m|] eqn:Em; [|apply nth_error_None in Em; lia].
  exists so, m. split; [exact D1|]. split; [exact D3|]. split; [rewrite D2; apply le_enum_rank, Hw|].
  split; [exact Em|]. rewrite (Sel Hw). apply nth_res_ok, Em.
Qed.

(** mixed cardinalities: a row of states for which there is no CIM *)
Definition row_with (labels ps : list label) (u : list nat) : list nat :=
  map (fun l => match value_of ps u l with Ok x => x | Err _ => 0 end) labels.
Lemma value_of_In ps u : length u = length ps -> forall l, In l ps -> exists x, value_of ps u l = Ok x.
Proof.
  revert u. induction ps as [|p ps IH]; intros [|x u] Hl l H; try discriminate; [contradiction|]. cbn [value_of].
  destruct (String.eqb_spec p l); [eexists; reflexivity|]. destruct H as [H|H]; [contradiction|]. apply IH; [cbn in Hl; lia|exact H].
Qed.
Lemma row_with_states labels ps u : NoDup ps -> length u = length ps -> (forall p, In p ps -> In p labels) ->
  in_states labels (row_with labels ps u) ps u.
Proof.
  intros N L H.
  assert (G : forall qs w, (forall p x, In (p, x) (combine qs w) -> value_of ps u p = Ok x) -> length w = length qs -> (forall p, In p qs -> In p labels) ->
     in_states labels (row_with labels ps u) qs w).
  { induction qs as [|q qs IH]; intros [|x w] HV HL HI; try discriminate; constructor.
    - destruct (In_nth_error _ _ (HI q (or_introl eq_refl))) as [i Hi]. exists i. split; [exact Hi|].
      unfold row_with. rewrite map_nth_error_iff, Hi. cbn [option_map]. rewrite (HV q x (or_introl eq_refl)). reflexivity.
    - apply IH; [intros p y Hy; apply HV; right; exact Hy|cbn in HL; lia|intros p Hp; apply HI; right; exact Hp]. }
  apply G; [|exact L|exact H].
  clear -N. revert u. induction ps as [|p ps IH]; intros [|x u] q y Hq; try contradiction. cbn [combine] in Hq. apply NoDup_cons_iff in N as [N1 N2].
  cbn [value_of]. destruct Hq as [E|Hq]; [injection E as -> ->; rewrite String.eqb_refl; reflexivity|].
  destruct (String.eqb_spec p q) as [->|]; [|apply IH; assumption]. exfalso. apply N1. eapply in_combine_l; eauto.
Qed.
Lemma row_with_range labels vals ps u pcs : NoDup labels -> length vals = length labels -> Forall (fun c => 0 < c) vals ->
  Forall2 (card_in labels vals) ps pcs -> config_ok pcs u -> Forall2 (fun x c => x < c) (row_with labels ps u) vals.
Proof.
  intros N L P Hp Hu.
  assert (G : forall l c, card_in labels vals l c -> match value_of ps u l with Ok x => x | Err _ => 0 end < c).
  { intros l c Hc. revert u Hu. induction Hp as [|p d ps pcs Hd _ IH]; intros u Hu.
    - cbn. destruct Hc as [i [_ Hc]]. rewrite Forall_forall in P. apply P. eapply nth_error_In; eauto.
    - inversion Hu as [|x y u' z Hx Hu' E1 E2]; subst. cbn [value_of]. destruct (String.eqb_spec p l) as [->|]; [|apply IH, Hu'].
      rewrite (card_in_fun labels vals l c d N Hc Hd). exact Hx. }
  unfold row_with. clear -G L.
  assert (K : forall ls vs', length vs' = length ls -> (forall i l c, nth_error ls i = Some l -> nth_error vs' i = Some c -> card_in labels vals l c) ->
     Forall2 (fun x c => x < c) (map (fun l => match value_of ps u l with Ok x => x | Err _ => 0 end) ls) vs').
  { induction ls as [|l ls IH]; intros [|c vs'] Hl HC; try discriminate; cbn [map]; constructor.
    - apply G. apply (HC 0); reflexivity.
    - apply IH; [cbn in Hl; lia|]. intros i. apply (HC (S i)). }
  apply K; [exact L|]. intros i l c H1 H2. exists i. auto.
Qed.

Lemma gen_parents_NoDup labels E v : NoDup labels -> NoDup (gen_parents labels E v).
Proof. apply NoDup_filter. Qed.

Lemma missing_cim labels vals u lo hi E cs tg v c a b r :
  sampled_from_generator labels vals u lo hi E cs tg -> Forall (fun c => 0 < c) vals ->
  card_in labels vals v c -> Forall2 (card_in labels vals) (gen_parents labels E v) (a :: b :: r) -> a <> b ->
  exists xs, Forall2 (fun x c => x < c) xs vals /\ select_cim tg xs v = Err IndexError.
Proof.
  intros P Pos Hc Hp Hab. destruct (pipeline_facts _ _ _ _ _ _ _ _ P) as [N [L [F1 [F2 [F3 [F6 [F4 F5]]]]]]].
  destruct (F5 v c _ Hc Hp) as [so [D1 [D2 [D3 D4]]]].
  assert (Pp : Forall (fun c => 0 < c) (a :: b :: r)).
  { apply Forall_forall. intros d Hd. apply In_nth_error in Hd as [i Hi]. destruct (Forall2_nth_error_r _ _ _ Hp i d Hi) as [p [_ [j [_ Hj]]]].
    rewrite Forall_forall in Pos. apply Pos. eapply nth_error_In; eauto. }
  destruct (p_comb_unequal a b r Hab (Forall_inv Pp) (Forall_inv (Forall_inv_tail Pp)) (Forall_inv_tail (Forall_inv_tail Pp))) as [[w [Hw Hn]] _].
  rewrite p_comb_le, le_enum_ok in Hn.
  exists (row_with labels (gen_parents labels E v) w). split; [eapply row_with_range; eauto|].
  assert (Hs : in_states labels (row_with labels (gen_parents labels E v) w) (gen_parents labels E v) w).
  { apply row_with_states; [apply gen_parents_NoDup, N|rewrite (config_length _ _ Hw); symmetry; eapply Forall2_length; eauto|].
    intros p Hpp. apply filter_In in Hpp. tauto. }
  pose proof (in_states_values labels _ _ w N Hs) as Vw. rewrite <- F1 in Vw at 1.
  assert (Hv : In v labels) by (destruct Hc as [i [Hi _]]; eapply nth_error_In; eauto).
  pose proof (Forall2_length _ _ _ Hp) as Lp.
  destruct (select_enum tg _ v _ so (swap01 (a :: b :: r)) w (F4 v Hv) ltac:(rewrite F2; exact D1) Vw
              ltac:(rewrite swap01_length; symmetry; exact Lp) D2) as [_ Sel].
  - rewrite D3. cbn [swap01 nat_prod fold_right]. lia.
  - apply Sel; [rewrite Lp; cbn [length]; lia|exact Hn].
Qed.

(** ** a generated network can be sampled *)
Lemma rounded_usable lo hi c i raw row : 2 <= c -> i < c -> (0 <= lo)%Qc -> (Qc_nat (c - 1) * Q2Qc (1#20000) < lo)%Qc ->
  rate_row lo hi c i raw -> Forall2 rounded4 raw row ->
  length row = c /\ (exists d, nth_error row i = Some d /\ (d <= 0)%Qc)
  /\ (forall j x, j <> i -> nth_error row j = Some x -> (0 <= x)%Qc)
  /\ (exists j x, j <> i /\ nth_error row j = Some x /\ (0 < x)%Qc).
Proof.
  intros Hc Hi H0 Hlo [L [Sm [[d [D1 [D2 D3]]] Nn]]] R.
  pose proof (Forall2_length _ _ _ R) as Lr.
  (* rounding keeps the sign *)
  assert (KN : forall x y, rounded4 x y -> (0 <= x)%Qc -> (0 <= y)%Qc).
  { intros x y [[z Hz] [A B]] Hx. assert (Hz1 : (Qc_of_Z (-1) < Qc_of_Z z)%Qc).
    { rewrite <- Hz. change (Qc_of_Z (-1)) with (-(1))%Qc. clear Hz. qclra. }
    apply (proj1 (Qc_of_Z_lt _ _)) in Hz1. assert (Hz2 : (Qc_of_Z 0 <= Qc_of_Z z)%Qc) by (apply (proj2 (Qc_of_Z_le _ _)); lia).
    rewrite <- Hz in Hz2. change (Qc_of_Z 0) with 0%Qc in Hz2. clear -Hz2. qclra. }
  assert (KP : forall x y, rounded4 x y -> (Q2Qc (1#20000) < x)%Qc -> (0 < y)%Qc).
  { intros x y [_ [A B]] Hx. clear -A B Hx. qclra. }
  assert (KM : forall x y, rounded4 x y -> (x <= 0)%Qc -> (y <= 0)%Qc).
  { intros x y [[z Hz] [A B]] Hx. assert (Hz1 : (Qc_of_Z z < Qc_of_Z 1)%Qc).
    { rewrite <- Hz. change (Qc_of_Z 1) with 1%Qc. clear Hz. qclra. }
    apply (proj1 (Qc_of_Z_lt _ _)) in Hz1. assert (Hz2 : (Qc_of_Z z <= Qc_of_Z 0)%Qc) by (apply (proj2 (Qc_of_Z_le _ _)); lia).
    rewrite <- Hz in Hz2. change (Qc_of_Z 0) with 0%Qc in Hz2. clear -Hz2. qclra. }
  split; [lia|]. split; [|split].
  - destruct (Forall2_nth_error _ _ _ R i _ D1) as [y [Hy Ry]]. exists y. split; [exact Hy|]. eapply KM; [exact Ry|]. clear -H0 D2. qclra.
  - intros j y Hj Hy. destruct (Forall2_nth_error_r _ _ _ R j y Hy) as [x [Hx Rx]]. eapply KN; [exact Rx|]. eapply Nn; eauto.
  - (* otherwise the off-diagonal sum would be at most (c-1)/20000 *)
    destruct (existsb (fun j => negb (j =? i) && negb (qc_le (nth j raw 0%Qc) (Q2Qc (1#20000)))) (seq 0 c)) eqn:Ex.
    + apply existsb_exists in Ex as [j [Hj Ej]]. apply in_seq in Hj. apply andb_true_iff in Ej as [A B].
      apply negb_true_iff, Nat.eqb_neq in A. apply negb_true_iff, qc_le_false in B.
      assert (Hx : nth_error raw j = Some (nth j raw 0%Qc)) by (apply nth_error_nth'; lia).
      destruct (Forall2_nth_error _ _ _ R j _ Hx) as [y [Hy Ry]]. exists j, y. split; [exact A|]. split; [exact Hy|]. eapply KP; eauto.
    + exfalso.
      assert (F : Forall (fun q => - Q2Qc (1#20000) <= q)%Qc (map Qcopp (firstn i raw ++ skipn (S i) raw))).
      { apply Forall_forall. intros q Hq. apply in_map_iff in Hq as [q' [<- Hq]]. apply In_nth_error in Hq as [m Hm].
        pose proof (nth_error_remove raw i m) as Rm. rewrite Rm in Hm by lia. clear Rm.
        set (j := if m <? i then m else S m) in *.
        assert (Hj : j <> i) by (unfold j; destruct (Nat.ltb_spec m i); lia).
        assert (Hm' : nth_error raw j = Some q') by (unfold j; destruct (m <? i); exact Hm).
        assert (Hjc : j < c) by (rewrite <- L; apply nth_error_Some; congruence).
        destruct (qc_le q' (Q2Qc (1#20000))) eqn:Eq; [apply qc_le_iff in Eq; clear -Eq; qclra|]. exfalso.
        assert (T : existsb (fun j => negb (j =? i) && negb (qc_le (nth j raw 0%Qc) (Q2Qc (1#20000)))) (seq 0 c) = true).
        { apply existsb_exists. exists j. split; [apply in_seq; lia|]. apply andb_true_iff. split; [apply negb_true_iff, Nat.eqb_neq, Hj|].
          rewrite (nth_error_nth _ _ _ Hm'), Eq. reflexivity. }
        congruence. }
      apply Qcsum_lower in F. rewrite map_length, app_length, firstn_length, skipn_length in F.
      replace (Nat.min i (length raw) + (length raw - S i)) with (c - 1) in F by lia.
      assert (O : forall l, Qcsum (map Qcopp l) = (- Qcsum l)%Qc).
      { induction l as [|x l IH]; cbn [map]; [reflexivity|]. rewrite !Qcsum_cons, IH. ring. }
      rewrite O, Qcsum_app in F. rewrite (Qcsum_split_nth raw i) in Sm by lia. rewrite (nth_error_nth _ _ _ D1) in Sm.
      clear -Hlo F Sm D2. generalize dependent (Qcsum (firstn i raw)). generalize dependent (Qcsum (skipn (S i) raw)). intros b a Sm F.
      generalize dependent (Qc_nat (c - 1)). intros n Hlo F. qclra.
Qed.

Lemma generated_sampling_net labels vals u lo hi E cs tg :
  sampled_from_generator labels vals u lo hi E cs tg -> labels <> [] ->
  (forall n, 0 < u n)%Qc -> (forall n, u n <= 1)%Qc -> (lo <= hi)%Qc ->
  (forall c, In c vals -> 2 <= c /\ (Qc_nat (c - 1) * Q2Qc (1#20000) < lo)%Qc) ->
  (forall v pcs, In v labels -> Forall2 (card_in labels vals) (gen_parents labels E v) pcs -> first_two_equal pcs) ->
  sampling_net tg vals.
Proof.
  intros P Ne U1 U2 Hlh Hv Heq. destruct (pipeline_facts _ _ _ _ _ _ _ _ P) as [N [L [F1 [F2 [F3 [F6 [F4 F5]]]]]]].
  assert (Lo : vals <> [] -> (0 <= lo)%Qc).
  { intro Nv. destruct vals as [|c vs]; [congruence|]. destruct (Hv c (or_introl eq_refl)) as [A B].
    apply Qclt_le_weak. eapply Qcle_lt_trans; [|exact B]. apply Qcmult_nonneg; [|discriminate].
    apply Qc_of_Z_nonneg. lia. }
  assert (Nv : vals <> []) by (intro E0; subst vals; cbn in L; destruct labels; [congruence|discriminate]).
  specialize (Lo Nv).
  unfold sampling_net. rewrite F1, F2, F3. split; [exact N|]. split; [exact Ne|]. split; [exact L|]. split; [reflexivity|].
  intros v c Hc. assert (Hin : In v labels) by (destruct Hc as [i [Hi _]]; eapply nth_error_In; eauto).
  assert (Hcv : In c vals) by (destruct Hc as [i [_ Hi]]; eapply nth_error_In; eauto).
  destruct (Hv c Hcv) as [Hc2 Hcl]. split; [lia|].
  assert (Hp : exists pcs, Forall2 (card_in labels vals) (gen_parents labels E v) pcs).
  { assert (A : forall p, In p (gen_parents labels E v) -> In p labels) by (intros p Hp; apply filter_In in Hp; tauto).
    clear -A L. induction (gen_parents labels E v) as [|p ps IH]; [exists []; constructor|].
    destruct IH as [pcs H]; [intros q Hq; apply A; right; exact Hq|].
    destruct (In_nth_error _ _ (A p (or_introl eq_refl))) as [i Hi].
    destruct (nth_error vals i) as [d|] eqn:Ed; [|apply nth_error_None in Ed; rewrite L in Ed; apply nth_error_None in Ed; congruence].
    exists (d :: pcs). constructor; [exists i; auto|exact H]. }
  destruct Hp as [pcs Hp]. destruct (F5 v c pcs Hc Hp) as [so [D1 [D2 [D3 D4]]]].
  exists (gen_parents labels E v), pcs, so. split; [apply F4, Hin|]. split; [exact Hp|]. split; [exact D1|].
  rewrite (swap01_fix pcs (Heq v pcs Hin Hp)) in D2.
  split; [rewrite D2, le_enum_length; lia|]. split; [intros w Hw; rewrite D2; apply le_enum_ok, Hw|].
  intros m Hm. destruct (D4 m Hm) as [[Lm _] Rm]. split; [exact Lm|]. intros i row Hrow.
  destruct (Rm Lo Hlh Hc2 U1 U2 i row Hrow) as [raw [R1 R2]].
  eapply rounded_usable; eauto. rewrite <- Lm. apply nth_error_Some. congruence.
Qed.
