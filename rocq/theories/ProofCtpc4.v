(** Final statements for C19-C21 and the estimator-level results C22-C26. *)
From Verif Require Import Base Lib ModelStructure ModelGraph ModelCims ModelData ModelParams ModelCache ModelCtpc
  SpecStructure SpecGraph SpecComb SpecParams SpecCtpc
  ProofStructure ProofGraph ProofComb ProofIndex ProofParams3 ProofCache ProofCtpc ProofCtpc2 ProofCtpc3.

(** ** Histories of tests *)
Lemma run_tests_cache e tot c cs calls : wf_structure (e_struct e) -> legal_calls (e_struct e) c calls ->
  forall m ch st, valid_cache (e_struct e) (e_traj e) tot c ch -> run_tests e tot c cs (MkState m ch) calls = Ok st ->
  valid_cache (e_struct e) (e_traj e) tot c (st_cache st)
  /\ forall K, cached (st_cache st) K <-> cached ch K \/ touched calls K.
Proof.
  intros Hwf. induction calls as [|[[p sep] [i j]] calls IH]; intros Hl m ch st Hv H; cbn [run_tests] in H.
  - injection H as <-. cbn [st_cache]. split; [exact Hv|]. intros K. split; [auto|]. intros [A|[p [sep [ij [[] _]]]]]. exact A.
  - apply bind_ok in H as [[b st1] [H1 H]].
    assert (Ht : test_ok (e_struct e) c p sep) by (apply (Hl p sep (i, j)); left; reflexivity).
    rewrite complete_test_spec in H1 by assumption.
    assert (H2 : with_cache (cache_after e tot c p sep ch) (ideal_test e tot c m p sep cs i j) = Ok (b, st1)).
    { destruct (assoc_set (entries ch) (p :: sep)); [destruct (assoc_set (entries ch) sep); [exact H1|discriminate]|exact H1]. }
    destruct (ideal_test e tot c m p sep cs i j) as [[b1 m1]|x] eqn:EI; cbn [with_cache] in H2; [|discriminate]. injection H2 as <- <-.
    destruct (IH (fun p' sep' ij' Hin => Hl p' sep' ij' (or_intror Hin)) m1 _ st (cache_after_valid e tot c p sep ch Hv) H) as [I1 I2].
    split; [exact I1|]. intros K. rewrite I2, (cache_after_cached e tot c p sep ch m cs i j _ K Hv EI). split.
    + intros [[A|A]|[p' [sep' [ij' [A B]]]]]; [auto| |].
      * right. exists p, sep, (i, j). split; [left; reflexivity|exact A].
      * right. exists p', sep', ij'. split; [right; exact A|exact B].
    + intros [A|[p' [sep' [ij' [[A|A] B]]]]]; [auto| |].
      * injection A as <- <- <-. tauto.
      * right. exists p', sep', ij'. auto.
Qed.
Lemma not_cached_empty K : ~ cached empty_cache K.
Proof. intros H. apply H. reflexivity. Qed.

Lemma warm_cache e tot c cs calls m0 m ch p sep i j : wf_structure (e_struct e) -> legal_calls (e_struct e) c calls ->
  test_ok (e_struct e) c p sep -> run_tests e tot c cs (MkState m0 empty_cache) calls = Ok (MkState m ch) ->
  ((touched calls (p :: sep) /\ ~ touched calls sep) -> complete_test e (MkState m ch) p c sep cs tot i j = Err UnboundLocalError)
  /\ (~ (touched calls (p :: sep) /\ ~ touched calls sep) ->
      match complete_test e (MkState m ch) p c sep cs tot i j, complete_test e (MkState m empty_cache) p c sep cs tot i j with
      | Ok (b1, st1), Ok (b2, st2) => b1 = b2 /\ st_matrix st1 = st_matrix st2
      | Err x1, Err x2 => x1 = x2
      | _, _ => False
      end).
Proof.
  intros Hwf Hl Ht H. destruct (run_tests_cache e tot c cs calls Hwf Hl _ _ _ (valid_empty _ _ _ _) H) as [V1 V2]. cbn [st_cache] in V1, V2.
  assert (HT : forall K, cached ch K <-> touched calls K).
  { intros K. rewrite V2. pose proof (not_cached_empty K). tauto. }
  rewrite (complete_test_spec e m ch) by assumption. rewrite (complete_test_spec e m empty_cache) by (assumption || apply valid_empty).
  rewrite <- !HT. unfold cached. cbn [entries empty_cache c_keys c_vals combine assoc_set].
  destruct (assoc_set (entries ch) (p :: sep)) as [v2|] eqn:A2; destruct (assoc_set (entries ch) sep) as [v1|] eqn:A1; split; intros K;
    try reflexivity; try (exfalso; destruct K as [K1 K2]; congruence); try (exfalso; apply K2; discriminate).
  all: try (destruct (ideal_test e tot c m p sep cs i j) as [[b m']|x]; cbn [with_cache]; [split; reflexivity|reflexivity]).
  all: try (exfalso; apply K; split; [discriminate|intros K'; apply K'; reflexivity]).
  all: exfalso; destruct K as [K1 K2]; first [apply K1; reflexivity | apply K2; discriminate].
Qed.

(** ** The meaning of the verdict on the data *)
Lemma data_ok_clean s t : data_ok s t -> data_ok (clean_structure_edges s) t.
Proof. intros H. exact H. Qed.

Lemma set_params_exact s t tot v K : wf_structure s -> data_ok s t -> total_variables_number s = tot -> In v (nodes_labels s) ->
  0 < val_of s v -> compat (val_of s v) (map (val_of s) (parents_in s K)) ->
  (forall l, In l K -> In l (nodes_labels s)) ->
  set_params s t tot v K
  = Ok (MkSetOfCims (build_p_comb_structure_for_a_node (map (val_of s) (parents_in s K)))
         (map (data_cim t tot (idx_of s v) (map (idx_of s) (parents_in s K)) (val_of s v)) (le_enum (map (val_of s) (parents_in s K))))).
Proof.
  intros Hwf Hd Ht Hv Hc Hp HK. set (s0 := clean_structure_edges s).
  assert (Hwf0 : wf_structure s0) by exact Hwf.
  set (es := map (fun x => (x, v)) K).
  destruct (fast_init_fresh s0 es v Hwf0) as [g [E1 [G1 [S1 [D1 F1]]]]].
  { intros x Hx. apply in_map_iff in Hx as [y [<- Hy]]. cbn [fst snd]. split; [apply HK, Hy|exact Hv]. }
  { intros x []. } { exact Hv. }
  set (f := fun l => emem (l, v) es || emem (l, v) (edges_list s0)) in *.
  assert (Hf : filter f (nodes_labels s0) = parents_in s K).
  { unfold parents_in. apply filter_ext_In. intros l _. unfold f. cbn [s0 clean_structure_edges edges_list emem existsb]. rewrite orb_false_r.
    apply eq_true_iff_eq. rewrite emem_In, lmem_In. unfold es. rewrite in_map_iff. split; [intros [x [Ex Hx]]; congruence|]. intros Hl. exists l. auto. }
  rewrite <- (canonical_params s s0 t tot v g f K G1 S1 F1 Hv Ht (fun l _ => conj eq_refl eq_refl) Hf).
  rewrite <- Hf in Hp |- *. subst tot.
  exact (params_exact s0 t g v f Hwf0 Hd G1 S1 F1 Hv Hc Hp).
Qed.

Section meaning.
Variables (e : cb_env) (tot k : nat) (v p : label) (S : list label).
Let s := e_struct e.
Let t := e_traj e.
Hypothesis Hwf : wf_structure s.
Hypothesis Hd : data_ok s t.
Hypothesis Htot : total_variables_number s = tot.
Hypothesis Hk : 0 < k.
Hypothesis Hval : forall x, In x (nodes_values s) -> x = k.
Hypothesis Ht : test_ok s v p S.

Lemma val_k l : In l (nodes_labels s) -> val_of s l = k.
Proof. intros Hl. destruct (wf_lookup s l Hwf Hl) as [i [_ [_ [K _]]]]. apply Hval. eapply nth_error_In, K. Qed.
Lemma vals_k K : map (val_of s) (parents_in s K) = map (fun _ => k) (parents_in s K).
Proof. apply map_ext_in. intros l Hl. apply val_k. apply filter_In in Hl. tauto. Qed.
Lemma compat_k K : compat (val_of s v) (map (val_of s) (parents_in s K)).
Proof. rewrite vals_k. intros x Hx _. apply in_map_iff in Hx as [l [<- _]]. symmetry. exact (val_k v (proj1 Ht)). Qed.

Lemma const_p_comb (l : list label) : build_p_comb_structure_for_a_node (map (fun _ => k) l) = le_enum (map (fun _ => k) l).
Proof.
  rewrite p_comb_le. f_equal. apply swap01_fix. destruct l as [|a [|b r]]; cbn [map length]; [left; lia|left; lia|right; eauto].
Qed.

Let sp := parents_in s S.
Let lp := parents_in s (p :: S).
Let mask := filter_of s p S.
Let so1 := MkSetOfCims (le_enum (map (fun _ => k) sp)) (map (data_cim t tot (idx_of s v) (map (idx_of s) sp) k) (le_enum (map (fun _ => k) sp))).
Let so2 := MkSetOfCims (le_enum (map (fun _ => k) lp)) (map (data_cim t tot (idx_of s v) (map (idx_of s) lp) k) (le_enum (map (fun _ => k) lp))).

Lemma params1 : set_params s t tot v S = Ok so1.
Proof.
  pose proof (set_params_exact s t tot v S Hwf Hd Htot (proj1 Ht)) as H. rewrite (val_k v (proj1 Ht)) in H.
  pose proof (compat_k S) as Hc. rewrite (val_k v (proj1 Ht)) in Hc. specialize (H Hk Hc (proj2 (proj2 (proj2 Ht)))).
  rewrite vals_k, const_p_comb in H. exact H.
Qed.
Lemma params2 : set_params s t tot v (p :: S) = Ok so2.
Proof.
  pose proof (set_params_exact s t tot v (p :: S) Hwf Hd Htot (proj1 Ht)) as H. rewrite (val_k v (proj1 Ht)) in H.
  pose proof (compat_k (p :: S)) as Hc. rewrite (val_k v (proj1 Ht)) in Hc. specialize (H Hk Hc).
  rewrite vals_k, const_p_comb in H. apply H. intros l [<-|Hl]; [exact (proj1 (proj2 Ht))|exact (proj2 (proj2 (proj2 Ht)) l Hl)].
Qed.

Lemma mask_lp : mask = map (fun l => negb (String.eqb l p)) lp.
Proof.
  unfold mask, filter_of, isin_mask. change (map (fun n => lmem n (S ++ [p])) (nodes_labels s)) with (map (fun n => lmem n (S ++ [p])) (nodes_labels s)).
  rewrite (mask_filter (fun n => lmem n (S ++ [p]))). f_equal. unfold lp, parents_in. apply filter_ext_In. intros l _. apply eq_true_iff_eq.
  rewrite !lmem_In, in_app_iff. cbn [In]. intuition.
Qed.
Lemma sp_lp : sp = filter (fun l => negb (String.eqb l p)) lp.
Proof.
  unfold sp, lp, parents_in. rewrite filter_filter. apply filter_ext_In. intros l _. apply eq_true_iff_eq.
  rewrite andb_true_iff, !lmem_In, negb_true_iff, String.eqb_neq. cbn [In]. destruct Ht as [_ [_ [Hnd _]]].
  apply NoDup_cons_iff in Hnd as [_ Hnd]. apply NoDup_cons_iff in Hnd as [Hnp _].
  split; [intros H; split; [auto|intros ->; contradiction]|]. intros [[H|H] H2]; [congruence|exact H].
Qed.

(** assignments and configurations *)
Lemma config_const_iff (l : list label) u : config_ok (map (fun _ => k) l) u <-> length u = length l /\ Forall (fun d => d < k) u.
Proof.
  unfold config_ok. revert u. induction l as [|x l IH]; intros u; cbn [map].
  - split; [intros H; inversion H; auto|]. intros [H _]. destruct u; [constructor|discriminate].
  - split.
    + intros H. inversion H as [|d c u' cs' H1 H2]; subst. apply IH in H2 as [A B]. cbn [length]. auto.
    + intros [H1 H2]. destruct u as [|d u]; [discriminate|]. injection H1 as H1. constructor; [exact (Forall_inv H2)|].
      apply IH. split; [exact H1|exact (Forall_inv_tail H2)].
Qed.
Lemma assignment_config (a : label -> nat) l : (forall x, a x < k) -> config_ok (map (fun _ => k) l) (map a l).
Proof. intros H. apply config_const_iff. split; [apply map_length|]. apply Forall_forall. intros d Hd'. apply in_map_iff in Hd' as [x [<- _]]. apply H. Qed.
Lemma agrees_assignment (a : label -> nat) (l : list label) :
  agrees_on (map (fun x => negb (String.eqb x p)) l) (map a l) (map a (filter (fun x => negb (String.eqb x p)) l)) = true.
Proof.
  induction l as [|x l IH]; [reflexivity|]. cbn [map filter]. destruct (negb (String.eqb x p)); cbn [agrees_on map]; [rewrite Nat.eqb_refl|]; exact IH.
Qed.
Fixpoint lookup (l : list label) (w : list nat) (x : label) : nat :=
  match l, w with y :: l', d :: w' => if String.eqb x y then d else lookup l' w' x | _, _ => 0 end.
Lemma lookup_map l : forall w, NoDup l -> length w = length l -> map (lookup l w) l = w.
Proof.
  induction l as [|y l IH]; intros w Hn Hl; destruct w as [|d w]; try discriminate; [reflexivity|]. apply NoDup_cons_iff in Hn as [H1 H2].
  cbn [map lookup]. rewrite String.eqb_refl. f_equal. transitivity (map (lookup l w) l); [|apply IH; [exact H2|simpl in Hl; lia]]. apply map_ext_in. intros x Hx.
  cbn [lookup]. destruct (String.eqb_spec x y) as [->|]; [contradiction|reflexivity].
Qed.
Lemma lookup_lt l : forall w x, Forall (fun d => d < k) w -> lookup l w x < k.
Proof.
  induction l as [|y l IH]; intros w x H; cbn [lookup]; [exact Hk|]. destruct w as [|d w]; [exact Hk|].
  destruct (x =? y)%string; [exact (Forall_inv H)|apply IH, (Forall_inv_tail H)].
Qed.
Lemma agrees_determines (a : label -> nat) (l : list label) : forall u,
  agrees_on (map (fun x => negb (String.eqb x p)) l) (map a l) u = true -> u = map a (filter (fun x => negb (String.eqb x p)) l).
Proof.
  induction l as [|x l IH]; intros u H; cbn [map agrees_on filter] in *; [destruct u; [reflexivity|discriminate]|].
  destruct (negb (String.eqb x p)); cbn [map].
  - destruct u as [|y u]; [discriminate|]. apply andb_true_iff in H as [H1 H2]. apply Nat.eqb_eq in H1. subst y. f_equal. apply IH, H2.
  - apply IH, H.
Qed.

(** which CIMs are compared with the one of configuration u *)
Lemma matching_cims u : In u (le_enum (map (fun _ => k) sp)) ->
  exists cc, filter_cims_with_mask so2 mask u = Ok cc
   /\ forall c2, In c2 cc <-> exists w, config_ok (map (fun _ => k) lp) w /\ agrees_on mask w u = true
                               /\ c2 = data_cim t tot (idx_of s v) (map (idx_of s) lp) k w.
Proof.
  intros Hu. rewrite le_enum_ok, config_const_iff in Hu. destruct Hu as [Lu Fu].
  assert (Lm : length mask = length lp) by (rewrite mask_lp; apply map_length).
  destruct (Nat.leb_spec (length mask) 1) as [Hle|Hgt].
  - unfold filter_cims_with_mask. destruct (Nat.leb_spec (length mask) 1); [|lia]. eexists. split; [reflexivity|].
    intros c2. cbn [so2 so_actual_cims]. rewrite in_map_iff.
    assert (Hin : In p lp).
    { unfold lp, parents_in. apply filter_In. split; [exact (proj1 (proj2 Ht))|]. apply lmem_In. left; reflexivity. }
    assert (Elp : lp = [p]). { destruct lp as [|x [|y r]]; [contradiction|destruct Hin as [->|[]]; reflexivity|cbn [length] in Lm; lia]. }
    assert (Eu : u = []). { rewrite sp_lp, Elp in Lu. cbn [filter] in Lu. rewrite String.eqb_refl in Lu. cbn [negb length] in Lu. destruct u; [reflexivity|discriminate]. }
    split; intros [w Hw].
    + destruct Hw as [<- Hw]. exists w. rewrite le_enum_ok in Hw. split; [exact Hw|]. split; [|reflexivity].
      rewrite mask_lp, Elp, Eu. cbn [map]. rewrite String.eqb_refl. cbn [negb]. rewrite Elp in Hw. apply config_const_iff in Hw as [Lw _].
      destruct w as [|d [|d2 w]]; try discriminate. reflexivity.
    + destruct Hw as [W1 [W2 ->]]. exists w. split; [reflexivity|]. apply le_enum_ok, W1.
  - rewrite filter_cims_spec by (cbn [so2 so_p_combs so_actual_cims]; rewrite map_length; lia).
    destruct (Nat.leb_spec (length mask) 1); [lia|]. eexists. split; [reflexivity|]. intros c2. cbn [so2 so_p_combs so_actual_cims]. rewrite in_map_iff. split.
    + intros [[w c] [<- Hin]]. apply filter_In in Hin as [Hin Ha]. cbn [fst snd] in *.
      apply In_nth_error in Hin as [n Hn].
      assert (Hw : nth_error (le_enum (map (fun _ => k) lp)) n = Some w /\ nth_error (map (data_cim t tot (idx_of s v) (map (idx_of s) lp) k) (le_enum (map (fun _ => k) lp))) n = Some c).
      { clear - Hn. revert n Hn. induction (le_enum (map (fun _ => k) lp)) as [|x l IH]; intros n Hn; destruct n; cbn in *; try discriminate; [injection Hn as <- <-; auto|apply IH, Hn]. }
      destruct Hw as [W1 W2]. rewrite map_nth_error_iff, W1 in W2. injection W2 as <-.
      exists w. split; [apply le_enum_ok; eapply nth_error_In, W1|]. auto.
    + intros [w [W1 [W2 ->]]]. exists (w, data_cim t tot (idx_of s v) (map (idx_of s) lp) k w). split; [reflexivity|].
      apply filter_In. split; [|exact W2]. apply le_enum_ok in W1. clear - W1.
      induction (le_enum (map (fun _ => k) lp)) as [|x l IH]; [contradiction|]. destruct W1 as [->|W1]; [left; reflexivity|right; apply IH, W1].
Qed.

Lemma verdict_cims_iff c1 th l : fst (verdict_cims e k c1 th l) = true <-> forall c2, In c2 l -> too_few e k th c1 = false /\ e_tests e k c1 c2 = true.
Proof.
  induction l as [|c2 l IH]; cbn [verdict_cims]; [split; [intros _ c2 []|reflexivity]|].
  destruct (too_few e k th c1) eqn:ET; [split; [discriminate|]; intros H; destruct (H c2 (or_introl eq_refl)); discriminate|].
  destruct (e_tests e k c1 c2) eqn:EX; [|split; [discriminate|]; intros H; destruct (H c2 (or_introl eq_refl)); congruence].
  rewrite IH. split.
  - intros H c3 [<-|K]; [auto|apply H, K].
  - intros H c3 K. apply H. right; exact K.
Qed.
Lemma verdict_configs_iff so flt th l (Q : cim -> cim -> list nat -> Prop) :
  (forall c1 pc, In (c1, pc) l -> exists cc, filter_cims_with_mask so flt pc = Ok cc /\ forall c2, In c2 cc <-> Q c1 c2 pc) ->
  exists b mk, verdict_configs e k so flt th l = Ok (b, mk)
   /\ (b = true <-> forall c1 pc c2, In (c1, pc) l -> Q c1 c2 pc -> too_few e k th c1 = false /\ e_tests e k c1 c2 = true).
Proof.
  induction l as [|[c1 pc] l IH]; intros H; cbn [verdict_configs].
  - exists true, false. split; [reflexivity|]. split; [intros _ c1 pc c2 []|reflexivity].
  - destruct (H c1 pc (or_introl eq_refl)) as [cc [-> Hcc]]. cbn [bind].
    pose proof (verdict_cims_iff c1 th cc) as HV. destruct (verdict_cims e k c1 th cc) as [b0 mk0]. cbn [fst] in HV. destruct b0.
    + destruct IH as [b [mk [E1 E2]]]; [intros c pc' Hin; apply H; right; exact Hin|]. exists b, mk. split; [exact E1|]. rewrite E2. split.
      * intros K c pc' c2 [Hin|Hin] HQ; [|apply (K c pc' c2 Hin HQ)]. injection Hin as <- <-. apply (proj1 HV eq_refl), Hcc, HQ.
      * intros K c pc' c2 Hin. apply K. right; exact Hin.
    + exists false, mk0. split; [reflexivity|]. split; [discriminate|]. intros K. apply HV. intros c2 Hc2.
      apply (K c1 pc c2); [left; reflexivity|]. apply Hcc, Hc2.
Qed.

Lemma mask_vals : mask_row (isin_mask (nodes_labels s) S) (nodes_values s) = map (fun _ => k) sp.
Proof.
  assert (HF : Forall (eq k) (mask_row (isin_mask (nodes_labels s) S) (nodes_values s))).
  { apply Forall_forall. intros x Hx. unfold mask_row in Hx. apply in_map_iff in Hx as [[b y] [<- Hy]]. apply filter_In in Hy as [Hy _].
    apply in_combine_r in Hy. symmetry. apply Hval, Hy. }
  assert (HL : length (mask_row (isin_mask (nodes_labels s) S) (nodes_values s)) = length sp).
  { unfold isin_mask. rewrite mask_length by (apply Hwf). reflexivity. }
  clearbody sp. clear - HF HL. revert sp HL. induction HF as [|x l H1 H2 IH]; intros sp HL; destruct sp; try discriminate; [reflexivity|].
  cbn [map]. rewrite <- H1. f_equal. apply IH. simpl in HL; lia.
Qed.
Lemma fold_mul l : forall a, fold_left Nat.mul l a = a * nat_prod l.
Proof. induction l as [|x l IH]; intros a; cbn [fold_left nat_prod fold_right]; [lia|]. rewrite IH. fold (nat_prod l). lia. Qed.
Lemma mapi_seq {A B} (f : nat -> A -> B) (d : A) l : mapi f l = map (fun x => f x (nth x l d)) (seq 0 (length l)).
Proof.
  apply list_ext. intros i. rewrite nth_error_mapi, map_nth_error_iff, nth_error_seq'.
  destruct (Nat.ltb_spec i (length l)) as [H|H]; cbn [option_map].
  - rewrite (nth_error_nth' l d H). reflexivity.
  - rewrite (proj2 (nth_error_None l i) H). reflexivity.
Qed.
Lemma thumb_pos l : 2 < k -> 0 < (k - 1) * (k - 1) * k * nat_prod (map (fun _ : label => k) l).
Proof.
  intros H. assert (0 < nat_prod (map (fun _ : label => k) l)).
  { induction l as [|x l IH]; cbn [map nat_prod fold_right]; [lia|]. fold (nat_prod (map (fun _ : label => k) l)). nia. }
  assert (0 < k - 1) by lia. nia.
Qed.
Lemma too_few_iff cols u : let cm := data_cim t tot (idx_of s v) cols k u in
  forall th, thumb_of s k p S = Ok th ->
  (too_few e k th cm = false <-> enough_data (e_threshold e) k k (map (fun _ => k) sp) cm).
Proof.
  intros cm th Hth. unfold too_few, enough_data. unfold thumb_of in Hth. destruct (Nat.ltb_spec 2 k) as [Hlt|Hge]; cbn [andb].
  2:{ split; [intros _ H; lia|reflexivity]. }
  destruct (wf_lookup s p Hwf (proj1 (proj2 Ht))) as [_ [_ [_ [_ [_ Ep]]]]]. rewrite Ep, (val_k p (proj1 (proj2 Ht))) in Hth. cbn [bind] in Hth.
  rewrite mask_vals in Hth. unfold compute_thumb_value in Hth. rewrite fold_mul in Hth. injection Hth as <-.
  unfold below_threshold. pose proof (thumb_pos sp Hlt) as Hpos.
  destruct (Nat.eqb_spec ((k - 1) * (k - 1) * k * nat_prod (map (fun _ => k) sp)) 0) as [E0|_]; [lia|].
  assert (ED : diagonal_sum (c_trans cm) = Zsum (map (fun x => nth x (nth x (c_trans cm) []) 0%Z) (seq 0 k))).
  { unfold diagonal_sum. rewrite (mapi_seq _ []). f_equal. f_equal. f_equal. unfold cm, data_cim, compute_cim_coefficients, new_cim, exact_counts; cbn [c_trans].
    rewrite map_length, seq_length. reflexivity. }
  rewrite ED. set (x := (_ / _)%Qc). destruct (Qccompare x (e_threshold e)) eqn:EC.
  - split; [intros _ _|reflexivity]. apply Qceq_alt in EC. rewrite EC. apply Qcle_refl.
  - split; [discriminate|]. intros K. specialize (K Hlt). apply Qclt_alt in EC. exfalso. apply (Qcle_not_lt _ _ K EC).
  - split; [intros _ _|reflexivity]. apply Qcgt_alt in EC. apply Qclt_le_weak, EC.
Qed.
Lemma thumb_ok : exists th, thumb_of s k p S = Ok th.
Proof.
  unfold thumb_of. destruct (2 <? k); [|eauto]. destruct (wf_lookup s p Hwf (proj1 (proj2 Ht))) as [_ [_ [_ [_ [_ Ep]]]]]. rewrite Ep. cbn [bind]. eauto.
Qed.

Lemma verdict_meaning : exists b mk, verdict e tot v p S k = Ok (b, mk)
  /\ (b = true <-> forall a : label -> nat, (forall x, a x < k) ->
        pair_accepts e tot k (idx_of s v) sp lp (map (idx_of s) sp) (map (idx_of s) lp) a).
Proof.
  unfold verdict. fold s t. rewrite params2, params1. cbn [bind]. destruct thumb_ok as [th Hth]. rewrite Hth. cbn [bind].
  fold mask. cbn [so1 so_actual_cims so_p_combs].
  set (cim1 := data_cim t tot (idx_of s v) (map (idx_of s) sp) k). set (cim2 := data_cim t tot (idx_of s v) (map (idx_of s) lp) k).
  set (cfg1 := le_enum (map (fun _ => k) sp)).
  assert (Hcomb : forall c1 pc, In (c1, pc) (combine (map cim1 cfg1) cfg1) <-> c1 = cim1 pc /\ In pc cfg1).
  { clear. intros c1 pc. induction cfg1 as [|u l IH]; cbn [map combine In]; [tauto|]. rewrite IH. split.
    - intros [E|[E1 E2]]; [injection E as <- <-; auto|auto].
    - intros [-> [->|E]]; [left; reflexivity|right; auto]. }
  destruct (verdict_configs_iff so2 mask th (combine (map cim1 cfg1) cfg1)
     (fun c1 c2 pc => exists w, config_ok (map (fun _ => k) lp) w /\ agrees_on mask w pc = true /\ c2 = cim2 w)) as [b [mk [E1 E2]]].
  { intros c1 pc Hin. apply Hcomb in Hin as [_ Hin]. apply matching_cims, Hin. }
  exists b, mk. split; [exact E1|]. rewrite E2. unfold pair_accepts. fold t. split.
  - intros H a Ha. destruct (H (cim1 (map a sp)) (map a sp) (cim2 (map a lp))) as [H1 H2].
    + apply Hcomb. split; [reflexivity|]. apply le_enum_ok, assignment_config, Ha.
    + exists (map a lp). split; [apply assignment_config, Ha|]. split; [|reflexivity]. rewrite mask_lp, sp_lp. apply agrees_assignment.
    + split; [apply (too_few_iff (map (idx_of s) sp) (map a sp) th Hth), H1|exact H2].
  - intros H c1 pc c2 Hin [w [W1 [W2 ->]]]. apply Hcomb in Hin as [-> Hpc].
    pose proof W1 as W1'. apply config_const_iff in W1' as [Lw Fw].
    assert (NL : NoDup lp) by apply NoDup_filter', Hwf.
    assert (Ew : map (lookup lp w) lp = w) by (apply lookup_map; assumption).
    rewrite mask_lp, <- Ew in W2. apply agrees_determines in W2. rewrite <- sp_lp in W2.
    destruct (H (lookup lp w)) as [H1 H2]; [intros x; apply lookup_lt, Fw|]. rewrite Ew in H2. rewrite <- W2 in H1, H2.
    split; [apply (too_few_iff (map (idx_of s) sp) pc th Hth), H1|exact H2].
Qed.
End meaning.
