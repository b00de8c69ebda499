From Coq Require Import Ascii.
From Verif Require Import Base Lib LibQc ModelStructure ModelGraph ModelCims ModelGenerator ModelSample ModelExport
  SpecStructure SpecGraph SpecComb SpecGenerator SpecSample SpecExport
  ProofComb ProofParams ProofParams2 ProofGraph ProofGenerator2 ProofSample ProofSample4 ProofFamScore2 ProofExport ProofExport2.
Open Scope nat_scope.

Lemma Forall2_from_nth {A B} (R : A -> B -> Prop) : forall l l', length l = length l' ->
  (forall k a b, nth_error l k = Some a -> nth_error l' k = Some b -> R a b) -> Forall2 R l l'.
Proof.
  induction l as [|a l IH]; intros [|b l'] L H; try discriminate; constructor.
  - exact (H 0 a b eq_refl eq_refl).
  - apply IH; [cbn in L; lia|]. intros k x y Hx Hy. exact (H (S k) x y Hx Hy).
Qed.
Lemma NoDup_map_on {A B} (f : A -> B) (l : list A) : NoDup l -> (forall a b, In a l -> In b l -> f a = f b -> a = b) -> NoDup (map f l).
Proof.
  induction l as [|a l IH]; intros N H; cbn [map]; [constructor|]. apply NoDup_cons_iff in N as [N1 N2]. constructor.
  - intro C. apply in_map_iff in C as [b [E Hb]]. apply N1. rewrite (H a b); [exact Hb|left; reflexivity|right; exact Hb|symmetry; exact E].
  - apply IH; [exact N2|]. intros x y Hx Hy. apply H; right; assumption.
Qed.
Lemma filter_nil_iff {A} (p : A -> bool) l : filter p l = [] <-> forall x, In x l -> p x = false.
Proof.
  induction l as [|a l IH]; [split; [intros _ x []|reflexivity]|]. cbn [filter]. destruct (p a) eqn:E; split.
  - discriminate.
  - intro H. specialize (H a (or_introl eq_refl)). congruence.
  - intros H x [<-|Hx]; [exact E|]. apply IH; assumption.
  - intro H. apply IH. intros x Hx. apply H. right. exact Hx.
Qed.

Lemma values_self ps : NoDup ps -> forall w, length w = length ps -> res_map (value_of ps w) ps = Ok w.
Proof.
  intros N w L. apply in_states_values; [exact N|]. unfold in_states.
  assert (G : forall (pre : list string) (prew : list nat) (ps : list string) (w : list nat), length prew = length pre -> length w = length ps ->
     Forall2 (fun p x => exists i, nth_error (pre ++ ps) i = Some p /\ nth_error (prew ++ w) i = Some x) ps w).
  { clear. intros pre prew ps. revert pre prew. induction ps as [|p ps IH]; intros pre prew [|x w] Lp Lw; try discriminate; constructor.
    - exists (length pre). rewrite nth_error_app2 by lia. rewrite Nat.sub_diag. rewrite nth_error_app2 by lia. rewrite Lp, Nat.sub_diag. auto.
    - specialize (IH (pre ++ [p]) (prew ++ [x]) w). rewrite <- !app_assoc in IH. apply IH; [rewrite !app_length; cbn; lia|cbn in Lw; lia]. }
  exact (G [] [] ps w eq_refl L).
Qed.
Lemma exported_select so ps comb v : NoDup ps -> length comb = length ps ->
  exported_cim so ps comb = select_cim (MkTrajgen ps [(v, ps)] [(v, so)]) comb v.
Proof.
  intros N L. unfold select_cim. cbn [tg_parents tg_cims tg_vnames dict_get]. rewrite String.eqb_refl. cbn [bind].
  rewrite (values_self ps N comb L). reflexivity.
Qed.
Lemma exported_all so ps sh : NoDup ps -> length sh = length ps -> so_p_combs so = le_enum sh -> length (so_actual_cims so) = nat_prod sh ->
  Forall2 (fun comb m => exported_cim so ps comb = Ok m) (so_p_combs so) (so_actual_cims so).
Proof.
  intros N L E C. apply Forall2_from_nth.
  - rewrite E, le_enum_length. symmetry. exact C.
  - intros k comb m Hk Hm. rewrite E in Hk. pose proof Hk as Hk'. apply nth_error_In, le_enum_ok in Hk'.
    pose proof (config_length _ _ Hk') as Lc.
    rewrite (exported_select so ps comb "" N) by lia.
    destruct (select_enum (MkTrajgen ps [("", ps)] [("", so)]) comb "" ps so sh comb) as [S1 _]; try reflexivity; try assumption.
    + cbn [tg_vnames]. apply values_self; [exact N|lia].
    + rewrite (S1 Hk'). apply nth_res_ok.
      assert (K : config_rank sh comb = k).
      { eapply NoDup_nth_error; [apply (le_enum_NoDup sh)| |].
        - apply nth_error_Some. rewrite le_enum_rank by exact Hk'. discriminate.
        - rewrite le_enum_rank by exact Hk'. symmetry. exact Hk. }
      rewrite K. exact Hm.
Qed.

(** one variable: what is exported comes back with every configuration replaced by its leading digits *)
Lemma entry_reload l so ps sh : NoDup ps -> length sh = length ps -> so_p_combs so = le_enum sh -> length (so_actual_cims so) = nat_prod sh ->
  (forall m, In m (so_actual_cims so) -> exists c, forall row, In row m -> length row = c) ->
  no_equals l -> Forall no_equals ps ->
  exists e combs, export_combs l so ps (so_p_combs so) [] = Ok e
    /\ load_combs e = Ok (MkSetOfCims combs (so_actual_cims so))
    /\ Forall2 (Forall2 leading_digit) (so_p_combs so) combs.
Proof.
  intros N L E C R Hl Hps. pose proof (exported_all so ps sh N L E C) as FM.
  set (keyf := fun comb => if length ps =? 0 then l else String.concat "," (map (fun pv => (fst pv ++ "=" ++ str_nat (snd pv))%string) (combine ps comb))).
  assert (LEN : forall comb, In comb (so_p_combs so) -> length comb = length ps).
  { intros comb H. rewrite E in H. apply le_enum_ok in H. apply config_length in H. lia. }
  assert (FK : Forall2 (fun comb key => comb_key l ps comb = Ok key) (so_p_combs so) (map keyf (so_p_combs so))).
  { clear -LEN. induction (so_p_combs so) as [|comb combs IH]; cbn [map]; constructor.
    - unfold comb_key, keyf. destruct (length ps =? 0); [reflexivity|]. rewrite key_parts_ok by (apply LEN; left; reflexivity). reflexivity.
    - apply IH. intros c Hc. apply LEN. right. exact Hc. }
  assert (ND : NoDup (map keyf (so_p_combs so))).
  { destruct (Nat.eqb_spec (length ps) 0) as [H0|H0].
    - assert (sh = []) by (destruct sh; [reflexivity|cbn in L; lia]). subst sh. rewrite E. cbn. repeat constructor. intros [].
    - apply NoDup_map_on; [rewrite E; apply le_enum_NoDup|]. intros a b Ha Hb. unfold keyf. destruct (Nat.eqb_spec (length ps) 0); [contradiction|].
      apply keys_distinct; apply LEN; assumption. }
  exists (combine (map keyf (so_p_combs so)) (map matrix_records (so_actual_cims so))), (map find_digits (map keyf (so_p_combs so))).
  split; [exact (export_combs_ok l so ps _ _ _ [] FK FM ND)|]. split.
  - apply load_combs_ok; [rewrite map_length; eapply Forall2_length; exact FM|exact R].
  - clear -LEN Hl Hps. induction (so_p_combs so) as [|comb combs IH]; cbn [map]; constructor.
    + unfold keyf. destruct (Nat.eqb_spec (length ps) 0) as [H0|H0].
      * rewrite find_digits_none by exact Hl. specialize (LEN comb (or_introl eq_refl)). destruct comb; [constructor|cbn in LEN; lia].
      * destruct (find_digits_key ps comb (LEN comb (or_introl eq_refl)) Hps) as [ds [D1 <-]]. exact D1.
    + apply IH. intros c Hc. apply LEN. right. exact Hc.
Qed.

(** two tables with the same matrices whose configurations are related by leading digits *)
Definition reloaded_from (so so' : set_of_cims (list (list Qc))) : Prop :=
  so_actual_cims so' = so_actual_cims so /\ Forall2 (Forall2 leading_digit) (so_p_combs so) (so_p_combs so').

Lemma combine_fst_snd {A B} (l : list (A * B)) : combine (map fst l) (map snd l) = l.
Proof. induction l as [|[a b] l IH]; [reflexivity|]. cbn. f_equal. exact IH. Qed.

Lemma parents_of_gen labels vals u lo hi E cs tg v : sampled_from_generator labels vals u lo hi E cs tg -> In v labels ->
  parents_of E v = gen_parents labels E v.
Proof.
  intros P Hv. destruct (pipeline_facts _ _ _ _ _ _ _ _ P) as [N [L [F1 [F2 [F3 [F6 [F4 F5]]]]]]].
  pose proof (F4 v Hv) as H. destruct P as [_ [_ [_ [_ [_ [_ [_ [_ [vars [_ [_ [_ [_ [_ [_ ->]]]]]]]]]]]]]]].
  unfold new_trajgen in H, F1. cbn [tg_parents tg_vnames] in H, F1. rewrite parents_dict in H. rewrite F1 in H.
  apply lmem_In in Hv. rewrite Hv in H. injection H as H. exact H.
Qed.

Lemma parents_cards labels vals (E : list edge) v : length vals = length labels ->
  exists pcs, Forall2 (card_in labels vals) (gen_parents labels E v) pcs.
Proof.
  intro L. assert (A : forall p, In p (gen_parents labels E v) -> In p labels) by (intros p Hp; apply filter_In in Hp; tauto).
  induction (gen_parents labels E v) as [|p ps IH]; [exists []; constructor|].
  destruct IH as [pcs H]; [intros q Hq; apply A; right; exact Hq|].
  destruct (In_nth_error _ _ (A p (or_introl eq_refl))) as [i Hi].
  destruct (nth_error vals i) as [d|] eqn:Ed; [|apply nth_error_None in Ed; rewrite L in Ed; apply nth_error_None in Ed; congruence].
  exists (d :: pcs). constructor; [exists i; auto|exact H].
Qed.

Lemma reload_general labels vals u lo hi E cs tg vars :
  sampled_from_generator labels vals u lo hi E cs tg -> Forall no_equals labels -> map fst vars = labels -> E <> [] ->
  exists json cs', cims_to_json vars E cs = Ok json /\ load_trajgen vars E json = Ok (new_trajgen vars E cs')
    /\ Forall2 (fun a b => fst a = fst b /\ reloaded_from (snd a) (snd b)) cs cs' /\ tg = new_trajgen vars E cs.
Proof.
  intros P NE HV HE. destruct (pipeline_facts _ _ _ _ _ _ _ _ P) as [N [L [F1 [F2 [F3 [F6 [F4 F5]]]]]]].
  assert (NC : NoDup (map fst cs)) by (rewrite F6; exact N).
  assert (ENT : forall l so, In (l, so) cs -> exists e combs, export_combs l so (parents_of E l) (so_p_combs so) [] = Ok e
     /\ load_combs e = Ok (MkSetOfCims combs (so_actual_cims so)) /\ Forall2 (Forall2 leading_digit) (so_p_combs so) combs).
  { intros l so H. assert (Hl : In l labels) by (rewrite <- F6; apply (in_map fst) in H; exact H).
    destruct (parents_cards labels vals E l L) as [pcs Hp]. destruct (In_nth_error _ _ Hl) as [i Hi].
    destruct (nth_error vals i) as [c|] eqn:Ec; [|apply nth_error_None in Ec; rewrite L in Ec; apply nth_error_None in Ec; congruence].
    destruct (F5 l c pcs (ex_intro _ i (conj Hi Ec)) Hp) as [so' [D1 [D2 [D3 D4]]]].
    rewrite (dict_get_nth cs NC l so H) in D1. injection D1 as <-.
    rewrite (parents_of_gen _ _ _ _ _ _ _ _ l P Hl). pose proof (Forall2_length _ _ _ Hp) as Lp.
    eapply (entry_reload l so (gen_parents labels E l) (swap01 pcs)).
    - apply gen_parents_NoDup, N.
    - rewrite swap01_length. symmetry. exact Lp.
    - exact D2.
    - rewrite D3. destruct pcs as [|a [|b r]]; try reflexivity. cbn [swap01 nat_prod fold_right]. lia.
    - intros m Hm. exists c. apply (D4 m Hm).
    - rewrite Forall_forall in NE. apply NE, Hl.
    - apply Forall_forall. intros p Hp'. rewrite Forall_forall in NE. apply NE. apply filter_In in Hp'. tauto. }
  assert (ALL : exists es cs', Forall2 (fun l e => exists so, dict_get cs l = Ok so /\ export_combs l so (parents_of E l) (so_p_combs so) [] = Ok e) (map fst cs) es
     /\ Forall2 (fun e so => load_combs (snd e) = Ok so) (combine (map fst cs) es) (map snd cs')
     /\ Forall2 (fun a b => fst a = fst b /\ reloaded_from (snd a) (snd b)) cs cs' /\ map fst cs' = map fst cs /\ length es = length cs).
  { assert (SUB : forall d, incl d cs -> exists es cs', Forall2 (fun l e => exists so, dict_get cs l = Ok so /\ export_combs l so (parents_of E l) (so_p_combs so) [] = Ok e) (map fst d) es
     /\ Forall2 (fun e so => load_combs (snd e) = Ok so) (combine (map fst d) es) (map snd cs')
     /\ Forall2 (fun a b => fst a = fst b /\ reloaded_from (snd a) (snd b)) d cs' /\ map fst cs' = map fst d /\ length es = length d).
    { induction d as [|[l so] d IH]; intro I; [exists [], []; repeat split; constructor|].
      destruct IH as [es [cs' [A1 [A2 [A3 [A4 A5]]]]]]; [intros x Hx; apply I; right; exact Hx|].
      assert (Hin : In (l, so) cs) by (apply I; left; reflexivity). destruct (ENT l so Hin) as [e [combs [B1 [B2 B3]]]].
      exists (e :: es), ((l, MkSetOfCims combs (so_actual_cims so)) :: cs'). cbn [map fst snd combine length]. split; [|split; [|split; [|split]]].
      - constructor; [|exact A1]. exists so. split; [apply dict_get_nth; assumption|exact B1].
      - constructor; [exact B2|exact A2].
      - constructor; [|exact A3]. cbn [fst snd]. split; [reflexivity|]. split; [reflexivity|exact B3].
      - rewrite A4. reflexivity.
      - rewrite A5. reflexivity. }
    apply SUB, incl_refl. }
  destruct ALL as [es [cs' [A1 [A2 [A3 [A4 A5]]]]]].
  assert (CF : map fst (combine (map fst cs) es) = map fst cs).
  { clear -A5. revert es A5. induction cs as [|x cs IH]; intros [|e es] A5; try discriminate; [reflexivity|]. cbn [map combine fst]. f_equal. apply IH. cbn in A5. lia. }
  exists (combine (map fst cs) es), cs'. split; [|split; [|split; [exact A3|]]].
  - unfold cims_to_json. rewrite HV, <- F6. rewrite (export_loop_ok E cs (map fst cs) es [] A1 NC). reflexivity.
  - unfold load_trajgen. destruct E as [|e0 E0]; [congruence|].
    rewrite (load_cims_ok _ _ [] A2) by (rewrite CF; exact NC). cbn [bind app]. rewrite CF. do 2 f_equal. rewrite <- A4. apply combine_fst_snd.
  - destruct P as [_ [_ [_ [_ [_ [_ [_ [_ [vars' [_ [_ [_ [_ [_ [_ ->]]]]]]]]]]]]]]].
    unfold new_trajgen in *. cbn [tg_vnames] in F1. rewrite F1, HV. reflexivity.
Qed.

Lemma reload_exact labels vals u lo hi E cs tg vars :
  sampled_from_generator labels vals u lo hi E cs tg -> Forall no_equals labels -> map fst vars = labels -> E <> [] ->
  Forall (fun c => c <= 10) vals ->
  exists json, cims_to_json vars E cs = Ok json /\ load_trajgen vars E json = Ok tg.
Proof.
  intros P NE HV HE Hc. destruct (reload_general _ _ _ _ _ _ _ _ vars P NE HV HE) as [json [cs' [J1 [J2 [J3 ->]]]]].
  exists json. split; [exact J1|]. rewrite J2. do 2 f_equal.
  destruct (pipeline_facts _ _ _ _ _ _ _ _ P) as [N [L [F1 [F2 [F3 [F6 [F4 F5]]]]]]].
  assert (NC : NoDup (map fst cs)) by (rewrite F6; exact N).
  assert (K : forall l so u0, In (l, so) cs -> In u0 (so_p_combs so) -> Forall (fun v => v < 10) u0).
  { intros l so u0 H Hu. assert (Hl : In l labels) by (rewrite <- F6; apply (in_map fst) in H; exact H).
    destruct (parents_cards labels vals E l L) as [pcs Hp]. destruct (In_nth_error _ _ Hl) as [i Hi].
    destruct (nth_error vals i) as [c|] eqn:Ec; [|apply nth_error_None in Ec; rewrite L in Ec; apply nth_error_None in Ec; congruence].
    destruct (F5 l c pcs (ex_intro _ i (conj Hi Ec)) Hp) as [so' [D1 [D2 _]]].
    rewrite (dict_get_nth cs NC l so H) in D1. injection D1 as <-. rewrite D2 in Hu. apply le_enum_ok in Hu.
    assert (B : Forall (fun c => c <= 10) (swap01 pcs)).
    { assert (B0 : Forall (fun c => c <= 10) pcs).
      { apply Forall_forall. intros d Hd. apply In_nth_error in Hd as [j Hj]. destruct (Forall2_nth_error_r _ _ _ Hp j d Hj) as [p [_ [m [_ Hm]]]].
        rewrite Forall_forall in Hc. apply Hc. eapply nth_error_In; eauto. }
      destruct pcs as [|a [|b r]]; try exact B0. cbn [swap01]. constructor; [exact (Forall_inv (Forall_inv_tail B0))|].
      constructor; [exact (Forall_inv B0)|exact (Forall_inv_tail (Forall_inv_tail B0))]. }
    clear -Hu B. induction Hu as [|x c u0 sh Hx _ IH]; constructor; [pose proof (Forall_inv B); cbn beta in *; lia|apply IH, (Forall_inv_tail B)]. }
  clear -J3 K. induction J3 as [|[l so] [l' so'] cs cs' [H1 [H2 H3]] _ IH]; [reflexivity|].
  cbn [fst snd] in *. subst l'. f_equal; [|apply IH; intros l0 so0 u0 H Hu; eapply K; [right; exact H|exact Hu]].
  f_equal. destruct so as [cb ac], so' as [cb' ac']. cbn [so_p_combs so_actual_cims] in *. subst ac'. f_equal.
  assert (K' : forall u0, In u0 cb -> Forall (fun v => v < 10) u0) by (intros u0 Hu; eapply K; [left; reflexivity|exact Hu]).
  clear -H3 K'. induction H3 as [|a b cb cb' Hab _ IH]; [reflexivity|]. f_equal; [apply (leading_list a b Hab), K'; left; reflexivity|].
  apply IH. intros u0 Hu. apply K'. right. exact Hu.
Qed.

(** a state of two or more digits: after the reload no matrix is found *)
Lemma reload_large labels vals u lo hi E cs tg vars v c pcs xs w json tg' :
  sampled_from_generator labels vals u lo hi E cs tg -> Forall no_equals labels -> map fst vars = labels -> E <> [] ->
  card_in labels vals v c -> Forall2 (card_in labels vals) (gen_parents labels E v) pcs -> 2 <= length pcs ->
  in_states labels xs (gen_parents labels E v) w -> Exists (fun x => 10 <= x) w ->
  cims_to_json vars E cs = Ok json -> load_trajgen vars E json = Ok tg' -> select_cim tg' xs v = Err IndexError.
Proof.
  intros P NE HV HE Hc Hp H2 Hs Hw HJ HL. destruct (reload_general _ _ _ _ _ _ _ _ vars P NE HV HE) as [json' [cs' [J1 [J2 [J3 Et]]]]].
  rewrite HJ in J1. injection J1 as <-. rewrite HL in J2. injection J2 as ->.
  destruct (pipeline_facts _ _ _ _ _ _ _ _ P) as [N [L [F1 [F2 [F3 [F6 [F4 F5]]]]]]].
  assert (Hv : In v labels) by (destruct Hc as [i [Hi _]]; eapply nth_error_In; eauto).
  pose proof (F4 v Hv) as Fp. rewrite Et in Fp, F1. unfold new_trajgen in *. cbn [tg_parents tg_vnames tg_cims] in *.
  destruct (F5 v c pcs Hc Hp) as [so [D1 [D2 [D3 _]]]].
  assert (G : exists so', dict_get cs' v = Ok so' /\ reloaded_from so so').
  { clear -D1 J3. induction J3 as [|[l s0] [l' s0'] cs cs' [H1 H2] _ IH]; [discriminate|]. cbn [fst snd] in *. subst l'. cbn [dict_get] in *.
    destruct (String.eqb l v); [injection D1 as <-; exists s0'; auto|apply IH, D1]. }
  destruct G as [so' [G1 [G2 G3]]].
  unfold select_cim. cbn [tg_parents tg_vnames tg_cims]. rewrite Fp, G1, F1. cbn [bind].
  rewrite (in_states_values labels xs _ w N Hs). cbn [bind].
  pose proof (Forall2_length _ _ _ Hp) as Lp. pose proof (Forall2_length _ _ _ Hs) as Lw.
  assert (NF : filter_indices (so_p_combs so') (map (fun _ => true) (gen_parents labels E v)) w = []).
  { unfold filter_indices. rewrite (proj2 (filter_nil_iff _ _)); [reflexivity|]. intros [k row] Hk. cbn [snd].
    destruct (nat_list_eqb _ w) eqn:Eq; [|reflexivity]. exfalso. apply nat_list_eqb_eq in Eq.
    apply in_combine_r in Hk. apply In_nth_error in Hk as [j Hj]. destruct (Forall2_nth_error_r _ _ _ G3 j row Hj) as [r0 [Hr0 Hld]].
    assert (Lr : length row = length (gen_parents labels E v)).
    { rewrite <- (Forall2_length _ _ _ Hld). rewrite D2 in Hr0. apply nth_error_In, le_enum_ok, config_length in Hr0. rewrite swap01_length in Hr0. lia. }
    rewrite all_true_mask in Eq by lia. subst row. clear -Hld Hw. induction Hld as [|a d r0 w [Hd _] _ IH]; [inversion Hw|].
    apply Exists_cons in Hw as [Hw|Hw]; [lia|exact (IH Hw)]. }
  unfold filter_cims_with_mask. rewrite map_length. destruct (Nat.leb_spec (length (gen_parents labels E v)) 1); [lia|].
  rewrite NF. cbn [res_map bind]. destruct (Nat.eqb_spec (length (gen_parents labels E v)) 1); [lia|]. reflexivity.
Qed.

(** with at most one parent the matrix is found by its position: nothing is lost *)
Lemma reload_one_parent labels vals u lo hi E cs tg vars v xs json tg' :
  sampled_from_generator labels vals u lo hi E cs tg -> Forall no_equals labels -> map fst vars = labels -> E <> [] ->
  In v labels -> length (gen_parents labels E v) <= 1 ->
  cims_to_json vars E cs = Ok json -> load_trajgen vars E json = Ok tg' -> select_cim tg' xs v = select_cim tg xs v.
Proof.
  intros P NE HV HE Hv H1 HJ HL. destruct (reload_general _ _ _ _ _ _ _ _ vars P NE HV HE) as [json' [cs' [J1 [J2 [J3 Et]]]]].
  rewrite HJ in J1. injection J1 as <-. rewrite HL in J2. injection J2 as ->.
  destruct (pipeline_facts _ _ _ _ _ _ _ _ P) as [N [L [F1 [F2 [F3 [F6 [F4 F5]]]]]]].
  pose proof (F4 v Hv) as Fp. rewrite Et in *. unfold new_trajgen, select_cim in *. cbn [tg_parents tg_vnames tg_cims] in *.
  rewrite Fp. cbn [bind].
  assert (G : forall k, match dict_get cs k with Ok so => exists so', dict_get cs' k = Ok so' /\ so_actual_cims so' = so_actual_cims so
                  | Err e => dict_get cs' k = Err e end).
  { intro k. clear -J3. induction J3 as [|[l s0] [l' s0'] cs cs' [A [B _]] _ IH]; [reflexivity|]. cbn [fst snd] in *. subst l'. cbn [dict_get].
    destruct (String.eqb l k); [exists s0'; auto|exact IH]. }
  specialize (G v). destruct (dict_get cs v) as [so|e]; [|rewrite G; reflexivity]. destruct G as [so' [G1 G2]]. rewrite G1. cbn [bind].
  destruct (res_map _ _) as [comb|e]; [|reflexivity]. cbn [bind]. unfold filter_cims_with_mask. rewrite map_length.
  destruct (Nat.leb_spec (length (gen_parents labels E v)) 1); [|lia]. rewrite G2. reflexivity.
Qed.
