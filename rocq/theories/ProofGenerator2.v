From Coq Require Import Qround Lqa.
From Verif Require Import Base Lib ModelStructure ModelGraph ModelCims ModelGenerator
  SpecStructure SpecGraph SpecComb SpecGenerator ProofStructure ProofGraph ProofComb ProofParams ProofParams2 LibQc ProofGenerator.
Open Scope nat_scope.

(** dictionaries *)
Lemma dict_get_set {V} (d : list (string * V)) k v k' :
  dict_get (dict_set d k v) k' = if String.eqb k k' then Ok v else dict_get d k'.
Proof.
  induction d as [|[a b] d IH]; cbn [dict_set dict_get].
  - reflexivity.
  - destruct (String.eqb_spec a k) as [->|Ne]; cbn [dict_get].
    + destruct (String.eqb k k'); reflexivity.
    + rewrite IH. destruct (String.eqb_spec a k') as [->|]; [|reflexivity].
      destruct (String.eqb_spec k k'); [congruence|reflexivity].
Qed.
Lemma dict_set_keys {V} (d : list (string * V)) k v : map fst (dict_set d k v) = if lmem k (map fst d) then map fst d else map fst d ++ [k].
Proof.
  induction d as [|[a b] d IH]; cbn [dict_set map fst]; [reflexivity|].
  unfold lmem in *. cbn [existsb]. destruct (String.eqb_spec a k) as [->|Ne].
  - rewrite String.eqb_refl. reflexivity.
  - destruct (String.eqb_spec k a); [congruence|]. cbn [map fst orb]. rewrite IH.
    destruct (existsb (String.eqb k) (map fst d)); reflexivity.
Qed.

(** sums with one special position *)
Lemma Qcsum_mapi_from_special (f : Qc -> Qc) (a : Qc) i : forall l z, z <= i < z + length l ->
  Qcsum (mapi_from z (fun j r => if j =? i then a else f r) l) = (Qcsum (map f l) - f (nth (i - z) l 0%Qc) + a)%Qc.
Proof.
  induction l as [|x l IH]; intros z H; cbn [length] in H; [lia|]. cbn [mapi_from map].
  rewrite !Qcsum_cons. destruct (Nat.eqb_spec z i) as [->|Ne].
  - rewrite Nat.sub_diag. cbn [nth].
    assert (E : forall l' z', i < z' -> Qcsum (mapi_from z' (fun j r => if j =? i then a else f r) l') = Qcsum (map f l')).
    { clear. induction l' as [|y l' IH]; intros z' H; [reflexivity|]. cbn [mapi_from map]. rewrite !Qcsum_cons, IH by lia.
      destruct (Nat.eqb_spec z' i); [lia|reflexivity]. }
    rewrite E by lia. ring.
  - rewrite IH by lia. replace (i - z) with (S (i - S z)) by lia. cbn [nth]. ring.
Qed.
Lemma Qcsum_scale {A} (f : A -> Qc) c l : Qcsum (map (fun a => (f a * c)%Qc) l) = (Qcsum (map f l) * c)%Qc.
Proof. induction l as [|x l IH]; cbn [map]; [cbn; ring|]. rewrite !Qcsum_cons, IH. ring. Qed.
Lemma Qcsum_nonneg l : Forall (fun q => 0 <= q)%Qc l -> (0 <= Qcsum l)%Qc.
Proof.
  induction l as [|x l IH]; intro H; [apply Qcle_refl|]. rewrite Qcsum_cons.
  pose proof (Forall_inv H) as H1. pose proof (IH (Forall_inv_tail H)) as H2. cbn beta in H1. qclra.
Qed.

Lemma gen_cim_row_nth lo hi d rnd i j : nth_error (gen_cim_row lo hi d rnd i) j =
  option_map (fun r => if j =? i then (- ((hi - lo) * d + lo))%Qc
                       else (r / (Qcsum rnd - nth i rnd 0) * ((hi - lo) * d + lo))%Qc) (nth_error rnd j).
Proof. unfold gen_cim_row. rewrite nth_error_mapi. destruct (nth_error rnd j); reflexivity. Qed.

Lemma diag_range lo hi d : (lo <= hi)%Qc -> (0 <= d)%Qc -> (d <= 1)%Qc ->
  (lo <= (hi - lo) * d + lo)%Qc /\ ((hi - lo) * d + lo <= hi)%Qc.
Proof.
  intros H H0 H1.
  assert (A : (0 <= (hi - lo) * d)%Qc).
  { replace 0%Qc with (0 * d)%Qc by ring. apply Qcmult_le_compat_r; [qclra|exact H0]. }
  assert (B : ((hi - lo) * d <= (hi - lo) * 1)%Qc).
  { rewrite !(Qcmult_comm (hi - lo)). apply Qcmult_le_compat_r; [exact H1|qclra]. }
  generalize dependent ((hi - lo) * d)%Qc. intros p A B. rewrite Qcmult_1_r in B. split; qclra.
Qed.
Lemma Qcmult_nonneg a b : (0 <= a)%Qc -> (0 <= b)%Qc -> (0 <= a * b)%Qc.
Proof. intros. replace 0%Qc with (0 * b)%Qc by ring. apply Qcmult_le_compat_r; assumption. Qed.
Lemma Qcdiv_nonneg a b : (0 <= a)%Qc -> (0 < b)%Qc -> (0 <= a / b)%Qc.
Proof.
  intros H1 H2. apply Qcmult_nonneg; [exact H1|]. apply Qclt_le_weak.
  replace (/ b)%Qc with (1 / b)%Qc by (unfold Qcdiv; ring). apply Qcdiv_pos; [reflexivity|exact H2].
Qed.

Lemma gen_cim_row_ok lo hi d rnd i : (0 <= lo)%Qc -> (lo <= hi)%Qc -> (0 <= d)%Qc -> (d <= 1)%Qc ->
  i < length rnd -> Forall (fun r => 0 <= r)%Qc rnd -> (0 < Qcsum rnd - nth i rnd 0)%Qc ->
  rate_row lo hi (length rnd) i (gen_cim_row lo hi d rnd i).
Proof.
  intros H0 H H1 H2 Hi Hr Hs. destruct (diag_range lo hi d H H1 H2) as [D1 D2].
  set (diag := ((hi - lo) * d + lo)%Qc) in *. set (den := (Qcsum rnd - nth i rnd 0)%Qc) in *.
  assert (Hden : den <> 0%Qc) by (apply Qc_pos_neq, Hs).
  split; [apply mapi_length|]. split; [|split].
  - unfold gen_cim_row, mapi. fold diag den.
    rewrite (Qcsum_mapi_from_special (fun r => (r / den * diag)%Qc)) by lia.
    rewrite Nat.sub_0_r.
    rewrite (map_ext _ (fun r => (r * (/ den * diag))%Qc)) by (intro; unfold Qcdiv; ring).
    rewrite (Qcsum_scale (fun r => r)), map_id.
    replace (Qcsum rnd) with (den + nth i rnd 0)%Qc by (unfold den; ring).
    field. exact Hden.
  - exists diag. split; [|auto]. rewrite gen_cim_row_nth. fold diag den. rewrite Nat.eqb_refl.
    destruct (nth_error rnd i) eqn:E; [reflexivity|]. apply nth_error_None in E. lia.
  - intros j x Hj Hx. rewrite gen_cim_row_nth in Hx. fold diag den in Hx.
    destruct (nth_error rnd j) as [r|] eqn:E; [|discriminate]. cbn [option_map] in Hx.
    destruct (Nat.eqb_spec j i); [contradiction|]. injection Hx as <-.
    rewrite Forall_forall in Hr. apply nth_error_In in E.
    apply Qcmult_nonneg; [apply Qcdiv_nonneg; [apply Hr, E|exact Hs]|].
    apply (Qcle_trans _ lo); assumption.
Qed.

Lemma rounded_around4 q : rounded4 q (around4 q).
Proof. split; [eexists; apply around4_scaled|]. apply around4_close. Qed.

Lemma Qcsum_close l l' : Forall2 rounded4 l l' ->
  (- (Qc_nat (length l) * Q2Qc (1#20000)) <= Qcsum l' - Qcsum l)%Qc
  /\ (Qcsum l' - Qcsum l <= Qc_nat (length l) * Q2Qc (1#20000))%Qc.
Proof.
  induction 1 as [|x y l l' [_ [A B]] _ [IH1 IH2]].
  - cbn. split; discriminate.
  - cbn [length]. rewrite !Qcsum_cons. unfold Qc_nat in *. rewrite Nat2Z.inj_succ, <- Z.add_1_r, Qc_of_Z_add.
    change (Qc_of_Z 1) with 1%Qc. split; qclra.
Qed.

(** a whole matrix *)
Definition gen_row_draws (u : nat -> Qc) (k c i : nat) : list Qc := map (fun j => u (k + i * S c + S j)) (seq 0 c).

Lemma nth_seq_eq n i : i < n -> nth_error (seq 0 n) i = Some i.
Proof. intro H. rewrite nth_error_seq'. destruct (Nat.ltb_spec i n); [reflexivity|lia]. Qed.
Lemma generate_cim_row u k lo hi c i row : nth_error (generate_cim u k lo hi c) i = Some row ->
  i < c /\ row = map around4 (gen_cim_row lo hi (u (k + i * S c)) (gen_row_draws u k c i) i).
Proof.
  unfold generate_cim, raw_cim. rewrite !map_nth_error_iff. intro H.
  assert (Hi : i < c).
  { destruct (Nat.lt_ge_cases i c) as [|G]; [assumption|]. rewrite (proj2 (nth_error_None (seq 0 c) i)) in H by (rewrite seq_length; lia). discriminate. }
  split; [exact Hi|]. rewrite nth_seq_eq in H by exact Hi. injection H as <-. reflexivity.
Qed.
Lemma generate_cim_length u k lo hi c : length (generate_cim u k lo hi c) = c.
Proof. unfold generate_cim, raw_cim. rewrite !map_length. apply seq_length. Qed.

Lemma Qcsum_split_nth l i : i < length l -> Qcsum l = (nth i l 0%Qc + Qcsum (firstn i l) + Qcsum (skipn (S i) l))%Qc.
Proof.
  revert i. induction l as [|x l IH]; intros i H; cbn [length] in H; [lia|]. destruct i as [|i].
  - cbn [nth firstn skipn]. rewrite Qcsum_cons. change (Qcsum []) with 0%Qc. ring.
  - change (skipn (S (S i)) (x :: l)) with (skipn (S i) l). cbn [nth firstn]. rewrite !Qcsum_cons, (IH i) by lia. ring.
Qed.
Lemma positive_draws_sum l i : Forall (fun q => 0 < q)%Qc l -> i < length l -> 2 <= length l -> (0 < Qcsum l - nth i l 0)%Qc.
Proof.
  intros F Hi Hl. rewrite (Qcsum_split_nth l i Hi).
  assert (P : forall m, Forall (fun q => 0 < q)%Qc m -> (0 <= Qcsum m)%Qc /\ (m <> [] -> (0 < Qcsum m)%Qc)).
  { induction m as [|x m IH]; intro Fm; [split; [apply Qcle_refl|congruence]|].
    destruct (IH (Forall_inv_tail Fm)) as [A _]. pose proof (Forall_inv Fm) as B. cbn beta in B. rewrite Qcsum_cons.
    split; [|intros _]; qclra. }
  assert (F1 : Forall (fun q => 0 < q)%Qc (firstn i l) /\ Forall (fun q => 0 < q)%Qc (skipn (S i) l)).
  { rewrite !Forall_forall in *. split; intros q Hq; apply F.
    - rewrite <- (firstn_skipn i l). apply in_or_app; auto.
    - rewrite <- (firstn_skipn (S i) l). apply in_or_app; auto. }
  destruct F1 as [F1 F2]. destruct (P _ F1) as [A1 A2], (P _ F2) as [B1 B2].
  assert (Ne : firstn i l <> [] \/ skipn (S i) l <> []).
  { destruct i as [|i]; [right|left]; intro E; apply (f_equal (@length Qc)) in E.
    - rewrite skipn_length in E. cbn [length] in E. lia.
    - rewrite firstn_length in E. cbn [length] in E. lia. }
  destruct Ne as [Ne|Ne]; [specialize (A2 Ne)|specialize (B2 Ne)]; qclra.
Qed.

Lemma generate_cim_ok u k lo hi c i row : (forall n, 0 < u n)%Qc -> (forall n, u n <= 1)%Qc -> (0 <= lo)%Qc -> (lo <= hi)%Qc -> 2 <= c ->
  nth_error (generate_cim u k lo hi c) i = Some row ->
  exists raw, rate_row lo hi c i raw /\ Forall2 rounded4 raw row.
Proof.
  intros U U1 H0 H Hc Hr. apply generate_cim_row in Hr as [Hi ->].
  assert (L : length (gen_row_draws u k c i) = c) by (unfold gen_row_draws; rewrite map_length; apply seq_length).
  exists (gen_cim_row lo hi (u (k + i * S c)) (gen_row_draws u k c i) i). split.
  - rewrite <- L at 1. apply gen_cim_row_ok; try assumption; try lia.
    + apply Qclt_le_weak, U.
    + apply U1.
    + apply Forall_forall. intros q Hq. apply in_map_iff in Hq as [j [<- _]]. apply Qclt_le_weak, U.
    + apply positive_draws_sum; try lia. apply Forall_forall. intros q Hq. apply in_map_iff in Hq as [j [<- _]]. apply U.
  - induction (gen_cim_row lo hi _ _ _) as [|x l IH]; cbn [map]; constructor; [apply rounded_around4|exact IH].
Qed.

(** the number of CIMs *)
Section Loop.
Variables (labels : list label) (vals : list nat) (gr : netgraph) (u : nat -> Qc) (lo hi : Qc).
Definition node_ok (E : list edge) (v : label) (so : set_of_cims (list (list Qc))) : Prop :=
  forall c cards, card_in labels vals v c -> Forall2 (card_in labels vals) (gen_parents labels E v) cards ->
    so_p_combs so = build_p_comb_structure_for_a_node cards
    /\ length (so_actual_cims so) = nat_prod cards
    /\ forall m, In m (so_actual_cims so) -> exists k, m = generate_cim u k lo hi c.
End Loop.

Lemma card_in_fun labels vals v c c' : NoDup labels -> card_in labels vals v c -> card_in labels vals v c' -> c = c'.
Proof.
  intros N [i [A B]] [j [A' B']]. assert (i = j) by (eapply NoDup_nth_error_inj; eauto). subst j. congruence.
Qed.
Lemma Forall2_card_fun labels vals ps c c' : NoDup labels -> Forall2 (card_in labels vals) ps c -> Forall2 (card_in labels vals) ps c' -> c = c'.
Proof.
  intros N H. revert c'. induction H as [|p x ps c Hx _ IH]; intros c' H'.
  - inversion H'; reflexivity.
  - inversion H' as [|? y ? c'' Hy Hc E1 E2]. f_equal; [eapply card_in_fun; eauto|apply IH, Hc].
Qed.

Lemma generate_cims_loop_ok g es u lo hi : NoDup (gn_labels g) -> length (gn_vals g) = length (gn_labels g) ->
  edges_within (gn_labels g) es ->
  forall ls i k acc, (forall j l, nth_error ls j = Some l -> nth_error (gn_labels g) (i + j) = Some l) ->
  exists cs, generate_cims_loop (fresh_graph (gen_structure g es) es) (gn_vals g) u lo hi i ls k acc = Ok cs
    /\ (NoDup ls -> (forall l, In l ls -> ~ In l (map fst acc)) -> map fst cs = map fst acc ++ ls)
    /\ (forall v, ~ In v ls -> dict_get cs v = dict_get acc v)
    /\ (NoDup ls -> forall v, In v ls -> exists so, dict_get cs v = Ok so /\ node_ok (gn_labels g) (gn_vals g) u lo hi es v so).
Proof.
  intros N L W. set (s := gen_structure g es).
  assert (Hwf : wf_structure s). { split; [exact N|]. split; [apply seq_length|exact L]. }
  assert (G : ginv (fresh_graph s es)) by (apply fresh_ginv; assumption).
  induction ls as [|v ls IH]; intros i k acc Hls.
  - exists acc. split; [reflexivity|]. split; [intros _ _; symmetry; apply app_nil_r|]. split; [reflexivity|contradiction].
  - pose proof (Hls 0 v eq_refl) as Hv. rewrite Nat.add_0_r in Hv.
    assert (Hin : In v (gn_labels g)) by (eapply nth_error_In; eauto).
    cbn [generate_cims_loop].
    pose proof (ordered_parents (fresh_graph s es) v G Hin) as OP. cbn zeta in OP. rewrite OP. cbn [bind fst snd].
    change (ng_struct (fresh_graph s es)) with s in *. change (nodes_labels s) with (gn_labels g) in *.
    destruct (nth_error (gn_vals g) i) as [c|] eqn:Ec.
    2:{ apply nth_error_None in Ec. assert (i < length (gn_labels g)) by (apply nth_error_Some; congruence). lia. }
    rewrite (proj2 (nth_res_ok (gn_vals g) i c) Ec). cbn [bind].
    set (ps := filter (fun l => ng_has_edge (fresh_graph s es) (l, v)) (gn_labels g)) in *.
    set (cards := map (val_of s) ps).
    set (reps := if length ps =? 0 then 1 else length (build_p_comb_structure_for_a_node cards)).
    set (so := MkSetOfCims (build_p_comb_structure_for_a_node cards)
                 (map (fun m => generate_cim u (k + m * (c * S c)) lo hi c) (seq 0 reps))).
    destruct (IH (S i) (k + reps * (c * S c)) (dict_set acc v so)) as [cs [E1 [E2 [E3 E4]]]].
    { intros j l Hj. rewrite <- (Hls (S j) l Hj). f_equal. lia. }
    assert (Hps : ps = gen_parents (gn_labels g) es v).
    { unfold ps, gen_parents. apply filter_ext. intro l. apply eq_true_iff_eq. unfold ng_has_edge, g_has_edge. rewrite !emem_In. apply fresh_edges, Hwf. }
    assert (Hcards : Forall2 (card_in (gn_labels g) (gn_vals g)) ps cards).
    { unfold cards. assert (A : forall l, In l ps -> In l (gn_labels g)) by (intros l Hl; apply filter_In in Hl; tauto).
      clearbody ps. clear -A Hwf. induction ps as [|p ps IHp]; cbn [map]; constructor.
      - destruct (wf_lookup s p Hwf (A p (or_introl eq_refl))) as [j [B1 [_ [B2 _]]]]. exists j. auto.
      - apply IHp. intros l Hl. apply A. right; exact Hl. }
    assert (Hso : node_ok (gn_labels g) (gn_vals g) u lo hi es v so).
    { intros c' cards' Hc' Hcards'. rewrite <- Hps in Hcards'.
      assert (c' = c) by (eapply card_in_fun; [exact N|exact Hc'|exists i; auto]). subst c'.
      assert (cards' = cards) by (eapply Forall2_card_fun; eauto). subst cards'.
      split; [reflexivity|]. split.
      - cbn [so_actual_cims so]. unfold so. cbn [so_actual_cims]. rewrite map_length, seq_length. unfold reps. rewrite p_comb_length.
        destruct (Nat.eqb_spec (length ps) 0) as [E0|]; [|reflexivity].
        apply length_zero_iff_nil in E0. unfold cards. rewrite E0. reflexivity.
      - intros m Hm. unfold so in Hm. cbn [so_actual_cims] in Hm. apply in_map_iff in Hm as [q [<- _]]. eexists; reflexivity. }
    exists cs. split; [exact E1|]. split; [|split].
    + intros Nd Hd. apply NoDup_cons_iff in Nd as [Nv Nd]. rewrite E2.
      * rewrite dict_set_keys. destruct (lmem v (map fst acc)) eqn:Em.
        -- apply lmem_In in Em. exfalso. exact (Hd v (or_introl eq_refl) Em).
        -- rewrite <- app_assoc. reflexivity.
      * exact Nd.
      * intros l Hl Hl2. rewrite dict_set_keys in Hl2. destruct (lmem v (map fst acc)).
        -- apply (Hd l); [right; exact Hl|exact Hl2].
        -- apply in_app_or in Hl2 as [Hl2|[Hl2|[]]]; [apply (Hd l); [right; exact Hl|exact Hl2]|congruence].
    + intros w Hw. rewrite E3 by (intro; apply Hw; right; assumption). rewrite dict_get_set.
      destruct (String.eqb_spec v w); [|reflexivity]. exfalso. apply Hw. left; assumption.
    + intros Nd w [->|Hw].
      * apply NoDup_cons_iff in Nd as [Nv Nd]. exists so. split; [|exact Hso].
        rewrite E3 by exact Nv. rewrite dict_get_set, String.eqb_refl. reflexivity.
      * apply NoDup_cons_iff in Nd as [Nv Nd]. apply E4; assumption.
Qed.

Lemma generate_cims_ok g es u lo hi : NoDup (gn_labels g) -> length (gn_vals g) = length (gn_labels g) ->
  edges_within (gn_labels g) es -> gn_graph g = Some (fresh_graph (gen_structure g es) es) ->
  exists cs, generate_cims g u lo hi = Ok (MkNetgen (gn_labels g) (gn_vals g) (gn_graph g) (Some cs))
    /\ map fst cs = gn_labels g
    /\ forall v, In v (gn_labels g) -> exists so, dict_get cs v = Ok so /\ node_ok (gn_labels g) (gn_vals g) u lo hi es v so.
Proof.
  intros N L W Hg. unfold generate_cims. rewrite Hg.
  destruct (generate_cims_loop_ok g es u lo hi N L W (gn_labels g) 0 0 []) as [cs [E1 [E2 [_ E4]]]].
  { intros j l H. exact H. }
  rewrite E1. cbn [bind]. exists cs. split; [reflexivity|]. split.
  - rewrite E2; [reflexivity|exact N|]. intros l _ [].
  - apply E4, N.
Qed.
