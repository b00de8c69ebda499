(** The cached search behaves like the search that recomputes every parameter (C20). *)
From Verif Require Import Base Lib ModelStructure ModelGraph ModelCims ModelData ModelParams ModelCache ModelCtpc
  SpecStructure SpecGraph SpecComb SpecParams SpecCtpc
  ProofStructure ProofGraph ProofComb ProofIndex ProofParams3 ProofCache ProofCtpc.

Lemma same_set_length (a b : list label) : NoDup a -> NoDup b -> same_set a b -> length a = length b.
Proof. intros H1 H2 H. apply Permutation_length. apply NoDup_Permutation; assumption. Qed.
Lemma cached_ext ch K K' : same_set K K' -> cached ch K -> cached ch K'.
Proof. unfold cached. intros H. rewrite (assoc_set_ext _ _ _ H). auto. Qed.
Lemma others_In s c l : In l (others s c) <-> In l (nodes_labels s) /\ l <> c.
Proof. unfold others. rewrite filter_In, negb_true_iff, String.eqb_neq. tauto. Qed.

(** the sub-list of [u] that contains exactly [K] minus [p] *)
Lemma pick_sublist u p K : NoDup u -> NoDup K -> incl K u -> In p K ->
  exists S, sublist S u /\ ~ In p S /\ length S = length K - 1 /\ same_set K (p :: S).
Proof.
  intros Hu HK Hi Hp. set (S := filter (fun x => lmem x K && negb (String.eqb x p)) u).
  assert (HS : forall x, In x S <-> In x K /\ x <> p).
  { intros x. unfold S. rewrite filter_In, andb_true_iff, lmem_In, negb_true_iff, String.eqb_neq. specialize (Hi x). tauto. }
  assert (Hss : same_set K (p :: S)).
  { intros x. cbn [In]. rewrite HS. destruct (string_dec x p) as [->|n]; [tauto|]. split; [tauto|]. intros [K1|K1]; [congruence|tauto]. }
  exists S. split; [apply sublist_filter|]. split; [rewrite HS; tauto|]. split; [|exact Hss].
  assert (HN : NoDup (p :: S)) by (constructor; [rewrite HS; tauto|apply NoDup_filter', Hu]).
  pose proof (same_set_length _ _ HK HN Hss) as E. cbn [length] in E. lia.
Qed.

Section sim.
Variables (e : cb_env) (tot : nat) (v : label).
Let s := e_struct e.
Let t := e_traj e.
Hypothesis Hwf : wf_structure s.
Hypothesis Hv : In v (nodes_labels s).

Let ctc := fun st p ps cs i j => complete_test e st p v ps cs tot i j.
Let cti := fun m p ps cs i j => ideal_test e tot v m p ps cs i j.
Let idm := fun m : list (list bool) => m.

Definition rem (m : list (list bool)) (q : label) : Prop := mat_get m (idx_of s q) (idx_of s v) = Ok true.

Section level.
Variables (b : nat) (ub : list label) (mb : list (list bool)).
Hypothesis Hub : incl ub (others s v).

(** every set of size b around a parent that was removable at the start of the level is cached *)
Definition invA (ch : cache (set_of_cims cim)) : Prop :=
  forall q K, In q ub -> rem mb q -> NoDup K -> incl K ub -> length K = b -> In q K -> cached ch K.
Definition invB (ch : cache (set_of_cims cim)) : Prop :=
  forall K, NoDup K -> length K = S b -> cached ch K ->
    exists p' S', same_set K (p' :: S') /\ ~ In p' S' /\ In p' ub /\ rem mb p' /\ cached ch S'.
Definition invD (ch : cache (set_of_cims cim)) : Prop := forall K, NoDup K -> S b < length K -> ~ cached ch K.
Definition invC (ch : cache (set_of_cims cim)) (m : list (list bool)) (u : list label) (q : label) : Prop :=
  rem m q -> forall K, NoDup K -> incl K u -> length K = S b -> In q K -> cached ch K.

Lemma no_unbound ch u p S : invA ch -> invB ch -> NoDup u -> incl u ub -> In p u -> rem mb p ->
  sublist S u -> ~ In p S -> length S = b -> cached ch (p :: S) -> cached ch S.
Proof.
  intros HA HB Hu Hi Hp Hr HS HpS Hl Hc.
  assert (NS : NoDup S) by (eapply sublist_NoDup; eassumption).
  destruct (HB (p :: S)) as [p' [S' [H1 [H2 [H3 [H4 H5]]]]]]; [constructor; assumption|simpl; lia|exact Hc|].
  destruct (string_dec p' p) as [->|Hn].
  - apply (cached_ext ch S' S); [|exact H5]. intros x. specialize (H1 x). cbn [In] in H1.
    destruct (string_dec p x) as [<-|]; tauto.
  - assert (Hin : In p' S). { specialize (H1 p'). cbn [In] in H1. destruct H1 as [_ H1]. destruct H1 as [H1|H1]; [auto|congruence|exact H1]. }
    apply (HA p' S); try assumption. intros x Hx. apply Hi. eapply sublist_In; eassumption.
Qed.

Lemma try_sets_sim u p cs i j : NoDup u -> incl u ub -> In p u -> rem mb p -> i = idx_of s p -> j = idx_of s v ->
  forall sets m ch,
  (forall S, In S sets -> sublist S u /\ ~ In p S /\ length S = b) ->
  valid_cache s t tot v ch -> invA ch -> invB ch -> invD ch ->
  match try_sets cti m p sets cs i j with
  | Ok (r, m') => exists ch', try_sets ctc (MkState m ch) p sets cs i j = Ok (r, MkState m' ch')
      /\ valid_cache s t tot v ch' /\ invA ch' /\ invB ch' /\ invD ch'
      /\ (forall K, cached ch K -> cached ch' K)
      /\ (r = false -> forall S, In S sets -> cached ch' (p :: S))
      /\ (forall q, rem m' q -> rem m q)
  | Err x => try_sets ctc (MkState m ch) p sets cs i j = Err x
  end.
Proof.
  intros Hu Hi Hp Hr Ei Ej. induction sets as [|S sets IH]; intros m ch Hsets Hval HA HB HD; cbn [try_sets].
  - exists ch. split; [reflexivity|]. split; [exact Hval|]. split; [exact HA|]. split; [exact HB|]. split; [exact HD|].
    split; [intros K HK; exact HK|]. split; [intros _ S []|intros q Hq; exact Hq].
  - destruct (Hsets S (or_introl eq_refl)) as [S1 [S2 S3]].
    assert (NS : NoDup S) by (eapply sublist_NoDup; eassumption).
    assert (Hto : test_ok s v p S).
    { apply Hi, Hub, others_In in Hp as Hp'. split; [exact Hv|]. split; [tauto|]. split.
      - constructor; [|constructor; assumption]. intros [K|K]; [tauto|].
        apply (sublist_In _ _ _ S1), Hi, Hub, others_In in K. tauto.
      - intros q K. apply (sublist_In _ _ _ S1), Hi, Hub, others_In in K. tauto. }
    assert (Hct : ctc (MkState m ch) p S cs i j = with_cache (cache_after e tot v p S ch) (cti m p S cs i j)).
    { unfold ctc, cti. rewrite complete_test_spec by assumption.
      destruct (assoc_set (entries ch) (p :: S)) eqn:A2; [|reflexivity]. destruct (assoc_set (entries ch) S) eqn:A1; [reflexivity|].
      exfalso. apply (no_unbound ch u p S HA HB Hu Hi Hp Hr S1 S2 S3); [unfold cached; congruence|exact A1]. }
    rewrite Hct. destruct (cti m p S cs i j) as [[r m1]|x] eqn:EI; cbn [bind with_cache]; [|reflexivity].
    set (ch1 := cache_after e tot v p S ch).
    pose proof (fun K => cache_after_cached e tot v p S ch m cs i j (r, m1) K Hval EI) as Hca. fold ch1 in Hca.
    assert (Hm : forall q, rem m1 q -> rem m q).
    { intros q Hq. unfold cti in EI. rewrite ideal_verdict in EI. apply apply_mark_get in EI as [_ EI]. destruct (EI (idx_of s q) (idx_of s v)) as [K|[_ [_ K]]].
      - unfold rem in *. congruence. - unfold rem in Hq. congruence. }
    assert (HA1 : invA ch1) by (intros q K K1 K2 K3 K4 K5 K6; apply Hca; left; eapply HA; eassumption).
    assert (HB1 : invB ch1).
    { intros K NK LK CK. apply Hca in CK as [CK|[CK|CK]].
      - destruct (HB K NK LK CK) as [p' [S' [B1 [B2 [B3 [B4 B5]]]]]]. exists p', S'. repeat (split; [assumption|]). apply Hca; left; exact B5.
      - exists p, S. split; [exact CK|]. split; [exact S2|]. split; [apply Hi, Hp|]. split; [exact Hr|]. apply Hca. right; right. apply same_set_refl.
      - exfalso. pose proof (same_set_length K S NK NS CK). lia. }
    assert (HD1 : invD ch1).
    { intros K NK LK CK. apply Hca in CK as [CK|[CK|CK]]; [apply (HD K NK LK CK)| |].
      - pose proof (same_set_length K (p :: S) NK ltac:(constructor; assumption) CK) as E. cbn [length] in E. lia.
      - pose proof (same_set_length K S NK NS CK). lia. }
    assert (Hval1 : valid_cache s t tot v ch1) by (apply cache_after_valid, Hval).
    destruct r.
    + exists ch1. split; [reflexivity|]. split; [exact Hval1|]. split; [exact HA1|]. split; [exact HB1|]. split; [exact HD1|].
      split; [intros K HK; apply Hca; left; exact HK|]. split; [discriminate|exact Hm].
    + specialize (IH m1 ch1 (fun S' HS' => Hsets S' (or_intror HS')) Hval1 HA1 HB1 HD1).
      destruct (try_sets cti m1 p sets cs i j) as [[r2 m2]|x]; [|exact IH].
      destruct IH as [ch2 [I1 [I2 [I3 [I4 [I5 [I6 [I7 I8]]]]]]]]. exists ch2. split; [exact I1|]. repeat (split; [assumption|]).
      split; [intros K HK; apply I6, Hca; left; exact HK|]. split; [|intros q Hq; apply Hm, I8, Hq].
      intros E S' [<-|HS']; [|apply I7; assumption]. apply I6, Hca. right; left. apply same_set_refl.
Qed.

Lemma inner_sim cs : forall fuel idx u g m ch,
  NoDup u -> incl u ub -> (forall q, rem m q -> rem mb q) ->
  valid_cache s t tot v ch -> invA ch -> invB ch -> invD ch ->
  (forall k q, k < idx -> nth_error u k = Some q -> invC ch m u q) ->
  match inner_loop s v idm cti fuel b cs idx u g m with
  | Ok (u', g', m') => exists ch', inner_loop s v st_matrix ctc fuel b cs idx u g (MkState m ch) = Ok (u', g', MkState m' ch')
      /\ valid_cache s t tot v ch' /\ invD ch' /\ NoDup u' /\ incl u' u /\ (forall q, rem m' q -> rem m q)
      /\ (forall q, In q u' -> invC ch' m' u' q)
  | Err x => inner_loop s v st_matrix ctc fuel b cs idx u g (MkState m ch) = Err x
  end.
Proof.
  induction fuel as [|fuel IH]; intros idx u g m ch Hu Hi Hm Hval HA HB HD HC; [reflexivity|].
  cbn [inner_loop]. destruct (Nat.ltb_spec idx (length u)) as [Hlt|Hge].
  2:{ exists ch. split; [reflexivity|]. split; [exact Hval|]. split; [exact HD|]. split; [exact Hu|]. split; [intros x Hx; exact Hx|]. split; [auto|].
      intros q Hq. apply In_nth_error in Hq as [k Hk]. apply (HC k q); [|exact Hk].
      assert (k < length u) by (apply nth_error_Some; congruence). lia. }
  destruct (nth_res_lt u idx Hlt) as [p Hp]. rewrite Hp. cbn [bind]. apply nth_res_ok in Hp.
  assert (Hpu : In p u) by (eapply nth_error_In, Hp).
  assert (Hpl : In p (nodes_labels s)) by (apply Hi, Hub, others_In in Hpu; tauto).
  destruct (wf_lookup s p Hwf Hpl) as [_ [_ [_ [_ [Ei _]]]]]. rewrite Ei. cbn [bind].
  destruct (wf_lookup s v Hwf Hv) as [_ [_ [_ [_ [Ej _]]]]]. rewrite Ej. cbn [bind st_matrix]. change (idm m) with m.
  destruct (mat_get m (idx_of s p) (idx_of s v)) as [rm|x] eqn:EM; cbn [bind]; [|reflexivity].
  destruct rm.
  - assert (Hr : rem mb p) by (apply Hm; exact EM).
    destruct (proj1 (subsets_spec u b p Hu) Hpu) as [L [EL [_ HL]]]. rewrite EL. cbn [bind].
    pose proof (try_sets_sim u p cs _ _ Hu Hi Hpu Hr eq_refl eq_refl L m ch) as HT.
    specialize (HT (fun S HS => proj1 (HL S) HS) Hval HA HB HD).
    destruct (try_sets cti m p L cs (idx_of s p) (idx_of s v)) as [[r m1]|x]; cbn [bind].
    2:{ rewrite HT. reflexivity. }
    destruct HT as [ch1 [-> [V1 [A1 [B1 [D1 [Mono [All Hm1]]]]]]]]. cbn [bind]. destruct r.
    + rewrite (py_remove_filter p u Hu Hpu). cbn [bind]. set (u1 := filter (fun x => negb (String.eqb x p)) u).
      assert (Hi1 : incl u1 u) by (intros x Hx; apply filter_In in Hx; tauto).
      specialize (IH idx u1 (ng_remove_edges g [(p, v)]) m1 ch1).
      destruct (nth_error_split u idx Hp) as [l1 [l2 [Eu Hl1]]].
      assert (Eu1 : u1 = l1 ++ l2).
      { unfold u1. rewrite Eu in Hu |- *. rewrite filter_app. cbn [filter]. rewrite String.eqb_refl. cbn [negb].
        pose proof (NoDup_remove_2 _ _ _ Hu) as Hnp. rewrite in_app_iff in Hnp.
        rewrite !filter_true; [reflexivity| |]; intros a Ha; apply negb_true_iff, String.eqb_neq; intros ->; tauto. }
      assert (HC1 : forall k q, k < idx -> nth_error u1 k = Some q -> invC ch1 m1 u1 q).
      { intros k q Hk Hq Hrq K K1 K2 K3 K4. apply Mono. apply (HC k q Hk).
        - rewrite Eu1, nth_error_app1 in Hq by lia. rewrite Eu, nth_error_app1 by lia. exact Hq.
        - apply Hm1, Hrq. - exact K1. - intros x Hx. apply Hi1, K2, Hx. - exact K3. - exact K4. }
      specialize (IH (NoDup_filter' _ _ Hu) (fun x Hx => Hi x (Hi1 x Hx)) (fun q Hq => Hm q (Hm1 q Hq)) V1 A1 B1 D1 HC1).
      destruct (inner_loop s v idm cti fuel b cs idx u1 (ng_remove_edges g [(p, v)]) m1) as [[[u2 g2] m2]|x]; [|exact IH].
      destruct IH as [ch2 [I1 [I2 [I3 [I4 [I5 [I6 I7]]]]]]]. exists ch2. split; [exact I1|]. split; [exact I2|]. split; [exact I3|]. split; [exact I4|].
      split; [intros x Hx; apply Hi1, I5, Hx|]. split; [intros q Hq; apply Hm1, I6, Hq|exact I7].
    + specialize (IH (S idx) u g m1 ch1 Hu Hi (fun q Hq => Hm q (Hm1 q Hq)) V1 A1 B1 D1).
      assert (HC1 : forall k q, k < S idx -> nth_error u k = Some q -> invC ch1 m1 u q).
      { intros k q Hk Hq Hrq K K1 K2 K3 K4. destruct (Nat.eq_dec k idx) as [->|Hne].
        - rewrite Hp in Hq. injection Hq as <-. destruct (pick_sublist u p K Hu K1 K2 K4) as [S [P1 [P2 [P3 P4]]]].
          apply (cached_ext ch1 (p :: S)); [apply same_set_sym, P4|]. apply (All eq_refl). apply HL. split; [exact P1|]. split; [exact P2|]. lia.
        - apply Mono. apply (HC k q ltac:(lia) Hq (Hm1 q Hrq) K K1 K2 K3 K4). }
      specialize (IH HC1).
      destruct (inner_loop s v idm cti fuel b cs (S idx) u g m1) as [[[u2 g2] m2]|x]; [|exact IH].
      destruct IH as [ch2 [I1 [I2 [I3 [I4 [I5 [I6 I7]]]]]]]. exists ch2. repeat (split; [assumption|]).
      split; [intros q Hq; apply Hm1, I6, Hq|exact I7].
  - cbn [bind]. specialize (IH (S idx) u g m ch Hu Hi Hm Hval HA HB HD). apply IH.
    intros k q Hk Hq Hrq. destruct (Nat.eq_dec k idx) as [->|Hne].
    + rewrite Hp in Hq. injection Hq as <-. unfold rem in Hrq. congruence.
    + apply (HC k q ltac:(lia) Hq Hrq).
Qed.
End level.

Lemma outer_sim cs n : forall fuel b u g m ch,
  NoDup u -> incl u (others s v) -> valid_cache s t tot v ch ->
  invA b u m ch -> (forall K, NoDup K -> b < length K -> ~ cached ch K) ->
  match outer_loop s v idm cti fuel n b cs u g m with
  | Ok (u', g', m') => exists ch', outer_loop s v st_matrix ctc fuel n b cs u g (MkState m ch) = Ok (u', g', MkState m' ch')
  | Err x => outer_loop s v st_matrix ctc fuel n b cs u g (MkState m ch) = Err x
  end.
Proof.
  induction fuel as [|fuel IH]; intros b u g m ch Hu Hi Hval HA HD; [reflexivity|].
  cbn [outer_loop]. destruct (Nat.ltb_spec b (length u)); [|eauto].
  pose proof (inner_sim b u m Hi cs n 0 u g m ch Hu (fun x Hx => Hx) (fun q Hq => Hq) Hval HA) as H0.
  assert (HB : invB b u m ch) by (intros K K1 K2 K3; exfalso; apply (HD K K1); [lia|exact K3]).
  assert (HD' : invD b ch) by (intros K K1 K2; apply (HD K K1); lia).
  specialize (H0 HB HD' ltac:(intros k q Hk; lia)).
  destruct (inner_loop s v idm cti n b cs 0 u g m) as [[[u1 g1] m1]|x]; cbn [bind].
  2:{ rewrite H0. reflexivity. }
  destruct H0 as [ch1 [-> [V1 [D1 [N1 [I1 [M1 C1]]]]]]]. cbn [bind]. apply IH; try assumption.
  - intros x Hx. apply Hi, I1, Hx.
  - intros q K K1 K2 K3 K4 K5 K6. apply (C1 q K1 K2 K K3 K4 K5 K6).
Qed.

Definition with_empty (r : result (list edge * list (list bool))) : result (list edge * cb_state) :=
  match r with Ok (es, m) => Ok (es, MkState m empty_cache) | Err x => Err x end.

(** The optimizer with the cache is the optimizer on the matrix alone. *)
Lemma optimize_ideal m : optimize_structure e tot (MkState m empty_cache) v = with_empty (optimize_with s v idm cti m).
Proof.
  unfold optimize_structure, optimize_with. fold s.
  destruct (wf_lookup s v Hwf Hv) as [_ [_ [_ [_ [_ Ec]]]]]. rewrite Ec. cbn [bind].
  fold (others s v). set (n := S (length (others s v))). set (g0 := fold_left _ (others s v) (new_netgraph s)).
  pose proof (outer_sim (val_of s v) n n 0 (others s v) g0 m empty_cache) as H.
  specialize (H (NoDup_filter' _ _ (proj1 Hwf)) (fun x Hx => Hx) (valid_empty _ _ _ _)).
  specialize (H ltac:(intros q K _ _ _ _ HK Hin; destruct K; [contradiction|discriminate])).
  specialize (H ltac:(intros K _ _ HK; apply HK; reflexivity)). unfold ctc in H.
  destruct (outer_loop s v idm cti n n 0 (val_of s v) (others s v) g0 m) as [[[u' g'] m']|x]; cbn [bind with_empty].
  - destruct H as [ch' ->]. reflexivity.
  - rewrite H. reflexivity.
Qed.
End sim.
