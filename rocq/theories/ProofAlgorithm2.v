(** Candidates that are separated by the empty set play no part (C81). *)
From Verif Require Import Base Lib LibQc ModelStructure ModelGraph ModelCims ModelData ModelParams ModelCache ModelCtpc
  SpecStructure SpecGraph SpecComb SpecParams SpecData SpecCtpc SpecAlgorithm ProofStructure ProofCtpc ProofCtpc2 ProofCache ProofCtpc3 ProofAlgorithm.

Section two.
Variables (ask ask' : label -> list label -> bool * bool) (U : list label).
Hypothesis HA : forall p S, In p U -> incl S U -> ask p S = ask' p S.
Definition agree_on (pr pr' : list label) : Prop := forall p, In p U -> lmem p pr = lmem p pr'.
Lemma agree_cons pr pr' q : agree_on pr pr' -> agree_on (q :: pr) (q :: pr').
Proof. intros H p Hp. unfold lmem. cbn [existsb]. fold (lmem p pr) (lmem p pr'). rewrite (H p Hp). reflexivity. Qed.
Lemma try_all_ext p seps : In p U -> (forall S, In S seps -> incl S U) -> try_all ask p seps = try_all ask' p seps.
Proof.
  intros Hp. induction seps as [|S seps IH]; intros HS; [reflexivity|]. cbn [try_all]. rewrite (HA p S Hp (HS S (or_introl eq_refl))).
  rewrite IH by (intros; apply HS; right; assumption). reflexivity.
Qed.
Lemma round_ext b : forall post pre pr pr', incl (pre ++ post) U -> agree_on pr pr' ->
  fst (one_round ask b pr pre post) = fst (one_round ask' b pr' pre post) /\ agree_on (snd (one_round ask b pr pre post)) (snd (one_round ask' b pr' pre post)).
Proof.
  induction post as [|p post IH]; intros pre pr pr' HU HG; cbn [one_round fst snd]; [split; [reflexivity|exact HG]|].
  assert (Hp : In p U) by (apply HU, in_app_iff; right; left; reflexivity). rewrite (HG p Hp).
  assert (K : incl (pre ++ post) U) by (intros x Hx; apply HU; apply in_app_iff in Hx; apply in_app_iff; destruct Hx; [left|right; right]; assumption).
  assert (K' : incl ((pre ++ [p]) ++ post) U) by (rewrite <- app_assoc; exact HU).
  destruct (lmem p pr'); [apply IH; assumption|]. rewrite (try_all_ext p _ Hp) by (intros S HS x Hx; apply combinations_sub in HS; apply K, (sublist_In _ _ _ HS Hx)).
  set (an := try_all ask' p _). assert (G' : agree_on (if snd an then p :: pr else pr) (if snd an then p :: pr' else pr')) by (destruct (snd an); [apply agree_cons, HG|exact HG]).
  destruct (fst an); apply IH; assumption.
Qed.
Lemma rounds_ext : forall f f' b u pr pr', NoDup u -> incl u U -> agree_on pr pr' -> length u - b < f -> length u - b < f' ->
  rounds ask f b pr u = rounds ask' f' b pr' u.
Proof.
  induction f as [|f IH]; intros f' b u pr pr' HN HU HG Hf Hf'; [lia|]. destruct f' as [|f']; [lia|]. cbn [rounds].
  destruct (Nat.ltb_spec b (length u)) as [Hb|Hb]; [|reflexivity]. destruct (round_ext b u [] pr pr' HU HG) as [E1 E2].
  destruct (round_sub ask b u [] pr HN) as [A [B C]]. cbn [app] in B, C.
  destruct (one_round ask b pr [] u) as [kept p1], (one_round ask' b pr' [] u) as [kept' p1']. cbn [fst snd] in *. subst kept'.
  apply IH; [exact A|intros x Hx; apply HU, B, Hx|exact E2|lia|lia].
Qed.
End two.

Lemma rounds_nil ask f b pr : rounds ask f b pr [] = [].
Proof. destruct f; [reflexivity|]. cbn [rounds length]. destruct b; reflexivity. Qed.

Section drop.
Variables (ask ask' : label -> list label -> bool * bool) (keep : label -> bool).
Lemma round0_drop U : (forall p, In p U -> ask p [] = ask' p []) -> forall post pre pr pr', NoDup post ->
  (forall p, In p post -> keep p = true -> In p U) ->
  (forall p, In p post -> keep p = false -> ~ In p U /\ lmem p pr = false /\ fst (ask p []) = true) -> agree_on U pr pr' ->
  fst (one_round ask 0 pr pre post) = fst (one_round ask' 0 pr' pre (filter keep post))
  /\ agree_on U (snd (one_round ask 0 pr pre post)) (snd (one_round ask' 0 pr' pre (filter keep post))).
Proof.
  intros HA. induction post as [|p post IH]; intros pre pr pr' HN HK HD HG; cbn [filter]; [cbn [one_round fst snd]; auto|].
  apply NoDup_cons_iff in HN as [N1 N2].
  assert (C0 : forall l, combinations 0 l = [[]]) by (intros []; reflexivity).
  assert (T : forall a, try_all a p [[]] = (fst (a p []), snd (a p []))) by (intros a; cbn [try_all fst snd]; destruct (fst (a p [])); [reflexivity|rewrite orb_false_r; reflexivity]).
  assert (HD' : forall pr1, (forall q, q <> p -> lmem q pr1 = lmem q pr) -> forall q, In q post -> keep q = false -> ~ In q U /\ lmem q pr1 = false /\ fst (ask q []) = true).
  { intros pr1 H1 q Hq Kq. destruct (HD q (or_intror Hq) Kq) as [A [B C]]. split; [exact A|]. split; [|exact C]. rewrite H1; [exact B|]. intros ->. contradiction. }
  assert (Hm : forall q, q <> p -> lmem q (if snd (ask p []) then p :: pr else pr) = lmem q pr).
  { intros q Hq. destruct (snd (ask p [])); [|reflexivity]. unfold lmem. cbn [existsb]. destruct (String.eqb_spec q p) as [E|_]; [contradiction|reflexivity]. }
  assert (HK' : forall q, In q post -> keep q = true -> In q U) by (intros q Hq; apply HK; right; exact Hq).
  destruct (keep p) eqn:EK.
  - pose proof (HK p (or_introl eq_refl) EK) as HpU. cbn [one_round]. rewrite (HG p HpU).
    destruct (lmem p pr') eqn:EP; [apply IH; auto|]. rewrite !C0, !T. cbn [fst snd]. rewrite <- (HA p HpU).
    assert (G' : agree_on U (if snd (ask p []) then p :: pr else pr) (if snd (ask p []) then p :: pr' else pr')) by (destruct (snd (ask p [])); [apply agree_cons, HG|exact HG]).
    destruct (fst (ask p [])); apply IH; auto.
  - destruct (HD p (or_introl eq_refl) EK) as [A [B C]]. cbn [one_round]. rewrite B, C0, T, C. cbn [fst snd]. apply IH; auto.
    intros q Hq. rewrite <- (HG q Hq). apply Hm. intros ->. contradiction.
Qed.
Lemma ctpc_drop pr pr' u : NoDup u -> (forall p, In p u -> keep p = false -> lmem p pr = false /\ fst (ask p []) = true) ->
  agree_on (filter keep u) pr pr' -> (forall p S, In p (filter keep u) -> incl S (filter keep u) -> ask p S = ask' p S) ->
  ctpc_parents ask pr u = ctpc_parents ask' pr' (filter keep u).
Proof.
  intros HN HD HG HA. unfold ctpc_parents. destruct u as [|x u0] eqn:EU; [reflexivity|]. rewrite <- EU in *.
  set (U := filter keep u) in *.
  assert (NU : NoDup U) by (apply NoDup_filter', HN).
  destruct (round0_drop U (fun p Hp => HA p [] Hp (incl_nil_l _)) u [] pr pr' HN) as [E1 E2].
  { intros p Hp Kp. apply filter_In. auto. }
  { intros p Hp Kp. split; [intros K; apply filter_In in K; destruct K; congruence|apply HD; assumption]. }
  { exact HG. }
  fold U in E1, E2. destruct (round_sub ask' 0 U [] pr' NU) as [A [B C]]. cbn [app] in B, C.
  cbn [rounds]. assert (L : 0 <? length u = true) by (rewrite EU; reflexivity). rewrite L.
  destruct (one_round ask 0 pr [] u) as [k1 p1], (one_round ask' 0 pr' [] U) as [k2 p2] eqn:ER. cbn [fst snd] in *. subst k1.
  assert (LU : length U <= length u).
  { unfold U. clear. induction u as [|a u IH]; cbn [filter]; [lia|]. destruct (keep a); cbn [length]; lia. }
  destruct (Nat.ltb_spec 0 (length U)) as [HL|HL].
  - apply (rounds_ext ask ask' U HA); [exact A|exact B|exact E2|lia|lia].
  - assert (k2 = []) by (apply length_zero_iff_nil; lia). subst k2. rewrite rounds_nil. symmetry. apply length_zero_iff_nil. lia.
Qed.
End drop.
