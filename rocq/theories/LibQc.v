(** Linear arithmetic over Qc, and facts about rounding. *)
From Coq Require Import Qround Lqa.
From Verif Require Import Base Lib ModelCims ModelGenerator ProofParams ProofParams2.

Lemma this_plus a b : (this (a + b)%Qc == this a + this b)%Q. Proof. apply Qred_correct. Qed.
Lemma this_mult a b : (this (a * b)%Qc == this a * this b)%Q. Proof. apply Qred_correct. Qed.
Lemma this_opp a : (this (- a)%Qc == - this a)%Q. Proof. apply Qred_correct. Qed.
Lemma this_minus a b : (this (a - b)%Qc == this a - this b)%Q.
Proof. unfold Qcminus. rewrite this_plus, this_opp. reflexivity. Qed.
Lemma this_Q2Qc q : (this (Q2Qc q) == q)%Q. Proof. apply Qred_correct. Qed.
Lemma this_Z z : (this (Qc_of_Z z) == inject_Z z)%Q. Proof. apply Qred_correct. Qed.

Ltac qc_hyps :=
  repeat match goal with
  | H : @eq Qc ?a ?b |- _ =>
      let K := fresh in assert (K : (this a == this b)%Q) by (rewrite H; reflexivity); clear H
  | H : Qcle ?a ?b |- _ => change (Qle (this a) (this b)) in H
  | H : Qclt ?a ?b |- _ => change (Qlt (this a) (this b)) in H
  end.
Ltac qc_rw :=
  repeat match goal with
  | H : context [this (Qcplus _ _)] |- _ => setoid_rewrite this_plus in H
  | H : context [this (Qcminus _ _)] |- _ => setoid_rewrite this_minus in H
  | H : context [this (Qcopp _)] |- _ => setoid_rewrite this_opp in H
  | H : context [this (Qcmult _ _)] |- _ => setoid_rewrite this_mult in H
  | H : context [this (Q2Qc _)] |- _ => setoid_rewrite this_Q2Qc in H
  | H : context [this (Qc_of_Z _)] |- _ => setoid_rewrite this_Z in H
  | |- context [this (Qcplus _ _)] => setoid_rewrite this_plus
  | |- context [this (Qcminus _ _)] => setoid_rewrite this_minus
  | |- context [this (Qcopp _)] => setoid_rewrite this_opp
  | |- context [this (Qcmult _ _)] => setoid_rewrite this_mult
  | |- context [this (Q2Qc _)] => setoid_rewrite this_Q2Qc
  | |- context [this (Qc_of_Z _)] => setoid_rewrite this_Z
  end.
Ltac qclra :=
  match goal with
  | |- @eq Qc _ _ => apply Qc_is_canon
  | |- Qcle ?a ?b => change (Qle (this a) (this b))
  | |- Qclt ?a ?b => change (Qlt (this a) (this b))
  | |- _ <> _ => let H := fresh in intro H
  | |- ~ _ => let H := fresh in intro H
  | _ => idtac
  end; qc_hyps; qc_rw; lra.

Goal forall a b c : Qc, (a <= b)%Qc -> (b + 1 < c)%Qc -> (a + Q2Qc (1#2) < c)%Qc. Proof. intros. qclra. Qed.
Goal forall a b : Qc, (a + b - b)%Qc = a. Proof. intros. qclra. Qed.

Lemma Qle_bool_Qc a b : Qle_bool (this a) (this b) = true <-> (a <= b)%Qc.
Proof. apply Qle_bool_iff. Qed.
Lemma Qle_bool_Qc_false a b : Qle_bool (this a) (this b) = false <-> (b < a)%Qc.
Proof.
  split; intro H.
  - apply Qcnot_le_lt. intro K. apply Qle_bool_Qc in K. congruence.
  - destruct (Qle_bool a b) eqn:E; [|reflexivity]. apply Qle_bool_Qc in E. exfalso. exact (Qclt_not_le _ _ H E).
Qed.
Lemma qc_le_iff a b : qc_le a b = true <-> (a <= b)%Qc. Proof. apply Qle_bool_Qc. Qed.
Lemma qc_le_false a b : qc_le a b = false <-> (b < a)%Qc. Proof. apply Qle_bool_Qc_false. Qed.
Lemma Qc_eq_bool_iff a b : Qc_eq_bool a b = true <-> a = b.
Proof. split; [apply Qc_eq_bool_correct|]. intros ->. unfold Qc_eq_bool. destruct (Qc_eq_dec b b); congruence. Qed.
Lemma Qc_eq_bool_false a b : Qc_eq_bool a b = false <-> a <> b.
Proof. unfold Qc_eq_bool. destruct (Qc_eq_dec a b); split; congruence. Qed.

Lemma Qc_of_Z_le a b : (Qc_of_Z a <= Qc_of_Z b)%Qc <-> (a <= b)%Z.
Proof.
  unfold Qcle. rewrite !this_Z. unfold Qle. cbn [Qnum Qden inject_Z]. lia.
Qed.
Lemma Qc_of_Z_lt a b : (Qc_of_Z a < Qc_of_Z b)%Qc <-> (a < b)%Z.
Proof.
  unfold Qclt. rewrite !this_Z. unfold Qlt. cbn [Qnum Qden inject_Z]. lia.
Qed.
Lemma Qc_of_Z_inj a b : Qc_of_Z a = Qc_of_Z b -> a = b.
Proof. intro H. assert ((Qc_of_Z a <= Qc_of_Z b)%Qc /\ (Qc_of_Z b <= Qc_of_Z a)%Qc) as [H1 H2] by (rewrite H; split; apply Qcle_refl).
  apply (proj1 (Qc_of_Z_le _ _)) in H1, H2. lia. Qed.
Lemma Qc_of_Z_mult a b : Qc_of_Z (a * b) = (Qc_of_Z a * Qc_of_Z b)%Qc.
Proof. apply Qc_is_canon. qc_rw. rewrite inject_Z_mult. reflexivity. Qed.

Lemma floor_bounds q : (Qc_of_Z (Qfloor (this q)) <= q)%Qc /\ (q < Qc_of_Z (Qfloor (this q)) + 1)%Qc.
Proof.
  split.
  - unfold Qcle. rewrite this_Z. apply Qfloor_le.
  - unfold Qclt. pose proof (Qlt_floor (this q)) as H. rewrite inject_Z_plus in H. qc_rw. exact H.
Qed.

(** rint is a nearest integer *)
Lemma rint_close q : (- Q2Qc (1#2) <= Qc_of_Z (rint q) - q)%Qc /\ (Qc_of_Z (rint q) - q <= Q2Qc (1#2))%Qc.
Proof.
  destruct (floor_bounds q) as [L U]. unfold rint. set (f := Qfloor q) in *.
  assert (H1 : Qc_of_Z (f + 1) = (Qc_of_Z f + 1)%Qc).
  { rewrite Qc_of_Z_add. f_equal. }
  destruct (q - Qc_of_Z f ?= Q2Qc (1 # 2))%Qc eqn:C.
  - apply Qceq_alt in C. destruct (Z.even f); rewrite ?H1; split; qclra.
  - apply Qclt_alt in C. split; qclra.
  - apply Qcgt_alt in C. rewrite H1. split; qclra.
Qed.

(** ties go to the even neighbour *)
Lemma rint_tie z : rint (Qc_of_Z z + Q2Qc (1#2))%Qc = if Z.even z then z else (z + 1)%Z.
Proof.
  assert (E : Qfloor (this (Qc_of_Z z + Q2Qc (1#2))%Qc) = z).
  { pose proof (floor_bounds (Qc_of_Z z + Q2Qc (1#2))%Qc) as [L U]. set (f := Qfloor (this _)) in *.
    assert (A : (Qc_of_Z f < Qc_of_Z z + 1)%Qc) by qclra.
    assert (B : (Qc_of_Z z < Qc_of_Z f + 1)%Qc) by qclra.
    change 1%Qc with (Qc_of_Z 1) in A, B. rewrite <- Qc_of_Z_add in A, B. apply (proj1 (Qc_of_Z_lt _ _)) in A, B. lia. }
  unfold rint. rewrite E.
  replace (Qc_of_Z z + Q2Qc (1 # 2) - Qc_of_Z z)%Qc with (Q2Qc (1#2)) by qclra.
  destruct (Q2Qc (1#2) ?= Q2Qc (1#2))%Qc eqn:C; [reflexivity| |].
  - apply Qclt_alt in C. exfalso. exact (Qclt_not_eq _ _ C eq_refl).
  - apply Qcgt_alt in C. exfalso. exact (Qclt_not_eq _ _ C eq_refl).
Qed.

Lemma rint_mono a b : (a <= b)%Qc -> (rint a <= rint b)%Z.
Proof.
  intro H. destruct (Z.le_gt_cases (rint a) (rint b)) as [|G]; [assumption|exfalso].
  destruct (rint_close a) as [A1 A2], (rint_close b) as [B1 B2].
  assert (K : (Qc_of_Z (rint b) + 1 <= Qc_of_Z (rint a))%Qc).
  { change 1%Qc with (Qc_of_Z 1). rewrite <- Qc_of_Z_add. apply (proj2 (Qc_of_Z_le _ _)). lia. }
  (* then a = rint a - 1/2 = rint b + 1/2 = b: a tie, equal *)
  assert (Eab : a = b) by (apply Qcle_antisym; [exact H|qclra]). subst b. lia.
Qed.

Lemma rint_Z z : rint (Qc_of_Z z) = z.
Proof.
  destruct (rint_close (Qc_of_Z z)) as [A B]. set (r := rint (Qc_of_Z z)) in *.
  assert (H1 : (Qc_of_Z r < Qc_of_Z (z + 1))%Qc) by (rewrite Qc_of_Z_add; change (Qc_of_Z 1) with 1%Qc; qclra).
  assert (H2 : (Qc_of_Z z < Qc_of_Z (r + 1))%Qc) by (rewrite Qc_of_Z_add; change (Qc_of_Z 1) with 1%Qc; qclra).
  apply (proj1 (Qc_of_Z_lt _ _)) in H1, H2. lia.
Qed.


Lemma ten4 : Q2Qc 10000 <> 0%Qc. Proof. intro H. discriminate H. Qed.
Lemma Qcdiv_mult a b : b <> 0%Qc -> (a / b * b)%Qc = a.
Proof. intro. field. assumption. Qed.
Lemma around4_scaled q : (around4 q * Q2Qc 10000)%Qc = Qc_of_Z (rint (q * Q2Qc 10000)).
Proof. unfold around4. apply Qcdiv_mult, ten4. Qed.

Lemma around4_close q : (- Q2Qc (1#20000) <= around4 q - q)%Qc /\ (around4 q - q <= Q2Qc (1#20000))%Qc.
Proof.
  pose proof (around4_scaled q) as E. destruct (rint_close (q * Q2Qc 10000)%Qc) as [A B]. split; qclra.
Qed.
Lemma around4_mono a b : (a <= b)%Qc -> (around4 a <= around4 b)%Qc.
Proof.
  intro H. pose proof (around4_scaled a) as Ea. pose proof (around4_scaled b) as Eb.
  assert (K : (Qc_of_Z (rint (a * Q2Qc 10000)) <= Qc_of_Z (rint (b * Q2Qc 10000)))%Qc).
  { apply (proj2 (Qc_of_Z_le _ _)), rint_mono. qclra. }
  rewrite <- Ea, <- Eb in K. clear Ea Eb. generalize dependent (around4 a). generalize dependent (around4 b).
  intros. qclra.
Qed.
Lemma around4_0 : around4 0%Qc = 0%Qc.
Proof. apply Qc_is_canon. vm_compute. reflexivity. Qed.
Lemma around4_nonneg q : (0 <= q)%Qc -> (0 <= around4 q)%Qc.
Proof. intro H. rewrite <- around4_0. apply around4_mono, H. Qed.
