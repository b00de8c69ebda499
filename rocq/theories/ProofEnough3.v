(** C88: one more parent, on the data and on copies of it. *)
From Coq Require Import Reals Lra.
From Verif Require Import Base Lib LibQc ModelStructure ModelGraph ModelCims ModelData ModelParams ModelCache ModelCtpc ModelSearch ModelFamScore
  SpecStructure SpecGraph SpecComb SpecParams SpecData SpecCtpc SpecSearch SpecFamScore SpecRedundant SpecCoding SpecInvariance SpecBias SpecEnough SpecFloating
  ProofStructure ProofGraph ProofComb ProofParams ProofParams2 ProofParams3 ProofConserve ProofCtpc ProofCtpc2 ProofCtpc4 ProofFamScore ProofFamScore2 ProofRedundant
  ProofSearch ProofSearch3 ProofCache ProofCoding ProofCoding2 ProofRedundant2 ProofFew ProofInvariance ProofUnit ProofUnit3 ProofIndep ProofBias ProofAsymp ProofEnough ProofEnough2.
Close Scope R_scope. Open Scope nat_scope.

(** ** statistics only see which steps a situation selects *)
Definition step_in (rs : list raw) (ab : (Qc * list Z) * (Qc * list Z)) : Prop := exists r, In r rs /\ In ab (steps r).
Lemma dwell_same rs c1 v1 c2 v2 : (forall ab, step_in rs ab -> row_shows (snd (fst ab)) c1 v1 = row_shows (snd (fst ab)) c2 v2) -> raw_dwell rs c1 v1 = raw_dwell rs c2 v2.
Proof.
  intros H. unfold raw_dwell. f_equal. apply map_ext_in. intros r Hr. do 2 f_equal. apply filter_ext_In. intros ab Hab. apply H. exists r. auto.
Qed.
Lemma jumps_same rs ni y c1 v1 c2 v2 : (forall ab, step_in rs ab -> row_shows (snd (fst ab)) c1 v1 = row_shows (snd (fst ab)) c2 v2) -> raw_jumps rs ni y c1 v1 = raw_jumps rs ni y c2 v2.
Proof.
  intros H. unfold raw_jumps. f_equal. apply map_ext_in. intros r Hr. do 2 f_equal. apply filter_ext_In. intros ab Hab. f_equal. apply H. exists r. auto.
Qed.
Lemma dwell_some rs cols vals : (0 < raw_dwell rs cols vals)%Qc -> exists ab, step_in rs ab /\ row_shows (snd (fst ab)) cols vals = true.
Proof.
  unfold raw_dwell. intros H. assert (G : forall l, (forall r, In r l -> In r rs) -> (exists ab, step_in rs ab /\ row_shows (snd (fst ab)) cols vals = true) \/ Qcsum (map (fun r => Qcsum (map (fun ab => (fst (snd ab) - fst (fst ab))%Qc) (filter (fun ab => row_shows (snd (fst ab)) cols vals) (steps r)))) l) = 0%Qc).
  { induction l as [|r l IH]; intros HI; [right; reflexivity|]. destruct (IH (fun a Ha => HI a (or_intror Ha))) as [E|E]; [left; exact E|].
    destruct (filter (fun ab => row_shows (snd (fst ab)) cols vals) (steps r)) as [|ab z] eqn:EF.
    - right. cbn [map]. rewrite EF. unfold Qcsum in *. cbn [map fold_right]. rewrite E. ring.
    - left. exists ab. assert (I : In ab (filter (fun ab => row_shows (snd (fst ab)) cols vals) (steps r))) by (rewrite EF; left; reflexivity). apply filter_In in I as [I1 I2]. split; [exists r; split; [apply HI; left; reflexivity|exact I1]|exact I2]. }
  destruct (G rs (fun r Hr => Hr)) as [E|E]; [exact E|]. rewrite E in H. discriminate H.
Qed.
Lemma dwell_jumps rs ni y cols vals : Forall clock_strict rs -> raw_dwell rs cols vals = 0%Qc -> raw_jumps rs ni y cols vals = 0%Z.
Proof.
  intros HC. unfold raw_dwell, raw_jumps. induction HC as [|r rs Hr HC IH]; [reflexivity|]. intros H. cbn [map] in *. rewrite Qcsum_cons in H.
  set (A := Qcsum (map (fun ab => (fst (snd ab) - fst (fst ab))%Qc) (filter (fun ab => row_shows (snd (fst ab)) cols vals) (steps r)))) in *.
  assert (HA : (0 <= A)%Qc /\ (A = 0%Qc -> filter (fun ab => row_shows (snd (fst ab)) cols vals) (steps r) = [])).
  { unfold A, Qcsum. assert (P : forall ab, In ab (filter (fun ab => row_shows (snd (fst ab)) cols vals) (steps r)) -> (0 < fst (snd ab) - fst (fst ab))%Qc) by (intros ab Hab; apply filter_In in Hab as [Hab _]; apply (proj1 (Qclt_minus_iff _ _)), Hr, Hab).
    clear A H. induction (filter (fun ab => row_shows (snd (fst ab)) cols vals) (steps r)) as [|ab z IHz]; [split; [apply Qcle_refl|reflexivity]|]. destruct (IHz (fun a Ha => P a (or_intror Ha))) as [I1 _]. pose proof (P ab (or_introl eq_refl)) as P1. cbn [map fold_right].
    assert (G : (0 < fst (snd ab) - fst (fst ab) + fold_right Qcplus 0 (map (fun ab => (fst (snd ab) - fst (fst ab))%Qc) z))%Qc).
    { apply Qclt_le_trans with (fst (snd ab) - fst (fst ab) + 0)%Qc; [rewrite Qcplus_0_r; exact P1|]. apply Qcplus_le_compat; [apply Qcle_refl|exact I1]. }
    split; [apply Qclt_le_weak, G|]. intros E. rewrite E in G. discriminate G. }
  assert (HB : (0 <= Qcsum (map (fun r => Qcsum (map (fun ab => (fst (snd ab) - fst (fst ab))%Qc) (filter (fun ab => row_shows (snd (fst ab)) cols vals) (steps r)))) rs))%Qc) by (apply (raw_dwell_nonneg rs cols vals), strict_ok, HC).
  set (B := Qcsum (map (fun r => Qcsum (map (fun ab => (fst (snd ab) - fst (fst ab))%Qc) (filter (fun ab => row_shows (snd (fst ab)) cols vals) (steps r)))) rs)) in *.
  assert (EB : B = 0%Qc). { apply Qcle_antisym; [|exact HB]. rewrite <- H. rewrite <- (Qcplus_0_l B) at 1. apply Qcplus_le_compat; [apply HA|apply Qcle_refl]. }
  assert (EA : A = 0%Qc) by (rewrite EB, Qcplus_0_r in H; exact H). rewrite Zsum_cons, (IH EB).
  replace (filter (fun ab => row_shows (snd (fst ab)) cols vals && row_shows (snd (snd ab)) [ni] [y]) (steps r)) with (@nil ((Qc * list Z) * (Qc * list Z))); [reflexivity|].
  symmetry. pose proof (proj2 HA EA) as EF. clear -EF. induction (steps r) as [|ab z IH]; [reflexivity|]. cbn [filter] in *. destruct (row_shows (snd (fst ab)) cols vals); cbn [andb]; [discriminate|apply IH, EF].
Qed.
Lemma nat_pick k d (q : nat) : d < k -> nat_sum (map (fun x => if x =? d then q else 0) (seq 0 k)) = q.
Proof.
  assert (G : forall n a, (a <= d < a + n -> nat_sum (map (fun x => if x =? d then q else 0) (seq a n)) = q) /\ (d < a -> nat_sum (map (fun x => if x =? d then q else 0) (seq a n)) = 0)).
  { unfold nat_sum. induction n as [|n IH]; intros a; split; intros H; try lia; try reflexivity; cbn [seq map fold_right].
    - destruct (Nat.eqb_spec a d) as [->|N]; [rewrite (proj2 (IH (S d))) by lia; lia|rewrite (proj1 (IH (S a))) by lia; lia].
    - destruct (Nat.eqb_spec a d) as [->|N]; [lia|]. rewrite (proj2 (IH (S a))) by lia. lia. }
  intros H. apply (G k 0). lia.
Qed.
Lemma nat_sum_add {A} (f g : A -> nat) l : nat_sum (map (fun x => f x + g x) l) = nat_sum (map f l) + nat_sum (map g l).
Proof. unfold nat_sum. induction l as [|a l IH]; [reflexivity|]. cbn [map fold_right]. rewrite IH. lia. Qed.
Lemma nat_sum_zero {A} (l : list A) : nat_sum (map (fun _ => 0) l) = 0.
Proof. unfold nat_sum. induction l as [|a l IH]; [reflexivity|]. cbn [map fold_right]. exact IH. Qed.
Lemma split_count {A} (P : A -> bool) (Q : nat -> A -> bool) k l : (forall a, In a l -> exists d, d < k /\ forall x, Q x a = (x =? d)) ->
  nat_sum (map (fun d => length (filter (fun a => P a && Q d a) l)) (seq 0 k)) = length (filter P l).
Proof.
  induction l as [|a l IH]; intros H; [cbn [filter length]; apply nat_sum_zero|]. destruct (H a (or_introl eq_refl)) as [d [Hd HQ]].
  assert (E : forall x, length (filter (fun a => P a && Q x a) (a :: l)) = (if x =? d then (if P a then 1 else 0) else 0) + length (filter (fun a => P a && Q x a) l)).
  { intros x. cbn [filter]. rewrite HQ. destruct (P a), (x =? d); cbn [andb length]; lia. }
  rewrite (map_ext _ _ E), nat_sum_add, (nat_pick k d _ Hd), IH by (intros b Hb; apply H; right; exact Hb). cbn [filter]. destruct (P a); cbn [length]; lia.
Qed.
Lemma split_dwell rs k (C : nat -> list nat) (W : nat -> list nat) cols vals i :
  (forall ab, step_in rs ab -> exists d, d < k /\ forall x, row_shows (snd (fst ab)) [i] [x] = (x =? d)) ->
  (forall ab d, step_in rs ab -> row_shows (snd (fst ab)) (C d) (W d) = row_shows (snd (fst ab)) cols vals && row_shows (snd (fst ab)) [i] [d]) ->
  Qcsum (map (fun d => raw_dwell rs (C d) (W d)) (seq 0 k)) = raw_dwell rs cols vals.
Proof.
  intros H1 H2. unfold raw_dwell. induction rs as [|r rs IH]; [cbn [map]; apply Qcsum_zero|]. cbn [map]. 
  assert (E : forall d, Qcsum (Qcsum (map (fun ab => (fst (snd ab) - fst (fst ab))%Qc) (filter (fun ab => row_shows (snd (fst ab)) (C d) (W d)) (steps r))) :: map (fun r => Qcsum (map (fun ab => (fst (snd ab) - fst (fst ab))%Qc) (filter (fun ab => row_shows (snd (fst ab)) (C d) (W d)) (steps r)))) rs)
     = (Qcsum (map (fun ab => (fst (snd ab) - fst (fst ab))%Qc) (filter (fun ab => row_shows (snd (fst ab)) (C d) (W d)) (steps r))) + Qcsum (map (fun r => Qcsum (map (fun ab => (fst (snd ab) - fst (fst ab))%Qc) (filter (fun ab => row_shows (snd (fst ab)) (C d) (W d)) (steps r)))) rs))%Qc) by reflexivity.
  rewrite (map_ext _ _ E), Qcsum_add, IH.
  - rewrite Qcsum_cons. f_equal.
    rewrite <- (split_rows (fun ab => (fst (snd ab) - fst (fst ab))%Qc) (fun ab => row_shows (snd (fst ab)) cols vals) (fun d ab => row_shows (snd (fst ab)) [i] [d]) k).
    + f_equal. apply map_ext. intros d. do 2 f_equal. apply filter_ext_In. intros ab Hab. apply H2. exists r. split; [left; reflexivity|exact Hab].
    + intros ab Hab. apply H1. exists r. split; [left; reflexivity|exact Hab].
  - intros ab [r' [A B]]. apply H1. exists r'. split; [right; exact A|exact B].
  - intros ab d [r' [A B]]. apply H2. exists r'. split; [right; exact A|exact B].
Qed.
Lemma split_jumps rs k ni y (C : nat -> list nat) (W : nat -> list nat) cols vals i :
  (forall ab, step_in rs ab -> exists d, d < k /\ forall x, row_shows (snd (fst ab)) [i] [x] = (x =? d)) ->
  (forall ab d, step_in rs ab -> row_shows (snd (fst ab)) (C d) (W d) = row_shows (snd (fst ab)) cols vals && row_shows (snd (fst ab)) [i] [d]) ->
  nat_sum (map (fun d => Z.to_nat (raw_jumps rs ni y (C d) (W d))) (seq 0 k)) = Z.to_nat (raw_jumps rs ni y cols vals).
Proof.
  intros H1 H2. induction rs as [|r rs IH]; [cbn [map]; apply nat_sum_zero|].
  assert (X : forall c w, Z.to_nat (raw_jumps (r :: rs) ni y c w) = length (filter (fun ab => row_shows (snd (fst ab)) c w && row_shows (snd (snd ab)) [ni] [y]) (steps r)) + Z.to_nat (raw_jumps rs ni y c w)).
  { intros c w. unfold raw_jumps at 1. cbn [map]. rewrite Zsum_cons. fold (raw_jumps rs ni y c w). rewrite Z2Nat.inj_add, Nat2Z.id by (try lia; apply raw_jumps_nonneg). reflexivity. }
  rewrite (map_ext _ _ (fun d => X (C d) (W d))), X, nat_sum_add, IH.
  - f_equal. rewrite <- (split_count (fun ab => row_shows (snd (fst ab)) cols vals && row_shows (snd (snd ab)) [ni] [y]) (fun d ab => row_shows (snd (fst ab)) [i] [d]) k).
    + f_equal. apply map_ext. intros d. f_equal. apply filter_ext_In. intros ab Hab. rewrite H2 by (exists r; split; [left; reflexivity|exact Hab]).
      destruct (row_shows (snd (fst ab)) cols vals), (row_shows (snd (fst ab)) [i] [d]), (row_shows (snd (snd ab)) [ni] [y]); reflexivity.
    + intros ab Hab. apply H1. exists r. split; [left; reflexivity|exact Hab].
  - intros ab [r' [A B]]. apply H1. exists r'. split; [right; exact A|exact B].
  - intros ab d [r' [A B]]. apply H2. exists r'. split; [right; exact A|exact B].
Qed.
