(** General lemmas about the helpers of [Base]. *)
From Verif Require Import Base.

Lemma bind_ok {A B} (r : result A) (f : A -> result B) b :
  bind r f = Ok b <-> exists a, r = Ok a /\ f a = Ok b.
Proof. destruct r; simpl; split; intros H; [eauto| |discriminate|]; destruct H as [x [H1 H2]]; congruence. Qed.

Lemma edge_eqb_spec a b : reflect (a = b) (edge_eqb a b).
Proof.
  destruct a as [a1 a2], b as [b1 b2]; unfold edge_eqb; simpl.
  destruct (String.eqb_spec a1 b1), (String.eqb_spec a2 b2); simpl; constructor; congruence.
Qed.
Lemma edge_eqb_refl a : edge_eqb a a = true.
Proof. destruct (edge_eqb_spec a a); congruence. Qed.
Definition edge_dec (a b : edge) : {a = b} + {a <> b}.
Proof. destruct (edge_eqb_spec a b); [left|right]; assumption. Defined.

Lemma lmem_In x l : lmem x l = true <-> In x l.
Proof.
  unfold lmem; rewrite existsb_exists; split.
  - intros [y [H1 H2]]; apply String.eqb_eq in H2; subst; assumption.
  - intros H; exists x; split; [assumption|apply String.eqb_refl].
Qed.
Lemma lmem_false x l : lmem x l = false <-> ~ In x l.
Proof. rewrite <- lmem_In; destruct (lmem x l); split; congruence. Qed.
Lemma emem_In x l : emem x l = true <-> In x l.
Proof.
  unfold emem; rewrite existsb_exists; split.
  - intros [y [H1 H2]]; destruct (edge_eqb_spec x y); [subst; assumption|discriminate].
  - intros H; exists x; split; [assumption|apply edge_eqb_refl].
Qed.
Lemma emem_false x l : emem x l = false <-> ~ In x l.
Proof. rewrite <- emem_In; destruct (emem x l); split; congruence. Qed.

Lemma py_index_ok x l i :
  py_index x l = Ok i <-> nth_error l i = Some x /\ (forall j, j < i -> nth_error l j <> Some x).
Proof.
  revert i; induction l as [|y r IH]; intros i; simpl.
  - split; [discriminate|]. intros [H _]; destruct i; discriminate.
  - destruct (String.eqb_spec x y) as [->|Hn].
    + split.
      * intros H; injection H as <-; split; [reflexivity|intros j Hj; lia].
      * intros [H1 H2]. destruct i as [|i]; [reflexivity|]. exfalso; apply (H2 0); [lia|reflexivity].
    + rewrite bind_ok; split.
      * intros [k [Hk He]]; injection He as <-. apply IH in Hk as [H1 H2]. split; [exact H1|].
        intros [|j] Hj; simpl; [congruence|apply H2; lia].
      * intros [H1 H2]. destruct i as [|i]; [simpl in H1; congruence|].
        exists i; split; [|reflexivity]. apply IH; split; [exact H1|].
        intros j Hj; apply (H2 (S j)); lia.
Qed.

Lemma py_index_err x l e : py_index x l = Err e -> e = ValueError /\ ~ In x l.
Proof.
  induction l as [|y r IH]; simpl; intros H.
  - injection H as <-; split; [reflexivity|tauto].
  - destruct (String.eqb_spec x y) as [->|Hn]; [discriminate|].
    destruct (py_index x r) eqn:E; simpl in H; [discriminate|].
    destruct (IH H) as [H1 H2]; split; [exact H1|]. intros [K|K]; [congruence|tauto].
Qed.

Lemma py_index_In x l : In x l -> exists i, py_index x l = Ok i /\ i < length l.
Proof.
  intros H; destruct (py_index x l) as [i|e] eqn:E.
  - exists i; split; [reflexivity|]. apply py_index_ok in E as [E _]. apply nth_error_Some; congruence.
  - apply py_index_err in E as [_ E]; contradiction.
Qed.

Lemma py_index_not_In x l : ~ In x l -> py_index x l = Err ValueError.
Proof.
  intros H; destruct (py_index x l) as [i|e] eqn:E.
  - apply py_index_ok in E as [E _]. apply nth_error_In in E; contradiction.
  - apply py_index_err in E as [-> _]; reflexivity.
Qed.

Lemma NoDup_nth_error_inj {A} (l : list A) i j x :
  NoDup l -> nth_error l i = Some x -> nth_error l j = Some x -> i = j.
Proof.
  intros H H1 H2. apply (proj1 (NoDup_nth_error l) H); [apply nth_error_Some; congruence|congruence].
Qed.

Lemma py_index_NoDup x l i : NoDup l -> nth_error l i = Some x -> py_index x l = Ok i.
Proof.
  intros H H1; apply py_index_ok; split; [exact H1|].
  intros j Hj K. pose proof (NoDup_nth_error_inj _ _ _ _ H H1 K); lia.
Qed.

Lemma nth_res_ok {A} (l : list A) i x : nth_res l i = Ok x <-> nth_error l i = Some x.
Proof. unfold nth_res; destruct (nth_error l i); split; congruence. Qed.
Lemma nth_res_err {A} (l : list A) i e : nth_res l i = Err e -> e = IndexError /\ length l <= i.
Proof.
  unfold nth_res; destruct (nth_error l i) eqn:E; [discriminate|].
  intros H; injection H as <-; split; [reflexivity|apply nth_error_None; exact E].
Qed.
Lemma nth_res_lt {A} (l : list A) i : i < length l -> exists x, nth_res l i = Ok x.
Proof. intros H; unfold nth_res; destruct (nth_error l i) eqn:E; [eauto|]. apply nth_error_None in E; lia. Qed.

Lemma res_map_ok {A B} (f : A -> result B) l bs :
  res_map f l = Ok bs <-> Forall2 (fun a b => f a = Ok b) l bs.
Proof.
  revert bs; induction l as [|a r IH]; intros bs; simpl.
  - split; intros H; [injection H as <-; constructor|inversion H; reflexivity].
  - destruct (f a) as [b|e] eqn:E; simpl.
    + destruct (res_map f r) as [bs'|e] eqn:E2; simpl.
      * split.
        -- intros H; injection H as <-; constructor; [exact E|apply IH; reflexivity].
        -- intros H; inversion H; subst. rewrite E in H2; injection H2 as <-.
           apply IH in H4; injection H4 as <-; reflexivity.
      * split; [discriminate|]. intros H; inversion H; subst. apply IH in H4; discriminate.
    + split; [discriminate|]. intros H; inversion H; congruence.
Qed.

Lemma res_map_pure {A B} (f : A -> result B) (g : A -> B) l :
  (forall a, In a l -> f a = Ok (g a)) -> res_map f l = Ok (map g l).
Proof.
  intros H; apply res_map_ok. induction l as [|a r IH]; simpl; constructor;
  [apply H; left; reflexivity|apply IH; intros b Hb; apply H; right; exact Hb].
Qed.

Lemma res_map_ext {A B} (f g : A -> result B) l :
  (forall a, In a l -> f a = g a) -> res_map f l = res_map g l.
Proof.
  induction l as [|a r IH]; simpl; intros H; [reflexivity|].
  rewrite (H a (or_introl eq_refl)). destruct (g a); simpl; [|reflexivity].
  rewrite IH; [reflexivity|]. intros b Hb; apply H; right; exact Hb.
Qed.

Lemma res_map_err {A B} (f : A -> result B) l e :
  res_map f l = Err e -> exists a, In a l /\ f a = Err e.
Proof.
  induction l as [|a r IH]; simpl; [discriminate|].
  destruct (f a) eqn:E; simpl.
  - destruct (res_map f r) eqn:E2; simpl; [discriminate|].
    intros H; destruct (IH H) as [x [H1 H2]]; eauto.
  - intros H; exists a; split; [left; reflexivity|congruence].
Qed.

Lemma Forall2_length {A B} (P : A -> B -> Prop) l bs : Forall2 P l bs -> length l = length bs.
Proof. induction 1; simpl; congruence. Qed.

Lemma res_map_length {A B} (f : A -> result B) l bs : res_map f l = Ok bs -> length bs = length l.
Proof. intros H; apply res_map_ok in H. apply Forall2_length in H; lia. Qed.

Lemma Forall2_nth_error {A B} (P : A -> B -> Prop) l bs :
  Forall2 P l bs -> forall i a, nth_error l i = Some a -> exists b, nth_error bs i = Some b /\ P a b.
Proof.
  induction 1 as [|a b l bs H1 H2 IH]; intros i x Hx; [destruct i; discriminate|].
  destruct i as [|i]; simpl in *; [injection Hx as <-; eauto|apply IH; exact Hx].
Qed.

Lemma Forall2_nth_error_r {A B} (P : A -> B -> Prop) l bs :
  Forall2 P l bs -> forall i b, nth_error bs i = Some b -> exists a, nth_error l i = Some a /\ P a b.
Proof.
  induction 1 as [|a b l bs H1 H2 IH]; intros i x Hx; [destruct i; discriminate|].
  destruct i as [|i]; simpl in *; [injection Hx as <-; eauto|apply IH; exact Hx].
Qed.

Lemma mapi_from_length {A B} n (f : nat -> A -> B) l : length (mapi_from n f l) = length l.
Proof. revert n; induction l; simpl; intros; [reflexivity|f_equal; auto]. Qed.
Lemma mapi_length {A B} (f : nat -> A -> B) l : length (mapi f l) = length l.
Proof. apply mapi_from_length. Qed.
Lemma nth_error_mapi_from {A B} n (f : nat -> A -> B) l i :
  nth_error (mapi_from n f l) i = option_map (f (n + i)) (nth_error l i).
Proof.
  revert n i; induction l as [|a r IH]; intros n i; simpl; [destruct i; reflexivity|].
  destruct i as [|i]; simpl; [rewrite Nat.add_0_r; reflexivity|].
  rewrite IH. replace (S n + i) with (n + S i) by lia. reflexivity.
Qed.
Lemma nth_error_mapi {A B} (f : nat -> A -> B) l i :
  nth_error (mapi f l) i = option_map (f i) (nth_error l i).
Proof. apply nth_error_mapi_from. Qed.

Lemma set_at_length {A} (l : list A) i v : length (set_at l i v) = length l.
Proof. revert i; induction l as [|a r IH]; intros [|i]; simpl; auto. Qed.
Lemma nth_error_set_at {A} (l : list A) i j v :
  nth_error (set_at l i v) j = if (i =? j) && (j <? length l) then Some v else nth_error l j.
Proof.
  revert i j; induction l as [|a r IH]; intros i j; simpl.
  - destruct j; rewrite andb_false_r; reflexivity.
  - destruct i as [|i], j as [|j]; simpl; try reflexivity. rewrite IH.
    destruct (i =? j); simpl; [|reflexivity].
    change (S j <? S (length r)) with (j <? length r). reflexivity.
Qed.

Lemma nth_error_remove {A} (l : list A) p i :
  p < length l -> nth_error (firstn p l ++ skipn (S p) l) i =
  if i <? p then nth_error l i else nth_error l (S i).
Proof.
  revert p i; induction l as [|a r IH]; intros p i H; [simpl in H; lia|].
  destruct p as [|p]; [reflexivity|].
  destruct i as [|i]; [reflexivity|].
  change (nth_error (firstn p r ++ skipn (S p) r) i = if S i <? S p then nth_error r i else nth_error r (S i)).
  rewrite IH by (simpl in H; lia). change (S i <? S p) with (i <? p). reflexivity.
Qed.

Lemma filter_true {A} (f : A -> bool) l : (forall a, In a l -> f a = true) -> filter f l = l.
Proof.
  induction l as [|a r IH]; simpl; intros H; [reflexivity|].
  rewrite (H a (or_introl eq_refl)); f_equal; apply IH; intros b Hb; apply H; right; exact Hb.
Qed.
Lemma filter_false {A} (f : A -> bool) l : (forall a, In a l -> f a = false) -> filter f l = [].
Proof.
  induction l as [|a r IH]; simpl; intros H; [reflexivity|].
  rewrite (H a (or_introl eq_refl)); apply IH; intros b Hb; apply H; right; exact Hb.
Qed.
Lemma filter_ext_In {A} (f g : A -> bool) l : (forall a, In a l -> f a = g a) -> filter f l = filter g l.
Proof.
  induction l as [|a r IH]; simpl; intros H; [reflexivity|].
  rewrite (H a (or_introl eq_refl)), IH; [reflexivity|]. intros b Hb; apply H; right; exact Hb.
Qed.

Lemma map_nth_error_iff {A B} (f : A -> B) l i : nth_error (map f l) i = option_map f (nth_error l i).
Proof. revert i; induction l as [|a r IH]; intros [|i]; simpl; auto. Qed.

Lemma list_ext {A} (l1 l2 : list A) : (forall i, nth_error l1 i = nth_error l2 i) -> l1 = l2.
Proof.
  revert l2; induction l1 as [|a r IH]; intros [|b l2] H; [reflexivity| | |].
  - specialize (H 0); discriminate.
  - specialize (H 0); discriminate.
  - pose proof (H 0) as H0; injection H0 as ->. f_equal; apply IH; intros i; apply (H (S i)).
Qed.

Lemma nth_error_seq' a n i : nth_error (seq a n) i = if i <? n then Some (a + i) else None.
Proof.
  revert a i; induction n as [|n IH]; intros a i; simpl; [destruct i; reflexivity|].
  destruct i as [|i]; simpl; [rewrite Nat.add_0_r; reflexivity|].
  rewrite IH. change (S i <? S n) with (i <? n). destruct (i <? n); [f_equal; lia|reflexivity].
Qed.
