From Coq Require Import DecimalString DecimalNat DecimalFacts Ascii.
From Verif Require Import Base Lib ModelStructure ModelGraph ModelCims ModelGenerator ModelSample ModelExport SpecExport.
Open Scope nat_scope.

Lemma chars_app a b : chars (a ++ b) = chars a ++ chars b.
Proof. induction a as [|c a IH]; [reflexivity|]. cbn. f_equal. exact IH. Qed.
Lemma str_app_assoc (a b c : string) : ((a ++ b) ++ c = a ++ (b ++ c))%string.
Proof. induction a as [|x a IH]; [reflexivity|]. cbn. f_equal. exact IH. Qed.

(** digits of a printed number *)
Lemma digit_chars d : Forall (fun c => exists k, digit_value c = Some k) (chars (NilEmpty.string_of_uint d)).
Proof. induction d; cbn [NilEmpty.string_of_uint chars]; constructor; try assumption; eexists; vm_compute; reflexivity. Qed.
Lemma not_eq_digit c k : digit_value c = Some k -> c <> "="%char /\ c <> ","%char.
Proof. intros H. split; intros ->; vm_compute in H; discriminate. Qed.

Lemma pow10_pos k : 10 ^ k <> 0. Proof. apply Nat.pow_nonzero. lia. Qed.
Fixpoint ulen (d : Decimal.uint) : nat :=
  match d with
  | Decimal.Nil => 0
  | Decimal.D0 d | Decimal.D1 d | Decimal.D2 d | Decimal.D3 d | Decimal.D4 d
  | Decimal.D5 d | Decimal.D6 d | Decimal.D7 d | Decimal.D8 d | Decimal.D9 d => S (ulen d)
  end.
Lemma of_uint_acc_eq d : forall a, Nat.of_uint_acc d a = a * 10 ^ ulen d + Nat.of_uint_acc d 0.
Proof.
  induction d; intro a; cbn [Nat.of_uint_acc ulen Nat.pow]; [rewrite ?Nat.tail_mul_spec; lia|..];
    rewrite !Nat.tail_mul_spec; rewrite IHd; symmetry; rewrite IHd; cbn [Nat.mul Nat.add]; nia.
Qed.
Lemma of_uint_acc_lt d : Nat.of_uint_acc d 0 < 10 ^ ulen d.
Proof.
  induction d; cbn [Nat.of_uint_acc ulen Nat.pow]; [lia|..]; rewrite !Nat.tail_mul_spec; rewrite of_uint_acc_eq; cbn [Nat.mul Nat.add]; nia.
Qed.
Lemma unorm_id n : Decimal.unorm (Nat.to_uint n) = Nat.to_uint n.
Proof. rewrite <- (Unsigned.to_of (Nat.to_uint n)), Unsigned.of_to. reflexivity. Qed.
Lemma nzhead_no_zero d e : Decimal.nzhead d <> Decimal.D0 e.
Proof. induction d; cbn; congruence. Qed.
Lemma to_uint_zero n d : Nat.to_uint n = Decimal.D0 d -> n = 0 /\ d = Decimal.Nil.
Proof.
  intro H. pose proof (unorm_id n) as U. rewrite H in U. unfold Decimal.unorm in U. cbn [Decimal.nzhead] in U.
  destruct (Decimal.nzhead d) eqn:E; try discriminate.
  - injection U as <-. split; [|reflexivity]. rewrite <- (Unsigned.of_to n), H. reflexivity.
  - exfalso. exact (nzhead_no_zero _ _ E).
Qed.
Lemma to_uint_not_nil n : Nat.to_uint n <> Decimal.Nil.
Proof. intro H. pose proof (unorm_id n) as U. rewrite H in U. discriminate. Qed.

Lemma digit_shape n : exists c d rest, str_nat n = String c rest /\ digit_value c = Some d /\ leading_digit n d
  /\ Forall (fun c => exists k, digit_value c = Some k) (chars rest) /\ (n < 10 -> rest = EmptyString).
Proof.
  assert (G : forall d u, Nat.of_uint (Nat.to_uint n) = d * 10 ^ ulen u + Nat.of_uint_acc u 0 -> d < 10 -> (d = 0 -> n = 0 /\ u = Decimal.Nil) ->
     leading_digit n d /\ (n < 10 -> NilEmpty.string_of_uint u = EmptyString)).
  { intros d u E Hd H0. rewrite Unsigned.of_to in E. pose proof (of_uint_acc_lt u) as Hl. split; [split; [exact Hd|split]|].
    - exists (ulen u). rewrite E. rewrite Nat.div_add_l by apply pow10_pos. rewrite Nat.div_small by exact Hl. lia.
    - intro Hz. apply H0, Hz.
    - intro Hn. destruct (Nat.eq_dec d 0) as [Hz|Hz]; [destruct (H0 Hz) as [_ ->]; reflexivity|].
      destruct u; [reflexivity|..]; exfalso; cbn [ulen Nat.pow] in E; pose proof (pow10_pos (ulen u)); nia. }
  unfold str_nat. unfold Nat.of_uint in G. destruct (Nat.to_uint n) as [|u|u|u|u|u|u|u|u|u|u] eqn:E;
    [exfalso; exact (to_uint_not_nil n E)|..]; cbn [NilZero.string_of_uint NilEmpty.string_of_uint Nat.of_uint_acc] in *; rewrite ?Nat.tail_mul_spec in G; cbn [Nat.mul Nat.add] in G;
    rewrite of_uint_acc_eq in G.
  all: match goal with |- exists c d rest, String ?c0 _ = _ /\ _ => let v := eval vm_compute in (digit_value c0) in
         match v with Some ?k => destruct (G k u) as [G1 G2]; [reflexivity|lia|first [discriminate|intro; apply to_uint_zero in E; exact E]|
            exists c0, k, (NilEmpty.string_of_uint u); split; [reflexivity|]; split; [reflexivity|]; split; [exact G1|]; split; [apply digit_chars|exact G2]] end end.
Qed.
Lemma leading_small n d : n < 10 -> leading_digit n d -> d = n.
Proof.
  intros Hn [H1 [[k Hk] H2]]. destruct k as [|k]; [rewrite Nat.pow_0_r, Nat.div_1_r in Hk; exact Hk|].
  assert (Z : d = 0) by (rewrite Hk; apply Nat.div_small; cbn [Nat.pow]; pose proof (pow10_pos k); nia). rewrite (H2 Z). exact Z.
Qed.

(** ** findall *)
Lemma find_digits_skip s t : no_equals s -> find_digits (s ++ t) = find_digits t.
Proof.
  unfold no_equals. induction s as [|a s IH]; intro H; [reflexivity|]. cbn [chars In] in H. cbn [append find_digits].
  destruct (Ascii.eqb_spec a "="%char) as [->|]; [tauto|]. apply IH. tauto.
Qed.
Lemma find_digits_none s : no_equals s -> find_digits s = [].
Proof.
  unfold no_equals. induction s as [|a s IH]; intro H; [reflexivity|]. cbn [chars In] in H. cbn [find_digits].
  destruct (Ascii.eqb_spec a "="%char) as [->|]; [tauto|]. apply IH. tauto.
Qed.
Lemma digits_no_equals s : Forall (fun c => exists k, digit_value c = Some k) (chars s) -> no_equals s.
Proof. intros F H. rewrite Forall_forall in F. destruct (F _ H) as [k Hk]. apply not_eq_digit in Hk. tauto. Qed.
Lemma find_digits_item p v t : no_equals p ->
  exists d, leading_digit v d /\ find_digits ((p ++ "=" ++ str_nat v) ++ t) = d :: find_digits t.
Proof.
  intro Hp. destruct (digit_shape v) as [c [d [rest [E [D [Ld [F _]]]]]]]. exists d. split; [exact Ld|].
  rewrite str_app_assoc. rewrite find_digits_skip by exact Hp. rewrite str_app_assoc, E.
  cbn [append find_digits]. rewrite Ascii.eqb_refl, D. f_equal. apply find_digits_skip, digits_no_equals, F.
Qed.

Lemma key_parts_ok : forall parents comb, length comb = length parents ->
  key_parts parents comb = Ok (map (fun pv => (fst pv ++ "=" ++ str_nat (snd pv))%string) (combine parents comb)).
Proof.
  induction parents as [|p ps IH]; intros [|v comb] H; try discriminate; [reflexivity|]. cbn [key_parts combine map fst snd].
  rewrite IH by (cbn in H; lia). reflexivity.
Qed.
Lemma concat_cons s a b l : String.concat s (a :: b :: l) = (a ++ s ++ String.concat s (b :: l))%string. Proof. reflexivity. Qed.
Lemma find_digits_key : forall parents comb, length comb = length parents -> Forall no_equals parents ->
  exists ds, Forall2 leading_digit comb ds
    /\ find_digits (String.concat "," (map (fun pv => (fst pv ++ "=" ++ str_nat (snd pv))%string) (combine parents comb))) = ds.
Proof.
  induction parents as [|p ps IH]; intros [|v comb] H F; try discriminate; [exists []; split; [constructor|reflexivity]|].
  destruct (IH comb ltac:(cbn in H; lia) (Forall_inv_tail F)) as [ds [D1 D2]].
  cbn [combine map fst snd]. destruct (map _ (combine ps comb)) as [|b l] eqn:E.
  - assert (comb = []) by (destruct comb, ps; try discriminate; reflexivity || (cbn in H; lia)). subst comb. inversion D1; subst.
    destruct (find_digits_item p v "" (Forall_inv F)) as [d [L1 L2]]. exists [d]. split; [constructor; [exact L1|constructor]|].
    cbn [String.concat]. transitivity (find_digits ((p ++ "=" ++ str_nat v) ++ "")); [|exact L2]. f_equal. clear. generalize (p ++ "=" ++ str_nat v)%string. induction s; [reflexivity|]. cbn. f_equal. exact IHs.
  - rewrite concat_cons. destruct (find_digits_item p v ("," ++ String.concat "," (b :: l)) (Forall_inv F)) as [d [L1 L2]].
    exists (d :: ds). split; [constructor; assumption|]. rewrite L2. f_equal. rewrite <- D2. reflexivity.
Qed.

Lemma key_parses l parents comb : parents <> [] -> length comb = length parents -> Forall no_equals parents ->
  exists key ds, comb_key l parents comb = Ok key /\ find_digits key = ds /\ Forall2 leading_digit comb ds.
Proof.
  intros Hp Hl F. unfold comb_key. destruct (Nat.eqb_spec (length parents) 0) as [E|_]; [destruct parents; [congruence|discriminate]|].
  rewrite (key_parts_ok _ _ Hl). cbn [bind]. destruct (find_digits_key parents comb Hl F) as [ds [D1 D2]]. eexists _, ds. split; [reflexivity|]. auto.
Qed.
Lemma leading_list comb ds : Forall2 leading_digit comb ds -> (ds = comb <-> Forall (fun v => v < 10) comb).
Proof.
  induction 1 as [|v d comb ds Hd _ IH]; [split; [constructor|reflexivity]|]. split.
  - intro E. injection E as -> E. constructor; [apply Hd|]. apply IH, E.
  - intro F. f_equal; [exact (leading_small _ _ (Forall_inv F) Hd)|]. apply IH, (Forall_inv_tail F).
Qed.

(** ** keys are distinct *)
Lemma digits_split a b x y : Forall (fun c => exists k, digit_value c = Some k) (chars a) -> Forall (fun c => exists k, digit_value c = Some k) (chars b) ->
  (x = EmptyString \/ exists x', x = ("," ++ x')%string) -> (y = EmptyString \/ exists y', y = ("," ++ y')%string) ->
  (a ++ x = b ++ y)%string -> a = b /\ x = y.
Proof.
  revert b. induction a as [|c a IH]; intros [|c' b] Fa Fb Hx Hy E; cbn [append] in E.
  - auto.
  - exfalso. destruct Hx as [->|[x' ->]]; [discriminate|]. cbn [append] in E. injection E as <- _. destruct (Forall_inv Fb) as [k Hk]. apply not_eq_digit in Hk. tauto.
  - exfalso. destruct Hy as [->|[y' ->]]; [discriminate|]. cbn [append] in E. injection E as -> _. destruct (Forall_inv Fa) as [k Hk]. apply not_eq_digit in Hk. tauto.
  - injection E as -> E. destruct (IH b (Forall_inv_tail Fa) (Forall_inv_tail Fb) Hx Hy E) as [-> ->]. auto.
Qed.
Lemma str_nat_digits n : Forall (fun c => exists k, digit_value c = Some k) (chars (str_nat n)).
Proof. destruct (digit_shape n) as [c [d [rest [-> [D [_ [F _]]]]]]]. cbn [chars]. constructor; [eexists; exact D|exact F]. Qed.
Lemma str_nat_inj a b : str_nat a = str_nat b -> a = b.
Proof.
  unfold str_nat. intro H. apply (f_equal NilZero.uint_of_string) in H.
  rewrite !NilZero.usu in H by apply to_uint_not_nil.
  injection H as H. apply Unsigned.to_uint_inj, H.
Qed.
Lemma append_cancel p x y : (p ++ x = p ++ y)%string -> x = y.
Proof. induction p; [exact (fun H => H)|]. cbn. intro H. injection H as H. auto. Qed.
Lemma concat_tail (l : list string) a : String.concat "," (a :: l) = (a ++ match l with [] => EmptyString | b :: r => "," ++ String.concat "," (b :: r) end)%string.
Proof. destruct l as [|b r]; [|apply concat_cons]. cbn [String.concat]. clear. induction a; [reflexivity|]. cbn. f_equal. exact IHa. Qed.
Lemma keys_distinct : forall parents u w, length u = length parents -> length w = length parents ->
  String.concat "," (map (fun pv => (fst pv ++ "=" ++ str_nat (snd pv))%string) (combine parents u))
  = String.concat "," (map (fun pv => (fst pv ++ "=" ++ str_nat (snd pv))%string) (combine parents w)) -> u = w.
Proof.
  induction parents as [|p ps IH]; intros [|x u] [|y w] Hu Hw E; try discriminate; [reflexivity|].
  cbn [combine map fst snd] in E. rewrite !concat_tail in E. rewrite !str_app_assoc in E. apply append_cancel in E. cbn [append] in E. injection E as E.
  assert (T : forall l : list string, match l with [] => EmptyString | b :: r => ("," ++ String.concat "," (b :: r))%string end = EmptyString
     \/ exists x', match l with [] => EmptyString | b :: r => ("," ++ String.concat "," (b :: r))%string end = ("," ++ x')%string)
    by (intros [|b r]; [left; reflexivity|right; eexists; reflexivity]).
  destruct (digits_split _ _ _ _ (str_nat_digits x) (str_nat_digits y) (T _) (T _) E) as [E1 E2]. f_equal; [apply str_nat_inj, E1|].
  apply IH; [cbn in Hu; lia|cbn in Hw; lia|]. cbn in Hu, Hw.
  destruct ps as [|q ps]; destruct u as [|x' u]; destruct w as [|y' w]; try discriminate; [reflexivity|]. cbn [combine map] in *. injection E2 as E2. exact E2.
Qed.
