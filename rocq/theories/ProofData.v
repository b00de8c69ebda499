(** The data path: importers and sample path. *)
From Verif Require Import Base Lib ModelStructure ModelCims ModelData SpecParams SpecData ProofParams ProofParams2 ProofIndex.

Lemma assoc_col_In {A} (cs : list (string * A)) n c : NoDup (map fst cs) -> In (n, c) cs -> assoc_col cs n = Some c.
Proof.
  induction cs as [|[x d] r IH]; cbn [map fst In assoc_col]; intros H Hin; [destruct Hin|].
  inversion H as [|? ? N1 N2]; subst. destruct (String.eqb_spec x n) as [->|Hn].
  - destruct Hin as [E|Hin]; [congruence|]. exfalso. apply N1. apply (in_map fst) in Hin. exact Hin.
  - destruct Hin as [E|Hin]; [congruence|]. apply IH; assumption.
Qed.
Lemma assoc_col_nth {A} (cs : list (string * A)) n c i : NoDup (map fst cs) -> nth_error cs i = Some (n, c) -> assoc_col cs n = Some c.
Proof. intros H Hi. apply assoc_col_In; [exact H|]. apply (nth_error_In _ i Hi). Qed.
Lemma assoc_col_none {A} (cs : list (string * A)) n : ~ In n (map fst cs) -> assoc_col cs n = None.
Proof.
  induction cs as [|[x d] r IH]; cbn [map fst In assoc_col]; intros H; [reflexivity|].
  destruct (String.eqb_spec x n) as [->|]; [exfalso; apply H; left; reflexivity|]. apply IH. tauto.
Qed.
Lemma assoc_col_app {A} (a b : list (string * A)) n : assoc_col (a ++ b) n = match assoc_col a n with Some c => Some c | None => assoc_col b n end.
Proof. induction a as [|[x d] r IH]; cbn [app assoc_col]; [reflexivity|]. destruct (String.eqb x n); [reflexivity|exact IH]. Qed.
Lemma assoc_col_map {A B} (f : A -> B) (cs : list (string * A)) n : assoc_col (map (fun nc => (fst nc, f (snd nc))) cs) n = option_map f (assoc_col cs n).
Proof. induction cs as [|[x d] r IH]; cbn [map assoc_col fst snd]; [reflexivity|]. destruct (String.eqb x n); [reflexivity|exact IH]. Qed.

Lemma append_S_inj a : forall b, String.append a "S" = String.append b "S" -> a = b.
Proof.
  induction a as [|x a IH]; intros [|y b]; cbn; intros H; try reflexivity; injection H as H1 H2.
  - destruct b; discriminate.
  - destruct a; discriminate.
  - subst. f_equal. apply IH, H2.
Qed.

Lemma assoc_col_shift {A} (f : A -> list (option Qc)) (cs : list (string * A)) n :
  assoc_col (map (fun nc => (String.append (fst nc) "S", f (snd nc))) cs) (String.append n "S") = option_map f (assoc_col cs n).
Proof.
  induction cs as [|[x d] r IH]; cbn [map assoc_col fst snd]; [reflexivity|].
  destruct (String.eqb_spec x n) as [->|Hn]; [rewrite String.eqb_refl; reflexivity|].
  destruct (String.eqb_spec (String.append x "S") (String.append n "S")) as [E|_]; [apply append_S_inj in E; contradiction|exact IH].
Qed.

Lemma assign_new (cs : list (string * list (option Qc))) n v : ~ In n (map fst cs) -> assign_col cs n v = cs ++ [(n, v)].
Proof.
  induction cs as [|[x d] r IH]; cbn [map fst In assign_col app]; intros H; [reflexivity|].
  destruct (String.eqb_spec x n) as [->|]; [exfalso; apply H; left; reflexivity|]. rewrite IH by tauto. reflexivity.
Qed.
Lemma fold_assign nvs : forall (cs : list (string * list (option Qc))), NoDup (map fst cs ++ map fst nvs) ->
  fold_left (fun cs nv => assign_col cs (fst nv) (snd nv)) nvs cs = cs ++ nvs.
Proof.
  induction nvs as [|[n v] r IH]; intros cs H; cbn [fold_left map fst snd] in *; [rewrite app_nil_r; reflexivity|].
  rewrite assign_new.
  - rewrite IH; [rewrite <- app_assoc; reflexivity|]. rewrite map_app. cbn [map fst]. rewrite <- app_assoc. exact H.
  - intros K. apply NoDup_remove_2 in H. apply H. apply in_or_app. left; exact K.
Qed.

Lemma select_cols_exact t0 c0 (rest : list (string * list (option Qc))) : NoDup (t0 :: map fst rest) ->
  select_cols ((t0, c0) :: rest) (map fst rest) = Ok (map snd rest).
Proof.
  intros H. unfold select_cols. inversion H as [|? ? N1 N2]; subst.
  apply res_map_ok. assert (Q : forall l, (forall nc, In nc l -> In nc rest) ->
    Forall2 (fun (a : string) b => match assoc_col ((t0, c0) :: rest) a with Some c => Ok c | None => Err KeyError end = Ok b) (map fst l) (map snd l)).
  { induction l as [|[n c] l IH]; intros Hl; constructor; [|apply IH; intros; apply Hl; right; assumption].
    cbn [fst snd assoc_col]. destruct (String.eqb_spec t0 n) as [->|_].
    - exfalso. apply N1. apply (in_map fst rest (n, c)), Hl. left; reflexivity.
    - rewrite (assoc_col_In rest n c N2) by (apply Hl; left; reflexivity). reflexivity. }
  apply Q. auto.
Qed.

Lemma keep_rows_last {A} m : forall a n (c : list A), a + n = S m -> length c = n ->
  keep_rows (map (fun i => negb (Z.eqb i (Z.of_nat m))) (map Z.of_nat (seq a n))) c = firstn (n - 1) c.
Proof.
  intros a n. revert a. induction n as [|n IH]; intros a c E Hl.
  - destruct c; [reflexivity|discriminate].
  - destruct c as [|x c]; [discriminate|]. cbn [seq map]. unfold keep_rows in *. cbn [combine filter fst].
    destruct (Z.eqb_spec (Z.of_nat a) (Z.of_nat m)) as [K|K]; cbn [negb].
    + assert (n = 0) by lia. subst n. destruct c; [reflexivity|discriminate].
    + cbn [map snd]. rewrite IH by (simpl in *; lia). destruct n as [|n]; [lia|]. cbn [Nat.sub firstn]. rewrite Nat.sub_0_r. reflexivity.
Qed.
Lemma seq_last a n : rev (map Z.of_nat (seq a (S n))) = Z.of_nat (a + n) :: rev (map Z.of_nat (seq a n)).
Proof. rewrite seq_S, map_app, rev_app_distr. reflexivity. Qed.
Lemma firstn_seq' a n k : k <= n -> firstn k (seq a n) = seq a k.
Proof.
  revert a n; induction k as [|k IH]; intros a n H; [reflexivity|]. destruct n as [|n]; [lia|].
  cbn [seq firstn]. f_equal. apply IH. lia.
Qed.
Lemma firstn_map_seq a n : firstn (n - 1) (map Z.of_nat (seq a n)) = map Z.of_nat (seq a (n - 1)).
Proof. rewrite firstn_map. f_equal. apply firstn_seq'. lia. Qed.
Lemma drop_tail_range n cs : Forall (fun nc => length (snd nc) = n) cs ->
  drop_tail (MkFrame (map Z.of_nat (seq 0 n)) cs)
  = MkFrame (map Z.of_nat (seq 0 (n - 1))) (map (fun nc => (fst nc, firstn (n - 1) (snd nc))) cs).
Proof.
  intros H. unfold drop_tail; cbn [fr_index fr_cols]. destruct n as [|m].
  - cbn [seq map rev Nat.sub]. f_equal. induction H as [|[k c] cs H1 H2 IH]; [reflexivity|]. cbn [map fst snd]. f_equal; [|exact IH].
    destruct c; [reflexivity|discriminate].
  - rewrite seq_last, Nat.add_0_l. f_equal.
    + rewrite (keep_rows_last m 0 (S m)) by (rewrite ?map_length, ?seq_length; reflexivity). apply firstn_map_seq.
    + apply map_ext_in. intros [k c] Hin. rewrite Forall_forall in H. specialize (H _ Hin). cbn [fst snd] in *. f_equal.
      apply (keep_rows_last m 0 (S m)); [reflexivity|exact H].
Qed.

Lemma diff_shift_length l : length (diff_shift l) = length l.
Proof. induction l as [|a [|b r] IH]; [reflexivity..|]. cbn [diff_shift length] in *. f_equal. exact IH. Qed.
Lemma diff_shift_nth l : forall i a b, nth_error l i = Some a -> nth_error l (S i) = Some b -> nth_error (diff_shift l) i = Some (cell_sub b a).
Proof.
  induction l as [|x [|y r] IH]; intros [|i] a b H1 H2; try discriminate.
  - cbn in *. congruence.
  - cbn [diff_shift nth_error] in *. apply IH; assumption.
Qed.
Lemma shift_up_length l : length (shift_up l) = length l.
Proof. destruct l; [reflexivity|]. simpl. rewrite app_length. simpl. lia. Qed.
Lemma shift_up_nth l i : S i < length l -> nth_error (shift_up l) i = nth_error l (S i).
Proof. destruct l as [|a r]; cbn [length shift_up]; intros H; [lia|]. rewrite nth_error_app1 by lia. reflexivity. Qed.

Lemma Qc_trunc_Z z : Qc_trunc (Qc_of_Z z) = z.
Proof.
  unfold Qc_trunc, Qc_of_Z, Q2Qc. cbn [this]. rewrite (Qred_identity (inject_Z z)).
  - cbn. apply Z.quot_1_r.
  - unfold inject_Z. cbn [Qnum Qden]. apply Z.gcd_1_r.
Qed.

(** the processed frame, explicitly *)
Definition processed (n : nat) (t0 : list (option Qc)) (rest : list (string * list (option Qc))) : frame :=
  MkFrame (map Z.of_nat (seq 0 (n - 1)))
    (("Time", firstn (n - 1) (diff_shift t0))
     :: map (fun nc => (fst nc, firstn (n - 1) (snd nc))) rest
     ++ map (fun nc => (String.append (fst nc) "S", firstn (n - 1) (map fillna0_int (shift_up (snd nc))))) rest).

Lemma combine_shift (rest : list (string * list (option Qc))) :
  combine (shifted_names (map fst rest)) (map (fun c => map fillna0_int (shift_up c)) (map snd rest))
  = map (fun nc => (String.append (fst nc) "S", map fillna0_int (shift_up (snd nc)))) rest.
Proof. unfold shifted_names. induction rest as [|[n c] r IH]; [reflexivity|]. cbn [map combine fst snd]. rewrite IH. reflexivity. Qed.

Lemma NoDup_app_l {A} (a b : list A) : NoDup (a ++ b) -> NoDup a.
Proof.
  induction a as [|x a IH]; [constructor|]. cbn [app]. intros H. inversion H; subst. constructor; [|apply IH; assumption].
  intros K; apply H2, in_or_app; left; exact K.
Qed.

Lemma process_frame n t0 rest : good_header (map fst rest) -> length t0 = n -> Forall (fun nc => length (snd nc) = n) rest ->
  compute_row_delta_single_samples_frame (MkFrame (map Z.of_nat (seq 0 n)) (("Time", t0) :: rest)) (map fst rest) (shifted_names (map fst rest))
  = Ok (processed n t0 rest).
Proof.
  intros Hh Ht Hr. unfold compute_row_delta_single_samples_frame. cbn [fr_cols fr_index].
  assert (N1 : NoDup ("Time" :: map fst rest)) by (apply (NoDup_app_l ("Time" :: map fst rest) (shifted_names (map fst rest))), Hh).
  rewrite (select_cols_exact "Time" (diff_shift t0) rest N1). cbn [bind]. rewrite combine_shift, fold_assign.
  - rewrite drop_tail_range.
    + unfold processed. cbn [app map fst snd]. rewrite map_app, map_map. reflexivity.
    + cbn [app]. constructor; [cbn [snd]; rewrite diff_shift_length; exact Ht|]. apply Forall_app. split; [exact Hr|].
      apply Forall_forall. intros nc H. apply in_map_iff in H as [mc [<- H]]. cbn [snd]. rewrite map_length, shift_up_length.
      rewrite Forall_forall in Hr. apply Hr, H.
  - rewrite map_map. cbn [map fst app]. unfold good_header, shifted_names in Hh. rewrite map_map in Hh. exact Hh.
Qed.

Lemma raw_frame_shape vars n f : raw_frame vars n f -> exists t0 rest, f = MkFrame (map Z.of_nat (seq 0 n)) (("Time", t0) :: rest)
  /\ map fst rest = vars /\ length t0 = n /\ Forall (fun nc => length (snd nc) = n) rest.
Proof.
  intros [H1 [H2 [H3 _]]]. destruct f as [ix cs]; cbn [fr_index fr_cols] in *. unfold col_names in H2; cbn [fr_cols] in H2.
  destruct cs as [|[t t0] rest]; [discriminate|]. cbn [map fst] in H2. injection H2 as -> E. inversion H3; subst.
  exists t0, rest. repeat split; try assumption; reflexivity.
Qed.

Lemma processed_cols n t0 rest name : good_header (map fst rest) ->
  assoc_col (fr_cols (processed n t0 rest)) "Time" = Some (firstn (n - 1) (diff_shift t0))
  /\ (In name (map fst rest) ->
      assoc_col (fr_cols (processed n t0 rest)) name = option_map (firstn (n - 1)) (assoc_col rest name)
      /\ assoc_col (fr_cols (processed n t0 rest)) (String.append name "S")
         = option_map (fun c => firstn (n - 1) (map fillna0_int (shift_up c))) (assoc_col rest name)).
Proof.
  intros Hh. split; [reflexivity|]. intros Hin. unfold processed; cbn [fr_cols assoc_col].
  unfold good_header in Hh. inversion Hh as [|? ? A B]; subst.
  assert (T1 : String.eqb "Time" name = false).
  { apply String.eqb_neq. intros <-. apply A, in_or_app. left; exact Hin. }
  assert (T2 : String.eqb "Time" (String.append name "S") = false).
  { apply String.eqb_neq. intros E. apply A, in_or_app. right. unfold shifted_names. rewrite E. exact (in_map (fun s => String.append s "S") _ _ Hin). }
  rewrite T1, T2, !assoc_col_app, !assoc_col_map, (assoc_col_shift (fun c => firstn (n - 1) (map fillna0_int (shift_up c)))).
  assert (X : exists c, assoc_col rest name = Some c).
  { clear - Hin. induction rest as [|[x c] r IH]; [destruct Hin|]. cbn [assoc_col]. destruct (String.eqb_spec x name) as [->|Hn]; [eauto|].
    apply IH. destruct Hin as [E|H]; [contradiction|exact H]. }
  destruct X as [c X]. rewrite X. split; [reflexivity|].
  rewrite (assoc_col_none rest (String.append name "S")); [reflexivity|].
  intros K. clear - B K Hin. 
  assert (Q : forall l l' (x : string), NoDup (l ++ l') -> In x l -> In x l' -> False).
  { induction l as [|y l IH]; intros l' x H H1 H2; [destruct H1|]. cbn [app] in H. inversion H; subst. destruct H1 as [->|H1].
    - apply H4, in_or_app; right; exact H2.
    - eapply IH; eassumption. }
  apply (Q _ _ _ B K). exact (in_map (fun s => String.append s "S") _ _ Hin).
Qed.

(** C42 *)
Lemma row_delta vars n f : raw_frame vars n f -> good_header vars ->
  exists f', compute_row_delta_single_samples_frame f vars (shifted_names vars) = Ok f'
   /\ nrows f' = n - 1 /\ col_names f' = "Time" :: vars ++ shifted_names vars
   /\ forall i, S i < n ->
      (forall t t', cell_at f "Time" i = Some (Some t) -> cell_at f "Time" (S i) = Some (Some t') ->
         cell_at f' "Time" i = Some (Some (t' - t)%Qc))
      /\ (forall v, In v vars -> cell_at f' v i = cell_at f v i
                               /\ cell_at f' (String.append v "S") i = cell_at f v (S i)).
Proof.
  intros Hf Hh. pose proof Hf as [_ [_ [_ [_ Hint]]]]. destruct (raw_frame_shape vars n f Hf) as [t0 [rest [-> [<- [Ht Hr]]]]].
  eexists. split; [apply process_frame; assumption|]. split; [unfold nrows, processed; cbn [fr_index]; rewrite map_length, seq_length; reflexivity|].
  split; [unfold col_names, processed, shifted_names; cbn [fr_cols map fst]; rewrite map_app, !map_map; reflexivity|].
  intros i Hi. split.
  - intros t t' H1 H2. unfold cell_at. destruct (processed_cols n t0 rest "" Hh) as [-> _].
    unfold cell_at in H1, H2. cbn [fr_cols assoc_col String.eqb Ascii.eqb Bool.eqb] in H1, H2.
    rewrite nth_error_firstn' by lia. rewrite (diff_shift_nth t0 i _ _ H1 H2). reflexivity.
  - intros v Hv. destruct (processed_cols n t0 rest v Hh) as [_ K]. destruct (K Hv) as [K1 K2]. unfold cell_at. rewrite K1, K2.
    pose proof (Hint v (S i) Hv Hi) as [z Hz]. unfold cell_at in Hz. cbn [fr_cols assoc_col] in *.
    assert (T1 : String.eqb "Time" v = false).
    { apply String.eqb_neq. intros <-. unfold good_header in Hh. inversion Hh; subst. apply H1, in_or_app. left; exact Hv. }
    rewrite T1 in *. destruct (assoc_col rest v) as [c|] eqn:Ec; [|discriminate]. cbn [option_map].
    rewrite !nth_error_firstn' by lia. split; [reflexivity|].
    assert (Hc : S i < length c) by (apply nth_error_Some; congruence).
    rewrite map_nth_error_iff, shift_up_nth by exact Hc. rewrite Hz. cbn [option_map fillna0_int]. rewrite Qc_trunc_Z. reflexivity.
Qed.

Lemma processed_shape n t0 rest : length t0 = n -> Forall (fun nc => length (snd nc) = n) rest ->
  length (fr_index (processed n t0 rest)) = n - 1
  /\ col_names (processed n t0 rest) = "Time" :: map fst rest ++ shifted_names (map fst rest)
  /\ Forall (fun nc => length (snd nc) = n - 1) (fr_cols (processed n t0 rest)).
Proof.
  intros Ht Hr. split; [unfold processed; cbn [fr_index]; rewrite map_length, seq_length; reflexivity|].
  split; [unfold col_names, processed, shifted_names; cbn [fr_cols map fst]; rewrite map_app, !map_map; reflexivity|].
  unfold processed; cbn [fr_cols]. constructor; [cbn [snd]; rewrite firstn_length, diff_shift_length; lia|].
  apply Forall_app. rewrite Forall_forall in Hr. split; apply Forall_forall; intros nc H; apply in_map_iff in H as [mc [<- H]]; cbn [snd]; specialize (Hr mc H).
  - rewrite firstn_length. lia.
  - rewrite firstn_length, map_length, shift_up_length. lia.
Qed.

Lemma assoc_col_some {A} (cs : list (string * A)) n : In n (map fst cs) -> exists c, assoc_col cs n = Some c /\ In (n, c) cs.
Proof.
  induction cs as [|[x d] r IH]; cbn [map fst In assoc_col]; intros H; [destruct H|].
  destruct (String.eqb_spec x n) as [->|]; [eauto|]. destruct H as [H|H]; [contradiction|]. destruct (IH H) as [c [C1 C2]]. eauto.
Qed.

Definition col_of (h : string) (f : frame) : list (option Qc) :=
  match assoc_col (fr_cols f) h with Some c => c | None => map (fun _ => None) (fr_index f) end.

Lemma concat_select_ok fs header : fs <> [] -> (forall f, In f fs -> col_names f = header) ->
  concat_select fs header = Ok (MkFrame (flat_map fr_index fs) (map (fun h => (h, flat_map (col_of h) fs)) header)).
Proof.
  intros Hne Hf. unfold concat_select. destruct fs as [|f0 fs0] eqn:E; [contradiction|]. rewrite <- E in *.
  rewrite (res_map_pure _ (fun h => (h, flat_map (col_of h) fs))); [reflexivity|].
  intros h Hh. assert (X : existsb (fun f => lmem h (col_names f)) fs = true).
  { apply existsb_exists. exists f0. split; [rewrite E; left; reflexivity|]. apply lmem_In. rewrite Hf by (rewrite E; left; reflexivity). exact Hh. }
  rewrite X. reflexivity.
Qed.

Lemma nth_flat_map_off {A B} (g : A -> list B) (fs : list A) ns : Forall2 (fun f n => length (g f) = n) fs ns ->
  forall k f n i, nth_error fs k = Some f -> nth_error ns k = Some n -> i < n ->
  nth_error (flat_map g fs) (nat_sum (firstn k ns) + i) = nth_error (g f) i.
Proof.
  induction 1 as [|f0 n0 fs ns H1 H2 IH]; intros [|k] f n i K1 K2 Hi; try discriminate; cbn [flat_map firstn nat_sum fold_right nth_error] in *.
  - injection K1 as <-; injection K2 as <-. rewrite nth_error_app1 by (cbn; lia). reflexivity.
  - rewrite nth_error_app2 by (rewrite H1; unfold nat_sum; lia).
    replace (n0 + fold_right Nat.add 0 (firstn k ns) + i - length (g f0)) with (nat_sum (firstn k ns) + i) by (unfold nat_sum; lia).
    eapply IH; eassumption.
Qed.
Lemma flat_map_len {A B} (g : A -> list B) (fs : list A) ns : Forall2 (fun f n => length (g f) = n) fs ns -> length (flat_map g fs) = nat_sum ns.
Proof. induction 1; [reflexivity|]. cbn [flat_map nat_sum fold_right]. rewrite app_length. f_equal; assumption. Qed.

Lemma assoc_map_self (F : string -> list (option Qc)) header h : In h header -> assoc_col (map (fun x => (x, F x)) header) h = Some (F h).
Proof.
  induction header as [|x r IH]; cbn [In map assoc_col]; intros H; [destruct H|].
  destruct (String.eqb_spec x h) as [->|]; [reflexivity|]. destruct H; [contradiction|auto].
Qed.

Lemma last_irrel {A} (l : list A) d d' : l <> [] -> last l d = last l d'.
Proof.
  induction l as [|a [|b r] IH]; intros H; [contradiction|reflexivity|].
  change (last (b :: r) d = last (b :: r) d'). apply IH. discriminate.
Qed.
(** sum of the differences of a fully observed time column *)
Lemma diff_sum (ts : list Qc) : exists ds, firstn (length ts - 1) (diff_shift (map Some ts)) = map Some ds
  /\ Qcsum ds = match ts with [] => 0%Qc | t :: _ => (last ts t - t)%Qc end.
Proof.
  induction ts as [|a [|b r] IH].
  - exists []. split; reflexivity.
  - exists []. split; [reflexivity|]. cbn [last]. unfold Qcsum; cbn. ring.
  - destruct IH as [ds [D1 D2]]. exists ((b - a)%Qc :: ds). split.
    + cbn [map diff_shift length Nat.sub]. cbn [length Nat.sub map diff_shift] in D1. rewrite Nat.sub_0_r in D1. cbn [firstn map].
      f_equal. exact D1.
    + rewrite Qcsum_cons, D2. change (last (a :: b :: r) a) with (last (b :: r) a).
      assert (E : last (b :: r) a = last (b :: r) b).
      { apply last_irrel. discriminate. }
      rewrite E. ring.
Qed.

Lemma time_col_full n (t0 : list (option Qc)) : length t0 = n -> (forall i, i < n -> exists t, nth_error t0 i = Some (Some t)) ->
  exists ts, t0 = map Some ts /\ length ts = n.
Proof.
  revert n. induction t0 as [|c r IH]; intros n Hl H.
  - exists []. auto.
  - destruct (H 0) as [t Ht]; [simpl in Hl; lia|]. injection Ht as ->. destruct (IH (length r) eq_refl) as [ts [T1 T2]].
    + intros i Hi. apply (H (S i)). simpl in Hl; lia.
    + exists (t :: ts). rewrite T1. split; [reflexivity|]. simpl in *. lia.
Qed.
Lemma last_nth {A} (l : list A) d : l <> [] -> nth_error l (length l - 1) = Some (last l d).
Proof.
  intros H. induction l as [|a [|b r] IH]; [contradiction|reflexivity|].
  change (last (a :: b :: r) d) with (last (b :: r) d). rewrite <- IH by discriminate. cbn [length Nat.sub].
  rewrite Nat.sub_0_r. reflexivity.
Qed.

(** C43 *)
Lemma all_frames im vars fs ns : im_sorter im = Some vars -> vars <> [] -> good_header vars -> fs <> [] ->
  Forall2 (fun f n => raw_frame vars n f) fs ns ->
  exists im' cf, compute_row_delta_in_all_samples_frames im fs = Ok im' /\ im_concat im' = CFrame cf
   /\ im_samples im' = im_samples im /\ im_variables im' = im_variables im /\ im_structure im' = im_structure im /\ im_sorter im' = im_sorter im
   /\ col_names cf = "Time" :: vars ++ shifted_names vars
   /\ nrows cf = nat_sum (map (fun n => n - 1) ns)
   /\ (forall k f n i, nth_error fs k = Some f -> nth_error ns k = Some n -> S i < n ->
        let r := nat_sum (firstn k (map (fun n => n - 1) ns)) + i in
        (forall t t', cell_at f "Time" i = Some (Some t) -> cell_at f "Time" (S i) = Some (Some t') ->
           cell_at cf "Time" r = Some (Some (t' - t)%Qc))
        /\ (forall v, In v vars -> cell_at cf v r = cell_at f v i
                                 /\ cell_at cf (String.append v "S") r = cell_at f v (S i)))
   /\ exists ds, assoc_col (fr_cols cf) "Time" = Some (map Some ds)
        /\ Qcsum ds = Qcsum (map (fun fn => frame_duration (snd fn) (fst fn)) (combine fs ns)).
Proof.
  intros Hs Hv Hh Hne HF. unfold compute_row_delta_in_all_samples_frames. rewrite Hs.
  destruct vars as [|v0 vr] eqn:Ev; [contradiction|]. rewrite <- Ev in *. clear Hv.
  (* processed frames *)
  assert (HP : exists ps, res_map (fun f => compute_row_delta_single_samples_frame f vars (shifted_names vars)) fs = Ok ps
     /\ Forall2 (fun fn p => exists t0 rest, fst fn = MkFrame (map Z.of_nat (seq 0 (snd fn))) (("Time", t0) :: rest) /\ map fst rest = vars
           /\ length t0 = snd fn /\ Forall (fun nc => length (snd nc) = snd fn) rest /\ p = processed (snd fn) t0 rest
           /\ compute_row_delta_single_samples_frame (fst fn) vars (shifted_names vars) = Ok p) (combine fs ns) ps).
  { clear Hne. induction HF as [|f n fs ns H1 H2 IH]; [exists []; split; [reflexivity|constructor]|].
    destruct IH as [ps [P1 P2]]. destruct (raw_frame_shape vars n f H1) as [t0 [rest [-> [E1 [E2 E3]]]]].
    assert (PF : compute_row_delta_single_samples_frame (MkFrame (map Z.of_nat (seq 0 n)) (("Time", t0) :: rest)) vars (shifted_names vars) = Ok (processed n t0 rest)).
    { rewrite <- E1. apply process_frame; [rewrite E1; exact Hh|exact E2|exact E3]. }
    exists (processed n t0 rest :: ps). split; [cbn [res_map]; rewrite PF; cbn [bind]; rewrite P1; reflexivity|].
    cbn [combine]. constructor; [|exact P2]. cbn [fst snd]. exists t0, rest. repeat split; assumption. }
  destruct HP as [ps [P1 P2]]. rewrite P1. cbn [bind].
  assert (HN : forall p, In p ps -> col_names p = "Time" :: vars ++ shifted_names vars).
  { intros p Hp. apply In_nth_error in Hp as [k Hk]. destruct (Forall2_nth_error_r _ _ _ P2 k p Hk) as [fn [_ [t0 [rest [_ [E1 [E2 [E3 [-> _]]]]]]]]].
    rewrite <- E1. apply processed_shape; assumption. }
  assert (HPne : ps <> []).
  { intros ->. apply res_map_length in P1. destruct fs; [contradiction|discriminate]. }
  rewrite (concat_select_ok ps _ HPne HN). cbn [bind].
  set (cf := MkFrame _ _). eexists _, cf. split; [reflexivity|]. cbn [im_concat im_samples im_variables im_structure im_sorter].
  split; [reflexivity|]. split; [reflexivity|]. split; [reflexivity|]. split; [reflexivity|]. split; [reflexivity|].
  split; [unfold col_names, cf; cbn [fr_cols]; rewrite map_map; apply map_id|].
  assert (LEN : forall h, In h ("Time" :: vars ++ shifted_names vars) -> Forall2 (fun p n => length (col_of h p) = n) ps (map (fun n => n - 1) ns)).
  { intros h Hhin. clear P1 HN HPne cf Hne. revert ps P2. induction HF as [|f n fs ns H1 H2 IH]; intros ps P2; cbn [combine] in P2; inversion P2; subst; [constructor|].
    cbn [map]. constructor; [|apply IH; assumption].
    destruct H3 as [t0 [rest [_ [E1 [E2 [E3 [-> _]]]]]]]. cbn [snd] in *. destruct (processed_shape n t0 rest E2 E3) as [L1 [L2 L3]].
    rewrite <- E1 in Hhin. rewrite <- L2 in Hhin. unfold col_names in Hhin. destruct (assoc_col_some _ _ Hhin) as [c [C1 C2]].
    unfold col_of. rewrite C1. rewrite Forall_forall in L3. apply (L3 _ C2). }
  split.
  { unfold nrows, cf; cbn [fr_index]. apply flat_map_len. clear LEN P1 HN HPne cf Hne. revert ps P2.
    induction HF as [|f n fs ns H1 H2 IH]; intros ps P2; cbn [combine] in P2; inversion P2; subst; [constructor|].
    cbn [map]. constructor; [|apply IH; assumption].
    destruct H3 as [t0 [rest [_ [E1 [E2 [E3 [-> _]]]]]]]. apply (processed_shape n t0 rest E2 E3). }
  assert (CELL : forall h k p m i, In h ("Time" :: vars ++ shifted_names vars) -> nth_error ps k = Some p ->
      nth_error (map (fun n => n - 1) ns) k = Some m -> i < m ->
      cell_at cf h (nat_sum (firstn k (map (fun n => n - 1) ns)) + i) = cell_at p h i).
  { intros h k p m i Hin Hk Hm Hi. unfold cell_at, cf; cbn [fr_cols]. rewrite (assoc_map_self (fun h => flat_map (col_of h) ps)) by exact Hin.
    rewrite (nth_flat_map_off (col_of h) ps _ (LEN h Hin) k p m i Hk Hm Hi). unfold col_of.
    pose proof (HN p (nth_error_In _ k Hk)) as Hc. rewrite <- Hc in Hin. unfold col_names in Hin. destruct (assoc_col_some _ _ Hin) as [c [-> _]]. reflexivity. }
  split.
  - intros k f n i Hf Hn Hi.
    assert (Hm : nth_error (map (fun n => n - 1) ns) k = Some (n - 1)) by (rewrite map_nth_error_iff, Hn; reflexivity).
    assert (Hc : nth_error (combine fs ns) k = Some (f, n)).
    { clear - Hf Hn. revert ns k Hf Hn. induction fs as [|a fs IH]; intros [|b ns] [|k] Hf Hn; try discriminate; cbn in *; [congruence|]. apply IH; assumption. }
    destruct (Forall2_nth_error _ _ _ P2 k (f, n) Hc) as [p [Hp [t0 [rest [_ [_ [_ [_ [_ PF]]]]]]]]]. cbn [fst snd] in PF.
    destruct (Forall2_nth_error _ _ _ HF k f Hf) as [n' [Hn' Hraw]]. rewrite Hn in Hn'; injection Hn' as <-.
    destruct (row_delta vars n f Hraw Hh) as [f' [F1 [_ [_ F4]]]]. rewrite PF in F1; injection F1 as <-.
    destruct (F4 i Hi) as [A B]. split.
    + intros t t' H1 H2. rewrite (CELL "Time" k p (n - 1) i); [apply A; assumption|left; reflexivity|exact Hp|exact Hm|lia].
    + intros v Hvin. destruct (B v Hvin) as [B1 B2].
      rewrite (CELL v k p (n - 1) i), (CELL (String.append v "S") k p (n - 1) i); try assumption; try lia.
      * split; assumption.
      * right. apply in_or_app. right. exact (in_map (fun s => String.append s "S") _ _ Hvin).
      * right. apply in_or_app. left. exact Hvin.
  - unfold cf; cbn [fr_cols]. rewrite (assoc_map_self (fun h => flat_map (col_of h) ps)) by (left; reflexivity).
    clear CELL LEN HN HPne cf P1 Hne. revert ps P2. induction HF as [|f n fs ns H1 H2 IH]; intros ps P2; cbn [combine] in P2; inversion P2; subst.
    + exists []. split; reflexivity.
    + destruct (IH l' H5) as [ds [D1 D2]]. destruct H3 as [t0 [rest [E0 [E1 [E2 [E3 [-> _]]]]]]]. cbn [fst snd] in *. subst f.
      pose proof H1 as [_ [_ [_ [HT _]]]]. unfold cell_at in HT. cbn [fr_cols assoc_col String.eqb Ascii.eqb Bool.eqb] in HT.
      destruct (time_col_full n t0 E2 HT) as [ts [T1 T2]]. destruct (diff_sum ts) as [dd [Q1 Q2]].
      exists (dd ++ ds). cbn [flat_map combine map]. rewrite Qcsum_cons, Qcsum_app, map_app. injection D1 as D1. rewrite D1. split.
      * do 2 f_equal. unfold col_of, processed; cbn [fr_cols assoc_col String.eqb Ascii.eqb Bool.eqb]. rewrite T1, <- T2. exact Q1.
      * f_equal; [|exact D2]. rewrite Q2. unfold frame_duration, cell_at; cbn [fst snd fr_cols assoc_col String.eqb Ascii.eqb Bool.eqb].
        rewrite T1. destruct ts as [|t ts]; [rewrite <- T2; reflexivity|]. rewrite !map_nth_error_iff. cbn [nth_error option_map].
        rewrite <- T2, (last_nth (t :: ts) t) by discriminate. reflexivity.
Qed.
