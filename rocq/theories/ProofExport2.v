From Coq Require Import Ascii.
From Verif Require Import Base Lib LibQc ModelStructure ModelGraph ModelCims ModelGenerator ModelSample ModelExport
  SpecStructure SpecGraph SpecComb SpecGenerator SpecSample SpecExport
  ProofComb ProofParams ProofParams2 ProofGraph ProofGenerator2 ProofSample ProofSample4 ProofFamScore2 ProofExport.
Open Scope nat_scope.

(** ** records *)
Lemma fold_cols_known ks : forall cols, (forall k, In k ks -> In k cols) ->
  fold_left (fun cols k => if lmem k cols then cols else cols ++ [k]) ks cols = cols.
Proof.
  induction ks as [|k ks IH]; intros cols H; [reflexivity|]. cbn [fold_left]. rewrite (proj2 (lmem_In k cols)) by (apply H; left; reflexivity).
  apply IH. intros k' Hk'. apply H. right. exact Hk'.
Qed.
Lemma fold_cols_new ks : forall cols, NoDup (cols ++ ks) ->
  fold_left (fun cols k => if lmem k cols then cols else cols ++ [k]) ks cols = cols ++ ks.
Proof.
  induction ks as [|k ks IH]; intros cols N; [symmetry; apply app_nil_r|]. cbn [fold_left].
  assert (Hk : ~ In k cols). { apply NoDup_remove in N as [_ N]. intro. apply N, in_or_app. auto. }
  rewrite (proj2 (lmem_false k cols) Hk). rewrite IH by (rewrite <- app_assoc; exact N). rewrite <- app_assoc. reflexivity.
Qed.
Definition col_names (c : nat) : list string := map str_nat (seq 0 c).
Lemma col_names_NoDup c : NoDup (col_names c).
Proof. apply FinFun.Injective_map_NoDup; [exact str_nat_inj|apply seq_NoDup]. Qed.
Lemma record_keys (row : list Qc) : map fst (mapi (fun i v => (str_nat i, v)) row) = col_names (length row).
Proof.
  unfold col_names. apply list_ext. intro i. rewrite !map_nth_error_iff, nth_error_mapi.
  destruct (Nat.lt_ge_cases i (length row)) as [H|H].
  - destruct (nth_error row i) eqn:E; [|apply nth_error_None in E; lia]. rewrite (nth_error_nth' _ 0) by (rewrite seq_length; exact H).
    rewrite seq_nth by exact H. reflexivity.
  - rewrite (proj2 (nth_error_None row i) H). rewrite (proj2 (nth_error_None (seq 0 (length row)) i)) by (rewrite seq_length; exact H). reflexivity.
Qed.
Lemma record_columns_rect m c : m <> [] -> (forall row, In row m -> length row = c) -> record_columns (matrix_records m) = col_names c.
Proof.
  intros Hm H. destruct m as [|r m]; [congruence|]. unfold record_columns, matrix_records. cbn [map flat_map]. rewrite record_keys, fold_left_app.
  rewrite (H r (or_introl eq_refl)). rewrite (fold_cols_new (col_names c) []) by apply col_names_NoDup. cbn [app].
  apply fold_cols_known. intros k Hk. apply in_flat_map in Hk as [rec [H1 H2]]. apply in_map_iff in H1 as [row [<- Hrow]].
  rewrite record_keys, (H row (or_intror Hrow)) in H2. exact H2.
Qed.
Lemma dict_get_mapi (row : list Qc) : forall k i v, nth_error row i = Some v ->
  dict_get (map (fun iv => (str_nat (fst iv), snd iv)) (combine (seq k (length row)) row)) (str_nat (k + i)) = Ok v.
Proof.
  induction row as [|a row IH]; intros k i v H; [destruct i; discriminate|]. cbn [length seq combine map fst snd dict_get].
  destruct (String.eqb_spec (str_nat k) (str_nat (k + i))) as [E|E].
  - apply str_nat_inj in E. assert (i = 0) by lia. subst i. cbn in H. injection H as ->. reflexivity.
  - destruct i as [|i]; [exfalso; apply E; f_equal; lia|]. replace (k + S i) with (S k + i) by lia. apply IH, H.
Qed.
Lemma mapi_combine {A B} (f : nat -> A -> B) (l : list A) : mapi f l = map (fun iv => f (fst iv) (snd iv)) (combine (seq 0 (length l)) l).
Proof.
  unfold mapi. generalize 0. induction l as [|a l IH]; intro n; [reflexivity|]. cbn [mapi_from length seq combine map fst snd]. f_equal. apply IH.
Qed.
Lemma records_roundtrip m c : (forall row, In row m -> length row = c) -> records_matrix (matrix_records m) = Ok m.
Proof.
  intro H. destruct m as [|r0 m0]; [reflexivity|]. unfold records_matrix. rewrite (record_columns_rect (r0 :: m0) c) by (congruence || exact H).
  set (m := r0 :: m0) in *. clearbody m. clear r0 m0. unfold matrix_records.
  induction m as [|row m IH]; [reflexivity|]. cbn [map res_map].
  assert (E : res_map (dict_get (mapi (fun i v => (str_nat i, v)) row)) (col_names c) = Ok row).
  { rewrite <- (H row (or_introl eq_refl)), mapi_combine. unfold col_names.
    assert (G : forall k, k <= length row -> res_map (dict_get (map (fun iv => (str_nat (fst iv), snd iv)) (combine (seq 0 (length row)) row)))
                     (map str_nat (seq k (length row - k))) = Ok (skipn k row)).
    { intros k Hk. remember (length row - k) as n eqn:En. revert k Hk En. induction n as [|n IHn]; intros k Hk En.
      - assert (k = length row) by lia. subst k. rewrite skipn_all. reflexivity.
      - cbn [seq map res_map]. destruct (nth_error row k) as [v|] eqn:Ev; [|apply nth_error_None in Ev; lia].
        pose proof (dict_get_mapi row 0 k v Ev) as Dg. cbn [Nat.add] in Dg. rewrite Dg. cbn [bind]. rewrite IHn by lia. cbn [bind]. f_equal.
        clear -Ev. revert k Ev. induction row as [|a row IH]; intros [|k] Ev; try discriminate; [injection Ev as ->; reflexivity|]. cbn [skipn]. apply IH, Ev. }
    specialize (G 0 ltac:(lia)). rewrite Nat.sub_0_r in G. exact G. }
  rewrite E. cbn [bind]. rewrite IH by (intros row' Hr; apply H; right; exact Hr). reflexivity.
Qed.

(** ** dictionaries *)
Lemma dict_set_fresh {V} (d : list (string * V)) k v : ~ In k (map fst d) -> dict_set d k v = d ++ [(k, v)].
Proof.
  induction d as [|[a b] d IH]; intro H; [reflexivity|]. cbn [dict_set map fst In] in *. destruct (String.eqb_spec a k) as [->|]; [tauto|].
  cbn [app]. f_equal. apply IH. tauto.
Qed.
Lemma dict_get_nth {V} (d : list (string * V)) : NoDup (map fst d) -> forall k v, In (k, v) d -> dict_get d k = Ok v.
Proof.
  induction d as [|[a b] d IH]; intros N k v H; [contradiction|]. cbn [map fst] in N. apply NoDup_cons_iff in N as [N1 N2]. cbn [dict_get].
  destruct H as [E|H]; [injection E as -> ->; rewrite String.eqb_refl; reflexivity|].
  destruct (String.eqb_spec a k) as [->|]; [|apply IH; assumption]. exfalso. apply N1. apply (in_map fst) in H. exact H.
Qed.

Lemma export_combs_ok l so ps : forall combs keys ms acc,
  Forall2 (fun comb key => comb_key l ps comb = Ok key) combs keys ->
  Forall2 (fun comb m => exported_cim so ps comb = Ok m) combs ms ->
  NoDup (map fst acc ++ keys) ->
  export_combs l so ps combs acc = Ok (acc ++ combine keys (map matrix_records ms)).
Proof.
  induction combs as [|comb combs IH]; intros keys ms acc Fk Fm N.
  - destruct keys; [|inversion Fk]. cbn. rewrite app_nil_r. reflexivity.
  - destruct keys as [|key keys]; [inversion Fk|]. destruct ms as [|m ms]; [inversion Fm|].
    assert (K1 : comb_key l ps comb = Ok key) by (inversion Fk; assumption). assert (K2 : Forall2 (fun comb key => comb_key l ps comb = Ok key) combs keys) by (inversion Fk; assumption).
    assert (M1 : exported_cim so ps comb = Ok m) by (inversion Fm; assumption). assert (M2 : Forall2 (fun comb m => exported_cim so ps comb = Ok m) combs ms) by (inversion Fm; assumption).
    cbn [export_combs]. rewrite K1, M1. cbn [bind]. rewrite dict_set_fresh.
    2:{ apply NoDup_remove in N as [_ N]. intro. apply N, in_or_app. auto. }
    rewrite (IH keys ms); [|exact K2|exact M2|rewrite map_app; cbn [map fst]; rewrite <- app_assoc; exact N].
    cbn [map combine]. rewrite <- app_assoc. reflexivity.
Qed.
Lemma load_combs_ok : forall keys ms, length keys = length ms -> (forall m, In m ms -> exists c, forall row, In row m -> length row = c) ->
  load_combs (combine keys (map matrix_records ms)) = Ok (MkSetOfCims (map find_digits keys) ms).
Proof.
  intros keys ms L H. unfold load_combs.
  assert (E : res_map (fun kr => records_matrix (snd kr)) (combine keys (map matrix_records ms)) = Ok ms).
  { revert keys L. induction ms as [|m ms IH]; intros [|k keys] L; try discriminate; [reflexivity|]. cbn [map combine res_map snd].
    destruct (H m (or_introl eq_refl)) as [c Hc]. rewrite (records_roundtrip m c Hc). cbn [bind]. rewrite IH; [reflexivity|intros m' Hm'; apply H; right; exact Hm'|cbn in L; lia]. }
  rewrite E. cbn [bind]. do 2 f_equal.
  clear -L. revert ms L. induction keys as [|k keys IH]; intros [|m ms] L; try discriminate; [reflexivity|]. cbn [map combine fst]. f_equal. apply IH. cbn in L. lia.
Qed.
Lemma load_cims_ok : forall entries sos acc, Forall2 (fun e so => load_combs (snd e) = Ok so) entries sos -> NoDup (map fst acc ++ map fst entries) ->
  load_cims entries acc = Ok (acc ++ combine (map fst entries) sos).
Proof.
  induction entries as [|[v e] entries IH]; intros sos acc F N.
  - cbn. rewrite app_nil_r. reflexivity.
  - destruct sos as [|so sos]; [inversion F|]. assert (F1 : load_combs e = Ok so) by (inversion F; assumption).
    assert (F2 : Forall2 (fun e so => load_combs (snd e) = Ok so) entries sos) by (inversion F; assumption).
    cbn [load_cims]. rewrite F1. cbn [bind]. cbn [map fst] in N. rewrite dict_set_fresh.
    2:{ apply NoDup_remove in N as [_ N]. intro. apply N, in_or_app. auto. }
    rewrite (IH sos); [|exact F2|rewrite map_app; cbn [map fst]; rewrite <- app_assoc; exact N]. cbn [map fst combine]. rewrite <- app_assoc. reflexivity.
Qed.
Lemma export_loop_ok str cims : forall ls es acc,
  Forall2 (fun l e => exists so, dict_get cims l = Ok so /\ export_combs l so (parents_of str l) (so_p_combs so) [] = Ok e) ls es ->
  NoDup (map fst acc ++ ls) -> export_loop str cims ls acc = Ok (acc ++ combine ls es).
Proof.
  induction ls as [|l ls IH]; intros es acc F N.
  - cbn. rewrite app_nil_r. reflexivity.
  - destruct es as [|e es]; [inversion F|].
    assert (F1 : exists so, dict_get cims l = Ok so /\ export_combs l so (parents_of str l) (so_p_combs so) [] = Ok e) by (inversion F; assumption).
    assert (F2 : Forall2 (fun l e => exists so, dict_get cims l = Ok so /\ export_combs l so (parents_of str l) (so_p_combs so) [] = Ok e) ls es) by (inversion F; assumption).
    destruct F1 as [so [D1 D2]]. cbn [export_loop]. rewrite D1. cbn [bind]. rewrite D2. cbn [bind]. rewrite dict_set_fresh.
    2:{ apply NoDup_remove in N as [_ N]. intro. apply N, in_or_app. auto. }
    rewrite (IH es); [|exact F2|rewrite map_app; cbn [map fst]; rewrite <- app_assoc; exact N]. cbn [combine]. rewrite <- app_assoc. reflexivity.
Qed.
