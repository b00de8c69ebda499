(** Proofs about files (C78, C79). *)
From Coq Require Import Ascii.
From Verif Require Import Base Lib ModelStructure ModelGraph ModelCims ModelData ModelGenerator ModelSample ModelExport ModelDocument ModelEstimators ModelFiles
  SpecData SpecDocument SpecFiles ProofGraph ProofGenerator2 ProofExport ProofExport2 ProofDocument ProofFiles.
Open Scope nat_scope.

Lemma ends_blanks w : blanks w -> ends w.
Proof. intro H. rewrite <- (app_nil_r w). apply blank_ends; [exact H|exact I]. Qed.
Lemma loads_complete nf j s : json_text nf j s -> json_loads nf s = Ok j.
Proof.
  intros [w1 [t [w2 [W1 [V [W2 ->]]]]]]. unfold json_loads. rewrite (skip_app w1 _ W1). destruct (value_head _ _ _ V) as [c [r [E [HB _]]]].
  assert (SK : skip_blanks (t ++ w2) = t ++ w2) by (rewrite E; cbn [app]; apply skip_head, HB). rewrite SK.
  rewrite (proj1 (scan_complete nf) j t V); [rewrite (skip_nil w2 W2); reflexivity| |right; apply ends_blanks, W2]. rewrite !app_length. lia.
Qed.
Lemma loads_sound nf j s : json_loads nf s = Ok j -> json_text nf j s.
Proof.
  unfold json_loads. destruct (skip_split s) as [w1 [W1 E]]. destruct (scan_value nf (2 * length s + 1) (skip_blanks s)) as [[v r]|] eqn:V; [|discriminate].
  destruct (skip_split r) as [w2 [W2 E2]]. destruct (skip_blanks r); [|discriminate]. rewrite app_nil_r in E2. subst r. intro H. injection H as <-.
  destruct (proj1 (scan_sound nf _) _ _ _ V) as [t [T VT]]. exists w1, t, w2. rewrite <- T. auto.
Qed.
Lemma loads_iff nf j s : json_loads nf s = Ok j <-> json_text nf j s.
Proof. split; [apply loads_sound|apply loads_complete]. Qed.
Lemma loads_error nf s : (exists j, json_loads nf s = Ok j) \/ json_loads nf s = Err ValueError.
Proof.
  unfold json_loads. destruct (scan_value nf _ _) as [[v r]|]; [|right; reflexivity]. destruct (skip_blanks r); [left; eauto|right; reflexivity].
Qed.

(** *** texts that were cut *)
Lemma not_number_head nf j t c r : value_text nf j t -> not_number j -> t = c :: r -> ~ digit c /\ c <> "-"%char.
Proof.
  intros V N E. destruct V; try contradiction; injection E as <- _; split; try discriminate; unfold digit, code; cbn; lia.
Qed.
Lemma cut_rejected nf j t p : value_text nf j t -> not_number j -> cut_short p t -> json_loads nf p = Err ValueError.
Proof.
  intros V N [q [Hq E]]. destruct (loads_error nf p) as [[v L]|L]; [|exact L]. exfalso. apply loads_sound in L as [w1 [t' [w2 [W1 [V' [W2 P]]]]]].
  destruct (value_head _ _ _ V) as [c [r [TE [HB _]]]]. destruct (value_head _ _ _ V') as [c' [r' [TE' _]]].
  assert (w1 = []).
  { destruct W1 as [|x w1 Hx W1]; [reflexivity|]. exfalso. rewrite P, TE in E. cbn [app] in E. injection E as <- _. apply blank_iff in Hx. congruence. }
  subst w1. cbn [app] in P. assert (c' = c) by (rewrite P, TE, TE' in E; cbn [app] in E; injection E; intros; congruence). subst c'.
  destruct (not_number_head nf j t c r V N TE) as [D1 D2].
  assert (N' : not_number v). { destruct V'; try exact I. destruct (number_head _ H) as [d [rr [HD DD]]]. rewrite HD in TE'. injection TE' as -> _. destruct DD; contradiction. }
  assert (X1 : scan_value nf (2 * length t + 2 * length t') (t ++ []) = Some (j, [])) by (apply (proj1 (scan_complete nf) j t V); [lia|left; exact N]).
  assert (X2 : scan_value nf (2 * length t + 2 * length t') (t' ++ (w2 ++ q)) = Some (v, w2 ++ q)) by (apply (proj1 (scan_complete nf) v t' V'); [lia|left; exact N']).
  assert (Y : t ++ [] = t' ++ (w2 ++ q)) by (rewrite app_nil_r, app_assoc, <- P; exact E). rewrite Y, X2 in X1. injection X1 as _ X1. apply app_eq_nil in X1 as [_ X1]. contradiction.
Qed.

(** *** printing *)
Section JsonInd.
Variable P : json -> Prop.
Hypotheses (Hnull : P JNull) (Hbool : forall b, P (JBool b)) (Hnum : forall q, P (JNum q)) (Hstr : forall s, P (JStr s)).
Hypotheses (Harr : forall l, Forall P l -> P (JArr l)) (Hobj : forall l, Forall (fun kv => P (snd kv)) l -> P (JObj l)).
Fixpoint json_ind' (j : json) : P j :=
  match j with
  | JNull => Hnull | JBool b => Hbool b | JNum q => Hnum q | JStr s => Hstr s
  | JArr l => Harr l ((fix go l : Forall P l := match l with [] => Forall_nil _ | a :: r => Forall_cons a (json_ind' a) (go r) end) l)
  | JObj l => Hobj l ((fix go l : Forall (fun kv => P (snd kv)) l := match l with [] => Forall_nil _ | a :: r => Forall_cons a (json_ind' (snd a)) (go r) end) l)
  end.
End JsonInd.

Lemma escape_text c : char_text c (escape_char c).
Proof.
  unfold escape_char. fold (code c).
  destruct (Nat.eqb_spec (code c) 34) as [E|N1]; [constructor; rewrite E; cbn; tauto|].
  destruct (Nat.eqb_spec (code c) 92) as [E|N2]; [constructor; rewrite E; cbn; tauto|].
  destruct (Nat.eqb_spec (code c) 10) as [E|N3]; [apply (ct_short "n"%char); rewrite E; cbn; tauto|].
  destruct (Nat.eqb_spec (code c) 13) as [E|N4]; [apply (ct_short "r"%char); rewrite E; cbn; tauto|].
  destruct (Nat.eqb_spec (code c) 9) as [E|N5]; [apply (ct_short "t"%char); rewrite E; cbn; tauto|].
  destruct (Nat.eqb_spec (code c) 12) as [E|N6]; [apply (ct_short "f"%char); rewrite E; cbn; tauto|].
  destruct (Nat.eqb_spec (code c) 8) as [E|N7]; [apply (ct_short "b"%char); rewrite E; cbn; tauto|].
  destruct (Nat.leb_spec 32 (code c)) as [L|L].
  - destruct (Nat.leb_spec (code c) 126) as [K|K]; [constructor; lia|]. cbn [andb chars list_ascii_of_string app].
    apply ct_unicode; try (split; [lia|left; reflexivity]); (split; [|left; unfold hex_digit; apply nth_indep]); try (apply Nat.mod_upper_bound; lia);
      try (apply Nat.div_lt_upper_bound; [lia|]; pose proof (code_lt c); lia); cbn [length chars list_ascii_of_string]; first [apply Nat.mod_upper_bound; lia|apply Nat.div_lt_upper_bound; [lia|]; pose proof (code_lt c); lia].
  - cbn [andb chars list_ascii_of_string app].
    apply ct_unicode; try (split; [lia|left; reflexivity]); (split; [|left; unfold hex_digit; apply nth_indep]); try (apply Nat.mod_upper_bound; lia);
      try (apply Nat.div_lt_upper_bound; [lia|]; pose proof (code_lt c); lia); cbn [length chars list_ascii_of_string]; first [apply Nat.mod_upper_bound; lia|apply Nat.div_lt_upper_bound; [lia|]; pose proof (code_lt c); lia].
Qed.
Lemma escapes_text cs : string_text cs (flat_map escape_char cs).
Proof. induction cs as [|c cs IH]; [constructor|]. cbn [flat_map]. constructor; [apply escape_text|exact IH]. Qed.
Lemma dict_of_app (l : list (string * json)) : forall acc, NoDup (map fst acc ++ map fst l) -> fold_left (fun d kv => dict_set d (fst kv) (snd kv)) l acc = acc ++ l.
Proof.
  induction l as [|[k v] l IH]; intros acc N; [cbn; rewrite app_nil_r; reflexivity|]. cbn [fold_left fst snd map] in *.
  assert (F : ~ In k (map fst acc)) by (apply NoDup_remove in N as [_ N]; intro; apply N, in_or_app; auto).
  rewrite (dict_set_fresh acc k v F), IH; [rewrite <- app_assoc; reflexivity|]. rewrite map_app. cbn [map fst]. rewrite <- app_assoc. exact N.
Qed.
Lemma dict_of_id l : NoDup (map fst l) -> dict_of l = l.
Proof. intro N. unfold dict_of. rewrite dict_of_app by exact N. reflexivity. Qed.
Lemma elements_join nf : forall ts l, Forall2 (fun j t => value_text nf j t) l ts -> l <> [] -> forall w, blanks w -> elements_text nf l (w ++ join (chars ", ") ts).
Proof.
  induction ts as [|t ts IH]; intros l F Hl w W; [inversion F; subst; contradiction|]. inversion F as [|j ? l' ? Hj F']; subst. destruct ts as [|t2 ts].
  - inversion F'; subst. cbn [join]. rewrite <- (app_nil_r t). constructor; [exact W|exact Hj|constructor].
  - destruct l' as [|j2 l']; [inversion F'|].
    refine (et_more nf w j t [] (j2 :: l') ([" "%char] ++ join (chars ", ") (t2 :: ts)) W Hj _ _); [constructor|]. apply IH; [exact F'|discriminate|]. constructor; [left; reflexivity|constructor].
Qed.
Lemma members_join nf (tx : json -> list ascii) : forall l, Forall (fun kv => value_text nf (snd kv) (tx (snd kv))) l -> l <> [] -> forall w, blanks w ->
  members_text nf l (w ++ join (chars ", ") (map (fun kv => dump_string (fst kv) ++ chars ": " ++ tx (snd kv)) l)).
Proof.
  induction l as [|[k v] l IH]; intros F Hl w W; [contradiction|]. inversion F as [|? ? Hv F']; subst. cbn [fst snd] in Hv. cbn [map fst snd].
  assert (KT : string_text (chars k) (flat_map escape_char (chars k))) by apply escapes_text. assert (B : blanks [" "%char]) by (constructor; [left; reflexivity|constructor]).
  destruct l as [|kv2 l].
  - cbn [map join]. unfold dump_string. cbn [app]. rewrite <- app_assoc. cbn [app].
    change (chars ": " ++ tx v) with (":"%char :: [" "%char] ++ tx v). rewrite <- (app_nil_r (tx v)).
    change (quote :: ":"%char :: [" "%char] ++ tx v ++ []) with (quote :: [] ++ ":"%char :: [" "%char] ++ tx v ++ []). constructor; try assumption; constructor.
  - specialize (IH F' ltac:(discriminate) [" "%char] B). pose (f := fun kv : string * json => dump_string (fst kv) ++ chars ": " ++ tx (snd kv)). fold f in IH |- *.
    change (join (chars ", ") ((dump_string k ++ chars ": " ++ tx v) :: map f (kv2 :: l)))
      with ((dump_string k ++ chars ": " ++ tx v) ++ chars ", " ++ join (chars ", ") (map f (kv2 :: l))). revert IH. generalize (join (chars ", ") (map f (kv2 :: l))). intros J IH.
    pose proof (mt_more nf w k (flat_map escape_char (chars k)) [] [" "%char] v (tx v) [] (kv2 :: l) _ W KT (Forall_nil _) B Hv (Forall_nil _) IH) as K.
    unfold dump_string. cbn [app chars list_ascii_of_string] in K |- *. repeat (rewrite <- app_assoc; cbn [app]). exact K.
Qed.
Lemma dump_value nf j : printable nf j -> value_text nf j (dump_text nf j).
Proof.
  induction j as [| b | q | s | l IH | l IH] using json_ind'; intro P; cbn [dump_text].
  - constructor.
  - destruct b; constructor.
  - inversion P as [| | ? [F1 F2] | | |]; subst. constructor; assumption.
  - constructor. apply escapes_text.
  - inversion P as [| | | | ? F |]; subst. destruct l as [|a l]; [apply (vt_arr0 nf []); constructor|]. constructor.
    change (join (chars ", ") (map (dump_text nf) (a :: l))) with ([] ++ join (chars ", ") (map (dump_text nf) (a :: l))).
    apply elements_join; [|discriminate|constructor]. clear P. generalize dependent (a :: l). intros l' IH F. induction l' as [|x l' IHl]; [constructor|].
    inversion IH; inversion F; subst. constructor; auto.
  - inversion P as [| | | | | ? N F]; subst. destruct l as [|a l]; [apply (vt_obj0 nf []); constructor|]. rewrite <- (dict_of_id (a :: l) N) at 1. constructor.
    match goal with |- members_text _ _ ?t => change t with ([] ++ t) end.
    apply members_join; [|discriminate|constructor]. clear P N. generalize dependent (a :: l). intros l' IH F. induction l' as [|x l' IHl]; [constructor|].
    inversion IH; inversion F; subst. constructor; auto.
Qed.
Lemma dump_loads nf j : printable nf j -> json_loads nf (dump_text nf j) = Ok j.
Proof. intro P. apply loads_complete. exists [], (dump_text nf j), []. repeat split; try constructor; [apply dump_value, P|rewrite app_nil_r; reflexivity]. Qed.

(** *** ASCII *)
Definition shown (c : ascii) : Prop := 32 <= code c <= 126.
Lemma escape_shown c : Forall shown (escape_char c).
Proof.
  assert (H : forallb (fun x => (32 <=? code x) && (code x <=? 126)) (escape_char c) = true) by (destruct c as [[] [] [] [] [] [] [] []]; reflexivity).
  apply Forall_forall. intros x Hx. rewrite forallb_forall in H. specialize (H x Hx). apply andb_true_iff in H as [H1 H2]. apply Nat.leb_le in H1, H2. split; assumption.
Qed.
Lemma digits_shown ds : Forall digit ds -> Forall shown ds.
Proof. apply Forall_impl. intros c H. unfold digit in H. unfold shown. lia. Qed.
Ltac shown1 := unfold shown, code; cbn; lia.
Lemma number_shown t : number_token t -> Forall shown t.
Proof.
  intros [sg [i [f [e [-> [Hsg [Hi [Hf He]]]]]]]]. rewrite !Forall_app. repeat split.
  - destruct Hsg as [H|H]; rewrite H; repeat constructor; shown1.
  - destruct Hi as [H|[d [ds [H [Hd [_ Hds]]]]]]; rewrite H; [repeat constructor; shown1|]. apply digits_shown. constructor; assumption.
  - destruct Hf as [H|[ds [H [_ Hds]]]]; rewrite H; [constructor|]. constructor; [shown1|apply digits_shown, Hds].
  - destruct He as [H|[c [g [ds [H [Hc [Hg [_ Hds]]]]]]]]; rewrite H; [constructor|]. constructor; [destruct Hc as [K|K]; rewrite K; shown1|].
    apply Forall_app. split; [|apply digits_shown, Hds]. destruct Hg as [K|[K|K]]; rewrite K; repeat constructor; shown1.
Qed.
Lemma dump_string_shown s : Forall shown (dump_string s).
Proof.
  unfold dump_string. constructor; [shown1|]. apply Forall_app. split; [|constructor; [shown1|constructor]].
  induction (chars s) as [|c cs IH]; [constructor|]. cbn [flat_map]. apply Forall_app. split; [apply escape_shown|exact IH].
Qed.
Lemma join_shown ts : Forall (Forall shown) ts -> Forall shown (join (chars ", ") ts).
Proof.
  induction 1 as [|t ts Ht Hts IH]; [constructor|]. cbn [join]. destruct ts as [|t2 ts]; [exact Ht|]. rewrite !Forall_app. repeat split; [exact Ht| |exact IH].
  repeat constructor; shown1.
Qed.
Lemma dump_shown nf j : printable nf j -> Forall shown (dump_text nf j).
Proof.
  induction j as [| b | q | s | l IH | l IH] using json_ind'; intro P; cbn [dump_text].
  - repeat constructor; shown1.
  - destruct b; repeat constructor; shown1.
  - inversion P as [| | ? [F1 F2] | | |]; subst. apply number_shown, F1.
  - apply dump_string_shown.
  - inversion P as [| | | | ? F |]; subst. constructor; [shown1|]. apply Forall_app. split; [|constructor; [shown1|constructor]]. apply join_shown.
    clear P. induction l as [|x l IHl]; [constructor|]. inversion IH; inversion F; subst. constructor; auto.
  - inversion P as [| | | | | ? N F]; subst. constructor; [shown1|]. apply Forall_app. split; [|constructor; [shown1|constructor]]. apply join_shown.
    clear P N. induction l as [|x l IHl]; [constructor|]. inversion IH; inversion F; subst. constructor; auto. rewrite !Forall_app. repeat split; [apply dump_string_shown| |auto].
    repeat constructor; shown1.
Qed.

(** *** the documents the library writes are printable *)
Inductive distinct_keys : json -> Prop :=
| dk_null : distinct_keys JNull
| dk_bool b : distinct_keys (JBool b)
| dk_num q : distinct_keys (JNum q)
| dk_str s : distinct_keys (JStr s)
| dk_arr l : Forall distinct_keys l -> distinct_keys (JArr l)
| dk_obj l : NoDup (map fst l) -> Forall (fun kv => distinct_keys (snd kv)) l -> distinct_keys (JObj l).
Lemma printable_iff nf j : distinct_keys j -> (forall q, In q (json_numbers j) -> faithful nf q) -> printable nf j.
Proof.
  induction j as [| b | q | s | l IH | l IH] using json_ind'; intros D F; cbn [json_numbers] in F.
  - constructor.
  - constructor.
  - constructor. apply F. left. reflexivity.
  - constructor.
  - inversion D as [| | | | ? K |]; subst. constructor. rewrite Forall_forall in *. intros x Hx. apply IH; auto. intros q Hq. apply F. apply in_flat_map. eauto.
  - inversion D as [| | | | | ? N K]; subst. constructor; [exact N|]. rewrite Forall_forall in *. intros x Hx. apply IH; auto. intros q Hq. apply F. apply in_flat_map. eauto.
Qed.
Lemma Forall_map_all {A B} (P : B -> Prop) (f : A -> B) l : (forall a, In a l -> P (f a)) -> Forall P (map f l).
Proof. intro H. apply Forall_forall. intros b Hb. apply in_map_iff in Hb as [a [<- Ha]]. apply H, Ha. Qed.
Lemma records_distinct f : NoDup (map fst (fr_cols f)) -> distinct_keys (frame_records f).
Proof.
  intro N. constructor. apply Forall_map_all. intros i _. constructor; [rewrite map_map; cbn [fst]; exact N|]. apply Forall_map_all. intros [n c] _. cbn [fst snd].
  destruct (nth_error c i) as [[q|]|]; constructor.
Qed.
Lemma record_keys (row : list Qc) : map fst (mapi (fun i v => (str_nat i, v)) row) = map str_nat (seq 0 (length row)).
Proof.
  rewrite mapi_combine, map_map. cbn [fst]. generalize 0 as k. induction row as [|v row IH]; intro k; [reflexivity|]. cbn [length seq combine map fst]. f_equal. apply IH.
Qed.
Lemma export_combs_NoDup l so ps : forall combs acc e, export_combs l so ps combs acc = Ok e -> NoDup (map fst acc) ->
  Forall (fun kr => Forall (fun r => NoDup (map fst r)) (snd kr)) acc ->
  NoDup (map fst e) /\ Forall (fun kr => Forall (fun r => NoDup (map (@fst string Qc) r)) (snd kr)) e.
Proof.
  induction combs as [|comb combs IH]; intros acc e H N F; cbn [export_combs] in H; [injection H as <-; auto|].
  apply bind_ok in H as [key [_ H]]. apply bind_ok in H as [m [_ H]]. apply (IH _ _ H).
  - rewrite dict_set_keys. destruct (lmem key (map fst acc)) eqn:K; [exact N|]. apply NoDup_snoc; [exact N|]. apply lmem_false, K.
  - assert (MR : Forall (fun r => NoDup (map fst r)) (matrix_records m)).
    { unfold matrix_records. apply Forall_map_all. intros row _.
rewrite record_keys. apply FinFun.Injective_map_NoDup; [intros a b; apply str_nat_inj|apply seq_NoDup]. }
    clear -F MR. induction acc as [|[k v] acc IHa]; cbn [dict_set]; [constructor; [exact MR|constructor]|]. inversion F; subst.
    destruct (String.eqb k key); constructor; auto.
Qed.
Lemma export_loop_inner str cims : forall ls acc cj, export_loop str cims ls acc = Ok cj ->
  Forall (fun ve => NoDup (map fst (snd ve)) /\ Forall (fun kr => Forall (fun r => NoDup (map (@fst string Qc) r)) (snd kr)) (snd ve)) acc ->
  Forall (fun ve => NoDup (map fst (snd ve)) /\ Forall (fun kr => Forall (fun r => NoDup (map (@fst string Qc) r)) (snd kr)) (snd ve)) cj.
Proof.
  induction ls as [|l ls IH]; intros acc cj H F; cbn [export_loop] in H; [injection H as <-; exact F|].
  apply bind_ok in H as [so [_ H]]. apply bind_ok in H as [e [E H]]. apply (IH _ _ H). apply export_combs_NoDup in E; [|constructor|constructor].
  clear -F E. induction acc as [|[k v] acc IHa]; cbn [dict_set]; [constructor; [exact E|constructor]|]. inversion F; subst. destruct (String.eqb k l); constructor; auto.
Qed.
Lemma document_distinct ex d : out_document ex = Ok d -> Forall (fun f => NoDup (map fst (fr_cols f))) (ex_trajectories ex) -> distinct_keys d.
Proof.
  unfold out_document. intros H F. apply bind_ok in H as [cj [HC H]]. injection H as <-. constructor. constructor; [|constructor].
  constructor; [cbn; repeat constructor; cbn; intuition discriminate|]. repeat constructor; cbn [snd].
  - apply Forall_map_all. intros e _. constructor; [cbn; repeat constructor; cbn; intuition discriminate|]. repeat constructor.
  - apply Forall_map_all. intros e _. constructor; [cbn; repeat constructor; cbn; intuition discriminate|]. repeat constructor.
  - rewrite map_map. cbn [fst]. apply (export_loop_NoDup _ _ _ _ _ HC). constructor.
  - apply export_loop_inner in HC; [|constructor]. apply Forall_map_all. intros [v e] Hv. cbn [fst snd]. rewrite Forall_forall in HC. destruct (HC _ Hv) as [N R]. cbn [snd] in *.
    constructor; [rewrite map_map; exact N|]. apply Forall_map_all. intros [k rs] Hk. cbn [fst snd]. constructor. apply Forall_map_all. intros r Hr.
    rewrite Forall_forall in R. specialize (R _ Hk). cbn [snd] in R. rewrite Forall_forall in R. constructor; [rewrite map_map; cbn [fst]; apply R, Hr|]. apply Forall_map_all. intros; constructor.
  - rewrite Forall_forall in F. apply Forall_map_all. intros f Hf. apply records_distinct, F, Hf.
Qed.
Lemma node_link_printable nf d : printable nf (node_link_json d).
Proof.
  constructor; [cbn; repeat constructor; cbn; intuition discriminate|]. repeat constructor; cbn [snd]; apply Forall_map_all; intros; (constructor; [cbn; repeat constructor; cbn; intuition discriminate|]; repeat constructor).
Qed.
Lemma read_node_link_ok d : read_node_link (node_link_json d) = Some d.
Proof.
  unfold read_node_link, node_link_json. cbn [dict_get String.eqb Ascii.eqb Bool.eqb]. rewrite !res_map_map.
  rewrite (res_map_pure _ (fun x => x)) by (intros; reflexivity). rewrite (res_map_pure _ (fun x => x)) by (intros [a b] _; reflexivity). rewrite !map_id. destruct d; reflexivity.
Qed.

(** *** states of the file system *)
Lemma put_same fs p t : put_file fs p t p = Some t.
Proof. unfold put_file. rewrite String.eqb_refl. reflexivity. Qed.
Lemma put_other fs p t q : q <> p -> put_file fs p t q = fs q.
Proof. intro H. unfold put_file. destruct (String.eqb_spec p q); [congruence|reflexivity]. Qed.
Lemma write_states_in fs p t st : In st (write_states fs p t) -> st = fs \/ exists k, k <= length t /\ st = put_file fs p (firstn k t).
Proof.
  intros [H|H]; [auto|]. right. apply in_map_iff in H as [k [<- Hk]]. apply in_seq in Hk. exists k. split; [lia|reflexivity].
Qed.
Lemma write_states_last fs p t d : last (write_states fs p t) d = put_file fs p t.
Proof.
  unfold write_states. rewrite seq_S, map_app. cbn [map Nat.add]. rewrite app_comm_cons, last_last, firstn_all. reflexivity.
Qed.
Lemma firstn_cut {A} k (t : list A) : k < length t -> exists q, q <> [] /\ t = firstn k t ++ q.
Proof.
  intro H. exists (skipn k t). split; [|symmetry; apply firstn_skipn]. intro E. apply (f_equal (@length A)) in E. rewrite skipn_length in E. cbn in E. lia.
Qed.
Lemma read_prefix nf d k : printable nf d -> structured d -> k <= length (dump_text nf d) ->
  json_loads nf (firstn k (dump_text nf d)) = (if k =? length (dump_text nf d) then Ok d else Err ValueError).
Proof.
  intros P S K. destruct (Nat.eqb_spec k (length (dump_text nf d))) as [->|N]; [rewrite firstn_all; apply dump_loads, P|].
  apply (cut_rejected nf d (dump_text nf d)); [apply dump_value, P|destruct d; try contradiction; exact I|]. apply firstn_cut. lia.
Qed.
Lemma out_structured ex d : out_document ex = Ok d -> structured d.
Proof. unfold out_document. intro H. apply bind_ok in H as [cj [_ H]]. injection H as <-. exact I. Qed.
Lemma target_structured cwd op p d : op_target cwd op = Some (p, d) -> structured d.
Proof.
  destruct op as [ex name|g q]; cbn [op_target]; [|intro H; injection H as <- <-; exact I]. destruct (out_document ex) as [x|] eqn:E; [|discriminate]. intro H. injection H as <- <-. apply (out_structured ex), E.
Qed.
Lemma op_run_states nf cwd op fs : snd (op_run nf cwd op fs) = match op_target cwd op with Some (p, d) => write_states fs p (dump_text nf d) | None => [fs] end.
Proof. destruct op as [ex name|g q]; cbn [op_run op_target]; [|reflexivity]. unfold out_file. destruct (out_document ex); reflexivity. Qed.
Definition completed (nf : number_format) (cwd : string) (ops : list file_op) (fs : string -> option (list ascii)) (p : string) : option (list ascii) :=
  match last_document cwd ops p with Some d => Some (dump_text nf d) | None => fs p end.
Lemma completed_cons nf cwd op ops fs p : completed nf cwd (op :: ops) fs p = completed nf cwd ops (last (snd (op_run nf cwd op fs)) fs) p.
Proof.
  unfold completed. cbn [last_document]. rewrite op_run_states. destruct (last_document cwd ops p); [reflexivity|]. destruct (op_target cwd op) as [[q d]|]; [|reflexivity].
  rewrite write_states_last. unfold put_file. destruct (String.eqb q p); reflexivity.
Qed.
Lemma history_char nf cwd ops : forall fs st, In st (history_states nf cwd ops fs) ->
  exists done rest, ops = done ++ rest
    /\ ((forall p, st p = completed nf cwd done fs p)
        \/ exists op rest' q d k, rest = op :: rest' /\ op_target cwd op = Some (q, d) /\ k <= length (dump_text nf d)
             /\ st q = Some (firstn k (dump_text nf d)) /\ forall p, p <> q -> st p = completed nf cwd done fs p).
Proof.
  induction ops as [|op ops IH]; intros fs st H; cbn [history_states] in H.
  - destruct H as [<-|[]]. exists [], []. split; [reflexivity|]. left. intro p. reflexivity.
  - apply in_app_or in H as [H|H].
    + exists [], (op :: ops). split; [reflexivity|]. rewrite op_run_states in H. destruct (op_target cwd op) as [[q d]|] eqn:T.
      * apply write_states_in in H as [H|[k [Hk H]]]; subst st; [left; intro p; reflexivity|]. right. exists op, ops, q, d, k. split; [reflexivity|]. split; [exact T|]. split; [exact Hk|].
        split; [apply put_same|]. intros p Hp. rewrite put_other by exact Hp. reflexivity.
      * destruct H as [<-|[]]. left. intro p. reflexivity.
    + destruct (IH _ _ H) as [done [rest [-> K]]]. exists (op :: done), rest. split; [reflexivity|]. destruct K as [K|[op' [rest' [q [d [k [E [T [Hk [Hq Ho]]]]]]]]]].
      * left. intro p. rewrite completed_cons. apply K.
      * right. exists op', rest', q, d, k. split; [exact E|]. split; [exact T|]. split; [exact Hk|]. split; [exact Hq|]. intros p Hp. rewrite completed_cons. apply Ho, Hp.
Qed.
