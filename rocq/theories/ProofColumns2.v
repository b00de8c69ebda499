(** The choice and the order of the columns: parameters (C80). *)
From Verif Require Import Base Lib LibQc ModelStructure ModelGraph ModelCims ModelData ModelParams
  SpecStructure SpecGraph SpecComb SpecParams SpecData SpecInvariance SpecColumns
  ProofStructure ProofGraph ProofComb ProofParams ProofParams2 ProofParams3 ProofData ProofData2 ProofData3 ProofInvariance ProofColumns.
From Verif Require ProofCtpc4 ProofRedundant2 ProofFamScore2 ProofCoding.
Notation lookup := ProofCtpc4.lookup.

(** ** reading rows *)
Lemma shows_labels row (f : label -> nat) (a : label -> nat) ls :
  row_shows row (map f ls) (map a ls) = forallb (fun l => match nth_error row (f l) with Some z => Z.eqb z (Z.of_nat (a l)) | None => false end) ls.
Proof. unfold row_shows. induction ls as [|l ls IH]; [reflexivity|]. cbn [map combine forallb fst snd]. rewrite IH. reflexivity. Qed.
Lemma forallb_perm {A} (p : A -> bool) l l' : Permutation l l' -> forallb p l = forallb p l'.
Proof. induction 1 as [|x l l' H IH|x y l|l l' l'' H1 IH1 H2 IH2]; cbn [forallb]; [reflexivity|rewrite IH; reflexivity|destruct (p x), (p y); reflexivity|congruence]. Qed.
Lemma shows_cons row i is x u : row_shows row (i :: is) (x :: u) = row_shows row [i] [x] && row_shows row is u.
Proof. unfold row_shows. cbn [combine forallb fst snd]. rewrite andb_true_r. reflexivity. Qed.

(** ** configurations in another order of the parents *)
Lemma nat_prod_perm l l' : Permutation l l' -> nat_prod l = nat_prod l'.
Proof. unfold nat_prod. induction 1; cbn [fold_right]; lia. Qed.
Lemma config_lookup (w : label -> nat) ls : NoDup ls -> forall u, config_ok (map w ls) u -> map (lookup ls u) ls = u /\ forall l, In l ls -> lookup ls u l < w l.
Proof.
  intros HN u Hu. assert (HL : length u = length ls) by (apply Forall2_length in Hu; rewrite map_length in Hu; exact Hu).
  pose proof (ProofRedundant2.lookup_map' ls u HN HL) as E. split; [exact E|]. rewrite <- E in Hu at 1. clear - Hu.
  unfold config_ok in Hu. generalize dependent (lookup ls u). intros f Hu. induction ls as [|l ls IH]; intros x [].
  - subst. inversion Hu; assumption.
  - inversion Hu; subst. apply IH; assumption.
Qed.
Lemma config_map (w a : label -> nat) ls : (forall l, In l ls -> a l < w l) -> config_ok (map w ls) (map a ls).
Proof. induction ls as [|l ls IH]; intros H; cbn [map]; constructor; [apply H; left; reflexivity|apply IH; intros; apply H; right; assumption]. Qed.
Lemma enum_perm {B} (w : label -> nat) (F F' : list nat -> B) ls ls' : NoDup ls -> Permutation ls' ls ->
  (forall a : label -> nat, (forall l, In l ls -> a l < w l) -> F' (map a ls') = F (map a ls)) ->
  Permutation (map F' (le_enum (map w ls'))) (map F (le_enum (map w ls))).
Proof.
  intros HN HP HF. assert (HN' : NoDup ls') by (apply (Permutation_NoDup (Permutation_sym HP)), HN).
  set (reorder := fun u => map (lookup ls' u) ls).
  assert (R1 : forall u, config_ok (map w ls') u -> config_ok (map w ls) (reorder u) /\ F' u = F (reorder u)).
  { intros u Hu. destruct (config_lookup w ls' HN' u Hu) as [E L].
    assert (L' : forall l, In l ls -> lookup ls' u l < w l) by (intros l Hl; apply L, (Permutation_in l (Permutation_sym HP)), Hl).
    split; [apply config_map, L'|]. rewrite <- E at 1. apply HF, L'. }
  assert (E : map F' (le_enum (map w ls')) = map F (map reorder (le_enum (map w ls')))).
  { rewrite map_map. apply map_ext_in. intros u Hu. apply R1, le_enum_ok, Hu. }
  rewrite E. apply Permutation_map. apply NoDup_Permutation_bis.
  - assert (X : forall l, (forall u, In u l -> config_ok (map w ls') u) -> NoDup l -> NoDup (map reorder l)).
    { induction l as [|u l IH]; intros Hl Hn; [constructor|]. apply NoDup_cons_iff in Hn as [N1 N2]. cbn [map]. constructor; [|apply IH; [intros; apply Hl; right; assumption|exact N2]].
      intros K. apply in_map_iff in K as [u' [Eu Hu']]. assert (u' = u); [|subst; contradiction].
      destruct (config_lookup w ls' HN' u (Hl u (or_introl eq_refl))) as [E1 _]. destruct (config_lookup w ls' HN' u' (Hl u' (or_intror Hu'))) as [E2 _].
      rewrite <- E1, <- E2. apply map_ext_in. intros l0 Hl0. apply (Permutation_in l0 HP) in Hl0. unfold reorder in Eu. clear - Eu Hl0.
      induction ls as [|y ls IH]; [contradiction|]. cbn [map] in Eu. injection Eu as E1 E2. destruct Hl0 as [<-|K]; [exact E1|apply IH; assumption]. }
    apply X; [intros u Hu; apply le_enum_ok, Hu|apply ProofFamScore2.le_enum_NoDup].
  - rewrite map_length, !le_enum_length. rewrite (nat_prod_perm (map w ls') (map w ls)) by (apply Permutation_map, HP). lia.
  - intros y Hy. apply in_map_iff in Hy as [u [<- Hu]]. apply le_enum_ok, R1, le_enum_ok, Hu.
Qed.

Section sel.
Variables (sg : list nat) (vars : list label) (cards : list nat) (prior : option (list edge)) (rs : list raw).
Hypothesis HS : selection sg (length vars).
Hypothesis HL : legal_input vars cards rs.
Let vars' := pick sg vars.
Let s := struct_of vars cards prior.
Let s' := struct_of (pick sg vars) (pick sg cards) prior.
Let rs' := picked sg rs.

Lemma wf_s : wf_structure s. Proof. exact (legal_wf _ _ _ _ HL). Qed.
Lemma legal' : legal_input vars' (pick sg cards) rs'. Proof. apply legal_picked; assumption. Qed.
Lemma wf_s' : wf_structure s'. Proof. exact (legal_wf _ _ _ _ legal'). Qed.
Lemma kept_in l : In l vars' -> In l vars. Proof. apply pick_In. Qed.
Lemma vars_NoDup : NoDup vars. Proof. apply wf_s. Qed.
Lemma sg_lt : Forall (fun i => i < length vars) sg. Proof. apply HS. Qed.

Lemma idx_pos (vs : list label) cs l : wf_structure (struct_of vs cs prior) -> In l vs -> nth_error vs (idx_of (struct_of vs cs prior) l) = Some l
  /\ nth_error cs (idx_of (struct_of vs cs prior) l) = Some (val_of (struct_of vs cs prior) l).
Proof.
  intros Hw Hl. destruct (wf_lookup _ l Hw Hl) as [i [E1 [E2 [E3 _]]]]. cbn [nodes_labels nodes_indexes nodes_values struct_of] in E1, E2, E3.
  rewrite nth_error_seq' in E2. destruct (Nat.ltb_spec i (length vs)) as [Hi|]; [|discriminate]. injection E2 as E2. rewrite <- E2. auto.
Qed.
Lemma idx_pick l : In l vars' -> nth_error sg (idx_of s' l) = Some (idx_of s l) /\ val_of s' l = val_of s l.
Proof.
  intros Hl. destruct (idx_pos vars' (pick sg cards) l wf_s' Hl) as [A1 A2]. destruct (idx_pos vars cards l wf_s (kept_in l Hl)) as [B1 B2].
  change (idx_of (struct_of vars' (pick sg cards) prior) l) with (idx_of s' l) in *. change (idx_of (struct_of vars cards prior) l) with (idx_of s l) in *.
  unfold vars' in A1. rewrite pick_nth in A1 by exact sg_lt. destruct (nth_error sg (idx_of s' l)) as [j|] eqn:Ej; [|discriminate].
  assert (Hj : j = idx_of s l).
  { apply (proj1 (NoDup_nth_error vars) vars_NoDup); [apply nth_error_Some; congruence|congruence]. }
  subst j. split; [reflexivity|]. destruct HL as [_ [_ [HC _]]]. rewrite pick_nth in A2 by (rewrite HC; exact sg_lt). rewrite Ej in A2.
  change (val_of (struct_of vars' (pick sg cards) prior) l) with (val_of s' l) in A2. change (val_of (struct_of vars cards prior) l) with (val_of s l) in B2. congruence.
Qed.
Lemma read_pick (row : list Z) l : length row = length vars -> In l vars' -> nth_error (pick sg row) (idx_of s' l) = nth_error row (idx_of s l).
Proof. intros E Hl. rewrite pick_nth by (rewrite E; exact sg_lt). rewrite (proj1 (idx_pick l Hl)). reflexivity. Qed.
Lemma shows_pick row ls ls' a : length row = length vars -> Permutation ls' ls -> (forall l, In l ls' -> In l vars') ->
  row_shows (pick sg row) (map (idx_of s') ls') (map a ls') = row_shows row (map (idx_of s) ls) (map a ls).
Proof.
  intros E HP Hin. rewrite !shows_labels. rewrite <- (forallb_perm _ _ _ HP). clear HP. induction ls' as [|l r IH]; [reflexivity|]. cbn [forallb].
  rewrite read_pick by (auto; apply Hin; left; reflexivity). rewrite IH by (intros; apply Hin; right; assumption). reflexivity.
Qed.
Lemma shows_pick_v row v ls ls' a x : length row = length vars -> In v vars' -> Permutation ls' ls -> (forall l, In l ls' -> In l vars') ->
  row_shows (pick sg row) (idx_of s' v :: map (idx_of s') ls') (x :: map a ls') = row_shows row (idx_of s v :: map (idx_of s) ls) (x :: map a ls).
Proof.
  intros E Hv HP Hin. rewrite (shows_cons _ _ (map (idx_of s') ls')), (shows_cons _ _ (map (idx_of s) ls)). rewrite (shows_pick row ls ls' a E HP Hin). f_equal.
  apply (shows_pick row [v] [v] (fun _ => x) E (Permutation_refl _)). intros l [<-|[]]. exact Hv.
Qed.
Lemma row_len r ab : In r rs -> In ab (steps r) -> length (snd (fst ab)) = length vars /\ length (snd (snd ab)) = length vars.
Proof.
  intros Hr Hab. destruct HL as [_ [_ [HC [HR _]]]]. rewrite Forall_forall in HR. destruct (HR r Hr) as [H _]. destruct (H ab Hab) as [A B].
  apply Forall2_length in A, B. split; congruence.
Qed.
Lemma dwell_pick cols cols' vals vals' : (forall row, length row = length vars -> row_shows (pick sg row) cols' vals' = row_shows row cols vals) ->
  raw_dwell rs' cols' vals' = raw_dwell rs cols vals.
Proof.
  intros H. unfold raw_dwell, rs', picked. rewrite map_map. f_equal. apply map_ext_in. intros r Hr. rewrite steps_map.
  assert (X : forall l, (forall ab, In ab l -> In ab (steps r)) ->
    map (fun ab : Qc * list Z * (Qc * list Z) => (fst (snd ab) - fst (fst ab))%Qc) (filter (fun ab => row_shows (snd (fst ab)) cols' vals') (map (fun ab => ((fst (fst ab), pick sg (snd (fst ab))), (fst (snd ab), pick sg (snd (snd ab))))) l))
    = map (fun ab => (fst (snd ab) - fst (fst ab))%Qc) (filter (fun ab => row_shows (snd (fst ab)) cols vals) l)).
  { induction l as [|ab l IH]; intros Hl; [reflexivity|]. cbn [map filter fst snd]. rewrite H by (apply (row_len r ab Hr), Hl; left; reflexivity).
    specialize (IH (fun x K => Hl x (or_intror K))). destruct (row_shows (snd (fst ab)) cols vals); cbn [map fst snd]; rewrite IH; reflexivity. }
  f_equal. apply (X (steps r)). auto.
Qed.
Lemma jumps_pick ni ni' x' cols cols' vals vals' : (forall row, length row = length vars -> row_shows (pick sg row) cols' vals' = row_shows row cols vals) ->
  (forall row, length row = length vars -> row_shows (pick sg row) [ni'] [x'] = row_shows row [ni] [x']) ->
  raw_jumps rs' ni' x' cols' vals' = raw_jumps rs ni x' cols vals.
Proof.
  intros H H2. unfold raw_jumps, rs', picked. rewrite map_map. f_equal. apply map_ext_in. intros r Hr. rewrite steps_map. f_equal.
  assert (X : forall l, (forall ab, In ab l -> In ab (steps r)) ->
    length (filter (fun ab : Qc * list Z * (Qc * list Z) => row_shows (snd (fst ab)) cols' vals' && row_shows (snd (snd ab)) [ni'] [x']) (map (fun ab => ((fst (fst ab), pick sg (snd (fst ab))), (fst (snd ab), pick sg (snd (snd ab))))) l))
    = length (filter (fun ab => row_shows (snd (fst ab)) cols vals && row_shows (snd (snd ab)) [ni] [x']) l)).
  { induction l as [|ab l IH]; intros Hl; [reflexivity|]. cbn [map filter fst snd]. destruct (row_len r ab Hr (Hl ab (or_introl eq_refl))) as [A B]. rewrite H, H2 by assumption.
    specialize (IH (fun x K => Hl x (or_intror K))). destruct (row_shows (snd (fst ab)) cols vals && row_shows (snd (snd ab)) [ni] [x']); cbn [length]; rewrite IH; reflexivity. }
  apply (X (steps r)). auto.
Qed.
Lemma cim_pick v ls ls' c a : In v vars' -> Permutation ls' ls -> (forall l, In l ls' -> In l vars') ->
  raw_cim rs' (idx_of s' v) (map (idx_of s') ls') c (map a ls') = raw_cim rs (idx_of s v) (map (idx_of s) ls) c (map a ls).
Proof.
  intros Hv HP Hin. unfold raw_cim. f_equal. f_equal.
  - apply map_ext. intros x. apply dwell_pick. intros row E. apply shows_pick_v; assumption.
  - assert (J : forall x y, raw_jumps rs' (idx_of s' v) y (idx_of s' v :: map (idx_of s') ls') (x :: map a ls') = raw_jumps rs (idx_of s v) y (idx_of s v :: map (idx_of s) ls) (x :: map a ls)).
    { intros x y. apply jumps_pick; intros row E; [apply shows_pick_v; assumption|].
      apply (shows_pick row [v] [v] (fun _ => y) E (Permutation_refl _)). intros l [<-|[]]. exact Hv. }
    apply map_ext. intros x. apply map_ext. intros x'. rewrite J. destruct (x' =? x); [|reflexivity]. f_equal. apply map_ext. intros y. rewrite J. reflexivity.
Qed.
Lemma filter_pick (p : label -> bool) : (forall l, In l vars -> p l = true -> In l vars') -> Permutation (filter p vars') (filter p vars).
Proof.
  intros H. apply NoDup_Permutation.
  - apply NoDup_filter', (proj1 wf_s').
  - apply NoDup_filter', vars_NoDup.
  - intros l. rewrite !filter_In. split; intros [A B]; [split; [apply kept_in, A|exact B]|split; [apply H; assumption|exact B]].
Qed.
Lemma view_pick E v c ni pis ps c' ni' pis' ps' : node_view s E v c ni pis ps -> node_view s' E v c' ni' pis' ps' -> In v vars' ->
  (forall l, In l vars -> emem (l, v) E = true -> In l vars') ->
  let P := parents_of s E v in let P' := parents_of s' E v in
  Permutation P' P /\ (forall l, In l P' -> In l vars') /\ c' = c /\ c = val_of s v /\ ni = idx_of s v /\ ni' = idx_of s' v
  /\ pis = map (idx_of s) P /\ pis' = map (idx_of s') P' /\ ps = map (val_of s) P /\ ps' = map (val_of s) P'.
Proof.
  intros [V1 [V2 [V3 V4]]] [W1 [W2 [W3 W4]]] Hv HE P P'.
  assert (HI : forall l, In l P' -> In l vars') by (intros l Hl; unfold P', parents_of in Hl; apply filter_In in Hl; apply Hl).
  assert (X : forall {B} (st : structure) (f : label -> result B) (g : label -> B) L l, (forall p b, f p = Ok b -> g p = b) -> Forall2 (fun p b => f p = Ok b) L l -> l = map g L).
  { intros B st f g L l Hf H. clear - Hf H. induction H as [|p b L l Hp H IH]; [reflexivity|]. cbn [map]. rewrite (Hf p b Hp), <- IH. reflexivity. }
  assert (Y1 : forall st p b, structure_get_node_indx st p = Ok b -> idx_of st p = b) by (intros st p b H; unfold idx_of; rewrite H; reflexivity).
  assert (Y2 : forall st p b, structure_get_states_number st p = Ok b -> val_of st p = b) by (intros st p b H; unfold val_of; rewrite H; reflexivity).
  split; [apply filter_pick, HE|]. split; [exact HI|].
  assert (Ec : val_of s' v = val_of s v) by (apply idx_pick, Hv).
  split; [rewrite <- (Y2 _ _ _ W1), <- (Y2 _ _ _ V1); exact Ec|]. split; [symmetry; apply Y2, V1|]. split; [symmetry; apply Y1, V2|]. split; [symmetry; apply Y1, W2|].
  split; [exact (X _ s _ _ _ _ (Y1 s) V3)|]. split; [exact (X _ s' _ _ _ _ (Y1 s') W3)|]. split; [exact (X _ s _ _ _ _ (Y2 s) V4)|].
  rewrite (X _ s' _ _ _ _ (Y2 s') W4). apply map_ext_in. intros l Hl. apply idx_pick, HI, Hl.
Qed.
End sel.
