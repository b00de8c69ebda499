(** Exporting the CIMs and loading them into a TrajectoryGenerator: C54, C55. *)
From Coq Require Import Ascii.
From Verif Require Import Base Lib LibQc ModelStructure ModelGraph ModelCims ModelGenerator ModelSample ModelExport
  SpecStructure SpecGraph SpecComb SpecGenerator SpecSample SpecExport
  ProofExport ProofExport2 ProofExport3 PropsGenerator PropsSample.
Open Scope nat_scope.

(** ** C54 *)
(** The key written for a configuration of the parents is read back as its leading decimal digits. *)
Theorem C54_read_back_as_leading_digits l parents comb : parents <> [] -> length comb = length parents -> Forall no_equals parents ->
  exists key, comb_key l parents comb = Ok key /\ Forall2 leading_digit comb (find_digits key)
    /\ (find_digits key = comb <-> Forall (fun v => v < 10) comb).
Proof.
  intros Hp Hl F. destruct (key_parses l parents comb Hp Hl F) as [key [ds [K1 [<- K2]]]]. exists key. split; [exact K1|].
  split; [exact K2|apply leading_list, K2].
Qed.
Print Assumptions C54_read_back_as_leading_digits.
(** a variable without parents: the key is its name, read back as the empty configuration *)
Theorem C54_no_parents l comb : no_equals l -> comb_key l [] comb = Ok l /\ find_digits l = [].
Proof. intro H. split; [reflexivity|apply find_digits_none, H]. Qed.
Print Assumptions C54_no_parents.
(** different configurations have different keys, so that no entry of the exported dictionary is overwritten *)
Theorem C54_keys_distinct l parents u w key : parents <> [] -> length u = length parents -> length w = length parents ->
  comb_key l parents u = Ok key -> comb_key l parents w = Ok key -> u = w.
Proof.
  intros Hp Hu Hw. unfold comb_key. destruct (Nat.eqb_spec (length parents) 0) as [E|_]; [destruct parents; [congruence|discriminate]|].
  rewrite (key_parts_ok _ _ Hu), (key_parts_ok _ _ Hw). cbn [bind]. intros E1 E2. injection E1 as <-. injection E2 as E2.
  symmetry. exact (keys_distinct parents w u Hw Hu E2).
Qed.
Print Assumptions C54_keys_distinct.
(** the digit is determined by the number *)
Theorem C54_leading_digit_unique n d d' : leading_digit n d -> leading_digit n d' -> d = d'.
Proof.
  intros [A1 [[k ->] A3]] [B1 [[j ->] B3]]. destruct (Nat.eq_dec n 0) as [->|Hn].
  { rewrite !Nat.div_0_l by (apply Nat.pow_nonzero; lia). reflexivity. }
  assert (G : forall k j, k <= j -> n / 10 ^ k < 10 -> (n / 10 ^ j = 0 -> n = 0) -> n / 10 ^ k = n / 10 ^ j).
  { clear -Hn. intros k j L H Z. destruct (Nat.eq_dec k j) as [<-|D]; [reflexivity|]. exfalso. apply Hn, Z.
    replace j with (k + S (j - k - 1)) by lia. rewrite Nat.pow_add_r, <- Nat.div_div by (apply Nat.pow_nonzero; lia).
    apply Nat.div_small. cbn [Nat.pow]. pose proof (Nat.pow_nonzero 10 (j - k - 1)). lia. }
  destruct (Nat.le_ge_cases k j) as [Hj|Hj]; [apply G; assumption|symmetry; apply G; assumption].
Qed.
Print Assumptions C54_leading_digit_unique.
Example C54_small : comb_key "C" ["A";"B"] [3;7] = Ok "A=3,B=7" /\ find_digits "A=3,B=7" = [3;7].
Proof. split; reflexivity. Qed.
(** state 12 is read as state 1 *)
Example C54_large : comb_key "C" ["A";"B"] [3;12] = Ok "A=3,B=12" /\ find_digits "A=3,B=12" = [3;1].
Proof. split; reflexivity. Qed.
(** a label with '=' in it: the configuration read has the wrong length *)
Example C54_equals_in_label : comb_key "C" ["A=0"] [1] = Ok "A=0=1" /\ find_digits "A=0=1" = [0;1].
Proof. split; reflexivity. Qed.

(** ** C55 *)
(** A generated network whose variables have at most ten states, exported and loaded again, gives the very same
    TrajectoryGenerator: same variables, same parents, same configurations, same matrices. *)
Theorem C55_reload_is_exact labels vals u lo hi E cs tg vars :
  sampled_from_generator labels vals u lo hi E cs tg -> Forall no_equals labels -> map fst vars = labels -> E <> [] ->
  Forall (fun c => c <= 10) vals ->
  exists json, cims_to_json vars E cs = Ok json /\ load_trajgen vars E json = Ok tg.
Proof. exact (reload_exact labels vals u lo hi E cs tg vars). Qed.
Print Assumptions C55_reload_is_exact.
(** The matrix used for a variable in every row of states is the one generated for that configuration of its parents:
    the [k]-th generated matrix, where [k] is the position of the configuration. *)
Theorem C55_same_cim_for_every_configuration labels vals u lo hi E cs tg vars json tg' v c pcs xs w :
  sampled_from_generator labels vals u lo hi E cs tg -> Forall no_equals labels -> map fst vars = labels -> E <> [] ->
  Forall (fun c => c <= 10) vals -> cims_to_json vars E cs = Ok json -> load_trajgen vars E json = Ok tg' ->
  card_in labels vals v c -> Forall2 (card_in labels vals) (gen_parents labels E v) pcs -> first_two_equal pcs ->
  in_states labels xs (gen_parents labels E v) w -> config_ok pcs w ->
  exists so m, dict_get cs v = Ok so /\ nth_error (so_actual_cims so) (config_rank pcs w) = Some m /\ select_cim tg' xs v = Ok m.
Proof.
  intros P NE HV HE Hc HJ HL Hv Hp Heq Hs Hw. destruct (reload_exact _ _ _ _ _ _ _ _ vars P NE HV HE Hc) as [json' [J1 J2]].
  rewrite HJ in J1. injection J1 as <-. rewrite HL in J2. injection J2 as ->.
  destruct (C52_selected_cim _ _ _ _ _ _ _ _ v c pcs xs w P Hv Hp Hs Hw Heq) as [so [m [A1 [_ [_ [A2 A3]]]]]]. exists so, m. auto.
Qed.
Print Assumptions C55_same_cim_for_every_configuration.
(** ... hence the same trajectories from the same random source *)
Theorem C55_same_trajectories labels vals u lo hi E cs tg vars json tg' fuel g t_end max_tr :
  sampled_from_generator labels vals u lo hi E cs tg -> Forall no_equals labels -> map fst vars = labels -> E <> [] ->
  Forall (fun c => c <= 10) vals -> cims_to_json vars E cs = Ok json -> load_trajgen vars E json = Ok tg' ->
  ctbn_sample fuel tg' g t_end max_tr = ctbn_sample fuel tg g t_end max_tr.
Proof.
  intros P NE HV HE Hc HJ HL. destruct (reload_exact _ _ _ _ _ _ _ _ vars P NE HV HE Hc) as [json' [J1 J2]].
  rewrite HJ in J1. injection J1 as <-. rewrite HL in J2. injection J2 as ->. reflexivity.
Qed.
Print Assumptions C55_same_trajectories.
(** finding: more than ten states.  In a row of states in which one of at least two parents is in state 10 or above,
    the reloaded generator finds no matrix; *)
Theorem C55_large_states_refuted labels vals u lo hi E cs tg vars v c pcs xs w json tg' :
  sampled_from_generator labels vals u lo hi E cs tg -> Forall no_equals labels -> map fst vars = labels -> E <> [] ->
  card_in labels vals v c -> Forall2 (card_in labels vals) (gen_parents labels E v) pcs -> 2 <= length pcs ->
  in_states labels xs (gen_parents labels E v) w -> Exists (fun x => 10 <= x) w ->
  cims_to_json vars E cs = Ok json -> load_trajgen vars E json = Ok tg' -> select_cim tg' xs v = Err IndexError.
Proof. exact (reload_large labels vals u lo hi E cs tg vars v c pcs xs w json tg'). Qed.
Print Assumptions C55_large_states_refuted.
(** with at most one parent the matrix is still found *)
Theorem C55_large_states_one_parent labels vals u lo hi E cs tg vars v xs json tg' :
  sampled_from_generator labels vals u lo hi E cs tg -> Forall no_equals labels -> map fst vars = labels -> E <> [] ->
  In v labels -> length (gen_parents labels E v) <= 1 ->
  cims_to_json vars E cs = Ok json -> load_trajgen vars E json = Ok tg' -> select_cim tg' xs v = select_cim tg xs v.
Proof. exact (reload_one_parent labels vals u lo hi E cs tg vars v xs json tg'). Qed.
Print Assumptions C55_large_states_one_parent.
(** finding: a network without edges cannot be loaded *)
Theorem C55_no_edges_refuted v vars json : load_trajgen (v :: vars) [] json = Err KeyError.
Proof. reflexivity. Qed.
Print Assumptions C55_no_edges_refuted.

Example C55_case : forall k, k = 2 \/ k = 3 ->
  sampled_from_generator ["A";"B";"C"] [2;k;2] half_draws 1%Qc (Q2Qc 2) (net_E k) (net_cs k) (net_tg k)
  /\ Forall no_equals ["A";"B";"C"] /\ net_E k <> []
  /\ exists json, cims_to_json [("A",2);("B",k);("C",2)] (net_E k) (net_cs k) = Ok json
     /\ map fst json = ["A";"B";"C"] /\ load_trajgen [("A",2);("B",k);("C",2)] (net_E k) json = Ok (net_tg k).
Proof.
  assert (NE : Forall no_equals ["A";"B";"C"]) by (repeat constructor; unfold no_equals; cbn; intuition discriminate).
  intros k Hk. split; [apply net_generated, Hk|]. split; [exact NE|].
  assert (HE : net_E k <> []) by (destruct Hk; subst k; vm_compute; discriminate). split; [exact HE|].
  destruct (C55_reload_is_exact _ _ _ _ _ _ _ _ [("A",2);("B",k);("C",2)] (net_generated k Hk) NE eq_refl HE) as [json [J1 J2]].
  { destruct Hk; subst k; repeat constructor. }
  exists json. split; [exact J1|]. split; [|exact J2].
  destruct Hk; subst k; vm_compute in J1; injection J1 as <-; reflexivity.
Qed.
(** a network with two parents of eleven states *)
Definition wide : result (list edge * list (label * set_of_cims (list (list Qc))) * trajgen) :=
  let* g1 := generate_graph (new_netgen ["A";"B";"C"] [11;11;2]) (PyFloat (Q2Qc (1#2))) false rot coin_v in
  let* g2 := generate_cims g1 half_draws 1%Qc (Q2Qc 2) in
  let* E := dyn_str g2 in
  let* vars := variables g2 in
  match gn_cims g2 with Some cs => Ok (E, cs, new_trajgen vars E cs) | None => Err KeyError end.
Definition wide_E := match wide with Ok b => fst (fst b) | _ => [] end.
Definition wide_cs := match wide with Ok b => snd (fst b) | _ => [] end.
Definition wide_tg := match wide with Ok b => snd b | _ => empty_tg end.
Lemma wide_generated : sampled_from_generator ["A";"B";"C"] [11;11;2] half_draws 1%Qc (Q2Qc 2) wide_E wide_cs wide_tg.
Proof.
  split; [repeat constructor; cbn; intuition discriminate|]. split; [reflexivity|].
  exists (PyFloat (Q2Qc (1#2))), false, rot, coin_v.
  eexists _, _, _; split; [exact rot_shuffles|]; split; [vm_compute; reflexivity|]; split; [vm_compute; reflexivity|];
    split; [vm_compute; reflexivity|]; split; [vm_compute; reflexivity|]; split; [vm_compute; reflexivity|]; vm_compute; reflexivity.
Qed.
Example C55_large_case : exists json tg', cims_to_json [("A",11);("B",11);("C",2)] wide_E wide_cs = Ok json
  /\ load_trajgen [("A",11);("B",11);("C",2)] wide_E json = Ok tg'
  /\ (exists m, select_cim wide_tg [3;10;0] "C" = Ok m) /\ select_cim tg' [3;10;0] "C" = Err IndexError.
Proof.
  assert (NE : Forall no_equals ["A";"B";"C"]) by (repeat constructor; unfold no_equals; cbn; intuition discriminate).
  assert (HE : wide_E <> []) by (vm_compute; discriminate).
  assert (GP : gen_parents ["A";"B";"C"] wide_E "C" = ["A";"B"]) by (vm_compute; reflexivity).
  destruct (reload_general _ _ _ _ _ _ _ _ [("A",11);("B",11);("C",2)] wide_generated NE eq_refl HE) as [json [cs' [J1 [J2 _]]]].
  exists json, (new_trajgen [("A",11);("B",11);("C",2)] wide_E cs'). split; [exact J1|]. split; [exact J2|]. split.
  - assert (X : match select_cim wide_tg [3;10;0] "C" with Ok _ => true | Err _ => false end = true) by (vm_compute; reflexivity).
    destruct (select_cim wide_tg [3;10;0] "C") as [m|]; [exists m; reflexivity|discriminate].
  - eapply (C55_large_states_refuted _ _ _ _ _ _ _ _ [("A",11);("B",11);("C",2)] "C" 2 [11;11] [3;10;0] [3;10] _ _ wide_generated NE eq_refl HE); try exact J1; try exact J2.
    + exists 2. split; reflexivity.
    + rewrite GP. constructor; [exists 0; split; reflexivity|]. constructor; [exists 1; split; reflexivity|constructor].
    + cbn. lia.
    + rewrite GP. constructor; [exists 0; split; reflexivity|]. constructor; [exists 1; split; reflexivity|constructor].
    + apply Exists_cons_tl, Exists_cons_hd. lia.
Qed.
