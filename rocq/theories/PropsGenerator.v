(** Network generator: C47, C48. *)
From Coq Require Import Qround.
From Verif Require Import Base Lib ModelStructure ModelGraph ModelCims ModelGenerator
  SpecStructure SpecGraph SpecComb SpecGenerator ProofGenerator ProofGenerator2 ProofGenerator3 LibQc.
Open Scope nat_scope.

Definition gx : netgen := new_netgen ["A";"B";"C"] [2;3;2].
Definition rot (l : list edge) : list edge := match l with [] => [] | a :: r => r ++ [a] end.
Lemma rot_shuffles : shuffles rot.
Proof. intros [|a r]; [apply Permutation_refl|]. apply Permutation_cons_append. Qed.

(** C47: whatever the density, the mode and the draws, a generated graph has no self-loop, no repeated edge
    and no edge outside the variables. *)
Theorem C47_no_self_loops g density fixed shuffle coin g' : shuffles shuffle ->
  generate_graph g density fixed shuffle coin = Ok g' ->
  gn_labels g' = gn_labels g /\ gn_vals g' = gn_vals g /\
  exists E, dyn_str g' = Ok E /\ NoDup E
    /\ forall e, In e E -> fst e <> snd e /\ In (fst e) (gn_labels g) /\ In (snd e) (gn_labels g).
Proof. exact (no_self_loops g density fixed shuffle coin g'). Qed.
Print Assumptions C47_no_self_loops.

(** fixed=True: with density*n*(n-1) = k exactly k edges when 0 <= k <= n(n-1); all pairs when k is larger; a
    negative density removes from the end (Python slice). *)
Theorem C47_fixed_count g d k shuffle coin : NoDup (gn_labels g) -> shuffles shuffle ->
  (d * Qc_nat (length (gn_labels g)) * Qc_of_Z (Z.of_nat (length (gn_labels g)) - 1))%Qc = Qc_of_Z k ->
  exists g' E, generate_graph g (PyFloat d) true shuffle coin = Ok g' /\ dyn_str g' = Ok E
    /\ length E = if (0 <=? k)%Z then Nat.min (Z.to_nat k) (max_edges (length (gn_labels g)))
                  else Z.to_nat (Z.of_nat (max_edges (length (gn_labels g))) + k).
Proof. exact (fixed_count g d k shuffle coin). Qed.
Print Assumptions C47_fixed_count.
Example C47_fixed_case : exists g' E, generate_graph gx (PyFloat (Q2Qc (1#3))) true rot (fun _ => true) = Ok g'
  /\ dyn_str g' = Ok E /\ E = [("A","C");("B","A")].
Proof. eexists _, _. split; [vm_compute; reflexivity|]. split; reflexivity. Qed.

Theorem C47_fixed_not_integer g d shuffle coin :
  (forall k, (d * Qc_nat (length (gn_labels g)) * Qc_of_Z (Z.of_nat (length (gn_labels g)) - 1))%Qc <> Qc_of_Z k) ->
  generate_graph g (PyFloat d) true shuffle coin = Err RuntimeError.
Proof. exact (fixed_not_integer g d shuffle coin). Qed.
Print Assumptions C47_fixed_not_integer.
Example C47_not_integer_case : generate_graph gx (PyFloat (Q2Qc (1#4))) true rot (fun _ => true) = Err RuntimeError.
Proof. vm_compute. reflexivity. Qed.

(** a Python int as density (for instance 1) is rejected in fixed mode *)
Theorem C47_fixed_int_density_refuted g z shuffle coin : generate_graph g (PyInt z) true shuffle coin = Err TypeError.
Proof. reflexivity. Qed.
Print Assumptions C47_fixed_int_density_refuted.

(** fixed=False: edge (l_i, l_j), i <> j, is present iff the draw number i*n+j came up 1; so exactly one draw is
    spent for every ordered pair, and a density outside [0,1] raises ValueError. *)
Theorem C47_random_edges g density shuffle coin :
  (0 < length (gn_labels g) -> (0 <= density_value density)%Qc /\ (density_value density <= 1)%Qc) ->
  exists g' E, generate_graph g density false shuffle coin = Ok g' /\ dyn_str g' = Ok E
    /\ forall e, In e E <-> exists i j, nth_error (gn_labels g) i = Some (fst e) /\ nth_error (gn_labels g) j = Some (snd e)
         /\ fst e <> snd e /\ coin (i * length (gn_labels g) + j) = true.
Proof. exact (random_graph g density shuffle coin). Qed.
Print Assumptions C47_random_edges.
Theorem C47_random_bad_density g density shuffle coin : gn_labels g <> [] ->
  ~ ((0 <= density_value density)%Qc /\ (density_value density <= 1)%Qc) ->
  generate_graph g density false shuffle coin = Err ValueError.
Proof. exact (random_bad_density g density shuffle coin). Qed.
Print Assumptions C47_random_bad_density.
Example C47_random_case : exists g' E, generate_graph gx (PyFloat (Q2Qc (1#2))) false rot Nat.even = Ok g'
  /\ dyn_str g' = Ok E /\ E = [("A","C");("C","A")].
Proof. eexists _, _. split; [vm_compute; reflexivity|]. split; reflexivity. Qed.

(** C48: after generate_graph, generate_cims succeeds and gives every variable prod(parent cardinalities) square
    matrices of its own size, stored with the table of parent configurations; for draws in (0,1], 0 <= min <= max
    and at least two states, each row is the four-digit rounding of a row that sums to 0, has minus a number of
    [min,max] on the diagonal and no negative entry elsewhere; the rounded row sums to at most c/20000 in absolute
    value. *)
Theorem C48_generated_cims g density fixed shuffle coin g1 E u lo hi :
  NoDup (gn_labels g) -> length (gn_vals g) = length (gn_labels g) -> shuffles shuffle ->
  generate_graph g density fixed shuffle coin = Ok g1 -> dyn_str g1 = Ok E ->
  exists g2 cs, generate_cims g1 u lo hi = Ok g2 /\ dyn_str g2 = Ok E /\ gn_labels g2 = gn_labels g /\ gn_vals g2 = gn_vals g
    /\ gn_cims g2 = Some cs /\ map fst cs = gn_labels g
    /\ forall v c cards, card_in (gn_labels g) (gn_vals g) v c ->
         Forall2 (card_in (gn_labels g) (gn_vals g)) (gen_parents (gn_labels g) E v) cards ->
         exists so, dict_get cs v = Ok so /\ so_p_combs so = build_p_comb_structure_for_a_node cards
           /\ length (so_actual_cims so) = nat_prod cards
           /\ forall m, In m (so_actual_cims so) -> (length m = c /\ forall row, In row m -> length row = c)
              /\ ((0 <= lo)%Qc -> (lo <= hi)%Qc -> 2 <= c -> (forall n, 0 < u n)%Qc -> (forall n, u n <= 1)%Qc ->
                  forall i row, nth_error m i = Some row ->
                  exists raw, rate_row lo hi c i raw /\ Forall2 rounded4 raw row
                    /\ (- (Qc_nat c * Q2Qc (1#20000)) <= Qcsum row)%Qc /\ (Qcsum row <= Qc_nat c * Q2Qc (1#20000))%Qc).
Proof. exact (generated_cims g density fixed shuffle coin g1 E u lo hi). Qed.
Print Assumptions C48_generated_cims.

(** one row, with only the draws of that row: non-negative draws with a positive off-diagonal sum suffice *)
Theorem C48_row lo hi d rnd i : (0 <= lo)%Qc -> (lo <= hi)%Qc -> (0 <= d)%Qc -> (d <= 1)%Qc ->
  i < length rnd -> Forall (fun r => 0 <= r)%Qc rnd -> (0 < Qcsum rnd - nth i rnd 0)%Qc ->
  rate_row lo hi (length rnd) i (gen_cim_row lo hi d rnd i).
Proof. exact (gen_cim_row_ok lo hi d rnd i). Qed.
Print Assumptions C48_row.

Theorem C48_no_graph_no_cims g u lo hi : gn_graph g = None -> generate_cims g u lo hi = Ok g.
Proof. intro H. unfold generate_cims. rewrite H. reflexivity. Qed.
Print Assumptions C48_no_graph_no_cims.

(** finding: the documented "coefficients in the range [min, max]" fails for every draw as soon as
    (c-1)*min > max, and can fail otherwise *)
Theorem C48_documented_range_refuted lo hi c i row : 0 < c -> i < c -> rate_row lo hi c i row -> (hi < Qc_nat (c - 1) * lo)%Qc ->
  exists j x, j <> i /\ nth_error row j = Some x /\ (x < lo)%Qc.
Proof. exact (range_impossible lo hi c i row). Qed.
Print Assumptions C48_documented_range_refuted.

Definition half_draws (n : nat) : Qc := if Nat.even n then Q2Qc (1#2) else Q2Qc (1#4).
Example C48_case : exists g1 g2 cs so, generate_graph gx (PyFloat (Q2Qc (1#3))) true rot (fun _ => true) = Ok g1
  /\ generate_cims g1 half_draws 1%Qc (Q2Qc 2) = Ok g2 /\ gn_cims g2 = Some cs /\ dict_get cs "C" = Ok so
  /\ so_p_combs so = [[0];[1]] /\ length (so_actual_cims so) = 2 /\ nth_error (map (map (map this)) (so_actual_cims so)) 0
      = Some [[-(3#2); (3#2)]; [(5#4); -(5#4)]]%Q.
Proof.
  eexists _, _, _, _. split; [vm_compute; reflexivity|]. split; [vm_compute; reflexivity|].
  split; [reflexivity|]. split; [vm_compute; reflexivity|]. split; [vm_compute; reflexivity|]. split; vm_compute; reflexivity.
Qed.
(** a 3-state variable with min = 1, max = 2: an off-diagonal entry is 0.75 *)
Example C48_out_of_range_case : map (map this) (generate_cim (fun _ => Q2Qc (1#2)) 0 1%Qc (Q2Qc 2) 3)
  = [[-(3#2); 3#4; 3#4]; [3#4; -(3#2); 3#4]; [3#4; 3#4; -(3#2)]]%Q.
Proof. vm_compute. reflexivity. Qed.
