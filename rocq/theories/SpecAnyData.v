(** Specification vocabulary for C70: what is computed from ANY table of integers. *)
From Verif Require Import Base ModelStructure ModelGraph ModelCims ModelData ModelParams SpecStructure SpecComb SpecParams.

Definition entry (row : list Z) (i : nat) : Z := nth i row 0%Z.

(** The cell a row is booked on: the node's entry plus, for every parent, its entry times the product of the
    cardinalities of the parents up to and including it. *)
Fixpoint offset (w : Z) (ps : list nat) (us : list Z) : Z :=
  match ps, us with
  | p :: ps', u :: us' => (u * (w * Z.of_nat p) + offset (w * Z.of_nat p) ps' us')%Z
  | _, _ => 0%Z
  end.
Definition place (ps : list nat) (ni : nat) (pis : list nat) (row : list Z) : Z :=
  (entry row ni + offset 1 ps (map (entry row) pis))%Z.

(** total duration of the rows booked on a cell *)
Definition booked_time (t : trajectory) (ps : list nat) (ni : nat) (pis : list nat) (cell : Z) : Qc :=
  Qcsum (map fst (filter (fun tr => Z.eqb (place ps ni pis (snd tr)) cell) (combine (t_times t) (t_rows t)))).
(** number of rows with a next state (not negative) [x'] + c * cell; [tot]: offset of the next-state columns *)
Definition booked_jumps (t : trajectory) (tot : nat) (ps : list nat) (ni : nat) (pis : list nat) (c : nat) (cell : Z) : Z :=
  Z.of_nat (length (filter (fun row => (0 <=? entry row (ni + tot))%Z
     && Z.eqb (entry row (ni + tot) + Z.of_nat c * place ps ni pis row) cell) (t_rows t))).
(** the statistics stored for configuration number [r]: cell x + c r for state x, x' + c (x + c r) for x -> x' *)
Definition booked_times (t : trajectory) (ps : list nat) (ni : nat) (pis : list nat) (c r : nat) : list Qc :=
  map (fun x => booked_time t ps ni pis (Z.of_nat (x + c * r))) (seq 0 c).
Definition booked_counts (t : trajectory) (tot : nat) (ps : list nat) (ni : nat) (pis : list nat) (c r : nat) : list (list Z) :=
  map (fun x =>
    let off := fun x' => booked_jumps t tot ps ni pis c (Z.of_nat (x' + c * (x + c * r))) in
    map (fun x' => if x' =? x then Zsum (map (fun y => if y =? x then 0%Z else off y) (seq 0 c)) else off x') (seq 0 c)) (seq 0 c).

(** the table has the right columns; its entries are arbitrary *)
Definition columns_exist (s : structure) (t : trajectory) : Prop :=
  let tot := total_variables_number s in
  length (t_times t) = length (t_rows t) /\ t_width t = tot + tot /\ t_orig t = tot + 1
  /\ (forall l i, structure_get_node_indx s l = Ok i -> i < tot)
  /\ forall row, In row (t_rows t) -> length row = tot + tot.

(** every row is booked on an existing cell *)
Definition all_booked (t : trajectory) (tot : nat) (ps : list nat) (ni : nat) (pis : list nat) (c : nat) : Prop :=
  forall row, In row (t_rows t) ->
    (0 <= place ps ni pis row < Z.of_nat (c * nat_prod ps))%Z
    /\ ((0 <= entry row (ni + tot))%Z ->
        (entry row (ni + tot) + Z.of_nat c * place ps ni pis row < Z.of_nat (c * c * nat_prod ps))%Z).

(** every entry is a state of its variable, and every next state is one or negative (end of trajectory) *)
Definition states_in_range (t : trajectory) (tot : nat) (ps : list nat) (ni : nat) (pis : list nat) (c : nat) : Prop :=
  forall row, In row (t_rows t) -> row_in_range row (ni :: pis) (c :: ps) /\ (entry row (ni + tot) < Z.of_nat c)%Z.
(** the largest cell an in-range row can be booked on: every variable in its last state *)
Definition last_states (ps : list nat) : list Z := map (fun p => Z.of_nat p - 1)%Z ps.
Definition largest_place (c : nat) (ps : list nat) : Z := (Z.of_nat c - 1 + offset 1 ps (last_states ps))%Z.
