(** Specification vocabulary for the constraint-based search (C17-C26, C40, C56). *)
From Verif Require Import Base ModelStructure ModelGraph ModelCims ModelData ModelParams ModelCache ModelCtpc
  SpecStructure SpecComb SpecParams.

(** same elements *)
Definition same_set (a b : list label) : Prop := forall x, In x a <-> In x b.

(** ** Cache histories *)
Inductive cache_op (V : Type) := CPut (k : list label) (v : V) | CFind (k : list label) | CClear.
Arguments CPut {V}. Arguments CFind {V}. Arguments CClear {V}.
Definition run_cache_op {V} (c : cache V) (o : cache_op V) : cache V :=
  match o with CPut k v => cache_put c k v | CFind _ => c | CClear => cache_clear c end.
Definition run_cache_ops {V} (os : list (cache_op V)) : cache V := fold_left run_cache_op os empty_cache.

(** [post] is the part of the history after the last clear *)
Definition since_last_clear {V} (os post : list (cache_op V)) : Prop :=
  ~ In CClear post /\ exists pre, os = pre ++ post /\ (pre = [] \/ exists q, pre = q ++ [CClear]).

(** [v] was the value of the first put in [post] whose key is [k] as a set *)
Definition first_put {V} (post : list (cache_op V)) (k : list label) (v : V) : Prop :=
  exists before k' after, post = before ++ CPut k' v :: after /\ same_set k k'
   /\ forall k'' v'', In (CPut k'' v'') before -> ~ same_set k k''.
Definition never_put {V} (post : list (cache_op V)) (k : list label) : Prop :=
  forall k' (v : V), In (CPut k' v) post -> ~ same_set k k'.

(** ** Separating sets *)
(** [a] is a sub-list of [b]: elements in the same order, possibly with gaps *)
Inductive sublist {A} : list A -> list A -> Prop :=
| sub_nil : sublist [] []
| sub_skip x a b : sublist a b -> sublist a (x :: b)
| sub_keep x a b : sublist a b -> sublist (x :: a) (x :: b).

(** the other variables *)
Definition others (s : structure) (c : label) : list label :=
  filter (fun l => negb (String.eqb l c)) (nodes_labels s).

(** a legal independence test: child, test parent and separating set are distinct variables *)
Definition test_ok (s : structure) (c p : label) (sep : list label) : Prop :=
  In c (nodes_labels s) /\ In p (nodes_labels s) /\ NoDup (c :: p :: sep)
  /\ forall q, In q sep -> In q (nodes_labels s).

(** ** The independence test, stated on the data (C19) *)
(** the CIM object of a node in column [ni] with [c] states whose parents (columns [pis]) are in
    configuration [u], computed from the statistics read off the rows *)
Definition data_cim (t : trajectory) (tot ni : nat) (pis : list nat) (c : nat) (u : list nat) : cim :=
  compute_cim_coefficients (new_cim (exact_times t ni pis c u) (exact_counts t tot ni pis c u)).

(** rule of thumb: the number of transitions behind [cm] is large enough for a child with [c] states, a
    test parent with [pcard] states and a separating set with cardinalities [sep_cards]; not applied to
    binary children *)
Definition enough_data (threshold : Qc) (c pcard : nat) (sep_cards : list nat) (cm : cim) : Prop :=
  2 < c -> (threshold <= Qc_of_Z (Zsum (map (fun x => nth x (nth x (c_trans cm) []) 0%Z) (seq 0 c)))
                          / Qc_of_Z (Z.of_nat ((c - 1) * (c - 1) * pcard * nat_prod sep_cards)))%Qc.

(** [cols] are the data-set columns of the labels [ls] *)
Definition columns_of (s : structure) (ls : list label) (cols : list nat) : Prop :=
  Forall2 (fun l i => structure_get_node_indx s l = Ok i) ls cols.

(** The pairwise test accepts at the joint assignment [a] of states to the variables: the CIM of the child
    given a restricted to the separating set against the CIM of the child given a restricted to the
    separating set and the test parent.  [k]: common cardinality; [ni]: the child's column; [sp]/[lp]:
    the separating set without/with the test parent, [spc]/[lpc] their columns. *)
Definition pair_accepts (e : cb_env) (tot k ni : nat) (sp lp : list label) (spc lpc : list nat) (a : label -> nat) : Prop :=
  let cm1 := data_cim (e_traj e) tot ni spc k (map a sp) in
  let cm2 := data_cim (e_traj e) tot ni lpc k (map a lp) in
  enough_data (e_threshold e) k k (map (fun _ => k) sp) cm1 /\ e_tests e k cm1 cm2 = true.

(** a sequence of earlier tests on the same child: (test parent, separating set, row and column of the
    removable matrix) *)
Fixpoint run_tests (e : cb_env) (tot : nat) (c : label) (cs : nat) (st : cb_state)
  (calls : list (label * list label * (nat * nat))) : result cb_state :=
  match calls with
  | [] => Ok st
  | (p, sep, (i, j)) :: r => let* (_, st') := complete_test e st p c sep cs tot i j in run_tests e tot c cs st' r
  end.
(** the set [K] was the separating set, or the separating set with the test parent, of an earlier test *)
Definition touched (calls : list (label * list label * (nat * nat))) (K : list label) : Prop :=
  exists p sep ij, In (p, sep, ij) calls /\ (same_set K (p :: sep) \/ same_set K sep).
Definition legal_calls (s : structure) (c : label) (calls : list (label * list label * (nat * nat))) : Prop :=
  forall p sep ij, In (p, sep, ij) calls -> test_ok s c p sep.

(** the optimizer of an estimator whose cache is emptied before every single test *)
Definition optimize_structure_flushed (e : cb_env) (tot : nat) (st : cb_state) (node : label)
  : result (list edge * cb_state) :=
  let* (edges, st') :=
    optimize_with (e_struct e) node st_matrix
      (fun st p ps cs i j => complete_test e (MkState (st_matrix st) empty_cache) p node ps cs tot i j) st in
  Ok (edges, MkState (st_matrix st') (cache_clear (st_cache st'))).

(** [complete_test] on an estimator with an empty cache answers [b] *)
Definition test_answers (e : cb_env) (tot : nat) (m : list (list bool)) (c p : label) (sep : list label) (b : bool) : Prop :=
  exists cs i j st', structure_get_states_number (e_struct e) c = Ok cs
    /\ structure_get_node_indx (e_struct e) p = Ok i /\ structure_get_node_indx (e_struct e) c = Ok j
    /\ complete_test e (MkState m empty_cache) p c sep cs tot i j = Ok (b, st').

(** ** Matrices *)
(** marks are only added *)
Definition marks_grow (m m' : list (list bool)) : Prop :=
  length m' = length m /\ forall i j b, mat_get m i j = Ok b -> exists b', mat_get m' i j = Ok b' /\ (b' = true -> b = true).

(** a well-formed estimator: distinct variables with distinct data-set columns, all of them columns of the
    removable matrix; empty cache (as after construction and after every optimize_structure) *)
Definition estimator_ok (est : cb_estimator) : Prop :=
  let s := e_struct (cb_e est) in
  wf_structure s /\ NoDup (nodes_indexes s) /\ (forall i, In i (nodes_indexes s) -> i < cb_tot est)
  /\ length (st_matrix (cb_st est)) = cb_tot est /\ (forall row, In row (st_matrix (cb_st est)) -> length row = cb_tot est)
  /\ st_cache (cb_st est) = empty_cache.
(** equal cardinalities and a consistent data set *)
Definition uniform_data (est : cb_estimator) (k : nat) : Prop :=
  let s := e_struct (cb_e est) in
  0 < k /\ (forall x, In x (nodes_values s) -> x = k) /\ total_variables_number s = cb_tot est
  /\ data_ok s (e_traj (cb_e est)).
