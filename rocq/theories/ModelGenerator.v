(** Model of PyCTBN/PyCTBN/structure_graph/network_generator.py.
    Random draws are arguments: every theorem quantifies over them. float64 values are exact rationals. *)
From Coq Require Import Qround.
From Verif Require Import Base ModelStructure ModelGraph ModelCims.
Open Scope nat_scope.

(** Python numbers as far as generate_graph distinguishes them *)
Inductive pynum := PyInt (z : Z) | PyFloat (q : Qc).

(** insertion-ordered dict with string keys: d[k] = v and d[k] (KeyError when absent) *)
Fixpoint dict_set {V} (d : list (string * V)) (k : string) (v : V) : list (string * V) :=
  match d with
  | [] => [(k, v)]
  | (k', v') :: r => if String.eqb k' k then (k', v) :: r else (k', v') :: dict_set r k v
  end.
Fixpoint dict_get {V} (d : list (string * V)) (k : string) : result V :=
  match d with
  | [] => Err KeyError
  | (k', v) :: r => if String.eqb k' k then Ok v else dict_get r k
  end.

(** network_generator.py:25-30 *)
Record netgen := MkNetgen {
  gn_labels : list label;
  gn_vals : list nat;
  gn_graph : option netgraph;
  gn_cims : option (list (label * set_of_cims (list (list Qc)))) }.
Definition new_netgen (labels : list label) (vals : list nat) : netgen := MkNetgen labels vals None None.

(** all (i, j) for i in labels for j in labels *)
Definition all_pairs (labels : list label) : list edge :=
  flat_map (fun i => map (fun j => (i, j)) labels) labels.
Definition distinct_pairs (labels : list label) : list edge :=
  filter (fun e => negb (String.eqb (fst e) (snd e))) (all_pairs labels).

(** l[:k] with Python slice semantics *)
Definition py_take {A} (k : Z) (l : list A) : list A :=
  if (0 <=? k)%Z then firstn (Z.to_nat k) l
  else firstn (Z.to_nat (Z.of_nat (length l) + k)) l.

(** float.is_integer(q) and int(q) *)
Definition is_integer (q : Qc) : bool := Pos.eqb (Qden (this q)) 1.
Definition py_int (q : Qc) : Z := Qnum (this q).

(** float comparison a <= b *)
Definition qc_le (a b : Qc) : bool := Qle_bool (this a) (this b).

Definition Qc_nat (n : nat) : Qc := Qc_of_Z (Z.of_nat n).

(** network_generator.py:42-52.  [shuffle] is random.shuffle; [coin k] tells whether the k-th call of
    np.random.binomial(1, density) returns 1 (binomial is evaluated for every pair, also for i = j, because
    it is the left operand of [and]).  binomial raises ValueError for a density outside [0, 1].  Float
    rounding of density * n * (n-1) is not modelled. *)
Definition generate_edges (labels : list label) (density : pynum) (fixed : bool)
  (shuffle : list edge -> list edge) (coin : nat -> bool) : result (list edge) :=
  let n := length labels in
  if fixed then
    match density with
    | PyInt _ => Err TypeError                        (* float.is_integer of an int *)
    | PyFloat d =>
        let n_edges := (d * Qc_nat n * Qc_of_Z (Z.of_nat n - 1))%Qc in
        if is_integer n_edges
        then Ok (py_take (py_int n_edges) (shuffle (distinct_pairs labels)))
        else Err RuntimeError
    end
  else
    let p := match density with PyInt z => Qc_of_Z z | PyFloat d => d end in
    if (n =? 0) || (qc_le 0 p && qc_le p 1) then
      Ok (map snd (filter (fun ke => coin (fst ke) && negb (String.eqb (fst (snd ke)) (snd (snd ke))))
                          (combine (seq 0 (n * n)) (all_pairs labels))))
    else Err ValueError.

(** network_generator.py:54-57 (including _indxs of line 28) *)
Definition generate_graph (g : netgen) (density : pynum) (fixed : bool)
  (shuffle : list edge -> list edge) (coin : nat -> bool) : result netgen :=
  let* edges := generate_edges (gn_labels g) density fixed shuffle coin in
  let s := MkStructure (gn_labels g) (seq 0 (length (gn_labels g))) (gn_vals g) edges (length (gn_labels g)) in
  let gr := ng_add_edges (ng_add_nodes (new_netgraph s) (nodes_labels s)) (edges_list s) in
  Ok (MkNetgen (gn_labels g) (gn_vals g) (Some gr) (gn_cims g)).

(** rounding to the nearest integer, ties to even (C's rint, used by numpy.around) *)
Definition rint (q : Qc) : Z :=
  let f := Qfloor q in
  match (q - Qc_of_Z f ?= Q2Qc (1 # 2))%Qc with
  | Lt => f
  | Gt => (f + 1)%Z
  | Eq => if Z.even f then f else (f + 1)%Z
  end.
(** np.around(x, 4); also Python's round(t, 4) in trajectory_generator.py:128 *)
Definition around4 (q : Qc) : Qc := (Qc_of_Z (rint (q * Q2Qc 10000)) / Q2Qc 10000)%Qc.

(** network_generator.py:107-111: one row before rounding.  [d] is random_sample(), [rnd] is rand(1, shape)[0].
    When the off-diagonal draws sum to 0 numpy produces inf/nan off the diagonal, the model 0. *)
Definition gen_cim_row (lo hi d : Qc) (rnd : list Qc) (i : nat) : list Qc :=
  let diag := ((hi - lo) * d + lo)%Qc in
  let denom := (Qcsum rnd - nth i rnd 0)%Qc in
  mapi (fun j r => if j =? i then (- diag)%Qc else (r / denom * diag)%Qc) rnd.

(** network_generator.py:92-114.  [u k] is the k-th uniform draw of the stream; the draws of this matrix start
    at [k]: one for the diagonal and [shape] for the row, for every row. *)
Definition raw_cim (u : nat -> Qc) (k : nat) (lo hi : Qc) (shape : nat) : list (list Qc) :=
  map (fun i => gen_cim_row lo hi (u (k + i * S shape)) (map (fun j => u (k + i * S shape + S j)) (seq 0 shape)) i)
      (seq 0 shape).
Definition generate_cim (u : nat -> Qc) (k : nat) (lo hi : Qc) (shape : nat) : list (list Qc) :=
  map (map around4) (raw_cim u k lo hi shape).

(** network_generator.py:75-90: the loop over the labels; [k] is the position in the stream of draws *)
Fixpoint generate_cims_loop (gr : netgraph) (vals : list nat) (u : nat -> Qc) (lo hi : Qc)
  (i : nat) (ls : list label) (k : nat) (acc : list (label * set_of_cims (list (list Qc))))
  : result (list (label * set_of_cims (list (list Qc)))) :=
  match ls with
  | [] => Ok acc
  | l :: r =>
      let* p_info := ng_get_ordered_by_indx_set_of_parents gr l in
      let combs := build_p_comb_structure_for_a_node (snd p_info) in
      let reps := if length (fst (fst p_info)) =? 0 then 1 else length combs in
      let* c := nth_res vals i in
      let node_cims := map (fun m => generate_cim u (k + m * (c * S c)) lo hi c) (seq 0 reps) in
      generate_cims_loop gr vals u lo hi (S i) r (k + reps * (c * S c))
        (dict_set acc l (MkSetOfCims combs node_cims))
  end.

(** network_generator.py:59-90; nothing happens when there is no graph.  Simplification: on an exception
    inside the loop the object would keep the CIMs built so far; the model returns only the exception. *)
Definition generate_cims (g : netgen) (u : nat -> Qc) (lo hi : Qc) : result netgen :=
  match gn_graph g with
  | None => Ok g
  | Some gr =>
      let* cs := generate_cims_loop gr (gn_vals g) u lo hi 0 (gn_labels g) 0 [] in
      Ok (MkNetgen (gn_labels g) (gn_vals g) (Some gr) (Some cs))
  end.

(** network_generator.py:124-126: rows (From, To) *)
Definition dyn_str (g : netgen) : result (list edge) :=
  match gn_graph g with Some gr => Ok (ng_edges gr) | None => Err AttributeError end.

(** network_generator.py:128-130: rows (Name, Value); IndexError when there are fewer values than labels *)
Definition variables (g : netgen) : result (list (label * nat)) :=
  res_map (fun il => let* v := nth_res (gn_vals g) (fst il) in Ok (snd il, v))
          (combine (seq 0 (length (gn_labels g))) (gn_labels g)).
