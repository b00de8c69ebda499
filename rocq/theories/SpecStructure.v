(** Specification vocabulary for properties C01-C04 (no reference to how the model computes). *)
From Verif Require Import Base ModelStructure.

(** A structure as the library builds it: distinct labels, one index and one cardinality per label. *)
Definition wf_structure (s : structure) : Prop :=
  NoDup (nodes_labels s)
  /\ length (nodes_indexes s) = length (nodes_labels s)
  /\ length (nodes_values s) = length (nodes_labels s).

(** "the edge mentions n" *)
Definition mentions (n : label) (e : edge) : bool := String.eqb (fst e) n || String.eqb (snd e) n.

(** Histories of edge-list operations (C04).  An operation that raises leaves the object unchanged
    and the history continues. *)
Inductive edge_op := OpAdd (e : edge) | OpRemove (e : edge) | OpClean.

(** one call, together with "did it return normally?" *)
Definition run_edge_op (s : structure) (o : edge_op) : structure * bool :=
  match o with
  | OpAdd e => (structure_add_edge s e, true)
  | OpRemove e => match structure_remove_edge s e with Ok s' => (s', true) | Err _ => (s, false) end
  | OpClean => (clean_structure_edges s, true)
  end.
Fixpoint run_edge_ops (s : structure) (os : list edge_op) : structure * list (edge_op * bool) :=
  match os with
  | [] => (s, [])
  | o :: r => let '(s1, b) := run_edge_op s o in
              let '(s2, t) := run_edge_ops s1 r in (s2, (o, b) :: t)
  end.

(** occurrences of an edge in a list *)
Definition occurrences (e : edge) (l : list edge) : nat := length (filter (edge_eqb e) l).

(** the trace after the last clean, and whether there was a clean *)
Fixpoint after_last_clean (t : list (edge_op * bool)) : bool * list (edge_op * bool) :=
  match t with
  | [] => (false, [])
  | x :: r => let '(found, rest) := after_last_clean r in
              if found then (true, rest)
              else match fst x with OpClean => (true, r) | _ => (false, x :: rest) end
  end.
Definition adds_of (e : edge) (t : list (edge_op * bool)) : nat :=
  length (filter (fun x => match fst x with OpAdd e' => edge_eqb e e' | _ => false end) t).
Definition removes_of (e : edge) (t : list (edge_op * bool)) : nat :=
  length (filter (fun x => match x with (OpRemove e', true) => edge_eqb e e' | _ => false end) t).
