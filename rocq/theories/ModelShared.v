(** Model of several estimator objects that share one SamplePath (C84): what each call does to the objects and to the
    Structure they share, also when it raises. *)
From Verif Require Import Base ModelStructure ModelGraph ModelCims ModelData ModelParams ModelCache ModelCtpc ModelSearch ModelEstimators.

Section Shared.
Variable Sc : Type.
Variable gt : Sc -> Sc -> bool.

(** the estimator objects without the SamplePath they refer to (structure_estimator.py:39-45,
    structure_constraint_based_estimator.py:55-61, structure_score_based_estimator.py:52-55).  [Failed]: the
    constructor raised, there is no object *)
Inductive object :=
| Cb (threshold : Qc) (tests : nat -> cim -> cim -> bool) (st : cb_state) (graph : digraph)
| Sb (score : list cim -> result Sc) (matrix : list (list bool)) (graph : digraph)
| Failed.

(** the SamplePath (sample_path.py:41-46) and the objects, numbered in the order of their construction *)
Record shared := MkShared { sh_struct : structure; sh_traj : trajectory; sh_tot : nat; sh_objects : list object }.

Inductive request :=
| NewCb (known : list edge) (threshold : Qc) (tests : nat -> cim -> cim -> bool)
| NewSb (known : list edge) (score : list cim -> result Sc)
| Estimate (i : nat) (draws : label -> nat -> nat) (p : sb_params) (disable_multiprocessing : bool) (processes : option nat)
| Adjacency (i : nat) | Spurious (i : nat) | Save (i : nat)
| Parameters (v : label).   (* NetworkGraph(sample_path.structure), fast_init(v), ParametersEstimator *)
Inductive reply :=
| Made | Edges (es : list edge) (p : option printed) | Matrix (m : list (list bool)) | Listed (es : list edge)
| Saved (n : node_link) | Params (so : set_of_cims cim) | RaisedR (x : exn).

Definition cb_of (w : shared) thr tests st g : cb_estimator := MkCbEst (MkEnv (sh_struct w) (sh_traj w) thr tests) (sh_tot w) st g.
Definition sb_of (w : shared) m g : sb_estimator := MkSbEst (sh_struct w) (sh_traj w) m g.
Definition graph_of (o : object) : option digraph :=
  match o with Cb _ _ _ g => Some g | Sb _ _ g => Some g | Failed => None end.
(** structure.py:76-77, called on the shared Structure *)
Definition erase (w : shared) : shared := MkShared (clean_structure_edges (sh_struct w)) (sh_traj w) (sh_tot w) (sh_objects w).
Definition put_object (w : shared) (i : nat) (o : object) : shared := MkShared (sh_struct w) (sh_traj w) (sh_tot w) (set_at (sh_objects w) i o).
Definition add_object (w : shared) (o : object) : shared := MkShared (sh_struct w) (sh_traj w) (sh_tot w) (sh_objects w ++ [o]).
Definition replied {A} (w : shared) (f : A -> reply) (r : result A) : option (reply * shared) :=
  Some (match r with Ok a => f a | Err x => RaisedR x end, w).

(** structure_constraint_based_estimator.py:205-263; processes_number=0 makes ProcessPoolExecutor raise (lines 235-239)
    after the edges have been erased (line 226).  [None]: a sequential call that raises leaves the matrix and the
    cache in a state that is not modelled; the history is not followed any further *)
Definition estimate_cb (w : shared) (i : nat) thr tests st g (mp : bool) (pn : option nat) : option (reply * shared) :=
  match mp, pn with
  | false, Some 0 => Some (RaisedR ValueError, erase w)
  | _, _ => match cb_estimate_structure (cb_of w thr tests st g) mp with
            | Ok (es, est) => Some (Edges es None, put_object (erase w) i (Cb thr tests (cb_st est) (cb_graph est)))
            | Err x => if mp then None else Some (RaisedR x, erase w)
            end
  end.
(** structure_score_based_estimator.py:58-164; a search that never ends ([Blocked]) is not followed any further *)
Definition estimate_sb (w : shared) (i : nat) score m g draws p (mp : bool) (pn : option nat) : option (reply * shared) :=
  match sb_estimate_structure Sc score gt (sb_of w m g) draws p mp pn with
  | Ok (es, pr, est) => Some (Edges es (Some pr), put_object (erase w) i (Sb score (sb_matrix est) (sb_graph est)))
  | Err Blocked => None
  | Err x => Some (RaisedR x, erase w)
  end.

Definition serve (w : shared) (r : request) : option (reply * shared) :=
  match r with
  | NewCb known thr tests =>
      match new_cb_estimator (sh_struct w) (sh_traj w) (sh_tot w) known thr tests with
      | Ok est => Some (Made, add_object w (Cb thr tests (cb_st est) (cb_graph est)))
      | Err x => Some (RaisedR x, add_object w Failed)
      end
  | NewSb known score =>
      match new_sb_estimator (sh_struct w) (sh_traj w) (sh_tot w) known with
      | Ok est => Some (Made, add_object w (Sb score (sb_matrix est) (sb_graph est)))
      | Err x => Some (RaisedR x, add_object w Failed)
      end
  | Estimate i draws p mp pn =>
      match nth_error (sh_objects w) i with
      | Some (Cb thr tests st g) => estimate_cb w i thr tests st g mp pn
      | Some (Sb score m g) => estimate_sb w i score m g draws p mp pn
      | _ => None
      end
  | Adjacency i =>                                   (* structure_estimator.py: adjacency_matrix, over self._nodes *)
      match nth_error (sh_objects w) i with
      | Some o => match graph_of o with Some g => replied w Matrix (adjacency_matrix g (nodes_labels (sh_struct w))) | None => None end
      | None => None
      end
  | Spurious i =>                                    (* structure_estimator.py: spurious_edges, over the shared Structure *)
      match nth_error (sh_objects w) i with
      | Some o => match graph_of o with Some g => replied w Listed (spurious_edges (sh_struct w) g) | None => None end
      | None => None
      end
  | Save i =>                                        (* structure_estimator.py: save_results *)
      match nth_error (sh_objects w) i with
      | Some o => match graph_of o with Some g => Some (Saved (save_results g), w) | None => None end
      | None => None
      end
  | Parameters v =>                                  (* network_graph.py:52-73, parameters_estimator.py:31-63 *)
      replied w Params (let* g := ng_fast_init (new_netgraph (sh_struct w)) v in compute_parameters_for_node (sh_traj w) g v)
  end.
Fixpoint serve_all (w : shared) (rs : list request) : option (list reply * shared) :=
  match rs with
  | [] => Some ([], w)
  | r :: rest => match serve w r with
                 | Some (a, w1) => match serve_all w1 rest with Some (l, w2) => Some (a :: l, w2) | None => None end
                 | None => None
                 end
  end.
End Shared.
Arguments Cb {Sc}. Arguments Sb {Sc}. Arguments Failed {Sc}. Arguments NewCb {Sc}. Arguments NewSb {Sc}. Arguments Estimate {Sc}.
Arguments Adjacency {Sc}. Arguments Spurious {Sc}. Arguments Save {Sc}. Arguments Parameters {Sc}.
Arguments MkShared {Sc}. Arguments sh_struct {Sc}. Arguments sh_traj {Sc}. Arguments sh_tot {Sc}. Arguments sh_objects {Sc}.
