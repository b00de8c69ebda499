(** Specification vocabulary for C86: the independence tests a constraint-based search performs. *)
From Verif Require Import Base ModelStructure ModelCims ModelCache ModelCtpc SpecCtpc.

(** one test that was performed: is [about] separated from the node by [given], and the answer *)
Record asked := MkAsked { about : label; given : list label; separated : bool }.

(** a test procedure with a logbook: it does what the procedure does and writes down the question and the answer *)
Definition noting {St} (ct : St -> label -> list label -> nat -> nat -> nat -> result (bool * St))
  (x : St * list asked) (p : label) (ps : list label) (cs i j : nat) : result (bool * (St * list asked)) :=
  let* (b, st) := ct (fst x) p ps cs i j in Ok (b, (st, snd x ++ [MkAsked p ps b])).

(** the search for the parents of [v] with the logbook: the edges, the estimator's state when the search stops (the cache
    not yet emptied) and the tests performed, in order *)
Definition watch (e : cb_env) (tot : nat) (st : cb_state) (v : label) : result (list edge * (cb_state * list asked)) :=
  optimize_with (e_struct e) v (fun x => st_matrix (fst x))
    (noting (fun st p ps cs i j => complete_test e st p v ps cs tot i j)) (st, []).

(** the tests of all the nodes, one logbook per node; in the sequential mode the state passes from node to node *)
Fixpoint watch_nodes (sequential : bool) (e : cb_env) (tot : nat) (st : cb_state) (nodes : list label) : result (list (list asked)) :=
  match nodes with
  | [] => Ok []
  | v :: r => let* (_, (st1, log)) := watch e tot st v in
              let* logs := watch_nodes sequential e tot (if sequential then MkState (st_matrix st1) empty_cache else st) r in
              Ok (log :: logs)
  end.
(** the tests of one call of estimate_structure *)
Definition tests_of (est : cb_estimator) (sequential : bool) : result (list (list asked)) :=
  watch_nodes sequential (MkEnv (clean_structure_edges (e_struct (cb_e est))) (e_traj (cb_e est)) (e_threshold (cb_e est)) (e_tests (cb_e est)))
    (cb_tot est) (cb_st est) (nodes_labels (e_struct (cb_e est))).

(** the log says that [p] was found separated *)
Definition found_separated (log : list asked) (p : label) : Prop := exists t, In t log /\ about t = p /\ separated t = true.
