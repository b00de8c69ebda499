(** Model of PyCTBN/PyCTBN/optimizers/hill_climbing_search.py, tabu_search.py and of
    StructureScoreBasedEstimator.get_score_from_graph (structure_score_based_estimator.py:214-245). *)
From Verif Require Import Base ModelStructure ModelGraph ModelCims ModelData ModelParams ModelCtpc.

(** ** Randomness
    The module-level [random] generator is a stream of natural numbers with a position; every call
    consumes one number.  random.choice(l): IndexError on an empty list. *)
Definition rand_choice {A} (draws : nat -> nat) (k : nat) (l : list A) : result A :=
  nth_res l (draws k mod length l).

(** queue.Queue.get() without timeout on an empty queue never returns *)
Definition queue_get (q : list label) : result (label * list label) :=
  match q with [] => Err Blocked | x :: r => Ok (x, r) end.
(** Python set.remove / set.add / set(l) *)
Definition set_remove (x : label) (l : list label) : result (list label) :=
  if lmem x l then Ok (filter (fun y => negb (String.eqb y x)) l) else Err KeyError.
Definition set_add (x : label) (l : list label) : list label := if lmem x l then l else l ++ [x].
Definition set_of_list (l : list label) : list label := fold_left (fun acc x => set_add x acc) l [].

(** hill_climbing_search.py:72-82 = tabu_search.py:81-91: parents that are not removable.  The row index
    is used as a position in the label list. *)
Definition prior_parents_of (s : structure) (m : list (list bool)) (node_index : nat) : result (list label) :=
  fold_left (fun acc i =>
               let* ps := acc in
               let* r := mat_get m i node_index in
               if r then Ok ps
               else let* p := structure_get_node_id s (Z.of_nat i) in Ok (ps ++ [p]))
            (seq 0 (length m)) (Ok []).

(** What one iteration evaluated: the candidate parent, the edges of the graph that was scored, its score
    and whether the change was kept.  The log is a ghost: it records the calls of get_score_from_graph. *)
Record step_log (Sc : Type) := MkStep {
  sl_candidate : label; sl_edges : list edge; sl_score : Sc; sl_accepted : bool }.
Arguments MkStep {Sc}. Arguments sl_candidate {Sc}. Arguments sl_edges {Sc}. Arguments sl_score {Sc}.
Arguments sl_accepted {Sc}.

Section Search.
(** FamScoreCalculator.get_fam_score (modelled in ModelFamScore) and [>] on its results *)
Variable Sc : Type.
Variable score : list cim -> result Sc.
Variable gt : Sc -> Sc -> bool.
Variable t : trajectory.
Variable draws : nat -> nat.

(** structure_score_based_estimator.py:214-245; fast_init changes the graph in place *)
Definition get_score_from_graph (g : netgraph) (v : label) : result (Sc * netgraph) :=
  let* g1 := ng_fast_init g v in
  let* so := compute_parameters_for_node t g1 v in
  let* sc := score (so_actual_cims so) in
  Ok (sc, g1).

(** hill_climbing_search.py:98-113 = tabu_search.py:131-145: (graph, added, parent_removed, random position).
    max_parents is a natural number: a negative value behaves as 0. *)
Definition propose (v : label) (mp : option nat) (g : netgraph) (k : nat) (cand : label)
  : result (netgraph * bool * option label * nat) :=
  if ng_has_edge g (cand, v) then Ok (ng_remove_edges g [(cand, v)], false, None, k)
  else
    let* (g1, ev, k1) :=
      match mp with
      | None => Ok (g, None, k)
      | Some m =>
          let* ps := ng_get_parents_by_id g v in
          if m <=? length ps then
            let* q := rand_choice draws k ps in
            Ok (ng_remove_edges g [(q, v)], Some q, S k)
          else Ok (g, None, k)
      end in
    Ok (ng_add_edges g1 [(cand, v)], true, ev, k1).

(** hill_climbing_search.py:123-130 = tabu_search.py:157-164 *)
Definition undo (v : label) (g : netgraph) (cand : label) (added : bool) (ev : option label) : netgraph :=
  if added then
    let g1 := ng_remove_edges g [(cand, v)] in
    match ev with Some q => ng_add_edges g1 [(q, v)] | None => g1 end
  else ng_add_edges g [(cand, v)].

(** hill_climbing_search.py:134, tabu_search.py:187 *)
Definition out_of_patience (patience : option nat) (count : nat) : bool :=
  match patience with None => false | Some p => p <? count end.

(** hill_climbing_search.py:95-135 *)
Fixpoint hill_loop (n : nat) (v : label) (cands : list label) (mp patience : option nat)
  (g : netgraph) (best : Sc) (count k : nat) : result (netgraph * list (step_log Sc)) :=
  match n with
  | O => Ok (g, [])
  | S n' =>
      let* cand := rand_choice draws k cands in
      let* (g1, added, ev, k1) := propose v mp g (S k) cand in
      let* (sc, g2) := get_score_from_graph g1 v in
      let acc := gt sc best in
      let entry := MkStep cand (ng_edges g2) sc acc in
      let g3 := if acc then g2 else undo v g2 cand added ev in
      let best' := if acc then sc else best in
      let count' := if acc then 0 else S count in
      if out_of_patience patience count' then Ok (g3, [entry])
      else
        let* (g4, tr) := hill_loop n' v cands mp patience g3 best' count' k1 in
        Ok (g4, entry :: tr)
  end.

(** hill_climbing_search.py:66-92 = tabu_search.py:75-102: initial graph, prior parents, candidates *)
Definition search_start (s : structure) (m : list (list bool)) (v : label)
  : result (netgraph * list label) :=
  let* idx := structure_get_node_indx s v in
  let* priors := prior_parents_of s m idx in
  let g := fold_left (fun g p => ng_add_edges g [(p, v)]) priors (new_netgraph s) in
  let others := filter (fun l => negb (String.eqb l v) && negb (lmem l priors)) (nodes_labels s) in
  Ok (g, others).

(** hill_climbing_search.py:58-138 *)
Definition hill_climbing (s : structure) (m : list (list bool)) (v : label)
  (mp : option nat) (iterations : nat) (patience : option nat)
  : result (list edge * list (step_log Sc)) :=
  let* (g, cands) := search_start s m v in
  let* (best, g1) := get_score_from_graph g v in
  let* (g2, tr) := hill_loop iterations v cands mp patience g1 best 0 0 in
  Ok (ng_edges g2, tr).

(** tabu_search.py:118-188.  The log also records the tabu queue and the tabu set at the start of the
    iteration.  [len], [dur]: tabu_length and tabu_rules_duration after their defaults are applied; both
    are natural numbers.  random.sample(set, 1) draws from the set in an arbitrary order (the stream is
    arbitrary); Python 3.11 and later raise TypeError for a set. *)
Definition tabu_pick (cands queue tset : list label) (k : nat)
  : result (label * list label * list label * nat) :=
  let possible := filter (fun x => negb (lmem x tset)) cands in
  if 0 <? length possible then
    let* c := rand_choice draws k possible in Ok (c, queue, tset, S k)
  else
    let* (c, q) := queue_get queue in
    let* ts := set_remove c tset in
    Ok (c, q, ts, k).
(** tabu_search.py:169-185 *)
Definition tabu_update (len dur : nat) (cand : label) (queue tset : list label) (tcount : nat)
  : result (list label * list label * nat) :=
  let* (q1, s1) :=
    if len <=? length queue then
      let* (r, q) := queue_get queue in
      let* ts := set_remove r tset in Ok (q, ts)
    else Ok (queue, tset) in
  let q2 := q1 ++ [cand] in
  let s2 := set_add cand s1 in
  let tc := S tcount in
  if dur =? 0 then Err ZeroDivisionError
  else if tc mod dur =? 0 then
    if 0 <? length q2 then
      let* (r, q3) := queue_get q2 in
      let* s3 := set_remove r s2 in Ok (q3, s3, 0)
    else Ok (q2, s2, 0)
  else Ok (q2, s2, tc).

Fixpoint tabu_loop (n : nat) (v : label) (cands : list label) (mp patience : option nat) (len dur : nat)
  (g : netgraph) (best : Sc) (count k : nat) (queue tset : list label) (tcount : nat)
  : result (netgraph * list (step_log Sc * (list label * list label))) :=
  match n with
  | O => Ok (g, [])
  | S n' =>
      let* (cand, q1, s1, k0) := tabu_pick cands queue tset k in
      let* (g1, added, ev, k1) := propose v mp g k0 cand in
      let* (sc, g2) := get_score_from_graph g1 v in
      let acc := gt sc best in
      let entry := (MkStep cand (ng_edges g2) sc acc, (queue, tset)) in
      let g3 := if acc then g2 else undo v g2 cand added ev in
      let best' := if acc then sc else best in
      let count' := if acc then 0 else S count in
      let* (q2, s2, tc) := tabu_update len dur cand q1 s1 tcount in
      if out_of_patience patience count' then Ok (g3, [entry])
      else
        let* (g4, tr) := tabu_loop n' v cands mp patience len dur g3 best' count' k1 q2 s2 tc in
        Ok (g4, entry :: tr)
  end.

Definition opt_default (o : option nat) (d : nat) : nat := match o with Some x => x | None => d end.

(** tabu_search.py:66-191 *)
Definition tabu_search (s : structure) (m : list (list bool)) (v : label)
  (mp : option nat) (iterations : nat) (patience tabu_length tabu_rules_duration : option nat)
  : result (list edge * list (step_log Sc * (list label * list label))) :=
  let* (g, others) := search_start s m v in
  let cands := set_of_list others in
  let* (best, g1) := get_score_from_graph g v in
  let len := opt_default tabu_length (length cands) in
  let dur := opt_default tabu_rules_duration (length cands) in
  let* (g2, tr) := tabu_loop iterations v cands mp patience len dur g1 best 0 0 [] [] 0 in
  Ok (ng_edges g2, tr).
End Search.
