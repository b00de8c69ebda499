(** Specification vocabulary for the score-based search (C28-C34). *)
From Verif Require Import Base ModelStructure ModelGraph ModelCims ModelData ModelParams ModelCtpc ModelSearch
  SpecStructure SpecGraph SpecCtpc.

(** the edges from the labels [ps] into [v] *)
Definition edges_into (v : label) (ps : list label) : list edge := map (fun p => (p, v)) ps.

(** known parents and remaining candidates of [v], in label order *)
Definition known_parents (s : structure) (known : list edge) (v : label) : list label :=
  filter (fun l => emem (l, v) known) (nodes_labels s).
Definition candidate_parents (s : structure) (known : list edge) (v : label) : list label :=
  filter (fun l => negb (String.eqb l v) && negb (emem (l, v) known)) (nodes_labels s).

(** An estimator ready for score-based search: well-formed structure whose labels are listed in dataset
    column order, no structure edges (estimate_structure erases them), and the removable-edge matrix [m]
    built from the known edges. *)
Definition search_ready (s : structure) (known : list edge) (m : list (list bool)) (v : label) : Prop :=
  wf_structure s /\ nodes_indexes s = seq 0 (length (nodes_labels s))
  /\ edges_list s = [] /\ edges_within (nodes_labels s) known
  /\ build_removable_edges_matrix s (length (nodes_labels s)) known = Ok m
  /\ In v (nodes_labels s).

(** the score of node [v] with exactly the edges [es], computed on a graph built from scratch *)
Definition score_of {Sc} (score : list cim -> result Sc) (t : trajectory) (s : structure) (v : label) (es : list edge)
  : result Sc :=
  let* g := ng_fast_init (fresh_graph s es) v in
  let* so := compute_parameters_for_node t g v in
  score (so_actual_cims so).

Definition scores_computable {Sc} (score : list cim -> result Sc) t s v : Prop :=
  forall ps, (forall p, In p ps -> In p (nodes_labels s)) -> exists sc, score_of score t s v (edges_into v ps) = Ok sc.

Definition strict_order {Sc} (gt : Sc -> Sc -> bool) : Prop :=
  (forall a, gt a a = false) /\ (forall a b c, gt a b = true -> gt b c = true -> gt a c = true).

(** [improving gt b tr b']: starting with best score [b], every logged candidate was kept iff it scored
    strictly better than the best score so far; [b'] is the best score at the end *)
Inductive improving {Sc} (gt : Sc -> Sc -> bool) : Sc -> list (step_log Sc) -> Sc -> Prop :=
| imp_done b : improving gt b [] b
| imp_keep b e tr b' : sl_accepted e = true -> gt (sl_score e) b = true -> improving gt (sl_score e) tr b' ->
    improving gt b (e :: tr) b'
| imp_undo b e tr b' : sl_accepted e = false -> gt (sl_score e) b = false -> improving gt b tr b' ->
    improving gt b (e :: tr) b'.

(** [Q] is the parent set evaluated from the parent set [P] for candidate [c]: the candidate is dropped if
    it is a parent, added otherwise; when there is no room another parent is dropped for it *)
Definition room (mp : option nat) (P : list label) : Prop := match mp with None => True | Some n => length P < n end.
Definition neighbour (mp : option nat) (P : list label) (c : label) (Q : list label) : Prop :=
  (In c P /\ forall x, In x Q <-> In x P /\ x <> c)
  \/ (~ In c P /\ room mp P /\ forall x, In x Q <-> In x P \/ x = c)
  \/ (~ In c P /\ ~ room mp P /\ exists q, In q P /\ forall x, In x Q <-> (In x P /\ x <> q) \/ x = c).

(** a path of the search: from parents [P] through the logged steps to parents [R] *)
Inductive search_path {Sc} (v : label) (cands : list label) (mp : option nat)
  : list label -> list (step_log Sc) -> list label -> Prop :=
| path_done P R : NoDup P -> same_set P R -> search_path v cands mp P [] R
| path_keep P e Q tr R : NoDup P -> In (sl_candidate e) cands -> sl_accepted e = true -> neighbour mp P (sl_candidate e) Q ->
    NoDup (sl_edges e) -> (forall x, In x (sl_edges e) <-> In x (edges_into v Q)) ->
    search_path v cands mp Q tr R -> search_path v cands mp P (e :: tr) R
| path_undo P e Q P' tr R : NoDup P -> In (sl_candidate e) cands -> sl_accepted e = false -> neighbour mp P (sl_candidate e) Q ->
    NoDup (sl_edges e) -> (forall x, In x (sl_edges e) <-> In x (edges_into v Q)) ->
    same_set P P' -> search_path v cands mp P' tr R -> search_path v cands mp P (e :: tr) R.

(** number of rejected candidates at the end of a log *)
Fixpoint rejected_prefix {Sc} (tr : list (step_log Sc)) : nat :=
  match tr with e :: r => if sl_accepted e then 0 else S (rejected_prefix r) | [] => 0 end.
Definition trailing_rejections {Sc} (tr : list (step_log Sc)) : nat := rejected_prefix (rev tr).

(** a search that evaluates at most [iterations] candidates, and stops before that only right after
    [patience + 1] rejections in a row *)
Definition stops_as_documented {Sc} (iterations : nat) (patience : option nat) (tr : list (step_log Sc)) : Prop :=
  length tr <= iterations
  /\ (length tr = iterations \/ exists p, patience = Some p /\ trailing_rejections tr = S p)
  /\ (forall p pre post, patience = Some p -> tr = pre ++ post -> post <> [] -> trailing_rejections pre <= p).

(** the tabu list at the start of an iteration and the candidate then chosen *)
Definition tabu_entry_ok {Sc} (cands : list label) (len : nat) (x : step_log Sc * (list label * list label)) : Prop :=
  let queue := fst (snd x) in let tset := snd (snd x) in let c := sl_candidate (fst x) in
  NoDup queue /\ same_set queue tset /\ length queue <= len /\ (forall y, In y queue -> In y cands)
  /\ In c cands
  /\ ((exists y, In y cands /\ ~ In y queue) -> ~ In c queue)
  /\ ((forall y, In y cands -> In y queue) -> exists rest, queue = c :: rest).
