(** Specification vocabulary for C81: the CTPC algorithm on its own, as a program over the answers of the tests. *)
From Verif Require Import Base ModelStructure ModelCtpc SpecCtpc.

(** [ask p sep]: the answer to "is p separated from the node by sep", and whether that test gave up for lack of data *)
Section algorithm.
Variable ask : label -> list label -> bool * bool.

(** the separating sets are tried in order, until one separates; a test that gives up protects the candidate *)
Fixpoint try_all (p : label) (seps : list (list label)) : bool * bool :=
  match seps with
  | [] => (false, false)
  | sep :: r => if fst (ask p sep) then (true, snd (ask p sep))
                else (fst (try_all p r), snd (ask p sep) || snd (try_all p r))
  end.
(** one round: every unprotected candidate is tested given all the sets of [b] other current candidates *)
Fixpoint one_round (b : nat) (protected kept todo : list label) : list label * list label :=
  match todo with
  | [] => (kept, protected)
  | p :: r =>
      if lmem p protected then one_round b protected (kept ++ [p]) r
      else let answer := try_all p (combinations b (kept ++ r)) in
           one_round b (if snd answer then p :: protected else protected)
                       (if fst answer then kept else kept ++ [p]) r
  end.
(** rounds with larger and larger sets, while there are enough candidates *)
Fixpoint rounds (fuel b : nat) (protected candidates : list label) : list label :=
  match fuel with
  | O => candidates
  | S f => if b <? length candidates
           then let (kept, protected') := one_round b protected [] candidates in rounds f (S b) protected' kept
           else candidates
  end.
Definition ctpc_parents (protected candidates : list label) : list label := rounds (S (length candidates)) 0 protected candidates.
End algorithm.
