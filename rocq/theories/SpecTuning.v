(** Specification vocabulary for C91: what the limits of the score-based search do. *)
From Verif Require Import Base ModelStructure ModelGraph ModelCims ModelData ModelParams ModelSearch SpecSearch.

(** a search with patience [b] never stops earlier than one with patience [a]; None means unlimited *)
Definition at_least_as_patient (a b : option nat) : Prop :=
  match a, b with _, None => True | None, Some _ => False | Some x, Some y => x <= y end.
(** the second result is that of a search which did what the first one did, and then possibly went on *)
Definition continues {L} (r r' : list edge * list L) : Prop :=
  exists more, snd r' = snd r ++ more /\ (more = [] -> fst r' = fst r).
(** no score was lost on the way *)
Definition no_worse {Sc} (gt : Sc -> Sc -> bool) (score : list cim -> result Sc) t s v (es es' : list edge) : Prop :=
  exists a b, score_of score t s v es = Ok a /\ score_of score t s v es' = Ok b /\ (b = a \/ gt b a = true).
