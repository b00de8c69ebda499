(** Specification vocabulary for local optimality of the score-based search (C63). *)
From Verif Require Import Base ModelStructure ModelGraph ModelCims ModelData ModelParams ModelCtpc ModelSearch
  SpecStructure SpecGraph SpecCtpc SpecSearch.

(** [es'] is [es] with the edge c -> v dropped if it was there, added if it was not *)
Definition toggled (v c : label) (es es' : list edge) : Prop :=
  (In (c, v) es /\ forall e, In e es' <-> In e es /\ e <> (c, v))
  \/ (~ In (c, v) es /\ forall e, In e es' <-> In e es \/ e = (c, v)).

(** the change respects max_parents *)
Definition change_allowed (mp : option nat) (v c : label) (es : list edge) : Prop :=
  In (c, v) es \/ match mp with None => True | Some k => length es < k end.

(** no allowed single-edge change of a candidate in [cands] scores better *)
Definition locally_optimal {Sc} (score : list cim -> result Sc) (gt : Sc -> Sc -> bool) (t : trajectory) (s : structure)
  (v : label) (mp : option nat) (cands : list label) (es : list edge) : Prop :=
  forall c es' sc sc', In c cands -> toggled v c es es' -> change_allowed mp v c es ->
    score_of score t s v es = Ok sc -> score_of score t s v es' = Ok sc' -> gt sc' sc = false.

(** the logged candidates visit [n] distinct candidates first and then repeat with period [n] *)
Definition round_robin (n : nat) (cs : list label) : Prop :=
  NoDup (firstn n cs) /\ forall i, i + n < length cs -> nth_error cs (i + n) = nth_error cs i.
