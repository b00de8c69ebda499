(** Specification vocabulary for C84: histories of calls on estimators that share one SamplePath. *)
From Verif Require Import Base ModelStructure ModelGraph ModelCims ModelData ModelParams ModelCtpc ModelEstimators ModelShared.

Definition is_estimate {Sc} (r : request Sc) : bool := match r with Estimate _ _ _ _ _ => true | _ => false end.
Definition creates {Sc} (r : request Sc) : bool := match r with NewCb _ _ _ | NewSb _ _ => true | _ => false end.
(** the request is a call on object [i]; spurious_edges, whose answer is about the shared Structure, is left out *)
Definition on_object {Sc} (i : nat) (r : request Sc) : bool :=
  match r with Estimate j _ _ _ _ | Adjacency j | Save j => j =? i | _ => false end.
(** the same call on the only object of a history *)
Definition on_first {Sc} (r : request Sc) : request Sc :=
  match r with Estimate _ d p mp pn => Estimate 0 d p mp pn | Adjacency _ => Adjacency 0 | Save _ => Save 0 | _ => r end.

(** which requests of a history concern object [i]: its construction (it is the i-th) and the calls on it; [made]: how
    many objects exist already *)
Fixpoint concerns {Sc} (i made : nat) (rs : list (request Sc)) : list bool :=
  match rs with
  | [] => []
  | r :: rest => if creates r then (made =? i) :: concerns i (S made) rest else on_object i r :: concerns i made rest
  end.
Fixpoint select {A} (keep : list bool) (l : list A) : list A :=
  match keep, l with k :: ks, a :: r => if k then a :: select ks r else select ks r | _, _ => [] end.
(** the history of object [i] alone *)
Definition alone {Sc} (i : nat) (rs : list (request Sc)) : list (request Sc) := map on_first (select (concerns i 0 rs) rs).

(** replies are compared without the precision and recall that are printed *)
Definition unprinted (a : reply) : reply := match a with Edges es _ => Edges es None | _ => a end.
