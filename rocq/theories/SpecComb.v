(** Specification vocabulary for parent configurations (C08-C12, C19, C52). *)
From Verif Require Import Base.

(** u is a configuration of variables with the given cardinalities *)
Definition config_ok (cards u : list nat) : Prop := Forall2 (fun d c => d < c) u cards.

(** position at which the statistics of configuration u are stored: first variable fastest *)
Fixpoint config_rank (cards u : list nat) : nat :=
  match cards, u with
  | c :: cs, d :: ds => d + c * config_rank cs ds
  | _, _ => 0
  end.

(** the table lists, at position k, the configuration whose CIM is stored at position k *)
Definition table_matches_storage (cards : list nat) (table : list (list nat)) : Prop :=
  forall u, config_ok cards u -> nth_error table (config_rank cards u) = Some u.

(** [row] restricted to the positions marked true is [comb] *)
Fixpoint agrees_on (mask : list bool) (row comb : list nat) : bool :=
  match mask, row with
  | true :: m, x :: r => match comb with y :: c => (x =? y) && agrees_on m r c | [] => false end
  | false :: m, _ :: r => agrees_on m r comb
  | _, _ => match comb with [] => true | _ => false end
  end.
