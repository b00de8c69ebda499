(** Specification vocabulary for exporting and reloading CIMs (C54, C55). *)
From Coq Require Import Ascii.
From Verif Require Import Base ModelStructure ModelGraph ModelCims ModelGenerator ModelSample ModelExport.
Open Scope nat_scope.

Fixpoint chars (s : string) : list ascii := match s with EmptyString => [] | String a r => a :: chars r end.
Definition no_equals (s : string) : Prop := ~ In "="%char (chars s).

(** [d] is the leading decimal digit of [n] *)
Definition leading_digit (n d : nat) : Prop := d < 10 /\ (exists k, d = n / 10 ^ k) /\ (d = 0 -> n = 0).
