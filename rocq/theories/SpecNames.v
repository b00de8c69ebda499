(** Specification vocabulary for C96: variable names that collide with the importer's own column names. *)
From Verif Require Import Base ModelStructure ModelCims ModelData SpecData.

(** some variable's name is another one's name followed by "S" *)
Definition name_clash (vars : list label) : Prop := exists v, In v vars /\ In (String.append v "S") vars.

(** position of the first element that satisfies [p] *)
Fixpoint position {A} (p : A -> bool) (l : list A) : option nat :=
  match l with
  | [] => None
  | a :: r => if p a then Some 0 else option_map S (position p r)
  end.

(** what the data set shows as the current state of variable number [j], called [w], between two consecutive
    observations: its state at the first one, unless [w] is some v's name followed by "S"; then v's state at the second *)
Definition shown_state (vars : list label) (ab : (Qc * list Z) * (Qc * list Z)) (j : nat) (w : label) : Z :=
  match position (fun v => String.eqb (String.append v "S") w) vars with
  | Some i => nth i (snd (snd ab)) 0%Z
  | None => nth j (snd (fst ab)) 0%Z
  end.
Definition shown_states (vars : list label) (ab : (Qc * list Z) * (Qc * list Z)) : list Z := mapi (shown_state vars ab) vars.

(** the data set in which every step shows these states *)
Definition shown_data (vars : list label) (rs : list raw) : trajectory :=
  MkTrajectory (map (fun ab => (fst (snd ab) - fst (fst ab))%Qc) (flat_map steps rs))
               (map (fun ab => shown_states vars ab ++ snd (snd ab)) (flat_map steps rs))
               (length vars + length vars) (length vars + 1).
(** the data set the user means *)
Definition true_data (vars : list label) (rs : list raw) : trajectory :=
  MkTrajectory (map (fun ab => (fst (snd ab) - fst (fst ab))%Qc) (flat_map steps rs))
               (map (fun ab => snd (fst ab) ++ snd (snd ab)) (flat_map steps rs))
               (length vars + length vars) (length vars + 1).
