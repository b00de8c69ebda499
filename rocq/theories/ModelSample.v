(** Model of PyCTBN/PyCTBN/structure_graph/trajectory_generator.py *)
From Verif Require Import Base ModelStructure ModelGraph ModelCims ModelGenerator.
Open Scope nat_scope.

Notation matrix := (list (list Qc)) (only parsing).

(** trajectory_generator.py:34-65.  Labels are assumed distinct by the theorems (the code keys dicts by them). *)
Record trajgen := MkTrajgen {
  tg_vnames : list label;
  tg_parents : list (label * list label);
  tg_cims : list (label * set_of_cims matrix) }.

(** dyn_str.where(dyn_str["To"] == v).dropna()["From"].tolist(): lines 41, 43 *)
Definition parents_of (str : list edge) (v : label) : list label :=
  map fst (filter (fun e => String.eqb (snd e) v) str).

(** the constructor without an importer: lines 36, 38-43, 65 *)
Definition new_trajgen (variables : list (label * nat)) (str : list edge)
  (cims : list (label * set_of_cims matrix)) : trajgen :=
  MkTrajgen (map fst variables)
            (fold_left (fun d v => dict_set d v (parents_of str v)) (map fst variables) []) cims.

(** the random source of one run: [exp_draw k] is the k-th standard exponential draw (numpy computes
    exponential(scale) as scale times such a draw); [pick k w] is the position chosen by the k-th
    multinomial(1, w / sum(w)) *)
Record rng := MkRng { exp_draw : nat -> Qc; pick : nat -> list Qc -> nat }.

(** current_values.at[p]: the value in the column of p, KeyError when there is none *)
Fixpoint value_of (vs : list label) (xs : list nat) (p : label) : result nat :=
  match vs, xs with
  | v :: vs', x :: xs' => if String.eqb v p then Ok x else value_of vs' xs' p
  | _, _ => Err KeyError
  end.

(** lines 91-98 and 112-119: the CIM of variable [v] in the current row *)
Definition select_cim (tg : trajgen) (xs : list nat) (v : label) : result matrix :=
  let* ps := dict_get (tg_parents tg) v in
  let* so := dict_get (tg_cims tg) v in
  let* comb := res_map (value_of (tg_vnames tg) xs) ps in
  let* cim_obj := filter_cims_with_mask so (map (fun _ => true) ps) comb in
  if length ps =? 1
  then let* x := nth_res comb 0 in nth_res cim_obj x
  else nth_res cim_obj 0.

(** cim[i][j] *)
Definition mat_get (m : matrix) (i j : nat) : result Qc :=
  let* row := nth_res m i in nth_res row j.

(** lines 89-102: the loop over the undefined times; [k] counts the exponential draws.
    numpy.random.exponential raises ValueError for a negative scale. *)
Fixpoint fill_times (tg : trajgen) (g : rng) (xs : list nat) (t : Qc)
  (vs : list label) (ts : list (option Qc)) (k : nat) : result (list Qc * nat) :=
  match vs, ts with
  | v :: vs', Some d :: ts' =>
      let* rk := fill_times tg g xs t vs' ts' k in Ok (d :: fst rk, snd rk)
  | v :: vs', None :: ts' =>
      let* m := select_cim tg xs v in
      let* x := value_of (tg_vnames tg) xs v in
      let* q := mat_get m x x in
      let param := (- q)%Qc in
      if qc_le 0 param then
        let* rk := fill_times tg g xs t vs' ts' (S k) in
        Ok ((t + param * exp_draw g k)%Qc :: fst rk, snd rk)
      else Err ValueError
  | _, _ => Ok ([], k)
  end.

(** numpy argmin: position and value of the first minimum; ValueError on an empty array *)
Fixpoint argmin (l : list Qc) : result (nat * Qc) :=
  match l with
  | [] => Err ValueError
  | [a] => Ok (0, a)
  | a :: r => let* p := argmin r in
              if qc_le a (snd p) then Ok (0, a) else Ok (S (fst p), snd p)
  end.

(** lines 121-124 and 127: the next state of the variable, given its CIM and current state. A zero sum
    (nan / inf probabilities) or a probability outside [0, 1] makes multinomial raise ValueError. *)
Definition next_value (g : rng) (k : nat) (m : matrix) (x : nat) : result nat :=
  let* row := nth_res m x in
  let w := set_at row x 0%Qc in
  let s := Qcsum w in
  if Qc_eq_bool s 0%Qc then Err ValueError
  else if forallb (fun a => qc_le 0 (a / s)%Qc && qc_le (a / s)%Qc 1) w
       then Ok (pick g k w)
       else Err ValueError.

(** The loop state: the finished rows of sigma, its last row (recorded time and values), the times array
    (None = NaN), the clock, the number of transitions, the numbers of random draws used. *)
Record sstate := MkSstate {
  st_done : list (Qc * list nat);
  st_row : Qc * list nat;
  st_times : list (option Qc);
  st_t : Qc;
  st_ntr : nat;
  st_ke : nat;
  st_kp : nat }.

(** lines 79-83 *)
Definition sample_init (tg : trajgen) : sstate :=
  MkSstate [] (0%Qc, map (fun _ => 0) (tg_vnames tg)) (map (fun _ => None) (tg_vnames tg)) 0%Qc 0 0 0.

(** line 108: every variable of the last row becomes -1 *)
Definition finish (st : sstate) : list (Qc * list Z) :=
  map (fun r => (fst r, map Z.of_nat (snd r))) (st_done st)
  ++ [(fst (st_row st), map (fun _ => (-1)%Z) (snd (st_row st)))].

(** lines 133-137: positions whose time becomes undefined after a transition of variable [v] *)
Definition reset_times (tg : trajgen) (v : label) (next : nat) (ts : list Qc) : list (option Qc) :=
  mapi (fun i d => if (i =? next) || (match nth_error (tg_parents tg) i with
                                      | Some (_, ps) => lmem v ps | None => false end)
                   then None else Some d) ts.

(** lines 87-137: one iteration of [while True] *)
Definition sample_step (tg : trajgen) (g : rng) (t_end : Qc) (max_tr : Z) (st : sstate)
  : result (sstate + list (Qc * list Z)) :=
  let xs := snd (st_row st) in
  let* filled := fill_times tg g xs (st_t st) (tg_vnames tg) (st_times st) (st_ke st) in
  let* nt := argmin (fst filled) in
  let next := fst nt in
  let t := snd nt in
  if (negb (max_tr =? -1)%Z && (Z.of_nat (st_ntr st) =? max_tr)%Z)
     || (negb (Qc_eq_bool t_end (-(1))%Qc) && qc_le t_end t)
  then Ok (inr (finish st))
  else
    let* v := nth_res (tg_vnames tg) next in
    let* m := select_cim tg xs v in
    let* x := value_of (tg_vnames tg) xs v in
    let* y := next_value g (st_kp st) m x in
    Ok (inl (MkSstate (st_done st ++ [st_row st]) (around4 t, set_at xs next y)
                      (reset_times tg v next (fst filled)) t (S (st_ntr st)) (snd filled) (S (st_kp st)))).

(** trajectory_generator.py:67-137; [fuel] bounds the iterations of [while True] *)
Fixpoint sample_loop (fuel : nat) (tg : trajgen) (g : rng) (t_end : Qc) (max_tr : Z) (st : sstate)
  : result (list (Qc * list Z)) :=
  match fuel with
  | O => Err OutOfFuel
  | S f => let* r := sample_step tg g t_end max_tr st in
           match r with
           | inl st' => sample_loop f tg g t_end max_tr st'
           | inr rows => Ok rows
           end
  end.
Definition ctbn_sample (fuel : nat) (tg : trajgen) (g : rng) (t_end : Qc) (max_tr : Z)
  : result (list (Qc * list Z)) := sample_loop fuel tg g t_end max_tr (sample_init tg).
