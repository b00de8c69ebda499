(** Specification vocabulary for trajectory generation (C49-C53). *)
From Verif Require Import Base ModelStructure ModelGraph ModelCims ModelGenerator ModelSample SpecComb SpecGenerator.
Open Scope nat_scope.

(** a square matrix with a non-positive diagonal, non-negative entries elsewhere and a positive one in every row *)
Definition usable_matrix (c : nat) (m : list (list Qc)) : Prop :=
  length m = c /\ forall i row, nth_error m i = Some row ->
    length row = c
    /\ (exists d, nth_error row i = Some d /\ (d <= 0)%Qc)
    /\ (forall j x, j <> i -> nth_error row j = Some x -> (0 <= x)%Qc)
    /\ (exists j x, j <> i /\ nth_error row j = Some x /\ (0 < x)%Qc).

(** a network one can sample from: distinct variables with at least one state; the parents of every variable are
    variables; every configuration of the parents is in the table of the variable; one usable matrix per entry *)
Definition sampling_net (tg : trajgen) (cards : list nat) : Prop :=
  NoDup (tg_vnames tg) /\ tg_vnames tg <> [] /\ length cards = length (tg_vnames tg)
  /\ map fst (tg_parents tg) = tg_vnames tg
  /\ forall v c, card_in (tg_vnames tg) cards v c -> 0 < c /\
       exists ps pcs so, dict_get (tg_parents tg) v = Ok ps /\ Forall2 (card_in (tg_vnames tg) cards) ps pcs
         /\ dict_get (tg_cims tg) v = Ok so /\ length (so_p_combs so) = length (so_actual_cims so)
         /\ (forall u, config_ok pcs u -> In u (so_p_combs so))
         /\ (forall m, In m (so_actual_cims so) -> usable_matrix c m).

(** exponential draws are non-negative; a multinomial draw has positive weight *)
Definition rng_ok (g : rng) : Prop :=
  (forall k, 0 <= exp_draw g k)%Qc
  /\ (forall k w, (forall i x, nth_error w i = Some x -> (0 <= x)%Qc) -> (exists i x, nth_error w i = Some x /\ (0 < x)%Qc) ->
        exists x, nth_error w (pick g k w) = Some x /\ (0 < x)%Qc).

(** exactly one variable has a different value *)
Definition one_change (a b : list Z) : Prop :=
  length a = length b
  /\ exists i x y, nth_error a i = Some x /\ nth_error b i = Some y /\ x <> y
     /\ forall j, j <> i -> nth_error a j = nth_error b j.

(** R holds between neighbours *)
Fixpoint chain {A} (R : A -> A -> Prop) (l : list A) : Prop :=
  match l with
  | a :: r => match r with b :: _ => R a b /\ chain R r | [] => True end
  | [] => True
  end.

(** the shape of a generated trajectory: [done] are all rows but the last *)
Definition trajectory_shape (cards : list nat) (rows : list (Qc * list Z)) : Prop :=
  exists done last, rows = done ++ [last]
  /\ snd last = map (fun _ => (-1)%Z) cards
  /\ (forall r, In r done -> Forall2 (fun x c => (0 <= x < Z.of_nat c)%Z) (snd r) cards)
  /\ chain one_change (map snd done)
  /\ chain Qcle (map fst rows)
  /\ (forall r, nth_error rows 0 = Some r -> fst r = 0%Qc)
  /\ (forall r, nth_error done 0 = Some r -> snd r = map (fun _ => 0%Z) cards).

(** neither limit is given *)
Definition no_limits (t_end : Qc) (max_tr : Z) : Prop := t_end = (- (1))%Qc /\ (max_tr < 0)%Z.

(** the rate of leaving the current state: minus the diagonal entry of the selected matrix *)
Definition leaving_rate (tg : trajgen) (xs : list nat) (v : label) (q : Qc) : Prop :=
  exists m x d, select_cim tg xs v = Ok m /\ value_of (tg_vnames tg) xs v = Ok x /\ mat_get m x x = Ok d /\ q = (- d)%Qc.

(** all rates and all draws are bounded below *)
Definition dwell_at_least (tg : trajgen) (g : rng) (h : Qc) : Prop :=
  (0 < h)%Qc /\ forall xs v q k, leaving_rate tg xs v q -> (h <= q * exp_draw g k)%Qc.

(** number of undefined entries among the first [i] *)
Definition undef_before (os : list (option Qc)) (i : nat) : nat :=
  length (filter (fun o => match o with None => true | Some _ => false end) (firstn i os)).

(** The documented way to sample a random network: generate the graph, generate the CIMs, hand variables, edges
    and CIMs to the TrajectoryGenerator. *)
Definition sampled_from_generator (labels : list label) (vals : list nat) (u : nat -> Qc) (lo hi : Qc)
  (E : list edge) (cs : list (label * set_of_cims (list (list Qc)))) (tg : trajgen) : Prop :=
  NoDup labels /\ length vals = length labels /\
  exists density fixed shuffle coin g1 g2 vars, shuffles shuffle
  /\ generate_graph (new_netgen labels vals) density fixed shuffle coin = Ok g1
  /\ generate_cims g1 u lo hi = Ok g2 /\ dyn_str g2 = Ok E /\ gn_cims g2 = Some cs /\ variables g2 = Ok vars
  /\ tg = new_trajgen vars E cs.

(** the current row [xs] puts the variables [ps] in the states [u] *)
Definition in_states (labels : list label) (xs : list nat) (ps : list label) (u : list nat) : Prop :=
  Forall2 (fun p x => exists i, nth_error labels i = Some p /\ nth_error xs i = Some x) ps u.

(** at most one parent, or the first two parents have equally many states *)
Definition first_two_equal (pcs : list nat) : Prop := length pcs < 2 \/ exists a r, pcs = a :: a :: r.

(** ** The race between the variables.  A history lists the exact clock and the states after every transition. *)
(** transition [m] (from entry m-1 to entry m) changed the variable at position [j] *)
Definition changed_at (hist : list (Qc * list nat)) (m j : nat) : Prop :=
  exists k a b, m = S k /\ nth_error hist k = Some a /\ nth_error hist m = Some b /\ nth_error (snd a) j <> nth_error (snd b) j.
(** entry [m] restarts the clock of the variable at position [i]: it is the initial one, or the transition leading
    to it changed the variable itself or one of its parents *)
Definition restarts (tg : trajgen) (hist : list (Qc * list nat)) (i m : nat) : Prop :=
  m = 0 \/ exists j, changed_at hist m j /\
    (j = i \/ exists v w ps, nth_error (tg_vnames tg) i = Some v /\ nth_error (tg_vnames tg) j = Some w
                             /\ dict_get (tg_parents tg) v = Ok ps /\ In w ps).
(** [s] is the last restart of variable [i] up to entry [k] *)
Definition last_restart (tg : trajgen) (hist : list (Qc * list nat)) (i k s : nat) : Prop :=
  s <= k /\ restarts tg hist i s /\ forall m, s < m <= k -> ~ restarts tg hist i m.
(** [d] is the time scheduled, at entry [k], for the next transition of variable [i]: clock of its last restart
    plus leaving rate at that entry times the exponential draw made there *)
Definition scheduled (tg : trajgen) (g : rng) (draw : nat -> nat -> nat) (hist : list (Qc * list nat)) (i k : nat) (d : Qc) : Prop :=
  exists s t xs v q, last_restart tg hist i k s /\ nth_error hist s = Some (t, xs) /\ nth_error (tg_vnames tg) i = Some v
    /\ leaving_rate tg xs v q /\ d = (t + q * exp_draw g (draw s i))%Qc.
(** the history follows the race: at every transition the variable with the smallest scheduled time moves (the
    first one in case of a tie), to the state drawn with its off-diagonal rates as weights; no two scheduled
    times share a draw *)
Definition follows_race (tg : trajgen) (g : rng) (draw : nat -> nat -> nat) (hist : list (Qc * list nat)) : Prop :=
  nth_error hist 0 = Some (0%Qc, map (fun _ => 0) (tg_vnames tg))
  /\ (forall k t xs t' xs', nth_error hist k = Some (t, xs) -> nth_error hist (S k) = Some (t', xs') ->
       exists i v m x row,
         nth_error (tg_vnames tg) i = Some v /\ nth_error xs i = Some x
         /\ scheduled tg g draw hist i k t'
         /\ (forall j d, scheduled tg g draw hist j k d -> (t' <= d)%Qc /\ (j < i -> (t' < d)%Qc))
         /\ select_cim tg xs v = Ok m /\ nth_error m x = Some row
         /\ xs' = set_at xs i (pick g k (set_at row x 0%Qc)))
  /\ (forall i s i' s', i < length (tg_vnames tg) -> i' < length (tg_vnames tg) ->
        S s < length hist -> S s' < length hist -> restarts tg hist i s -> restarts tg hist i' s' ->
        draw s i = draw s' i' -> i = i' /\ s = s').
(** the rows shown to the user: times rounded to 4 digits, the states of the last entry replaced by -1 *)
Definition shown (hist : list (Qc * list nat)) (rows : list (Qc * list Z)) : Prop :=
  exists before last, hist = before ++ [last]
  /\ rows = map (fun e => (around4 (fst e), map Z.of_nat (snd e))) before
            ++ [(around4 (fst last), map (fun _ => (-1)%Z) (snd last))].
