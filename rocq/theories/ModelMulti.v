(** Model of TrajectoryGenerator.multi_trajectory and worker (trajectory_generator.py:139-180) as a transition
    system: the parent process, one forked process per request, and the list held by the Manager process. *)
From Verif Require Import Base ModelStructure ModelGraph ModelCims ModelGenerator ModelSample.
Open Scope nat_scope.

Notation rows_t := (list (Qc * list Z)) (only parsing).
(** the arguments of CTBN_Sample *)
Notation request := (Qc * Z)%type (only parsing).

(** lines 164-173: None stands for the early return; t_ends wins when both lists are given *)
Definition multi_requests (t_ends : option (list Qc)) (max_trs : option (list Z)) : option (list (Qc * Z)) :=
  match t_ends, max_trs with
  | None, None => None
  | Some ts, _ => Some (map (fun t => (t, (-1)%Z)) ts)
  | None, Some ms => Some (map (fun m => ((-(1))%Qc, m)) ms)
  end.

(** A worker process (lines 139-151): not started; inside CTBN_Sample, with its own copy of the random source;
    holding the finished trajectory; terminated after the append; terminated by an exception or a signal. *)
Inductive worker :=
| WIdle
| WRun (g : rng) (st : sstate)
| WHave (rows : list (Qc * list Z))
| WDone
| WFailed.

(** The parent: about to start worker k, about to join worker k, returned with the content of the list. *)
Inductive parent_pc :=
| PStart (k : nat)
| PJoin (k : nat)
| PReturned (l : list (list (Qc * list Z))).

(** The random source is numpy's global one, a component of the parent process. *)
Record mstate := MkMstate {
  ms_rng : rng;
  ms_workers : list worker;
  ms_shared : list (list (Qc * list Z));
  ms_parent : parent_pc }.

(** lines 167-172: the list is empty, the processes are created, none is started *)
Definition multi_init (g : rng) (reqs : list (Qc * Z)) : mstate :=
  MkMstate g (map (fun _ => WIdle) reqs) [] (PStart 0).

Definition terminated (w : worker) : bool := match w with WDone | WFailed => true | _ => false end.

(** One step of one process.  Process.start() forks (the default start method on Linux), so the child gets the
    parent's random source as it is at that moment; the parent itself draws nothing. *)
Inductive mstep (tg : trajgen) (reqs : list (Qc * Z)) : mstate -> mstate -> Prop :=
| step_start g ws sh k : nth_error ws k = Some WIdle ->                               (* lines 174-175 *)
    mstep tg reqs (MkMstate g ws sh (PStart k)) (MkMstate g (set_at ws k (WRun g (sample_init tg))) sh (PStart (S k)))
| step_started g ws sh k : k = length ws ->
    mstep tg reqs (MkMstate g ws sh (PStart k)) (MkMstate g ws sh (PJoin 0))
| step_join g ws sh k w : nth_error ws k = Some w -> terminated w = true ->           (* lines 177-178 *)
    mstep tg reqs (MkMstate g ws sh (PJoin k)) (MkMstate g ws sh (PJoin (S k)))
| step_return g ws sh k : k = length ws ->                                            (* line 180 *)
    mstep tg reqs (MkMstate g ws sh (PJoin k)) (MkMstate g ws sh (PReturned sh))
| step_sample g ws sh p i g' st t m st' : nth_error ws i = Some (WRun g' st) -> nth_error reqs i = Some (t, m) ->   (* line 150 *)
    sample_step tg g' t m st = Ok (inl st') ->
    mstep tg reqs (MkMstate g ws sh p) (MkMstate g (set_at ws i (WRun g' st')) sh p)
| step_sampled g ws sh p i g' st t m rows : nth_error ws i = Some (WRun g' st) -> nth_error reqs i = Some (t, m) ->
    sample_step tg g' t m st = Ok (inr rows) ->
    mstep tg reqs (MkMstate g ws sh p) (MkMstate g (set_at ws i (WHave rows)) sh p)
| step_raise g ws sh p i g' st t m e : nth_error ws i = Some (WRun g' st) -> nth_error reqs i = Some (t, m) ->
    sample_step tg g' t m st = Err e ->
    mstep tg reqs (MkMstate g ws sh p) (MkMstate g (set_at ws i WFailed) sh p)
| step_append g ws sh p i rows : nth_error ws i = Some (WHave rows) ->                (* line 151 *)
    mstep tg reqs (MkMstate g ws sh p) (MkMstate g (set_at ws i WDone) (sh ++ [rows]) p).

(** The same system in which, besides, a worker may be killed at any moment before its append *)
Inductive kstep (tg : trajgen) (reqs : list (Qc * Z)) : mstate -> mstate -> Prop :=
| kstep_step s s' : mstep tg reqs s s' -> kstep tg reqs s s'
| kstep_kill g ws sh p i w : nth_error ws i = Some w -> (w <> WIdle /\ terminated w = false) ->
    kstep tg reqs (MkMstate g ws sh p) (MkMstate g (set_at ws i WFailed) sh p).
