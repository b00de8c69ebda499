(** Python values and library helpers shared by the model.
    Exceptions are values; a call that blocks for ever is [Err Blocked]; a [while]
    loop that exhausts its explicit fuel is [Err OutOfFuel]. *)
From Coq Require Export String.
From Coq Require Export List Bool Arith ZArith Lia Permutation.
Export ListNotations.
Open Scope string_scope.
Open Scope list_scope.
Open Scope nat_scope.

(** Python / library exceptions that the modelled code can raise. *)
Inductive exn :=
| ValueError | IndexError | KeyError | AttributeError | TypeError
| ZeroDivisionError | RuntimeError | UnboundLocalError | NetworkXError
| FileNotFoundError
| Blocked     (* queue.Queue.get() on an empty queue, no timeout: never returns *)
| OutOfFuel.  (* model artefact: loop fuel exhausted; excluded by the termination theorems *)

Inductive result (A : Type) := Ok (a : A) | Err (e : exn).
Arguments Ok {A}. Arguments Err {A}.

Definition bind {A B} (r : result A) (f : A -> result B) : result B :=
  match r with Ok a => f a | Err e => Err e end.
Notation "'let*' x ':=' a 'in' b" := (bind a (fun x => b))
  (at level 200, x pattern, a at level 100, b at level 200, right associativity).

Definition is_ok {A} (r : result A) : bool := match r with Ok _ => true | Err _ => false end.

Definition exn_eqb (a b : exn) : bool :=
  match a, b with
  | ValueError, ValueError | IndexError, IndexError | KeyError, KeyError
  | AttributeError, AttributeError | TypeError, TypeError
  | ZeroDivisionError, ZeroDivisionError | RuntimeError, RuntimeError
  | UnboundLocalError, UnboundLocalError | NetworkXError, NetworkXError
  | FileNotFoundError, FileNotFoundError
  | Blocked, Blocked | OutOfFuel, OutOfFuel => true
  | _, _ => false
  end.

(** Node labels are Python strings. *)
Notation label := string (only parsing).
Notation edge := (string * string)%type (only parsing).
Definition edge_eqb (a b : edge) : bool :=
  String.eqb (fst a) (fst b) && String.eqb (snd a) (snd b).

(** [x in l] for a list of labels. *)
Definition lmem (x : label) (l : list label) : bool := existsb (String.eqb x) l.
(** [e in l] for a list of edges. *)
Definition emem (e : edge) (l : list edge) : bool := existsb (edge_eqb e) l.

(** Python [list.index(x)]: first position, ValueError when absent. *)
Fixpoint py_index (x : label) (l : list label) : result nat :=
  match l with
  | [] => Err ValueError
  | y :: r => if String.eqb x y then Ok 0
              else let* i := py_index x r in Ok (S i)
  end.

(** Python [list.remove(x)] for an arbitrary boolean equality: first occurrence,
    ValueError when absent. *)
Fixpoint py_remove {A} (eqb : A -> A -> bool) (x : A) (l : list A) : result (list A) :=
  match l with
  | [] => Err ValueError
  | y :: r => if eqb x y then Ok r
              else let* r' := py_remove eqb x r in Ok (y :: r')
  end.

(** Sequence indexing with a natural number: IndexError out of range. *)
Definition nth_res {A} (l : list A) (n : nat) : result A :=
  match nth_error l n with Some a => Ok a | None => Err IndexError end.

(** Python sequence indexing with a possibly negative integer. *)
Definition py_get {A} (l : list A) (i : Z) : result A :=
  if (0 <=? i)%Z then nth_res l (Z.to_nat i)
  else if (- Z.of_nat (length l) <=? i)%Z
       then nth_res l (Z.to_nat (Z.of_nat (length l) + i))
       else Err IndexError.

(** [numpy.delete(arr, n)] on a 1-d array: IndexError out of bounds. *)
Definition np_delete {A} (l : list A) (n : nat) : result (list A) :=
  if n <? length l then Ok (firstn n l ++ skipn (S n) l) else Err IndexError.

(** List comprehension whose element expression may raise. *)
Fixpoint res_map {A B} (f : A -> result B) (l : list A) : result (list B) :=
  match l with
  | [] => Ok []
  | a :: r => let* b := f a in let* bs := res_map f r in Ok (b :: bs)
  end.

(** [enumerate]-style map. *)
Fixpoint mapi_from {A B} (n : nat) (f : nat -> A -> B) (l : list A) : list B :=
  match l with
  | [] => []
  | a :: r => f n a :: mapi_from (S n) f r
  end.
Definition mapi {A B} (f : nat -> A -> B) (l : list A) : list B := mapi_from 0 f l.

(** In-place assignment [l[i] = v]; no effect out of range (callers check bounds). *)
Fixpoint set_at {A} (l : list A) (i : nat) (v : A) : list A :=
  match l, i with
  | [], _ => []
  | _ :: r, O => v :: r
  | a :: r, S j => a :: set_at r j v
  end.

Definition nat_prod (l : list nat) : nat := fold_right Nat.mul 1 l.
Definition nat_sum (l : list nat) : nat := fold_right Nat.add 0 l.
Definition Zsum (l : list Z) : Z := fold_right Z.add 0%Z l.
