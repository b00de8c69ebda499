(** Model of PyCTBN/PyCTBN/utility/cache.py.
    Keys are Python sets of labels, represented by lists compared as sets ([lset_eqb]). *)
From Verif Require Import Base ModelStructure.

(** cache.py:18-22: two parallel lists *)
Record cache (V : Type) := MkCache { c_keys : list (list label); c_vals : list V }.
Arguments MkCache {V}. Arguments c_keys {V}. Arguments c_vals {V}.
Definition empty_cache {V} : cache V := MkCache [] [].

(** list.index(s) on a list of sets *)
Fixpoint set_index (k : list label) (l : list (list label)) : result nat :=
  match l with
  | [] => Err ValueError
  | y :: r => if lset_eqb k y then Ok 0 else let* i := set_index k r in Ok (S i)
  end.

(** cache.py:24-39: only ValueError is caught; a desynchronised value list would raise IndexError *)
Definition cache_find {V} (c : cache V) (k : list label) : result (option V) :=
  match set_index k (c_keys c) with
  | Err ValueError => Ok None
  | Err e => Err e
  | Ok i => let* v := nth_res (c_vals c) i in Ok (Some v)
  end.

(** cache.py:41-51 *)
Definition cache_put {V} (c : cache V) (k : list label) (v : V) : cache V :=
  MkCache (c_keys c ++ [k]) (c_vals c ++ [v]).

(** cache.py:53-57 *)
Definition cache_clear {V} (c : cache V) : cache V := MkCache [] [].
