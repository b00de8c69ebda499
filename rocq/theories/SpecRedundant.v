(** Specification vocabulary for redundant variables (C72). *)
From Verif Require Import Base ModelStructure ModelGraph ModelCims ModelData ModelParams ModelCache ModelCtpc
  SpecStructure SpecParams SpecCtpc.

(** in the data, the state of [p] is a function of the states of the variables [sep]: two rows that agree on [sep]
    agree on [p].  With [sep = [z]] for instance a copy (or a recoding) of z; with [sep = []] a constant *)
Definition determined (s : structure) (t : trajectory) (p : label) (sep : list label) : Prop :=
  forall r1 r2, In r1 (t_rows t) -> In r2 (t_rows t) ->
    (forall z i, In z sep -> structure_get_node_indx s z = Ok i -> nth_error r1 i = nth_error r2 i) ->
    forall i, structure_get_node_indx s p = Ok i -> nth_error r1 i = nth_error r2 i.

(** what is required of the statistical tests: a matrix passes against itself and against one without transitions *)
Definition tolerant (e : cb_env) (tot k : nat) : Prop :=
  forall ni pis u, let c := data_cim (e_traj e) tot ni pis k u in
    e_tests e k c c = true
    /\ forall pis' u', let c' := data_cim (e_traj e) tot ni pis' k u' in
         (forall x, x < k -> nth x (nth x (c_trans c') []) 0%Z = 0%Z) -> e_tests e k c c' = true.

(** the rule of thumb is met for [v] (in column [ni]) given [sep]; always so with at most two states *)
Definition data_suffice (e : cb_env) (tot k ni : nat) (sep : list label) : Prop :=
  forall cols u, columns_of (e_struct e) (filter (fun l => lmem l sep) (nodes_labels (e_struct e))) cols ->
    enough_data (e_threshold e) k k (map (fun _ => k) (filter (fun l => lmem l sep) (nodes_labels (e_struct e)))) (data_cim (e_traj e) tot ni cols k u).
