(** Property theorems C96: variable names that collide with the importer's own column names. *)
From Verif Require Import Base Lib LibQc ModelStructure ModelGraph ModelCims ModelData ModelParams SpecStructure SpecGraph SpecComb SpecParams SpecData
  SpecInvariance SpecNames ProofInvariance ProofNames ProofNames2 PropsData PropsInvariance.

(** For distinct names none of which is "Time" the import never fails, whatever else the names are; the next states are
    always right, and the current state of a variable called v ++ "S" is v's next state. *)
Theorem C96_exact_data vars cards prior rs : NoDup ("Time" :: vars) -> vars <> [] -> length cards = length vars ->
  (forall r o, In r rs -> In o r -> length (snd o) = length vars) -> (exists r, In r rs /\ 2 <= length r) ->
  forall s t, imports_to vars cards prior rs s t
    <-> s = MkStructure vars (seq 0 (length vars)) cards (match prior with None => [] | Some es => es end) (length vars) /\ t = shown_data vars rs.
Proof. exact (clash_exact vars cards prior rs). Qed.

(** The data set is the one the user means for all data exactly if no variable is named like another one plus "S". *)
Theorem C96_right_iff_no_clash vars : NoDup ("Time" :: vars) -> vars <> [] ->
  ((forall cards prior rs s t, length cards = length vars -> Forall (raw_ok cards) rs -> (exists r, In r rs /\ 2 <= length r) ->
      imports_to vars cards prior rs s t -> t = true_data vars rs)
   <-> ~ name_clash vars).
Proof.
  intros Hn Hv. split.
  - intros H C. apply (clash_wrong vars C). symmetry.
    pose proof (probe_ok vars) as PO.
    assert (LC : length (map (fun _ : label => 2) vars) = length vars) by apply map_length.
    assert (EX : exists r, In r [probe vars] /\ 2 <= length r) by (exists (probe vars); split; [left; reflexivity|cbn; lia]).
    assert (HL : forall r o, In r [probe vars] -> In o r -> length (snd o) = length vars).
    { intros r o [<-|[]] Ho. rewrite <- LC. apply PO, Ho. }
    refine (eq_sym (H _ None [probe vars] _ _ LC (Forall_cons _ PO (Forall_nil _)) EX _)).
    apply (clash_exact vars _ None [probe vars] Hn Hv LC HL EX). split; reflexivity.
  - intros C cards prior rs s t Hc Hok Hex HI.
    assert (HL : forall r o, In r rs -> In o r -> length (snd o) = length vars).
    { intros r o Hr Ho. rewrite <- Hc. rewrite Forall_forall in Hok. apply (Hok r Hr), Ho. }
    apply (clash_exact vars cards prior rs Hn Hv Hc HL Hex) in HI as [_ ->]. apply shown_true_data; assumption.
Qed.

(** what the header condition of the other properties means for the names *)
Theorem C96_good_names vars : good_header vars <-> NoDup ("Time" :: vars) /\ ~ name_clash vars.
Proof. apply good_header_iff. Qed.

(** With a clash, a variable v is only ever seen to enter state x while "vS" is shown in state x: whatever the processes
    are, vS looks as if it predicted v perfectly. *)
Theorem C96_looks_predicted vars cards prior rs s t i j v : NoDup ("Time" :: vars) -> vars <> [] -> length cards = length vars ->
  (forall r o, In r rs -> In o r -> length (snd o) = length vars) -> (exists r, In r rs /\ 2 <= length r) ->
  nth_error vars i = Some v -> nth_error vars j = Some (String.append v "S") -> imports_to vars cards prior rs s t ->
  forall row, In row (t_rows t) -> nth_error row j = nth_error row (length vars + i).
Proof.
  intros Hn Hv Hc HL Hex Hi Hj HI row Hrow. apply (clash_exact vars cards prior rs Hn Hv Hc HL Hex) in HI as [_ ->].
  unfold shown_data in Hrow. cbn [t_rows] in Hrow. apply in_map_iff in Hrow as [ab [<- Hab]].
  assert (L : length (snd (snd ab)) = length vars).
  { apply in_flat_map in Hab as [r [Hr Hab]]. apply In_nth_error in Hab as [q Hq]. apply ProofData3.steps_nth in Hq as [_ B]. exact (HL r _ Hr (nth_error_In _ _ B)). }
  assert (LS : length (shown_states vars ab) = length vars) by (unfold shown_states; apply mapi_length).
  assert (J : j < length vars) by (apply nth_error_Some; congruence). assert (I : i < length vars) by (apply nth_error_Some; congruence).
  rewrite nth_error_app1 by lia. rewrite nth_error_app2 by lia. replace (length vars + i - length (shown_states vars ab)) with i by lia.
  unfold shown_states. rewrite nth_error_mapi, Hj. cbn [option_map]. unfold shown_state.
  pose proof (source_shifted vars Hn i v Hi) as Q. unfold source in Q. rewrite Q. symmetry. apply nth_error_nth'. lia.
Qed.

(** ** a concrete case: X and XS; XS never changes, but is shown to change together with X *)
Example C96_case : NoDup ("Time" :: ["X";"XS"]) /\ name_clash ["X";"XS"]
  /\ (exists s t, imports_to ["X";"XS"] [2;2] None [[(0%Qc, [0;0]%Z); (1%Qc, [1;0]%Z); (Q2Qc 2, [0;0]%Z)]] s t /\ t_rows t = [[0;1;1;0];[1;0;0;0]]%Z)
  /\ t_rows (true_data ["X";"XS"] [[(0%Qc, [0;0]%Z); (1%Qc, [1;0]%Z); (Q2Qc 2, [0;0]%Z)]]) = [[0;0;1;0];[1;0;0;0]]%Z.
Proof.
  assert (N : NoDup ("Time" :: ["X";"XS"])) by (repeat constructor; cbn; intuition discriminate).
  split; [exact N|]. split; [exists "X"%string; split; [left; reflexivity|right; left; reflexivity]|]. split; [|reflexivity].
  exists (struct_of ["X";"XS"] [2;2] None), (shown_data ["X";"XS"] [[(0%Qc, [0;0]%Z); (1%Qc, [1;0]%Z); (Q2Qc 2, [0;0]%Z)]]). split; [|reflexivity].
  apply C96_exact_data; [exact N|discriminate|reflexivity| |eexists; split; [left; reflexivity|cbn; lia]|split; reflexivity].
  intros r o [<-|[]] H; cbn in H; repeat (destruct H as [<-|H]; [reflexivity|]); contradiction.
Qed.
Print Assumptions C96_exact_data.
Print Assumptions C96_right_iff_no_clash.
Print Assumptions C96_good_names.
Print Assumptions C96_looks_predicted.
