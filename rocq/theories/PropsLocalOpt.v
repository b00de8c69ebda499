(** Property theorems C63: when the score-based search stops, which single-edge changes it has ruled out. *)
From Verif Require Import Base Lib ModelStructure ModelGraph ModelCims ModelData ModelParams ModelCtpc ModelSearch
  SpecStructure SpecGraph SpecParams SpecCtpc SpecSearch SpecLocalOpt ProofSearch2 ProofSearch3 ProofLocalOpt ProofLocalOpt2 PropsParams PropsSearch.

Section props.
Variables (Sc : Type) (score : list cim -> result Sc) (gt : Sc -> Sc -> bool) (t : trajectory) (draws : nat -> nat).
Variables (s : structure) (known : list edge) (m : list (list bool)) (v : label).
Variables (mp : option nat) (n : nat) (pat len dur : option nat).
Notation hill := (hill_climbing Sc score gt t draws s m v mp n pat).
Notation tabu := (tabu_search Sc score gt t draws s m v mp n pat len dur).
Notation cands := (candidate_parents s known v).

(** the candidates tried since the last improvement certify the returned parent set; in particular, when
    all of them were tried, it is locally optimal *)
Theorem C63_hill_climbing_certificate es pre post : search_ready s known m v -> hill = Ok (es, pre ++ post) ->
  (forall e, In e post -> sl_accepted e = false) -> locally_optimal score gt t s v mp (map sl_candidate post) es.
Proof.
  intros H E HA. exact (tail_optimal Sc score gt t s known m v H mp n pat es _
    (hill_outcome Sc score gt t draws s known m v H mp n pat es _ E) pre post eq_refl HA).
Qed.
Theorem C63_tabu_search_certificate es tr pre post : search_ready s known m v -> tabu = Ok (es, tr) -> map fst tr = pre ++ post ->
  (forall e, In e post -> sl_accepted e = false) -> locally_optimal score gt t s v mp (map sl_candidate post) es.
Proof.
  intros H E HT HA. exact (tail_optimal Sc score gt t s known m v H mp n pat es _
    (proj1 (tabu_outcome Sc score gt t draws s known m v H mp n pat len dur es tr E)) pre post HT HA).
Qed.

(** tabu_length and tabu_rules_duration absent, or at least the number of candidates *)
Definition wide (o : option nat) : Prop := match o with None => True | Some k => length cands <= k end.
Lemma wide_default o : wide o -> length cands <= opt_default o (length cands).
Proof. destruct o; simpl; auto. Qed.

(** whatever the random draws, the candidates are then tried in a fixed cyclic order *)
Theorem C63_tabu_search_round_robin es tr : search_ready s known m v -> wide len -> wide dur -> tabu = Ok (es, tr) ->
  round_robin (length cands) (map (fun x => sl_candidate (fst x)) tr).
Proof.
  intros H Hl Hd E. exact (tabu_round_robin Sc score gt t draws s known m v H mp n pat len dur es tr E (wide_default _ Hl) (wide_default _ Hd)).
Qed.
(** a full cycle without an improvement means a local optimum *)
Theorem C63_tabu_search_locally_optimal es tr : search_ready s known m v -> wide len -> wide dur -> tabu = Ok (es, tr) ->
  length cands <= trailing_rejections (map fst tr) -> locally_optimal score gt t s v mp cands es.
Proof.
  intros H Hl Hd E. exact (tabu_locally_optimal Sc score gt t draws s known m v H mp n pat len dur es tr E (wide_default _ Hl) (wide_default _ Hd)).
Qed.
(** so does giving up early with a patience not shorter than a cycle *)
Theorem C63_tabu_search_early_stop es tr p : search_ready s known m v -> wide len -> wide dur -> tabu = Ok (es, tr) ->
  pat = Some p -> length cands <= S p -> length tr < n -> locally_optimal score gt t s v mp cands es.
Proof.
  intros H Hl Hd E. exact (tabu_early_stop Sc score gt t draws s known m v H mp n pat len dur es tr E (wide_default _ Hl) (wide_default _ Hd) p).
Qed.
(** and so does a search with enough iterations: c 2^c for c candidates, if max_parents is not set and the patience, if any, is
    not shorter than a cycle *)
Theorem C63_tabu_search_enough_iterations es tr : search_ready s known m v -> mp = None -> wide len -> wide dur -> strict_order gt ->
  (forall p, pat = Some p -> length cands <= S p) -> length cands * 2 ^ length cands <= n -> tabu = Ok (es, tr) -> locally_optimal score gt t s v mp cands es.
Proof.
  intros H -> Hl Hd HO HP Hn E. exact (tabu_enough Sc score gt t draws s known m v H n pat len dur es tr E (wide_default _ Hl) (wide_default _ Hd) HO HP Hn).
Qed.
End props.
Print Assumptions C63_tabu_search_enough_iterations.
Print Assumptions C63_hill_climbing_certificate. Print Assumptions C63_tabu_search_certificate.
Print Assumptions C63_tabu_search_round_robin. Print Assumptions C63_tabu_search_locally_optimal. Print Assumptions C63_tabu_search_early_stop.

(** a run whose early stop certifies the result *)
Example C63_case : exists tr,
  tabu_search Z wscore wlt pt (fun k => k) px (repeat (repeat true 3) 3) "X" None 40 (Some 2) None None = Ok ([("Y","X")], tr)
  /\ search_ready px [] (repeat (repeat true 3) 3) "X" /\ candidate_parents px [] "X" = ["Y";"Z"] /\ length tr = 4
  /\ map sl_candidate (map fst tr) = ["Y";"Z";"Y";"Z"] /\ wide px [] "X" None.
Proof.
  eexists. split; [vm_compute; reflexivity|]. split; [|repeat split].
  split; [exact px_wf|]. split; [reflexivity|]. split; [reflexivity|]. split; [intros e []|split; [reflexivity|cbn; tauto]].
Qed.
Example C63_enough_case : strict_order wlt /\ length (candidate_parents px [] "X") * 2 ^ length (candidate_parents px [] "X") <= 40.
Proof.
  split; [split; [intros a; apply Z.ltb_irrefl|intros a b c; unfold wlt; rewrite !Z.ltb_lt; lia]|]. cbn. lia.
Qed.
(** hill climbing gives no such guarantee: it may try the same candidate again and again
    and stop although the other change improves the score *)
Theorem C63_hill_climbing_may_stop_short : exists tr,
  hill_climbing Z wscore wlt pt (fun _ => 1) px (repeat (repeat true 3) 3) "X" None 40 (Some 3) = Ok ([], tr)
  /\ length tr = 4 /\ map sl_candidate tr = ["Z";"Z";"Z";"Z"]
  /\ ~ locally_optimal wscore wlt pt px "X" None ["Y";"Z"] [].
Proof.
  eexists. split; [vm_compute; reflexivity|]. split; [reflexivity|]. split; [reflexivity|]. intros K.
  specialize (K "Y" [("Y","X")] 16%Z 8%Z (or_introl eq_refl)). assert (E : wlt 8 16 = false); [|discriminate].
  apply K; [right; split; [intros []|intros e; cbn; intuition]|right; exact I|vm_compute; reflexivity|vm_compute; reflexivity].
Qed.
Print Assumptions C63_hill_climbing_may_stop_short.
