(** Property theorems C81 (every call) and C83: several calls of estimate_structure on one constraint-based estimator. *)
From Verif Require Import Base Lib ModelStructure ModelGraph ModelCims ModelData ModelParams ModelCache ModelCtpc
  SpecStructure SpecGraph SpecComb SpecParams SpecData SpecCtpc SpecRecover SpecAlgorithm SpecHistory
  ProofStructure ProofGraph ProofCtpc7 ProofAlgorithm3 ProofHistory3 PropsCtpc.

(** Every call of every history is a run of the algorithm of C81; what the earlier sequential calls protected stays protected *)
Theorem C81_every_call s t tot k known thr tests est :
  wf_structure s -> NoDup (nodes_indexes s) -> (forall i, In i (nodes_indexes s) -> i < tot) ->
  total_variables_number s = tot -> data_ok s t -> 0 < k -> (forall x, In x (nodes_values s) -> x = k) ->
  new_cb_estimator s t tot known thr tests = Ok est ->
  forall v, In v (nodes_labels s) -> exists ask : label -> list label -> bool * bool,
    (forall p sep, test_ok s v p sep ->
       (forall b, test_answers (cb_e est) (cb_tot est) (st_matrix (cb_st est)) v p sep b <-> b = fst (ask p sep))
       /\ (~ In (p, v) known -> (gives_up est v p sep <-> snd (ask p sep) = true)))
    /\ forall modes, exists ess est', calls est modes = Ok (ess, est') /\ length ess = length modes
         /\ forall n es, nth_error ess n = Some es -> forall p,
              In (p, v) es <-> In p (ctpc_parents ask (protected_after ask (others s v) (filter (fun q => emem (q, v) known) (others s v)) (firstn n modes)) (others s v)).
Proof.
  intros Hwf Hnd Hlt Htot Hd Hk HU HN v Hv. exists (the_ask (MkEnv s t thr tests) tot v k).
  destruct (new_estimator_ok s t tot known thr tests est Hwf Hnd Hlt HN) as [_ [Ee [Et _]]]. split.
  - intros p sep Ht. rewrite Ee, Et. exact (ask_faithful s t tot k known thr tests est Hwf Hnd Hlt Htot Hd Hk HU HN v p sep Ht).
  - intros modes. exact (every_call s t tot k known thr tests est Hwf Hnd Hlt Htot Hd Hk HU HN v modes Hv).
Qed.

Section history.
Variables (est : cb_estimator) (k : nat).
Hypothesis Hok : estimator_ok est.
Hypothesis Hu : uniform_data est k.
Notation variables := (length (nodes_labels (e_struct (cb_e est)))).

Theorem C83_no_call_raises modes : exists ess est', calls est modes = Ok (ess, est') /\ length ess = length modes.
Proof. exact (calls_total est k Hok Hu modes). Qed.
(** a call in a pool of processes leaves no trace: the next call returns the same edges *)
Theorem C83_pool_leaves_no_trace modes ess est' n a b : calls est modes = Ok (ess, est') ->
  nth_error modes n = Some false -> nth_error ess n = Some a -> nth_error ess (S n) = Some b -> a = b.
Proof. exact (calls_pool est k Hok Hu modes ess est' n a b). Qed.
(** over the whole life of the estimator the answer changes at most N (N - 1) times *)
Theorem C83_few_changes modes ess est' : calls est modes = Ok (ess, est') -> changes ess <= variables * (variables - 1).
Proof. exact (calls_few est k Hok Hu modes ess est'). Qed.
(** after N (N - 1) sequential calls it does not change any more *)
Theorem C83_settles modes ess est' n n' a b : calls est modes = Ok (ess, est') ->
  variables * (variables - 1) <= length (filter (fun sequential => sequential) (firstn n modes)) -> n <= n' ->
  nth_error ess n = Some a -> nth_error ess n' = Some b -> a = b.
Proof. exact (calls_settle est k Hok Hu modes ess est' n n' a b). Qed.
(** a call protects an edge only if a test of it gave up for lack of data *)
Theorem C83_protected_for_lack_of_data mp es est' p v : cb_estimate_structure est mp = Ok (es, est') ->
  In v (nodes_labels (e_struct (cb_e est))) -> In p (others (e_struct (cb_e est)) v) ->
  removable est p v -> ~ removable est' p v -> exists sep, test_ok (e_struct (cb_e est)) v p sep /\ gives_up est v p sep.
Proof. intros H Hv Hp Hr Hn. destruct (marked_why est k Hok Hu mp es est' p v H Hv Hp Hr) as [K|K]; [contradiction|exact K]. Qed.
(** binary variables: all calls return the same edges *)
Theorem C83_binary modes ess est' a b : k <= 2 -> calls est modes = Ok (ess, est') -> In a ess -> In b ess -> a = b.
Proof. exact (calls_binary est k Hok Hu modes ess est' a b). Qed.
End history.
Print Assumptions C81_every_call. Print Assumptions C83_no_call_raises. Print Assumptions C83_pool_leaves_no_trace. Print Assumptions C83_few_changes.
Print Assumptions C83_settles. Print Assumptions C83_protected_for_lack_of_data. Print Assumptions C83_binary.

Lemma changes_ab (a b : list edge) : a <> b -> changes [a; a; b; b; b; b] = 1.
Proof.
  intros N. cbn [changes]. destruct (list_eq_dec edge_dec a a) as [_|K]; [|destruct (K eq_refl)]. destruct (list_eq_dec edge_dec a b) as [K|_]; [destruct (N K)|].
  destruct (list_eq_dec edge_dec b b) as [_|K]; [|destruct (K eq_refl)]. reflexivity.
Qed.
(** the estimator of C26: the second sequential call differs from the first, the third does not; pools in between change nothing *)
Example C83_case : estimator_ok west /\ uniform_data west 3
  /\ exists a b est', calls west [false; true; false; true; true; false] = Ok ([a; a; b; b; b; b], est') /\ a <> b /\ changes [a; a; b; b; b; b] = 1.
Proof.
  split; [apply C26_sequential_rerun_differs|]. split; [apply C26_sequential_rerun_differs|].
  do 3 eexists. split; [vm_compute; reflexivity|]. match goal with |- ?a <> ?b /\ _ => assert (N : a <> b) by discriminate; split; [exact N|exact (changes_ab a b N)] end.
Qed.
