(** The estimated rates maximise the likelihood of the data plus one imaginary transition and one unit of time (C85). *)
From Verif Require Import Base SpecBias.
From Coq Require Import Reals Lra.
Open Scope R_scope.

Lemma ln_below z : 0 < z -> ln z <= z - 1 /\ (z <> 1 -> ln z < z - 1).
Proof.
  intros Hz. assert (K : z <> 1 -> ln z < z - 1).
  { intros N. assert (NE : ln z <> 0). { intros E. apply N. rewrite <- (exp_ln z Hz), E. apply exp_0. }
    pose proof (exp_ineq1 (ln z) NE) as H. rewrite (exp_ln z Hz) in H. lra. }
  split; [|exact K]. destruct (Req_dec z 1) as [->|N]; [rewrite ln_1; lra|]. left. apply K, N.
Qed.
Lemma likelihood_max m t r : 0 < m -> 0 < t -> 0 < r -> r <> m / t -> log_likelihood m t r < log_likelihood m t (m / t).
Proof.
  intros Hm Ht Hr N. unfold log_likelihood. assert (Hq : 0 < m / t) by (apply Rdiv_lt_0_compat; assumption).
  assert (Hz : 0 < r / (m / t)) by (apply Rdiv_lt_0_compat; assumption).
  destruct (ln_below _ Hz) as [_ K]. assert (N1 : r / (m / t) <> 1).
  { intros E. apply N. apply (f_equal (fun a => a * (m / t))) in E. unfold Rdiv in E at 1. rewrite Rmult_assoc, Rinv_l in E by lra. lra. }
  specialize (K N1). assert (E1 : ln r = ln (r / (m / t)) + ln (m / t)).
  { rewrite <- ln_mult by assumption. f_equal. field. lra. }
  rewrite E1. assert (E2 : t * (m / t) = m) by (field; lra). rewrite E2. assert (E3 : m * (r / (m / t)) = t * r) by (field; lra).
  apply (Rmult_lt_compat_l m _ _ Hm) in K. replace (m * (r / (m / t) - 1)) with (m * (r / (m / t)) - m) in K by ring. rewrite E3 in K. lra.
Qed.
