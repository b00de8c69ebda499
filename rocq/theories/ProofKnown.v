(** Lemmas for C92: protecting candidates that survive anyway. *)
From Verif Require Import Base Lib ModelStructure ModelCtpc SpecCtpc SpecAlgorithm ProofGraph.

Section alg.
Variable ask : label -> list label -> bool * bool.
Notation oner := (one_round ask). Notation rnds := (rounds ask).
Lemma one_round_incl b : forall todo P kept p, In p (fst (oner b P kept todo)) -> In p kept \/ In p todo.
Proof.
  induction todo as [|x r IH]; intros P kept p H; cbn [one_round fst] in H; [left; exact H|]. destruct (lmem x P).
  - apply IH in H as [H|H]; [apply in_app_iff in H as [H|[<-|[]]]|]; cbn [In]; tauto.
  - apply IH in H as [H|H]; [|cbn [In]; tauto]. destruct (fst _); [cbn [In]; tauto|]. apply in_app_iff in H as [H|[<-|[]]]; cbn [In]; tauto.
Qed.
Lemma one_round_NoDup b : forall todo P kept, NoDup (kept ++ todo) -> NoDup (fst (oner b P kept todo)).
Proof.
  induction todo as [|x r IH]; intros P kept N; cbn [one_round fst]; [rewrite app_nil_r in N; exact N|].
  assert (N1 : NoDup ((kept ++ [x]) ++ r)) by (rewrite <- app_assoc; exact N).
  destruct (lmem x P); [apply IH, N1|]. destruct (fst (try_all _ _ _)); apply IH; [exact (NoDup_remove_1 _ _ _ N)|exact N1].
Qed.
Lemma rounds_result fuel : forall b P C p, In p (rnds fuel b P C) -> In p C.
Proof.
  induction fuel as [|f IH]; intros b P C p H; cbn [rounds] in H; [exact H|]. destruct (b <? length C); [|exact H]. destruct (oner b P [] C) as [kept P'] eqn:E.
  apply IH in H. assert (X : In p (fst (oner b P [] C))) by (rewrite E; exact H). apply one_round_incl in X as [[]|X]. exact X.
Qed.
(** [FR]: the candidates that survive the whole search *)
Lemma one_round_more b FR : forall todo P P' kept, NoDup (kept ++ todo) -> incl P P' -> (forall p, In p (kept ++ todo) -> In p P' -> In p P \/ In p FR) ->
  incl FR (fst (oner b P kept todo)) ->
  fst (oner b P' kept todo) = fst (oner b P kept todo) /\ incl (snd (oner b P kept todo)) (snd (oner b P' kept todo))
  /\ forall p, In p (kept ++ todo) -> In p (snd (oner b P' kept todo)) -> In p (snd (oner b P kept todo)) \/ In p FR.
Proof.
  induction todo as [|x r IH]; intros P P' kept N I HF HR; cbn [one_round fst snd] in *; [auto|].
  assert (E0 : (kept ++ [x]) ++ r = kept ++ x :: r) by (rewrite <- app_assoc; reflexivity). assert (N1 : NoDup ((kept ++ [x]) ++ r)) by (rewrite E0; exact N).
  assert (Hx : In x (kept ++ x :: r)) by (apply in_app_iff; right; left; reflexivity).
  destruct (lmem x P) eqn:E1.
  - apply lmem_In in E1 as E1'. rewrite (proj2 (lmem_In x P') (I x E1')). rewrite <- E0. apply IH; [exact N1|exact I|rewrite E0; exact HF|exact HR].
  - apply lmem_false in E1 as E1'. set (ans := try_all ask x (combinations b (kept ++ r))) in *. destruct (lmem x P') eqn:E2.
    + apply lmem_In in E2 as E2'. destruct (HF x Hx E2') as [F|F]; [contradiction|].
      destruct (fst ans) eqn:EA.
      { exfalso. apply HR in F. apply one_round_incl in F. pose proof (NoDup_remove_2 _ _ _ N) as NX. apply NX, in_app_iff. tauto. }
      rewrite <- E0. apply IH; [exact N1| | |exact HR].
      * destruct (snd ans); [|exact I]. intros y [<-|Hy]; [exact E2'|apply I, Hy].
      * rewrite E0. intros p Hp Hp'. destruct (HF p Hp Hp') as [X|X]; [left|right; exact X]. destruct (snd ans); [right|]; exact X.
    + destruct (snd ans) eqn:EB.
      * destruct (fst ans) eqn:EA.
        -- destruct (IH (x :: P) (x :: P') kept) as [A1 [A2 A3]]; [exact (NoDup_remove_1 _ _ _ N)| | |exact HR|].
           ++ intros y [<-|Hy]; [left; reflexivity|right; apply I, Hy].
           ++ intros p Hp [<-|Hp']; [left; left; reflexivity|]. destruct (HF p) as [X|X]; [|exact Hp'|left; right; exact X|right; exact X]. apply in_app_iff in Hp. apply in_app_iff. cbn [In]. tauto.
           ++ split; [exact A1|]. split; [exact A2|]. intros p Hp Hp'. apply in_app_iff in Hp as [Hp|[<-|Hp]]; [apply A3; [apply in_app_iff; tauto|exact Hp']| |apply A3; [apply in_app_iff; tauto|exact Hp']].
              left. assert (M : forall b todo Q kept q, In q Q -> In q (snd (oner b Q kept todo))).
              { clear. intros b. induction todo as [|y r IH]; intros Q kept q H; cbn [one_round snd]; [exact H|]. destruct (lmem y Q); [apply IH, H|]. apply IH. destruct (snd _); [right|]; exact H. }
              apply M. left. reflexivity.
        -- rewrite <- E0. apply IH; [exact N1| | |exact HR].
           ++ intros y [<-|Hy]; [left; reflexivity|right; apply I, Hy].
           ++ rewrite E0. intros p Hp [<-|Hp']; [left; left; reflexivity|]. destruct (HF p Hp Hp') as [X|X]; [left; right|right]; exact X.
      * destruct (fst ans) eqn:EA.
        -- destruct (IH P P' kept) as [A1 [A2 A3]]; [exact (NoDup_remove_1 _ _ _ N)|exact I| |exact HR|].
           ++ intros p Hp Hp'. apply HF; [|exact Hp']. apply in_app_iff in Hp. apply in_app_iff. cbn [In]. tauto.
           ++ split; [exact A1|]. split; [exact A2|]. intros p Hp Hp'. apply in_app_iff in Hp as [Hp|[<-|Hp]]; [apply A3; [apply in_app_iff; tauto|exact Hp']| |apply A3; [apply in_app_iff; tauto|exact Hp']].
              exfalso. assert (M : forall b todo Q kept q, In q (snd (oner b Q kept todo)) -> In q Q \/ In q todo).
              { clear. intros b. induction todo as [|y r IH]; intros Q kept q H; cbn [one_round snd] in H; [left; exact H|]. destruct (lmem y Q); [apply IH in H; cbn [In]; tauto|]. apply IH in H as [H|H]; [|cbn [In]; tauto]. destruct (snd _); [destruct H as [<-|H]|]; cbn [In]; tauto. }
              apply M in Hp' as [Hp'|Hp']; [apply lmem_false in E2; contradiction|]. pose proof (NoDup_remove_2 _ _ _ N) as NX. apply NX, in_app_iff. right. exact Hp'.
        -- rewrite <- E0. apply IH; [exact N1|exact I|rewrite E0; exact HF|exact HR].
Qed.
Lemma rounds_more fuel : forall b P P' C, NoDup C -> incl P P' -> (forall p, In p C -> In p P' -> In p P \/ In p (rnds fuel b P C)) -> rnds fuel b P' C = rnds fuel b P C.
Proof.
  induction fuel as [|f IH]; intros b P P' C N I HF; cbn [rounds] in *; [reflexivity|]. destruct (b <? length C); [|reflexivity].
  destruct (oner b P [] C) as [kept Q] eqn:E. destruct (oner b P' [] C) as [kept' Q'] eqn:E'.
  destruct (one_round_more b (rnds f (S b) Q kept) C P P' [] N I HF) as [A1 [A2 A3]].
  - rewrite E. cbn [fst]. intros p Hp. exact (rounds_result f (S b) Q kept p Hp).
  - rewrite E, E' in A1, A2, A3. cbn [fst snd app] in A1, A2, A3. subst kept'. apply IH.
    + pose proof (one_round_NoDup b C P [] N) as X. rewrite E in X. exact X.
    + exact A2.
    + intros p Hp Hp'. apply A3; [|exact Hp']. assert (X : In p (fst (oner b P [] C))) by (rewrite E; exact Hp). apply one_round_incl in X as [[]|X]. exact X.
Qed.
Lemma ctpc_more P P' C : NoDup C -> incl P P' -> (forall p, In p C -> In p P' -> In p P \/ In p (ctpc_parents ask P C)) -> ctpc_parents ask P' C = ctpc_parents ask P C.
Proof. apply rounds_more. Qed.
(** protected candidates survive *)
Lemma one_round_protected b : forall todo P kept p, In p P -> In p kept \/ In p todo -> In p (fst (oner b P kept todo)) /\ In p (snd (oner b P kept todo)).
Proof.
  induction todo as [|x r IH]; intros P kept p H K; cbn [one_round fst snd]; [destruct K as [K|[]]; auto|]. destruct (lmem x P) eqn:E.
  - apply IH; [exact H|]. rewrite in_app_iff. cbn [In] in *. tauto.
  - apply lmem_false in E. assert (x <> p) by (intros ->; contradiction). apply IH; [destruct (snd _); [right|]; exact H|].
    destruct K as [K|[K|K]]; [left|contradiction|right; exact K]. destruct (fst _); [exact K|apply in_app_iff; left; exact K].
Qed.
End alg.
