(** Property theorems C90: what the constraint-based estimator can and cannot see, however much data there are. *)
From Coq Require Import Reals Lra Classical_Prop.
From Verif Require Import Base Lib LibQc ModelStructure ModelGraph ModelCims ModelData ModelParams ModelCache ModelCtpc ModelFamScore ModelIndep
  SpecStructure SpecGraph SpecComb SpecParams SpecData SpecCtpc SpecRecover SpecFamScore SpecInvariance SpecBias SpecIndep SpecEnough SpecEnoughCb SpecVisible SpecFloating
  ProofStructure ProofInvariance ProofBias ProofEnough4 ProofEnough5 ProofEnoughCb3 ProofEnoughCb4 ProofVisible ProofVisible2 ProofVisible3 ProofVisible4 PropsEnoughCb.
Close Scope R_scope. Open Scope nat_scope.

Section data.
Variables (vars : list label) (cards : list nat) (k : nat) (rs : list raw).
Hypothesis HL : legal_input vars cards rs.
Hypothesis HE : equal_cards cards k.
Hypothesis Hk : 2 <= k.
Hypothesis HC : Forall clock_strict rs.
(** a visible difference is a dependence; for binary variables, and where every transition is seen, the converse holds as well *)
Theorem C90_visible_is_dependence v K p : visible vars k rs v K p -> depends vars rs v K p.
Proof. apply visible_depends. Qed.
Theorem C90_dependence_is_visible v K p : In v vars -> In p vars -> incl K vars ->
  k = 2 \/ (forall a x, (forall l, In l K -> a l < k) -> x < k -> all_targets vars k rs v K a x) -> depends vars rs v K p -> visible vars k rs v K p.
Proof. apply (depends_visible vars cards k rs HL HE Hk). Qed.
Variables (P : test_params) (thr : Qc).
Hypothesis HQ : quantiles_ok P.
Hypothesis HS : quantiles_settle P.
Hypothesis HT : (0 < thr)%Qc.
Notation estimator n prior known est := (exists s t, imports_to vars cards prior (copies n rs) s t /\ new_cb_estimator s t (length vars) known thr (the_tests P) = Ok est).
Notation run prior n known mp es := (exists s t est est', imports_to vars cards prior (copies n rs) s t
  /\ new_cb_estimator s t (length vars) known thr (the_tests P) = Ok est /\ cb_estimate_structure est mp = Ok (es, est')).
Notation eventually Q := (exists N, forall n : nat, N <= n -> Q n).
(** with three or more states, [v] never changes in some combination of states of [K] *)
Notation lacking v K := (2 < k /\ silent vars k rs v K).

(** every test answers True exactly if no difference is visible and no combination of states of [K] lacks changes; it gives up
    only in the latter case *)
Theorem C90_what_tests_answer : eventually (fun n => forall prior known est v p K, estimator n prior known est ->
  In v vars -> In p vars -> p <> v -> incl K vars -> ~ In v K -> ~ In p K -> NoDup K ->
  (forall b, test_answers (cb_e est) (cb_tot est) (st_matrix (cb_st est)) v p K b <-> (b = true <-> ~ visible vars k rs v K p /\ ~ lacking v K))
  /\ (~ In (p, v) known -> gives_up est v p K -> lacking v K)).
Proof. destruct (one_test_seen vars cards k rs HL HE Hk HC P thr HQ HS HT) as [N [_ H]]. exists N. exact H. Qed.
(** the answer settles: the estimator always returns and, from some amount of data on, more copies of the data do not change what it returns *)
Theorem C90_answer_settles : exists N, forall prior known mp, edges_within vars known ->
  exists es, forall n, N <= n -> run prior n known mp es /\ forall es', run prior n known mp es' -> es' = es.
Proof.
  destruct (cb_settles vars cards k rs HL HE Hk HC P thr HQ HS HT) as [N H]. exists (1 + N). intros prior known mp HW.
  destruct (cb_returns vars cards k rs HL HE P thr (1 + N) prior known mp ltac:(lia) HW) as [es R0]. exists es. intros n Hn.
  assert (U : forall es', run prior n known mp es' -> es' = es) by (intros es' R1; apply (H n (1 + N) prior known mp es' es); [lia|lia|exact R1|exact R0]).
  split; [|exact U]. destruct (cb_returns vars cards k rs HL HE P thr n prior known mp ltac:(lia) HW) as [es1 R1]. rewrite <- (U es1 R1). exact R1.
Qed.
(** what is left out has been separated by a set that does not lack changes; what is reported (and was not known) makes a visible
    difference given every set of other reported parents that does not lack changes, or some set lacks changes *)
Theorem C90_search_result : eventually (fun n => forall prior known mp es, run prior n known mp es -> forall v, In v vars ->
  (forall a, In a vars -> a <> v -> ~ In (a, v) es -> exists K, incl K vars /\ ~ In v K /\ ~ In a K /\ ~ visible vars k rs v K a /\ ~ lacking v K)
  /\ (forall a, In (a, v) es -> ~ In (a, v) known ->
        (exists K, incl K vars /\ ~ In v K /\ ~ In a K /\ lacking v K)
        \/ forall K, (forall b, In b K -> In (b, v) es) -> ~ In a K -> visible vars k rs v K a \/ lacking v K)).
Proof. exact (cb_seen_result vars cards k rs HL HE Hk HC P thr HQ HS HT). Qed.
(** finding: a variable whose influence cannot be seen on its own is never reported *)
Theorem C90_blind_spot : eventually (fun n => forall prior known mp es v a, run prior n known mp es -> In v vars -> In a vars -> a <> v ->
  ~ visible vars k rs v [] a -> ~ lacking v [] -> ~ In (a, v) known -> ~ In (a, v) es).
Proof. exact (cb_first_test vars cards k rs HL HE Hk HC P thr HQ HS HT). Qed.
(** finding: a variable that makes a visible difference given every set that does not lack changes is always reported, whether or not
    it makes a difference given the others *)
Theorem C90_silence_adds_parents : eventually (fun n => forall prior known mp es v a, run prior n known mp es -> In v vars -> In a vars -> a <> v ->
  (forall K, incl K vars -> ~ In v K -> ~ In a K -> visible vars k rs v K a \/ lacking v K) -> In (a, v) es).
Proof.
  destruct C90_search_result as [N H]. exists N. intros n Hn prior known mp es v a HX Hv Ha Nav HA. destruct (in_dec edge_dec (a, v) es) as [I|I]; [exact I|exfalso].
  destruct (proj1 (H n Hn prior known mp es HX v Hv) a Ha Nav I) as [K [K1 [K2 [K3 [K4 K5]]]]]. destruct (HA K K1 K2 K3); contradiction.
Qed.
(** the parents of a variable are recovered exactly if they can be seen, nothing else can once they are all known, and (with three or
    more states) the variable changes in every combination of states of the others *)
Theorem C90_exact_recovery : eventually (fun n => forall v Pa prior known mp es, In v vars -> incl Pa vars -> ~ In v Pa ->
  (forall K p, incl K vars -> ~ In v K -> In p Pa -> ~ In p K -> visible vars k rs v K p) ->
  (forall q, In q vars -> q <> v -> ~ In q Pa -> ~ visible vars k rs v Pa q) ->
  ~ lacking v (filter (fun l => negb (String.eqb l v)) vars) ->
  (forall a, In (a, v) known -> In a Pa) -> run prior n known mp es -> forall a, In (a, v) es <-> In a Pa).
Proof.
  destruct (one_test_seen vars cards k rs HL HE Hk HC P thr HQ HS HT) as [N [N2 H]]. exists N. intros n Hn v Pa prior known mp es Hv F1 F2 F3 F4 F5 HKn HX a.
  destruct (run_result_seen vars cards k rs HL HE Hk P thr n prior known mp es ltac:(lia) (H n Hn) HX v Hv) as [R0 [R1 R2]].
  assert (NL : forall K, incl K vars -> ~ In v K -> ~ lacking v K).
  { intros K HK Nv [L1 L2]. apply F5. split; [exact L1|]. apply (silent_more vars k rs Hk v K); [exact Hv| |exact L2]. intros l Hl. apply filter_In. split; [apply HK, Hl|]. apply negb_true_iff, String.eqb_neq. intros ->. contradiction. }
  assert (G : forall p, In p Pa -> In (p, v) es).
  { intros p Hp. destruct (in_dec edge_dec (p, v) es) as [I|I]; [exact I|exfalso]. destruct (R1 p (F1 p Hp) ltac:(congruence) I) as [K [K1 [K2 [K3 [K4 _]]]]]. exact (K4 (F3 K p K1 K2 Hp K3)). }
  split; [|apply G]. intros Ha. destruct (in_dec string_dec a Pa) as [I|I]; [exact I|exfalso]. destruct (R0 a Ha) as [A1 A2]. apply (F4 a A1 A2 I).
  destruct (R2 a Ha ltac:(intros X; apply I, HKn, X)) as [[K [K1 [K2 [_ K4]]]]|R3]; [destruct (NL K K1 K2 K4)|]. destruct (R3 Pa G I) as [X|X]; [exact X|destruct (NL Pa F1 F2 X)].
Qed.
End data.
Print Assumptions C90_visible_is_dependence. Print Assumptions C90_dependence_is_visible. Print Assumptions C90_what_tests_answer. Print Assumptions C90_answer_settles.
Print Assumptions C90_search_result. Print Assumptions C90_blind_spot. Print Assumptions C90_silence_adds_parents. Print Assumptions C90_exact_recovery.

(** ** the hypotheses can be met *)
Ltac meet := repeat (constructor; [split; [intros ab [<-|[]]; split; repeat constructor; cbn; lia|intros o [<-|[<-|[]]]; reflexivity]|]); constructor.
Ltac head := unfold good_header; repeat split; try (repeat constructor; cbn; intuition discriminate); try (cbn; intuition discriminate).
(** *** recovery where C89 does not apply: X goes round its three states in one direction, three times more slowly unless Y = 0 *)
Definition craw (x y : Z) : raw := [(0%Qc, [x; y]); ((if (y =? 0)%Z then 1 else Q2Qc 3)%Qc, [if (x =? 2)%Z then 0%Z else (x + 1)%Z; y])].
Definition craws : list raw := flat_map (fun x => map (craw x) [0;1;2]%Z) [0;1;2]%Z.
Example craws_legal : legal_input tvars [3;3] craws /\ equal_cards [3;3] 3 /\ Forall clock_strict craws.
Proof.
  split; [|split].
  - split; [|split; [discriminate|split; [reflexivity|split; [|eexists; split; [left; reflexivity|cbn; lia]]]]]; [head|unfold craws; cbn [flat_map map app]; meet].
  - split; [lia|]. intros x [<-|[<-|[]]]; reflexivity.
  - unfold craws; cbn [flat_map map app]. repeat (constructor; [intros ab [<-|[]]; reflexivity|]). constructor.
Qed.
Lemma c_visible : visible tvars 3 craws "X" [] "Y".
Proof.
  exists (fun _ => 0), (fun _ => 1), 0. split; [split; [intros l []|split; [discriminate|split; reflexivity]]|]. left. vm_compute. discriminate.
Qed.
Lemma c_loud : ~ silent tvars 3 craws "X" ["Y"%string].
Proof.
  intros [a [Ha H]]. pose proof (Ha "Y"%string) as Hy. pose proof (H 0 1 ltac:(lia) ltac:(lia) ltac:(lia)) as X. unfold changes_given in X. cbn [map] in X.
  destruct (a "Y"%string) as [|[|[|]]]; try lia; vm_compute in X; discriminate.
Qed.
Lemma inXt : In "X"%string tvars. Proof. left. reflexivity. Qed.
Lemma inYs : incl ["Y"%string] tvars. Proof. intros l [<-|[]]. exact inY. Qed.
Lemma thr_pos : (0 < Q2Qc 25)%Qc. Proof. reflexivity. Qed.
Example C90_case_recovery : ~ every_change_seen tvars 3 craws "X" /\ exists N, forall n, N <= n -> forall mp s t est es est', imports_to tvars [3;3] None (copies n craws) s t ->
  new_cb_estimator s t 2 [] (Q2Qc 25) (the_tests qset) = Ok est -> cb_estimate_structure est mp = Ok (es, est') -> forall a, In (a, "X"%string) es <-> a = "Y"%string.
Proof.
  destruct craws_legal as [HL [HE HC]]. split.
  - intros H. pose proof (H (fun _ => 0) 0 2 ltac:(intros; cbn; lia) ltac:(lia) ltac:(lia) ltac:(lia)) as X. vm_compute in X. discriminate.
  - destruct (C90_exact_recovery tvars [3;3] 3 craws HL HE two3 HC qset (Q2Qc 25) qset_quantiles qset_settle thr_pos) as [N H]. exists N. intros n Hn mp s t est es est' A B C a.
    rewrite (H n Hn "X"%string ["Y"%string] None [] mp es inXt inYs).
    + cbn [In]. intuition congruence.
    + intros [X|[]]. discriminate.
    + clear. intros K p HK NX [<-|[]] NY. destruct K as [|q K]; [exact c_visible|]. exfalso. destruct (HK q (or_introl eq_refl)) as [<-|[<-|[]]]; [apply NX|apply NY]; left; reflexivity.
    + clear. intros q Hq Nq NP. exfalso. destruct Hq as [<-|[<-|[]]]; [congruence|apply NP; left; reflexivity].
    + change (filter _ tvars) with ["Y"%string]. intros [_ X]. exact (c_loud X).
    + intros b [].
    + exists s, t, est, est'. auto.
Qed.
(** *** a blind spot: X goes round its four states in steps of one (Y = 0) or of two (Y = 1), always at the same rate *)
Definition braw (x y x' : Z) : raw := [(0%Qc, [x; y]); (1%Qc, [x'; y])].
Definition braws : list raw := [braw 0 0 1; braw 1 0 2; braw 2 0 3; braw 3 0 0; braw 0 1 2; braw 1 1 3; braw 2 1 0; braw 3 1 1].
Example braws_legal : legal_input tvars [4;4] braws /\ equal_cards [4;4] 4 /\ Forall clock_strict braws.
Proof.
  split; [|split].
  - split; [|split; [discriminate|split; [reflexivity|split; [|eexists; split; [left; reflexivity|cbn; lia]]]]]; [head|unfold braws; meet].
  - split; [lia|]. intros x [<-|[<-|[]]]; reflexivity.
  - repeat (constructor; [intros ab [<-|[]]; reflexivity|]). constructor.
Qed.
Lemma two4 : 2 <= 4. Proof. lia. Qed.
Lemma b_hidden : ~ visible tvars 4 braws "X" [] "Y".
Proof.
  destruct braws_legal as [HL [HE HC]]. intros [a [b [x [[_ [_ [C3 C4]]] D]]]].
  destruct (observed tvars [4;4] None 4 braws "X" HL HE two4 inXt ["Y"%string] a x inYs C3) as [Hx Ha]. destruct (observed tvars [4;4] None 4 braws "X" HL HE two4 inXt ["Y"%string] b x inYs C4) as [_ Hb].
  specialize (Ha _ (or_introl eq_refl)). specialize (Hb _ (or_introl eq_refl)). clear HL HE HC. unfold time_given in C3, C4. cbn [map] in C3, C4.
  destruct D as [D|[T _]].
  - unfold leave_rate, exits_given, time_given, changes_given in D. cbn [map] in D.
    destruct (a "Y"%string) as [|[|[|[|]]]]; try lia; destruct x as [|[|[|[|]]]]; try lia; try (clear -C3; vm_compute in C3; discriminate);
      destruct (b "Y"%string) as [|[|[|[|]]]]; try lia; try (clear -C4; vm_compute in C4; discriminate); apply D; vm_compute; reflexivity.
  - destruct x as [|[|[|[|]]]]; try lia.
    + specialize (T 3 ltac:(lia) ltac:(lia)). vm_compute in T. discriminate.
    + specialize (T 0 ltac:(lia) ltac:(lia)). vm_compute in T. discriminate.
    + specialize (T 1 ltac:(lia) ltac:(lia)). vm_compute in T. discriminate.
    + specialize (T 2 ltac:(lia) ltac:(lia)). vm_compute in T. discriminate.
Qed.
Lemma b_loud : ~ silent tvars 4 braws "X" [].
Proof. intros [a [_ H]]. pose proof (H 0 1 ltac:(lia) ltac:(lia) ltac:(lia)) as X. vm_compute in X. discriminate. Qed.
Example C90_case_blind_spot : depends tvars braws "X" [] "Y" /\ exists N, forall n, N <= n -> forall mp s t est es est', imports_to tvars [4;4] None (copies n braws) s t ->
  new_cb_estimator s t 2 [] (Q2Qc 25) (the_tests qset) = Ok est -> cb_estimate_structure est mp = Ok (es, est') -> ~ In ("Y","X")%string es.
Proof.
  destruct braws_legal as [HL [HE HC]]. split.
  - exists (fun _ => 0), (fun _ => 1), 0, 1. split; [split; [intros l []|split; [discriminate|split; reflexivity]]|split; [discriminate|vm_compute; discriminate]].
  - destruct (C90_blind_spot tvars [4;4] 4 braws HL HE two4 HC qset (Q2Qc 25) qset_quantiles qset_settle thr_pos) as [N H]. exists N. intros n Hn mp s t est es est' A B C.
    apply (H n Hn None [] mp es "X"%string "Y"%string); [exists s, t, est, est'; auto|exact inXt|exact inY|discriminate|exact b_hidden|intros [_ X]; exact (b_loud X)|intros []].
Qed.
(** *** a false parent: X changes if and only if W = 0, at the same rates whatever A; the combinations of W = 1 with A = 0 and of W = 2 with
    anything do not occur *)
Definition svars : list label := ["X";"W";"A"].
Definition sraw (x w a x' : Z) : raw := [(0%Qc, [x; w; a]); (1%Qc, [x'; w; a])].
Definition sraws : list raw := flat_map (fun x => sraw x 1 1 x :: flat_map (fun y => if (x =? y)%Z then [] else [sraw x 0 0 y; sraw x 0 1 y]) [0;1;2]%Z) [0;1;2]%Z.
Example sraws_legal : legal_input svars [3;3;3] sraws /\ equal_cards [3;3;3] 3 /\ Forall clock_strict sraws.
Proof.
  split; [|split].
  - split; [|split; [discriminate|split; [reflexivity|split; [|eexists; split; [left; reflexivity|cbn; lia]]]]]; [head|unfold sraws; cbn [flat_map app Z.eqb]; meet].
  - split; [lia|]. intros x [<-|[<-|[<-|[]]]]; reflexivity.
  - unfold sraws; cbn [flat_map app Z.eqb]. repeat (constructor; [intros ab [<-|[]]; reflexivity|]). constructor.
Qed.
Lemma inXs : In "X"%string svars. Proof. left. reflexivity. Qed.
Lemma inAs : In "A"%string svars. Proof. right. right. left. reflexivity. Qed.
Lemma inAW : incl ["A";"W"]%string svars. Proof. intros l [<-|[<-|[]]]; [right; right; left|right; left]; reflexivity. Qed.
Lemma s_visible : visible svars 3 sraws "X" [] "A".
Proof. exists (fun _ => 0), (fun _ => 1), 0. split; [split; [intros l []|split; [discriminate|split; reflexivity]]|]. left. vm_compute. discriminate. Qed.
Lemma s_silent : silent svars 3 sraws "X" ["W"%string].
Proof.
  exists (fun _ => 1). split; [intros _; lia|]. intros x y Hx Hy N. destruct x as [|[|[|]]]; try lia; destruct y as [|[|[|]]]; try lia; vm_compute; reflexivity.
Qed.
Lemma s_indep : ~ depends svars sraws "X" ["W"%string] "A".
Proof.
  destruct sraws_legal as [HL [HE HC]]. intros [a [b [x [y [[C1 [_ [C3 C4]]] [N D]]]]]].
  destruct (observed svars [3;3;3] None 3 sraws "X" HL HE two3 inXs ["A";"W"]%string a x inAW C3) as [Hx Ha]. destruct (observed svars [3;3;3] None 3 sraws "X" HL HE two3 inXs ["A";"W"]%string b x inAW C4) as [_ Hb].
  pose proof (Ha _ (or_introl eq_refl)) as A1. pose proof (Ha _ (or_intror (or_introl eq_refl))) as A2. pose proof (Hb _ (or_introl eq_refl)) as B1. pose proof (C1 _ (or_introl eq_refl)) as C1'. clear Ha Hb C1.
  destruct (Nat.lt_ge_cases y 3) as [Hy|Hy].
  - clear HL HE HC. apply D. clear D. unfold rate_given, time_given, changes_given in *. cbn [map] in *. rewrite <- C1' in *. clear C1'.
    destruct (a "W"%string) as [|[|[|]]]; try lia; destruct (a "A"%string) as [|[|[|]]]; try lia; destruct x as [|[|[|]]]; try lia; try (clear -C3; vm_compute in C3; discriminate);
    destruct (b "A"%string) as [|[|[|]]]; try lia; try (clear -C4; vm_compute in C4; discriminate); destruct y as [|[|[|]]]; try lia; vm_compute; reflexivity.
  - apply D. unfold rate_given. rewrite !(changes_alt svars [3;3;3] None 3 sraws "X" HL HE inXs) by exact inAW. rewrite !(jumps_big svars [3;3;3] None 3 sraws "X" HL HE two3 inXs) by exact Hy.
    unfold Qcdiv. change (Qc_of_Z 0) with 0%Qc. rewrite !Qcmult_0_l. reflexivity.
Qed.
Example C90_case_false_parent : ~ depends svars sraws "X" ["W"%string] "A" /\ exists N, forall n, N <= n -> forall mp s t est es est', imports_to svars [3;3;3] None (copies n sraws) s t ->
  new_cb_estimator s t 3 [] (Q2Qc 25) (the_tests qset) = Ok est -> cb_estimate_structure est mp = Ok (es, est') -> In ("A","X")%string es.
Proof.
  split; [exact s_indep|]. destruct sraws_legal as [HL [HE HC]].
  destruct (C90_silence_adds_parents svars [3;3;3] 3 sraws HL HE two3 HC qset (Q2Qc 25) qset_quantiles qset_settle thr_pos) as [N H]. exists N. intros n Hn mp s t est es est' A B C.
  apply (H n Hn None [] mp es "X"%string "A"%string); [exists s, t, est, est'; auto|exact inXs|exact inAs|discriminate|]. clear -HL. intros K HK NX NA.
  destruct K as [|q K]; [left; exact s_visible|]. right. split; [lia|]. apply (silent_more svars 3 sraws two3 "X"%string ["W"%string]); [exact inXs| |exact s_silent].
  intros l [<-|[]]. destruct (HK q (or_introl eq_refl)) as [<-|[<-|[<-|[]]]]; [exfalso; apply NX; left; reflexivity|left; reflexivity|exfalso; apply NA; left; reflexivity].
Qed.
