(** Proofs about the text of files (C78). *)
From Coq Require Import Ascii.
From Verif Require Import Base Lib ModelStructure ModelGraph ModelCims ModelData ModelGenerator ModelSample ModelExport ModelDocument ModelEstimators ModelFiles SpecFiles.
Open Scope nat_scope.

Scheme value_mind := Minimality for value_text Sort Prop
  with elements_mind := Minimality for elements_text Sort Prop
  with members_mind := Minimality for members_text Sort Prop.
Combined Scheme text_mind from value_mind, elements_mind, members_mind.

(** *** characters *)
Lemma blank_iff c : is_blank c = true <-> blank c.
Proof. unfold is_blank, blank, code. rewrite !orb_true_iff, !Nat.eqb_eq. tauto. Qed.
Lemma digit_iff c : is_digit c = true <-> digit c.
Proof. unfold is_digit, digit, code. rewrite andb_true_iff, !Nat.leb_le. tauto. Qed.
Lemma skip_app w s : blanks w -> skip_blanks (w ++ s) = skip_blanks s.
Proof. induction 1 as [|c w Hc Hw IH]; [reflexivity|]. cbn [app skip_blanks]. apply blank_iff in Hc. rewrite Hc. exact IH. Qed.
Lemma skip_head c s : is_blank c = false -> skip_blanks (c :: s) = c :: s.
Proof. intro H. cbn [skip_blanks]. rewrite H. reflexivity. Qed.
Lemma skip_split s : exists w, blanks w /\ s = w ++ skip_blanks s.
Proof.
  induction s as [|c s [w [Hw E]]]; [exists []; split; [constructor|reflexivity]|]. cbn [skip_blanks]. destruct (is_blank c) eqn:B.
  - exists (c :: w). split; [constructor; [apply blank_iff, B|exact Hw]|]. cbn. f_equal. exact E.
  - exists []. split; [constructor|reflexivity].
Qed.
Lemma skip_nil w : blanks w -> skip_blanks w = [].
Proof. intro H. rewrite <- (app_nil_r w), skip_app by exact H. reflexivity. Qed.
Lemma skip_not_blank s c r : skip_blanks s = c :: r -> is_blank c = false.
Proof. induction s as [|a s IH]; [discriminate|]. cbn [skip_blanks]. destruct (is_blank a) eqn:B; [exact IH|]. congruence. Qed.
Lemma skip_idem s : skip_blanks (skip_blanks s) = skip_blanks s.
Proof. destruct (skip_blanks s) as [|c r] eqn:E; [reflexivity|]. apply skip_head, (skip_not_blank _ _ _ E). Qed.

(** *** strings *)
Lemma hex_ok c n : hex c n -> hex_value c = Some n.
Proof.
  intros [H K]. do 16 (destruct n as [|n]; [destruct K as [K|K]; rewrite K; reflexivity|]). lia.
Qed.
Lemma hex_value_ok c n : hex_value c = Some n -> hex c n.
Proof.
  intro H. destruct c as [[] [] [] [] [] [] [] []]; cbv in H; try discriminate H; injection H as <-; (split; [lia|]); first [left; reflexivity|right; reflexivity].
Qed.
Lemma code_lt c : code c < 256.
Proof. apply nat_ascii_bounded. Qed.
Lemma hex4_ok a b h l c : hex a 0 -> hex b 0 -> hex h (code c / 16) -> hex l (code c mod 16) -> hex4 a b h l = Some c.
Proof.
  intros A B H K. unfold hex4. rewrite (hex_ok _ _ A), (hex_ok _ _ B), (hex_ok _ _ H), (hex_ok _ _ K). cbn [Nat.eqb andb]. f_equal.
  rewrite <- Nat.div_mod by lia. apply ascii_nat_embedding.
Qed.
Lemma hex4_inv a b h l c : hex4 a b h l = Some c -> hex a 0 /\ hex b 0 /\ hex h (code c / 16) /\ hex l (code c mod 16).
Proof.
  unfold hex4. destruct (hex_value a) as [na|] eqn:A; [|discriminate]. destruct (hex_value b) as [nb|] eqn:B; [|discriminate].
  destruct (hex_value h) as [nh|] eqn:H; [|discriminate]. destruct (hex_value l) as [nl|] eqn:K; [|discriminate].
  apply hex_value_ok in A, B, H, K. destruct (Nat.eqb_spec na 0) as [->|]; [|discriminate]. destruct (Nat.eqb_spec nb 0) as [->|]; [|discriminate].
  cbn [andb]. intro E. assert (E' : c = ascii_of_nat (16 * nh + nl)) by congruence. clear E. subst c. unfold code. destruct H as [H1 H2]. destruct K as [K1 K2]. rewrite nat_ascii_embedding by lia.
  rewrite <- (Nat.div_unique (16 * nh + nl) 16 nh nl) by lia. rewrite <- (Nat.mod_unique (16 * nh + nl) 16 nh nl) by lia.
  split; [exact A|]. split; [exact B|]. split; split; assumption.
Qed.
Lemma unescape_in e c : unescape e = Some c <->
  In (e, code c) [(quote, 34); (backslash, 92); ("/"%char, 47); ("b"%char, 8); ("f"%char, 12); ("n"%char, 10); ("r"%char, 13); ("t"%char, 9)].
Proof.
  split.
  - intro H. destruct e as [[] [] [] [] [] [] [] []]; cbv in H; try discriminate H; injection H as <-; cbv; tauto.
  - intro H. rewrite <- (ascii_nat_embedding c). fold (code c). cbn [In] in H. repeat destruct H as [H|H]; try contradiction; injection H as <- <-; reflexivity.
Qed.
Lemma scan_char c t s : char_text c t -> scan_string (t ++ s) = cons_to c (scan_string s).
Proof.
  destruct 1 as [c H1 H2 H3|e c H|a b h l c A B H K].
  - cbn [app scan_string]. destruct (Ascii.eqb_spec c quote) as [E|_]; [exfalso; apply H2; rewrite E; reflexivity|].
    destruct (Ascii.eqb_spec c backslash) as [E|_]; [exfalso; apply H3; rewrite E; reflexivity|]. fold (code c).
    destruct (Nat.ltb_spec (code c) 32); [lia|reflexivity].
  - pose proof (proj2 (unescape_in e c) H) as U. cbn [app scan_string]. cbn [Ascii.eqb quote backslash ascii_of_nat].
    change (Ascii.eqb backslash quote) with false. change (Ascii.eqb backslash backslash) with true. cbv iota.
    destruct (Ascii.eqb_spec e "u"%char) as [E|_]; [rewrite E in U; discriminate U|]. rewrite U. reflexivity.
  - cbn [app scan_string]. change (Ascii.eqb backslash quote) with false. change (Ascii.eqb backslash backslash) with true.
    change (Ascii.eqb "u"%char "u"%char) with true. cbv iota. rewrite (hex4_ok a b h l c A B H K). reflexivity.
Qed.
Lemma scan_string_ok cs t s : string_text cs t -> scan_string (t ++ quote :: s) = Some (cs, s).
Proof.
  induction 1 as [|c t cs ts Hc Hs IH]; [reflexivity|]. rewrite <- app_assoc, (scan_char c t _ Hc), IH. reflexivity.
Qed.
Lemma scan_string_sound n : forall s k r, length s <= n -> scan_string s = Some (k, r) -> exists t, s = t ++ quote :: r /\ string_text k t.
Proof.
  induction n as [|n IH]; intros s k r Hn H; [destruct s; [discriminate|cbn in Hn; lia]|].
  destruct s as [|c s]; [discriminate|]. cbn [length] in Hn. cbn [scan_string] in H.
  destruct (Ascii.eqb_spec c quote) as [->|N1]; [injection H as <- <-; exists []; split; [reflexivity|constructor]|].
  assert (CT : forall t cs s' k' , c :: s = t ++ s' -> length s' <= n -> char_text cs t -> cons_to cs (scan_string s') = Some (k', r) -> exists t, c :: s = t ++ quote :: r /\ string_text k' t).
  { intros t cs s' k' E L CH K. destruct (scan_string s') as [[k2 r2]|] eqn:S2; [|discriminate K]. cbn [cons_to] in K. injection K as <- <-.
    destruct (IH s' k2 r2 L S2) as [t2 [E2 T2]]. exists (t ++ t2). split; [rewrite E, E2, app_assoc; reflexivity|constructor; assumption]. }
  destruct (Ascii.eqb_spec c backslash) as [->|N2].
  - destruct s as [|e s2]; [discriminate|]. cbn [length] in Hn. destruct (Ascii.eqb_spec e "u"%char) as [->|NU].
    + destruct s2 as [|h1 [|h2 [|h3 [|h4 s3]]]]; try discriminate. cbn [length] in Hn. destruct (hex4 h1 h2 h3 h4) as [c'|] eqn:H4; [|discriminate].
      apply hex4_inv in H4 as [A [B [C D]]]. eapply (CT [backslash; "u"%char; h1; h2; h3; h4] c' s3); [reflexivity|lia|constructor; assumption|exact H].
    + destruct (unescape e) as [c'|] eqn:U; [|discriminate]. apply unescape_in in U.
      eapply (CT [backslash; e] c' s2); [reflexivity|lia|constructor; exact U|exact H].
  - fold (code c) in H. destruct (Nat.ltb_spec (code c) 32); [discriminate|].
    eapply (CT [c] c s); [reflexivity|lia| |exact H]. constructor; [lia| |]; intro E.
    + apply N1. rewrite <- (ascii_nat_embedding c). fold (code c). rewrite E. reflexivity.
    + apply N2. rewrite <- (ascii_nat_embedding c). fold (code c). rewrite E. reflexivity.
Qed.

(** *** numbers *)
Definition ends (s : list ascii) : Prop :=
  match s with [] => True | c :: _ => ~ digit c /\ c <> "."%char /\ c <> "e"%char /\ c <> "E"%char end.
Definition no_digit (s : list ascii) : Prop := match s with [] => True | c :: _ => ~ digit c end.
Lemma span_ok ds s : Forall digit ds -> no_digit s -> span_digits (ds ++ s) = (ds, s).
Proof.
  intros H N. induction H as [|d ds Hd Hs IH].
  - cbn [app]. destruct s as [|c s]; [reflexivity|]. cbn [span_digits]. destruct (is_digit c) eqn:E; [exfalso; apply N, digit_iff, E|reflexivity].
  - cbn [app span_digits]. apply digit_iff in Hd. rewrite Hd, IH. reflexivity.
Qed.
Lemma span_sound s : forall ds r, span_digits s = (ds, r) -> s = ds ++ r /\ Forall digit ds.
Proof.
  induction s as [|c s IH]; intros ds r H; [injection H as <- <-; split; [reflexivity|constructor]|]. cbn [span_digits] in H.
  destruct (is_digit c) eqn:E; [|injection H as <- <-; split; [reflexivity|constructor]]. destruct (span_digits s) as [d r'] eqn:S. injection H as <- <-.
  destruct (IH _ _ eq_refl) as [-> F]. split; [reflexivity|]. constructor; [apply digit_iff, E|exact F].
Qed.
Lemma ends_no_digit s : ends s -> no_digit s.
Proof. destruct s; cbn; tauto. Qed.
Lemma digit_e c : digit c -> c <> "."%char /\ c <> "e"%char /\ c <> "E"%char /\ c <> "-"%char /\ c <> "+"%char.
Proof. intros H. repeat split; intro E; rewrite E in H; unfold digit, code in H; cbn in H; lia. Qed.
Lemma scan_exp_ok e s : exp_text e -> ends s -> scan_exp (e ++ s) = (e, s).
Proof.
  intros [->|[c [sg [ds [-> [Hc [Hsg [Hne Hds]]]]]]]] HE.
  - cbn [app]. destruct s as [|x s]; [reflexivity|]. cbn [scan_exp]. destruct HE as [_ [_ [E1 E2]]].
    destruct (Ascii.eqb_spec x "e"%char); [contradiction|]. destruct (Ascii.eqb_spec x "E"%char); [contradiction|]. reflexivity.
  - cbn [app scan_exp]. assert (X : (Ascii.eqb c "e" || Ascii.eqb c "E")%char = true) by (destruct Hc as [H|H]; rewrite H; reflexivity). rewrite X.
    destruct ds as [|d ds]; [contradiction|]. inversion Hds as [|? ? Hd Hds']; subst.
    pose proof (span_ok (d :: ds) s Hds (ends_no_digit s HE)) as SP.
    destruct Hsg as [H|[H|H]]; rewrite H; cbn [app chars list_ascii_of_string].
    + destruct (digit_e d Hd) as [_ [_ [_ [D1 D2]]]]. destruct (Ascii.eqb_spec d "-"%char); [contradiction|]. destruct (Ascii.eqb_spec d "+"%char); [contradiction|]. cbn [orb].
      change (d :: ds ++ s) with ((d :: ds) ++ s). rewrite SP. reflexivity.
    + change (Ascii.eqb "-" "-")%char with true. cbn [orb]. change (d :: ds ++ s) with ((d :: ds) ++ s). rewrite SP. reflexivity.
    + change (Ascii.eqb "+" "-")%char with false. change (Ascii.eqb "+" "+")%char with true. cbn [orb]. change (d :: ds ++ s) with ((d :: ds) ++ s). rewrite SP. reflexivity.
Qed.
Lemma exp_no_digit e s : exp_text e -> ends s -> no_digit (e ++ s) /\ (match e ++ s with [] => True | c :: _ => c <> "."%char end).
Proof.
  intros [->|[c [sg [ds [-> [Hc _]]]]]] HE; cbn [app]; [destruct s; cbn in *; tauto|].
  destruct Hc as [H|H]; rewrite H; unfold no_digit, digit, code; (split; [cbn; lia|discriminate]).
Qed.
Lemma scan_frac_ok f e s : frac_text f -> exp_text e -> ends s -> scan_frac (f ++ e ++ s) = (f, e ++ s).
Proof.
  intros [->|[ds [-> [Hne Hds]]]] He HE; destruct (exp_no_digit e s He HE) as [ND DOT].
  - cbn [app]. destruct (e ++ s) as [|c r]; [reflexivity|]. cbn [scan_frac]. destruct (Ascii.eqb_spec c "."%char); [contradiction|reflexivity].
  - cbn [app scan_frac]. change (Ascii.eqb "." ".")%char with true. rewrite (span_ok ds _ Hds ND). destruct ds; [contradiction|reflexivity].
Qed.
Lemma frac_no_digit f e s : frac_text f -> exp_text e -> ends s -> no_digit (f ++ e ++ s).
Proof.
  intros [->|[ds [-> _]]] He HE; cbn [app]; [apply (exp_no_digit e s He HE)|]. unfold no_digit, digit, code. cbn. lia.
Qed.
Lemma scan_number_ok t s : number_token t -> ends s -> scan_number (t ++ s) = Some (t, s).
Proof.
  intros [sg [i [f [e [-> [Hsg [Hi [Hf He]]]]]]]] HE. rewrite <- !app_assoc.
  assert (I : scan_int (i ++ f ++ e ++ s) = Some (i, f ++ e ++ s)).
  { pose proof (frac_no_digit f e s Hf He HE) as ND. destruct Hi as [->|[d [ds [-> [Hd [H0 Hds]]]]]]; [reflexivity|]. cbn [app scan_int].
    destruct (Ascii.eqb_spec d "0"%char) as [E|_]; [exfalso; apply H0; rewrite E; reflexivity|]. apply digit_iff in Hd. rewrite Hd, (span_ok ds _ Hds ND). reflexivity. }
  assert (SG : scan_sign (sg ++ i ++ f ++ e ++ s) = (sg, i ++ f ++ e ++ s)).
  { destruct Hsg as [->| ->]; [|reflexivity]. cbn [app]. destruct Hi as [->|[d [ds [-> [Hd _]]]]]; [reflexivity|]. cbn [app scan_sign].
    destruct (Ascii.eqb_spec d "-"%char) as [E|_]; [|reflexivity]. destruct (digit_e d Hd) as [_ [_ [_ [X _]]]]. contradiction. }
  unfold scan_number. rewrite SG, I, (scan_frac_ok f e s Hf He HE), (scan_exp_ok e s He HE). reflexivity.
Qed.
Lemma scan_number_sound s t r : scan_number s = Some (t, r) -> s = t ++ r /\ number_token t.
Proof.
  unfold scan_number. destruct (scan_sign s) as [sg s1] eqn:SG. destruct (scan_int s1) as [[i s2]|] eqn:I; [|discriminate].
  destruct (scan_frac s2) as [f s3] eqn:F. destruct (scan_exp s3) as [e s4] eqn:X. intro H. injection H as <- <-.
  assert (A : s = sg ++ s1 /\ (sg = [] \/ sg = chars "-")).
  { destruct s as [|c s]; cbn [scan_sign] in SG; [injection SG as <- <-; auto|]. destruct (Ascii.eqb_spec c "-"%char) as [->|]; injection SG as <- <-; auto. }
  assert (B : s1 = i ++ s2 /\ int_text i).
  { destruct s1 as [|c s1]; [discriminate|]. cbn [scan_int] in I. destruct (Ascii.eqb_spec c "0"%char) as [->|N0]; [injection I as <- <-; split; [reflexivity|left; reflexivity]|].
    destruct (is_digit c) eqn:D; [|discriminate]. destruct (span_digits s1) as [d r'] eqn:SP. injection I as <- <-. apply span_sound in SP as [-> DS]. split; [reflexivity|].
    right. exists c, d. repeat split; auto; try (apply digit_iff in D; apply D). intro E. apply N0. rewrite <- (ascii_nat_embedding c). fold (code c). rewrite E. reflexivity. }
  assert (C : s2 = f ++ s3 /\ frac_text f).
  { destruct s2 as [|c s2]; cbn [scan_frac] in F; [injection F as <- <-; split; [reflexivity|left; reflexivity]|].
    destruct (Ascii.eqb_spec c "."%char) as [->|]; [|injection F as <- <-; split; [reflexivity|left; reflexivity]].
    destruct (span_digits s2) as [[|d ds] r'] eqn:SP; injection F as <- <-; [split; [reflexivity|left; reflexivity]|]. apply span_sound in SP as [-> DS].
    split; [reflexivity|]. right. exists (d :: ds). repeat split; [discriminate|exact DS]. }
  assert (D : s3 = e ++ s4 /\ exp_text e).
  { destruct s3 as [|c s3]; cbn [scan_exp] in X; [injection X as <- <-; split; [reflexivity|left; reflexivity]|].
    destruct (Ascii.eqb c "e" || Ascii.eqb c "E")%char eqn:CE; [|injection X as <- <-; split; [reflexivity|left; reflexivity]].
    assert (CE' : c = "e"%char \/ c = "E"%char) by (apply orb_true_iff in CE as [K|K]; apply Ascii.eqb_eq in K; auto).
    destruct (match s3 with [] => ([], []) | x :: r1 => if (Ascii.eqb x "-" || Ascii.eqb x "+")%char then ([x], r1) else ([], s3) end) as [g r1] eqn:G.
    assert (G' : s3 = g ++ r1 /\ (g = [] \/ g = chars "-" \/ g = chars "+")).
    { destruct s3 as [|x s3]; [injection G as <- <-; auto|]. destruct (Ascii.eqb x "-" || Ascii.eqb x "+")%char eqn:XE; injection G as <- <-; [|auto].
      split; [reflexivity|]. apply orb_true_iff in XE as [K|K]; apply Ascii.eqb_eq in K; rewrite K; auto. }
    destruct (span_digits r1) as [[|d ds] r'] eqn:SP; injection X as <- <-; [split; [reflexivity|left; reflexivity]|]. apply span_sound in SP as [-> DS].
    destruct G' as [-> G']. split; [cbn [app]; rewrite <- app_assoc; reflexivity|]. right. exists c, g, (d :: ds). repeat split; auto; discriminate. }
  destruct A as [-> A], B as [-> B], C as [-> C], D as [-> D]. split; [rewrite <- !app_assoc; reflexivity|]. exists sg, i, f, e. auto.
Qed.
Lemma number_head t : number_token t -> exists c r, t = c :: r /\ (digit c \/ c = "-"%char).
Proof.
  intros [sg [i [f [e [-> [Hsg [Hi _]]]]]]]. destruct Hsg as [->| ->]; [|exists "-"%char; eexists; split; [reflexivity|auto]].
  cbn [app]. destruct Hi as [->|[d [ds [-> [Hd _]]]]]; [exists "0"%char; eexists; split; [reflexivity|left; unfold digit, code; cbn; lia]|].
  exists d. eexists. split; [reflexivity|auto].
Qed.

(** *** values *)
Definition head_ok (c : ascii) : Prop := is_blank c = false /\ c <> "]"%char /\ c <> "}"%char.
Lemma digit_head c : digit c \/ c = "-"%char -> head_ok c /\ c <> quote /\ c <> "{"%char /\ c <> "["%char /\ c <> "n"%char /\ c <> "t"%char /\ c <> "f"%char.
Proof.
  intros [H|H].
  - unfold head_ok. assert (B : is_blank c = false). { destruct (is_blank c) eqn:B; [|reflexivity]. apply blank_iff in B. unfold digit in H. unfold blank in B. lia. }
    repeat split; auto; intro E; rewrite E in H; unfold digit, code in H; cbn in H; lia.
  - subst. unfold head_ok. repeat split; try discriminate.
Qed.
Lemma value_head nf j t : value_text nf j t -> exists c r, t = c :: r /\ head_ok c.
Proof.
  destruct 1; try (eexists _, _; split; [reflexivity|]; repeat split; discriminate).
  destruct (number_head t H) as [c [r [-> D]]]. exists c, r. split; [reflexivity|]. apply digit_head, D.
Qed.
Lemma strip_ok p s : strip_prefix p (p ++ s) = Some s.
Proof. induction p as [|a p IH]; [reflexivity|]. cbn [app strip_prefix]. rewrite Ascii.eqb_refl. exact IH. Qed.
Lemma strip_sound p : forall s r, strip_prefix p s = Some r -> s = p ++ r.
Proof.
  induction p as [|a p IH]; intros s r H; [injection H as ->; reflexivity|]. destruct s as [|c s]; [discriminate|]. cbn [strip_prefix] in H.
  destruct (Ascii.eqb_spec a c) as [->|]; [|discriminate]. cbn. f_equal. apply IH, H.
Qed.
Lemma strip_other a p c s : c <> a -> strip_prefix (a :: p) (c :: s) = None.
Proof. intro H. cbn [strip_prefix]. destruct (Ascii.eqb_spec a c); [congruence|reflexivity]. Qed.
Definition not_number (j : json) : Prop := match j with JNum _ => False | _ => True end.

Lemma blank_ends w s : blanks w -> ends s -> ends (w ++ s).
Proof.
  intros H E. destruct H as [|c w Hc Hw]; [exact E|]. cbn [app ends]. unfold blank in Hc. unfold digit.
  repeat split; [lia|..]; intro K; rewrite K in Hc; unfold code in Hc; cbn in Hc; lia.
Qed.

Lemma scan_complete nf :
  (forall j t, value_text nf j t -> forall n s, 2 * length t <= n -> not_number j \/ ends s -> scan_value nf n (t ++ s) = Some (j, s))
  /\ (forall l t, elements_text nf l t -> forall n s, 2 * length t + 1 <= n -> scan_elements nf n (skip_blanks (t ++ "]"%char :: s)) = Some (l, s)
        /\ exists c r, skip_blanks (t ++ "]"%char :: s) = c :: r /\ c <> "]"%char)
  /\ (forall l t, members_text nf l t -> forall n s, 2 * length t + 1 <= n -> scan_members nf n (skip_blanks (t ++ "}"%char :: s)) = Some (l, s)
        /\ exists c r, skip_blanks (t ++ "}"%char :: s) = c :: r /\ c <> "}"%char).
Proof.
  apply text_mind.
  - intros n s Hn _. destruct n as [|n]; [cbn in Hn; lia|]. reflexivity.
  - intros n s Hn _. destruct n as [|n]; [cbn in Hn; lia|]. reflexivity.
  - intros n s Hn _. destruct n as [|n]; [cbn in Hn; lia|]. reflexivity.
  - intros q t Ht Hq n s Hn [[]|E]. pose proof (scan_number_ok t s Ht E) as SN. destruct (number_head t Ht) as [c [r [-> D]]].
    destruct (digit_head c D) as [_ [N1 [N2 [N3 [N4 [N5 N6]]]]]]. destruct n as [|n]; [cbn in Hn; lia|]. cbn [app scan_value].
    destruct (Ascii.eqb_spec c quote); [contradiction|]. destruct (Ascii.eqb_spec c "{"%char); [contradiction|]. destruct (Ascii.eqb_spec c "["%char); [contradiction|].
    cbn [chars list_ascii_of_string]. rewrite !strip_other by assumption. change (c :: r ++ s) with ((c :: r) ++ s). rewrite SN, Hq. reflexivity.
  - intros k t Ht n s Hn _. destruct n as [|n]; [cbn in Hn; lia|]. cbn [app scan_value]. rewrite Ascii.eqb_refl, <- app_assoc. cbn [app].
    rewrite (scan_string_ok _ _ _ Ht). unfold chars. rewrite string_of_list_ascii_of_string. reflexivity.
  - intros w Hw n s Hn _. destruct n as [|n]; [cbn in Hn; lia|]. cbn [app scan_value]. change (Ascii.eqb "[" quote)%char with false. change (Ascii.eqb "[" "{")%char with false.
    change (Ascii.eqb "[" "[")%char with true. cbv iota. rewrite <- app_assoc, (skip_app w _ Hw). reflexivity.
  - intros l t _ IH n s Hn _. destruct n as [|n]; [cbn in Hn; lia|]. cbn [app scan_value]. change (Ascii.eqb "[" quote)%char with false. change (Ascii.eqb "[" "{")%char with false.
    change (Ascii.eqb "[" "[")%char with true. cbv iota. rewrite <- app_assoc. cbn [app]. cbn [length] in Hn. rewrite app_length in Hn. cbn [length] in Hn.
    destruct (IH n s ltac:(lia)) as [E [c [r [C NC]]]]. rewrite C in *. destruct (Ascii.eqb_spec c "]"%char); [contradiction|]. rewrite E. reflexivity.
  - intros w Hw n s Hn _. destruct n as [|n]; [cbn in Hn; lia|]. cbn [app scan_value]. change (Ascii.eqb "{" quote)%char with false. change (Ascii.eqb "{" "{")%char with true.
    cbv iota. rewrite <- app_assoc, (skip_app w _ Hw). reflexivity.
  - intros l t _ IH n s Hn _. destruct n as [|n]; [cbn in Hn; lia|]. cbn [app scan_value]. change (Ascii.eqb "{" quote)%char with false. change (Ascii.eqb "{" "{")%char with true.
    cbv iota. rewrite <- app_assoc. cbn [app]. cbn [length] in Hn. rewrite app_length in Hn. cbn [length] in Hn.
    destruct (IH n s ltac:(lia)) as [E [c [r [C NC]]]]. rewrite C in *. destruct (Ascii.eqb_spec c "}"%char); [contradiction|]. rewrite E. reflexivity.
  - intros w1 v t w2 W1 Hv IH W2 n s Hn. rewrite !app_length in Hn. rewrite <- app_assoc, (skip_app w1 _ W1), <- app_assoc.
    destruct (value_head _ _ _ Hv) as [c [r [E [HB [HC _]]]]]. assert (SK : skip_blanks (t ++ w2 ++ "]"%char :: s) = t ++ w2 ++ "]"%char :: s).
    { rewrite E. cbn [app]. apply skip_head, HB. }
    rewrite SK. split; [|rewrite E; cbn [app]; exists c; eexists; split; [reflexivity|exact HC]]. destruct n as [|n]; [lia|]. cbn [scan_elements].
    rewrite IH; [|lia|right; apply blank_ends; [exact W2|]; repeat split; try discriminate; unfold digit, code; cbn; lia]. rewrite (skip_app w2 _ W2). reflexivity.
  - intros w1 v t w2 vs ts W1 Hv IH W2 Hts IHs n s Hn. rewrite !app_length in Hn. cbn [length] in Hn. rewrite <- app_assoc, (skip_app w1 _ W1), <- !app_assoc. cbn [app].
    destruct (value_head _ _ _ Hv) as [c [r [E [HB [HC _]]]]]. assert (SK : skip_blanks (t ++ w2 ++ ","%char :: ts ++ "]"%char :: s) = t ++ w2 ++ ","%char :: ts ++ "]"%char :: s).
    { rewrite E. cbn [app]. apply skip_head, HB. }
    rewrite SK. split; [|rewrite E; cbn [app]; exists c; eexists; split; [reflexivity|exact HC]]. destruct n as [|n]; [lia|]. cbn [scan_elements].
    rewrite IH; [|lia|right; apply blank_ends; [exact W2|]; repeat split; try discriminate; unfold digit, code; cbn; lia]. rewrite (skip_app w2 _ W2). cbn [skip_blanks].
    change (is_blank ",") with false. cbv iota. change (Ascii.eqb "," "]")%char with false. change (Ascii.eqb "," ",")%char with true. cbv iota.
    destruct (IHs n s ltac:(lia)) as [K _]. rewrite K. reflexivity.
  - intros w1 k kt w2 w3 v t w4 W1 Hk W2 W3 Hv IH W4 n s Hn. rewrite !app_length in Hn. cbn [length] in Hn. rewrite !app_length in Hn. cbn [length] in Hn. rewrite !app_length in Hn. cbn [length] in Hn. rewrite !app_length in Hn.
    rewrite <- app_assoc, (skip_app w1 _ W1). cbn [app]. rewrite <- app_assoc. cbn [app]. rewrite <- app_assoc. cbn [app]. rewrite <- !app_assoc. cbn [skip_blanks]. change (is_blank quote) with false. cbv iota.
    split; [|eexists _, _; split; [reflexivity|discriminate]]. destruct n as [|n]; [lia|]. cbn [scan_members]. rewrite Ascii.eqb_refl, (scan_string_ok _ _ _ Hk), (skip_app w2 _ W2).
    cbn [skip_blanks]. change (is_blank ":") with false. cbv iota. change (Ascii.eqb ":" ":")%char with true. cbv iota. rewrite (skip_app w3 _ W3).
    destruct (value_head _ _ _ Hv) as [c [r [E [HB [HC _]]]]]. assert (SK : skip_blanks (t ++ w4 ++ "}"%char :: s) = t ++ w4 ++ "}"%char :: s).
    { rewrite E. cbn [app]. apply skip_head, HB. }
    rewrite SK, IH; [|lia|right; apply blank_ends; [exact W4|]; repeat split; try discriminate; unfold digit, code; cbn; lia]. rewrite (skip_app w4 _ W4).
    cbn [skip_blanks]. change (is_blank "}") with false. cbv iota. change (Ascii.eqb "}" "}")%char with true. unfold chars. rewrite string_of_list_ascii_of_string. reflexivity.
  - intros w1 k kt w2 w3 v t w4 ps ts W1 Hk W2 W3 Hv IH W4 Hts IHs n s Hn. rewrite !app_length in Hn. cbn [length] in Hn. rewrite !app_length in Hn. cbn [length] in Hn. rewrite !app_length in Hn. cbn [length] in Hn. rewrite !app_length in Hn. cbn [length] in Hn.
    rewrite <- app_assoc, (skip_app w1 _ W1). cbn [app]. rewrite <- app_assoc. cbn [app]. rewrite <- app_assoc. cbn [app]. rewrite <- !app_assoc. cbn [app skip_blanks]. change (is_blank quote) with false. cbv iota.
    split; [|eexists _, _; split; [reflexivity|discriminate]]. destruct n as [|n]; [lia|]. cbn [scan_members]. rewrite Ascii.eqb_refl, (scan_string_ok _ _ _ Hk), (skip_app w2 _ W2).
    cbn [skip_blanks]. change (is_blank ":") with false. cbv iota. change (Ascii.eqb ":" ":")%char with true. cbv iota. rewrite (skip_app w3 _ W3).
    destruct (value_head _ _ _ Hv) as [c [r [E [HB [HC _]]]]]. assert (SK : skip_blanks (t ++ w4 ++ ","%char :: ts ++ "}"%char :: s) = t ++ w4 ++ ","%char :: ts ++ "}"%char :: s).
    { rewrite E. cbn [app]. apply skip_head, HB. }
    rewrite SK, IH; [|lia|right; apply blank_ends; [exact W4|]; repeat split; try discriminate; unfold digit, code; cbn; lia]. rewrite (skip_app w4 _ W4).
    cbn [skip_blanks]. change (is_blank ",") with false. cbv iota. change (Ascii.eqb "," "}")%char with false. change (Ascii.eqb "," ",")%char with true. cbv iota.
    destruct (IHs n s ltac:(lia)) as [K _]. rewrite K. unfold chars. rewrite string_of_list_ascii_of_string. reflexivity.
Qed.

Lemma members_app_blank nf l t w : members_text nf l t -> blanks w -> members_text nf l (w ++ t).
Proof.
  intros H Hw. destruct H as [w1 k kt w2 w3 v t w4 W1 Hk W2 W3 Hv W4|w1 k kt w2 w3 v t w4 ps ts W1 Hk W2 W3 Hv W4 Hs]; rewrite app_assoc; constructor; try assumption; apply Forall_app; auto.
Qed.
Lemma elements_app_blank nf l t w : elements_text nf l t -> blanks w -> elements_text nf l (w ++ t).
Proof.
  intros H Hw. destruct H as [w1 v t w2 W1 Hv W2|w1 v t w2 vs ts W1 Hv W2 Hs]; rewrite app_assoc; constructor; try assumption; apply Forall_app; auto.
Qed.
Lemma eqb_true a b : Ascii.eqb a b = true -> a = b.
Proof. apply Ascii.eqb_eq. Qed.
Lemma scan_sound nf : forall n,
  (forall s j r, scan_value nf n s = Some (j, r) -> exists t, s = t ++ r /\ value_text nf j t)
  /\ (forall s l r, scan_elements nf n s = Some (l, r) -> exists t, s = t ++ "]"%char :: r /\ elements_text nf l t)
  /\ (forall s l r, scan_members nf n s = Some (l, r) -> exists t, s = t ++ "}"%char :: r /\ members_text nf l t).
Proof.
  induction n as [|n [IV [IE IM]]]; [repeat split; intros; discriminate|]. split; [|split].
  - intros s j r H. cbn [scan_value] in H. destruct s as [|c s]; [discriminate|].
    destruct (Ascii.eqb c quote) eqn:Q.
    { apply eqb_true in Q as ->. destruct (scan_string s) as [[k r']|] eqn:S; [|discriminate]. injection H as <- <-.
      destruct (scan_string_sound (length s) s k r' (le_n _) S) as [t [-> T]]. exists (quote :: t ++ [quote]). split; [cbn [app]; rewrite <- app_assoc; reflexivity|].
      constructor. unfold chars. rewrite list_ascii_of_string_of_list_ascii. exact T. }
    destruct (Ascii.eqb c "{") eqn:OB.
    { apply eqb_true in OB as ->. destruct (skip_split s) as [w [W E]]. destruct (skip_blanks s) as [|d r1]; [discriminate|]. destruct (Ascii.eqb d "}") eqn:D.
      - apply eqb_true in D as ->. injection H as <- <-. exists ("{"%char :: w ++ ["}"%char]). split; [cbn [app]; rewrite <- app_assoc; cbn [app]; rewrite <- E; reflexivity|]. constructor. exact W.
      - destruct (scan_members nf n (d :: r1)) as [[l r2]|] eqn:M; [|discriminate]. injection H as <- <-. destruct (IM _ _ _ M) as [t [T MT]].
        exists ("{"%char :: (w ++ t) ++ ["}"%char]). split; [cbn [app]; rewrite <- !app_assoc; cbn [app]; rewrite <- T; f_equal; exact E|]. constructor. apply members_app_blank; assumption. }
    destruct (Ascii.eqb c "[") eqn:AB.
    { apply eqb_true in AB as ->. destruct (skip_split s) as [w [W E]]. destruct (skip_blanks s) as [|d r1]; [discriminate|]. destruct (Ascii.eqb d "]") eqn:D.
      - apply eqb_true in D as ->. injection H as <- <-. exists ("["%char :: w ++ ["]"%char]). split; [cbn [app]; rewrite <- app_assoc; cbn [app]; rewrite <- E; reflexivity|]. constructor. exact W.
      - destruct (scan_elements nf n (d :: r1)) as [[l r2]|] eqn:M; [|discriminate]. injection H as <- <-. destruct (IE _ _ _ M) as [t [T MT]].
        exists ("["%char :: (w ++ t) ++ ["]"%char]). split; [cbn [app]; rewrite <- !app_assoc; cbn [app]; rewrite <- T; f_equal; exact E|]. constructor. apply elements_app_blank; assumption. }
    clear Q OB AB.
    destruct (strip_prefix (chars "null") (c :: s)) as [r'|] eqn:S1; [injection H as <- <-; apply strip_sound in S1; eexists; split; [exact S1|constructor]|].
    destruct (strip_prefix (chars "true") (c :: s)) as [r'|] eqn:S2; [injection H as <- <-; apply strip_sound in S2; eexists; split; [exact S2|constructor]|].
    destruct (strip_prefix (chars "false") (c :: s)) as [r'|] eqn:S3; [injection H as <- <-; apply strip_sound in S3; eexists; split; [exact S3|constructor]|].
    destruct (scan_number (c :: s)) as [[t r']|] eqn:S4; [|discriminate]. destruct (nf_value nf t) as [q|] eqn:NV; [|discriminate]. injection H as <- <-.
    apply scan_number_sound in S4 as [E T]. exists t. split; [exact E|]. constructor; assumption.
  - intros s l r H. cbn [scan_elements] in H. destruct (scan_value nf n s) as [[v r0]|] eqn:V; [|discriminate]. destruct (IV _ _ _ V) as [t [-> T]].
    destruct (skip_split r0) as [w [W E]]. destruct (skip_blanks r0) as [|c r1]; [discriminate|].
    destruct (Ascii.eqb c "]") eqn:D; [apply eqb_true in D as ->; injection H as <- <-; exists ([] ++ t ++ w); split; [cbn [app]; rewrite <- app_assoc, <- E; reflexivity|constructor; [constructor|assumption..]]|].
    destruct (Ascii.eqb c ",") eqn:D2; [|discriminate]. apply eqb_true in D2 as ->. destruct (scan_elements nf n (skip_blanks r1)) as [[l' r']|] eqn:R; [|discriminate]. cbn [cons_to] in H. injection H as <- <-.
    destruct (IE _ _ _ R) as [t' [T' ET]]. destruct (skip_split r1) as [w' [W' E']]. exists ([] ++ t ++ w ++ ","%char :: (w' ++ t')). split.
    + cbn [app]. rewrite <- !app_assoc. cbn [app]. rewrite <- app_assoc, <- T', <- E', <- E. reflexivity.
    + constructor; [constructor|assumption..|apply elements_app_blank; assumption].
  - intros s l r H. cbn [scan_members] in H. destruct s as [|c s]; [discriminate|]. destruct (Ascii.eqb c quote) eqn:Q; [|discriminate]. apply eqb_true in Q as ->.
    destruct (scan_string s) as [[k r1]|] eqn:S; [|discriminate]. destruct (scan_string_sound (length s) s k r1 (le_n _) S) as [kt [-> KT]].
    destruct (skip_split r1) as [w2 [W2 E2]]. destruct (skip_blanks r1) as [|c1 r2]; [discriminate|]. destruct (Ascii.eqb c1 ":") eqn:C1; [|discriminate]. apply eqb_true in C1 as ->.
    destruct (skip_split r2) as [w3 [W3 E3]]. destruct (scan_value nf n (skip_blanks r2)) as [[v r3]|] eqn:V; [|discriminate]. destruct (IV _ _ _ V) as [t [T VT]].
    destruct (skip_split r3) as [w4 [W4 E4]]. destruct (skip_blanks r3) as [|c2 r4]; [discriminate|].
    assert (KT' : string_text (chars (string_of_list_ascii k)) kt) by (unfold chars; rewrite list_ascii_of_string_of_list_ascii; exact KT).
    destruct (Ascii.eqb c2 "}") eqn:D; [apply eqb_true in D as ->; injection H as <- <-; exists ([] ++ quote :: kt ++ quote :: w2 ++ ":"%char :: w3 ++ t ++ w4); split|].
    + cbn [app]. rewrite <- app_assoc. cbn [app]. rewrite <- app_assoc. cbn [app]. rewrite <- !app_assoc, <- E4, <- T, <- E3, <- E2. reflexivity.
    + constructor; try assumption. constructor.
    + destruct (Ascii.eqb c2 ",") eqn:D2; [|discriminate]. apply eqb_true in D2 as ->. destruct (scan_members nf n (skip_blanks r4)) as [[l' r']|] eqn:R; [|discriminate]. cbn [cons_to] in H. injection H as <- <-.
      destruct (IM _ _ _ R) as [t' [T' ET]]. destruct (skip_split r4) as [w' [W' E']]. exists ([] ++ quote :: kt ++ quote :: w2 ++ ":"%char :: w3 ++ t ++ w4 ++ ","%char :: (w' ++ t')). split.
      * cbn [app]. rewrite <- app_assoc. cbn [app]. rewrite <- app_assoc. cbn [app]. rewrite <- !app_assoc. cbn [app]. rewrite <- app_assoc, <- T', <- E', <- E4, <- T, <- E3, <- E2. reflexivity.
      * constructor; try assumption; [constructor|apply members_app_blank; assumption].
Qed.
