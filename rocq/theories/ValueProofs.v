(** Proofs about the size and position grammars. *)
From Coq Require Import List ZArith NArith QArith Bool String Lia.
From Verif Require Import Py PyFacts ShowModel ShowSpec ShowProofs LayoutModel ValueSpec.
Import ListNotations.

Lemma at_dollar_eol : forall s, at_dollar s = true <-> eol s.
Proof.
  intros s. unfold eol. destruct s as [|c [|d s]]; simpl; split; intro H; auto;
    try (destruct H; discriminate); try discriminate.
  - right. apply N.eqb_eq in H. now subst.
  - destruct H as [H|H]; [discriminate|]. injection H as ->. reflexivity.
Qed.

Definition no_digit_first (s : str) : Prop := s = [] \/ exists c t, s = c :: t /\ is_digit c = false.

Lemma eol_no_digit : forall nl, eol nl -> no_digit_first nl.
Proof.
  intros nl [-> | ->]; [now left|]. right. exists 10%N, []. split; auto.
Qed.

Lemma match_num_spec : forall suf s n,
  (forall nl, eol nl -> no_digit_first (suf ++ nl)) ->
  match_num suf s = Some n <->
  exists d nl, numeral d n /\ eol nl /\ s = d ++ suf ++ nl.
Proof.
  intros suf s n Hs. unfold match_num. split.
  - destruct (span is_digit s) as [ds rest] eqn:E.
    assert (Ea := span_app _ _ _ _ E). assert (Ed := span_all _ _ _ _ E).
    destruct ds as [|d0 ds]; [discriminate|].
    destruct (strip_prefix suf rest) as [rest'|] eqn:Er; [|discriminate].
    destruct (at_dollar rest') eqn:Ed'; [|discriminate]. intro H. injection H as <-.
    apply strip_prefix_spec in Er. apply at_dollar_eol in Ed'.
    exists (d0 :: ds), rest'. split; [|split]; auto.
    + apply digits_numeral; [discriminate | exact Ed].
    + now rewrite Ea, Er.
  - intros [d [nl [Hd [Hnl ->]]]]. apply numeral_digits in Hd.
    destruct Hd as [H1 [H2 H3]].
    rewrite (span_exact is_digit d (suf ++ nl) H2 (Hs nl Hnl)).
    destruct d as [|d0 d]; [congruence|].
    assert (Er : strip_prefix suf (suf ++ nl) = Some nl) by now apply strip_prefix_spec.
    rewrite Er. apply at_dollar_eol in Hnl. rewrite Hnl. now rewrite H3.
Qed.

Lemma suf_nil : forall nl, eol nl -> no_digit_first ([] ++ nl).
Proof. intros. now apply eol_no_digit. Qed.
Lemma suf_percent : forall nl, eol nl -> no_digit_first (pys "%" ++ nl).
Proof. intros. right. exists 37%N, nl. split; auto. Qed.
Lemma suf_align : forall nl, eol nl -> no_digit_first (pys "%]" ++ nl).
Proof. intros. right. exists 37%N, (pys "]" ++ nl). split; auto. Qed.

Lemma close_parens_spec : forall s, close_parens s = true <->
  exists ps nl, Forall (fun c => c = 41%N) ps /\ eol nl /\ s = 41%N :: ps ++ nl.
Proof.
  induction s as [|c s IH].
  - simpl. split; [discriminate|]. intros [ps [nl [_ [_ H]]]]. discriminate.
  - assert (Hc : c = 41%N \/ close_parens (c :: s) = false /\ c <> 41%N).
    { destruct (N.eq_dec c 41) as [->|Hn]; auto. right. split; auto.
      clear IH. simpl. destruct c as [|p]; auto.
      repeat (destruct p as [p|p|]; auto); congruence. }
    destruct Hc as [->|[Hf Hn]].
    + cbn [close_parens]. rewrite orb_true_iff, at_dollar_eol, IH. split.
      * intros [H|[ps [nl [H1 [H2 H3]]]]].
        -- exists [], s. auto.
        -- exists (41%N :: ps), nl. split; [|split]; auto. now rewrite H3.
      * intros [ps [nl [H1 [H2 H3]]]]. injection H3 as H3.
        destruct ps as [|p ps]; [left; now rewrite H3|].
        right. inversion H1; subst. exists ps, nl. auto.
    + rewrite Hf. split; [discriminate|]. intros [ps [nl [_ [_ H]]]]. congruence.
Qed.

Lemma match_fill_spec : forall s n, match_fill s = Some n <->
  exists d ps nl, numeral d n /\ Forall (fun c => c = 41%N) ps /\ eol nl /\
    s = pys "fill(" ++ d ++ pys ")" ++ ps ++ nl.
Proof.
  intros s n. unfold match_fill. split.
  - destruct (strip_prefix (pys "fill(") s) as [rest|] eqn:Er; [|discriminate].
    apply strip_prefix_spec in Er.
    destruct (span is_digit rest) as [ds rest'] eqn:E.
    assert (Ea := span_app _ _ _ _ E). assert (Ed := span_all _ _ _ _ E).
    destruct ds as [|d0 ds]; [discriminate|].
    destruct (close_parens rest') eqn:Ec; [|discriminate]. intro H. injection H as <-.
    apply close_parens_spec in Ec. destruct Ec as [ps [nl [H1 [H2 H3]]]].
    exists (d0 :: ds), ps, nl. split; [|split; [|split]]; auto.
    + apply digits_numeral; [discriminate | exact Ed].
    + rewrite Er, Ea, H3. reflexivity.
  - intros [d [ps [nl [Hd [Hp [Hnl ->]]]]]].
    assert (Er : strip_prefix (pys "fill(") (pys "fill(" ++ d ++ pys ")" ++ ps ++ nl)
      = Some (d ++ pys ")" ++ ps ++ nl)) by now apply strip_prefix_spec.
    rewrite Er. apply numeral_digits in Hd. destruct Hd as [H1 [H2 H3]].
    rewrite (span_exact is_digit d (pys ")" ++ ps ++ nl) H2).
    + destruct d as [|d0 d]; [congruence|].
      assert (Ec : close_parens (pys ")" ++ ps ++ nl) = true)
        by (apply close_parens_spec; exists ps, nl; auto).
      rewrite Ec. now rewrite H3.
    + right. exists 41%N, (ps ++ nl). split; auto.
Qed.

Lemma match_fill_1_spec : forall s, match_fill_1 s = true <->
  exists nl, eol nl /\ s = pys "fill" ++ nl.
Proof.
  intro s. unfold match_fill_1. split.
  - destruct (strip_prefix (pys "fill") s) as [r|] eqn:E; [|discriminate].
    apply strip_prefix_spec in E. intro H. apply at_dollar_eol in H. eauto.
  - intros [nl [H ->]].
    assert (E : strip_prefix (pys "fill") (pys "fill" ++ nl) = Some nl)
      by now apply strip_prefix_spec.
    rewrite E. now apply at_dollar_eol.
Qed.

(** Shapes are disjoint: the first characters differ, or the last before the newline. *)
Lemma digit_ne : forall c, is_digit c = true -> c <> 102%N /\ c <> 91%N /\ c <> 37%N /\ c <> 10%N.
Proof. intros c H. repeat split; intros ->; vm_compute in H; discriminate. Qed.

Lemma num_pct_disjoint : forall d n nl d' n' nl', numeral d n -> numeral d' n' ->
  eol nl -> eol nl' -> d ++ nl = d' ++ pys "%" ++ nl' -> False.
Proof.
  intros d n nl d' n' nl' H H' Hn Hn' E.
  assert (Hin : In 37%N (d ++ nl)).
  { rewrite E. apply in_or_app. right. now left. }
  apply in_app_or in Hin. destruct Hin as [Hin|Hin].
  - apply numeral_digits in H. destruct H as [_ [H _]]. rewrite Forall_forall in H.
    apply H in Hin. vm_compute in Hin. discriminate.
  - destruct Hn as [-> | ->]; [destruct Hin|]. destruct Hin as [Hin|[]]. discriminate.
Qed.

Lemma numeral_first : forall d n, numeral d n -> exists c t, d = c :: t /\ is_digit c = true.
Proof.
  intros d n H. apply numeral_digits in H. destruct H as [H1 [H2 _]].
  destruct d as [|c t]; [congruence|]. inversion H2; subst. eauto.
Qed.

Theorem size_grammar : forall s v, parse_size (AStr s) = Ok v <->
  exists s0 ps nl, size_doc s0 v /\ size_slack s0 ps /\ eol nl /\ s = s0 ++ ps ++ nl.
Proof.
  intros s v. unfold parse_size.
  assert (N1 := match_num_spec [] s). assert (N2 := match_num_spec (pys "%") s).
  assert (N3 := match_fill_spec s). assert (N4 := match_fill_1_spec s).
  assert (Hnf : forall d n r r', numeral d n -> pys "fill" ++ r <> d ++ r').
  { intros d n r r' Hd E. destruct (numeral_first _ _ Hd) as [c [t [-> Hc]]].
    destruct (digit_ne c Hc) as [H _]. injection E as E _. congruence. }
  split.
  - destruct (match_num [] s) as [n|].
    { intro H. injection H as <-. destruct (N1 n suf_nil) as [A _].
      destruct (A eq_refl) as [d [nl [H1 [H2 H3]]]]. exists d, [], nl.
      split; [now constructor|]. split; [split; auto|]. auto. }
    destruct (match_num (pys "%") s) as [n|].
    { intro H. injection H as <-. destruct (N2 n suf_percent) as [A _].
      destruct (A eq_refl) as [d [nl [H1 [H2 H3]]]]. exists (d ++ pys "%"), [], nl.
      split; [now constructor|]. split; [split; auto|]. split; auto.
      rewrite H3, <- app_assoc. reflexivity. }
    destruct (match_fill_1 s).
    { intro H. injection H as <-. destruct N4 as [A _].
      destruct (A eq_refl) as [nl [H1 H2]]. exists (pys "fill"), [], nl.
      split; [constructor|]. split; [split; auto|]. auto. }
    destruct (match_fill s) as [n|]; [|discriminate].
    intro H. injection H as <-. destruct (N3 n) as [A _].
    destruct (A eq_refl) as [d [ps [nl [H1 [H2 [H3 H4]]]]]].
    exists (pys "fill(" ++ d ++ pys ")"), ps, nl.
    split; [now constructor|]. split; [split; eauto|]. split; auto.
    rewrite H4, <- !app_assoc. reflexivity.
  - intros [s0 [ps [nl [Hd [[Hp Hp'] [Hnl Es]]]]]].
    destruct Hd as [d n Hd|d n Hd| |d n Hd].
    + assert (ps = []).
      { destruct Hp' as [|[t ->]]; auto. exfalso.
        apply (Hnf _ _ (pys "(" ++ t) [] Hd). now rewrite app_nil_r. }
      subst ps. destruct (N1 n suf_nil) as [_ B]. rewrite B; auto. exists d, nl. auto.
    + assert (ps = []).
      { destruct Hp' as [|[t E]]; auto. exfalso.
        now apply (Hnf _ _ (pys "(" ++ t) (pys "%") Hd). }
      subst ps. rewrite <- app_assoc in Es. simpl app in Es at 2.
      destruct (match_num [] s) as [n'|].
      { exfalso. destruct (N1 n' suf_nil) as [A _].
        destruct (A eq_refl) as [d' [nl' [H1 [H2 H3]]]].
        apply (num_pct_disjoint d' n' nl' d n nl); auto. transitivity s; auto. }
      destruct (N2 n suf_percent) as [_ B]. rewrite B; auto. exists d, nl. auto.
    + assert (ps = []).
      { destruct Hp' as [|[t E]]; auto. discriminate. }
      subst ps. simpl app in Es at 2.
      destruct (match_num [] s) as [n'|].
      { exfalso. destruct (N1 n' suf_nil) as [A _].
        destruct (A eq_refl) as [d' [nl' [H1 [H2 H3]]]].
        apply (Hnf d' n' nl nl' H1). now rewrite <- Es. }
      destruct (match_num (pys "%") s) as [n'|].
      { exfalso. destruct (N2 n' suf_percent) as [A _].
        destruct (A eq_refl) as [d' [nl' [H1 [H2 H3]]]].
        apply (Hnf d' n' nl (pys "%" ++ nl') H1). now rewrite <- Es. }
      destruct N4 as [_ B]. rewrite B; auto. exists nl. auto.
    + rewrite <- !app_assoc in Es.
      destruct (match_num [] s) as [n'|].
      { exfalso. destruct (N1 n' suf_nil) as [A _].
        destruct (A eq_refl) as [d' [nl' [H1 [H2 H3]]]].
        apply (Hnf d' n' (pys "(" ++ d ++ pys ")" ++ ps ++ nl) nl' H1). transitivity s; auto. }
      destruct (match_num (pys "%") s) as [n'|].
      { exfalso. destruct (N2 n' suf_percent) as [A _].
        destruct (A eq_refl) as [d' [nl' [H1 [H2 H3]]]].
        apply (Hnf d' n' (pys "(" ++ d ++ pys ")" ++ ps ++ nl) (pys "%" ++ nl') H1).
        transitivity s; auto. }
      destruct (match_fill_1 s).
      { exfalso. destruct N4 as [A _]. destruct (A eq_refl) as [nl' [H1 H2]].
        rewrite Es in H2. destruct H1 as [-> | ->]; discriminate. }
      destruct (N3 n) as [_ B]. rewrite B; auto. exists d, ps, nl. auto.
Qed.

Theorem pos_grammar : forall s p, parse_pos (AStr s) = Ok p <->
  exists s0 nl, pos_doc s0 p /\ eol nl /\ s = s0 ++ nl.
Proof.
  intros s p. unfold parse_pos.
  assert (N1 := match_num_spec [] s). assert (N2 := match_num_spec (pys "%") s).
  assert (N3 : forall n, match_align s = Some n <->
    exists d nl, numeral d n /\ eol nl /\ s = pys "[" ++ d ++ pys "%]" ++ nl).
  { intro n. unfold match_align. split.
    - destruct (strip_prefix (pys "[") s) as [r|] eqn:E; [|discriminate].
      apply strip_prefix_spec in E. intro H. apply (match_num_spec _ _ _ suf_align) in H.
      destruct H as [d [nl [H1 [H2 H3]]]]. exists d, nl. split; auto. split; auto.
      now rewrite E, H3.
    - intros [d [nl [H1 [H2 ->]]]].
      assert (E : strip_prefix (pys "[") (pys "[" ++ d ++ pys "%]" ++ nl) =
                  Some (d ++ pys "%]" ++ nl)) by now apply strip_prefix_spec.
      rewrite E. apply (match_num_spec _ _ _ suf_align). exists d, nl. auto. }
  split.
  - destruct (match_num [] s) as [n|].
    { intro H. injection H as <-. destruct (N1 n suf_nil) as [A _].
      destruct (A eq_refl) as [d [nl [H1 [H2 H3]]]]. exists d, nl.
      split; [now constructor|]. auto. }
    destruct (match_num (pys "%") s) as [n|].
    { intro H. injection H as <-. destruct (N2 n suf_percent) as [A _].
      destruct (A eq_refl) as [d [nl [H1 [H2 H3]]]]. exists (d ++ pys "%"), nl.
      split; [now constructor|]. split; auto. rewrite H3, <- app_assoc. reflexivity. }
    destruct (match_align s) as [n|]; [|discriminate].
    intro H. injection H as <-. destruct (N3 n) as [A _].
    destruct (A eq_refl) as [d [nl [H1 [H2 H3]]]].
    exists (pys "[" ++ d ++ pys "%]"), nl. split; [now constructor|]. split; auto.
    rewrite H3, <- !app_assoc. reflexivity.
  - intros [s0 [nl [Hd [Hnl Es]]]].
    assert (Hnf : forall d n r r', numeral d n -> pys "[" ++ r <> d ++ r').
    { intros d n r r' Hd' E. destruct (numeral_first _ _ Hd') as [c [t [-> Hc]]].
      destruct (digit_ne c Hc) as [_ [H _]]. injection E as E _. congruence. }
    destruct Hd as [d n Hd|d n Hd|d n Hd].
    + destruct (N1 n suf_nil) as [_ B]. rewrite B; auto. exists d, nl. auto.
    + rewrite <- app_assoc in Es.
      destruct (match_num [] s) as [n'|].
      { exfalso. destruct (N1 n' suf_nil) as [A _].
        destruct (A eq_refl) as [d' [nl' [H1 [H2 H3]]]].
        apply (num_pct_disjoint d' n' nl' d n nl); auto. transitivity s; auto. }
      destruct (N2 n suf_percent) as [_ B]. rewrite B; auto. exists d, nl. auto.
    + rewrite <- !app_assoc in Es.
      destruct (match_num [] s) as [n'|].
      { exfalso. destruct (N1 n' suf_nil) as [A _].
        destruct (A eq_refl) as [d' [nl' [H1 [H2 H3]]]].
        apply (Hnf d' n' (d ++ pys "%]" ++ nl) nl' H1). transitivity s; auto. }
      destruct (match_num (pys "%") s) as [n'|].
      { exfalso. destruct (N2 n' suf_percent) as [A _].
        destruct (A eq_refl) as [d' [nl' [H1 [H2 H3]]]].
        apply (Hnf d' n' (d ++ pys "%]" ++ nl) (pys "%" ++ nl') H1). transitivity s; auto. }
      destruct (N3 n) as [_ B]. rewrite B; auto. exists d, nl. auto.
Qed.
