(** Proofs about line extraction, line numbers and indentation. *)
From Coq Require Import List ZArith NArith Bool Arith Lia.
From Verif Require Import Py PyFacts TextModel TextSpec TextProofs TextMerge.
Import ListNotations.

(** ** extract_line *)
Definition newline_free (ts : list token) : Prop := Forall (fun t => is_newline t = false) ts.

Lemma nth_error_mid : forall (A : Type) (a : list A) x b, nth_error (a ++ x :: b) (length a) = Some x.
Proof. intros. rewrite nth_error_app2, Nat.sub_diag; auto. Qed.

Lemma line_begin_spec : forall line pre post k, newline_free line -> k <= length line ->
  (pre = [] \/ exists p n, pre = p ++ [TNewline n]) ->
  line_begin (pre ++ line ++ post) (length pre + k) = length pre.
Proof.
  intros line pre post k Hl. induction k as [|k IH]; intros Hk Hp.
  - rewrite Nat.add_0_r. destruct Hp as [->|[p [n ->]]]; [reflexivity|].
    rewrite app_length. simpl. rewrite Nat.add_1_r. simpl.
    rewrite <- app_assoc. simpl. now rewrite nth_error_mid.
  - rewrite Nat.add_succ_r. simpl.
    assert (E : exists t, nth_error (pre ++ line ++ post) (length pre + k) = Some t /\
                          is_newline t = false).
    { rewrite nth_error_app2 by lia. replace (length pre + k - length pre) with k by lia.
      rewrite nth_error_app1 by lia.
      destruct (nth_error line k) as [t|] eqn:E.
      - exists t. split; auto. unfold newline_free in Hl. rewrite Forall_forall in Hl. apply Hl.
        eapply nth_error_In; eauto.
      - apply nth_error_None in E. lia. }
    destruct E as [t [-> ->]]. apply IH; auto. lia.
Qed.

Lemma line_rest_spec : forall line post, newline_free line ->
  (post = [] \/ exists n p, post = TNewline n :: p) ->
  line_rest (line ++ post) = length line.
Proof.
  induction line as [|t line IH]; intros post Hl Hp.
  - destruct Hp as [->|[n [p ->]]]; reflexivity.
  - inversion Hl as [|? ? Ht Hl']; subst. simpl. rewrite Ht. f_equal. auto.
Qed.

Lemma open_blocks_from_spec : forall ts st n, nest (length st) ts = Some n ->
  open_blocks_from (map TBegin st) ts = Ok (map TBegin (after st ts)) /\
  length (after st ts) = n.
Proof.
  induction ts as [|[s|k|s|] ts IH]; intros st n H; simpl in *; auto.
  - injection H as <-. auto.
  - apply (IH (s :: st)). exact H.
  - destruct st as [|x st]; [discriminate|]. simpl in *. auto.
Qed.

Lemma begins_nest : forall st n, nest n (rev (map TBegin st)) = Some (n + length st).
Proof.
  induction st as [|x st IH]; intro n; simpl; [f_equal; lia|].
  rewrite nest_app, IH. simpl. f_equal. lia.
Qed.
Lemma begins_after : forall st st0, after st0 (rev (map TBegin st)) = st ++ st0.
Proof.
  induction st as [|x st IH]; intro st0; simpl; auto. rewrite after_app, IH. reflexivity.
Qed.
Lemma begins_styled : forall st st0, styled st0 (rev (map TBegin st)) = [].
Proof.
  induction st as [|x st IH]; intro st0; simpl; auto. rewrite styled_app, IH. reflexivity.
Qed.

Lemma nest_count : forall ts n m, nest n ts = Some m ->
  open_blocks_count ts = (Z.of_nat m - Z.of_nat n)%Z.
Proof.
  induction ts as [|[s|k|s|] ts IH]; intros n m H; cbn [open_blocks_count nest] in *.
  - injection H as ->. lia.
  - auto.
  - auto.
  - rewrite (IH _ _ H). lia.
  - destruct n; [discriminate|]. rewrite (IH _ _ H). lia.
Qed.

Lemma styled_ends_only : forall k st, styled st (repeat TEnd k) = [].
Proof. induction k; intro st; auto. apply (IHk (tl st)). Qed.

Lemma extract_line_spec : forall pre line post k, balanced (pre ++ line ++ post) ->
  newline_free line -> k < length line ->
  (pre = [] \/ exists p n, pre = p ++ [TNewline n]) ->
  (post = [] \/ exists n p, post = TNewline n :: p) ->
  exists r j, extract_line (pre ++ line ++ post) (length pre + k) = Ok (r, Z.of_nat j) /\
    balanced r /\ newline_free r /\
    styled [] r = styled (after [] pre) line /\
    j < length r /\ nth_error r j = nth_error line k /\
    styled [] (firstn j r) = styled (after [] pre) (firstn k line) /\
    after [] (firstn j r) = after (after [] pre) (firstn k line).
Proof.
  intros pre line post k HB Hl Hk Hpre Hpost. unfold extract_line.
  destruct (Nat.leb_spec (length (pre ++ line ++ post)) (length pre + k)) as [Hx|_].
  { rewrite !app_length in Hx. lia. }
  replace (S (length pre + k)) with (length pre + S k) by lia.
  rewrite line_begin_spec by (auto; lia).
  assert (E0 : skipn (length pre + k) (pre ++ line ++ post) = skipn k line ++ post).
  { rewrite skipn_app. replace (length pre + k - length pre) with k by lia.
    rewrite skipn_all2 by lia. simpl. rewrite skipn_app.
    replace (k - length line) with 0 by lia. reflexivity. }
  rewrite E0. rewrite line_rest_spec; auto.
  2:{ unfold newline_free in *. rewrite Forall_forall in *. intros t Ht. apply Hl.
      rewrite <- (firstn_skipn k line). apply in_or_app. auto. }
  rewrite skipn_length. rewrite firstn_app, Nat.sub_diag, firstn_all, firstn_O, app_nil_r.
  rewrite skipn_app_len.
  replace (length pre + k + (length line - k) - length pre) with (length line) by lia.
  rewrite firstn_app, Nat.sub_diag, firstn_all, firstn_O, app_nil_r.
  unfold balanced in HB. rewrite nest_app in HB.
  destruct (nest 0 pre) as [d|] eqn:Ed; [|discriminate].
  destruct (open_blocks_from_spec pre [] d Ed) as [Eb Ea]. simpl map in Eb.
  unfold open_blocks. rewrite Eb. cbn [rbind].
  set (st := after [] pre) in *. subst d.
  rewrite nest_app in HB. destruct (nest (length st) line) as [m|] eqn:Em; [|discriminate].
  assert (En : nest 0 (rev (map TBegin st) ++ line) = Some m).
  { rewrite nest_app, begins_nest. exact Em. }
  rewrite (nest_count _ _ _ En). replace (Z.to_nat (Z.of_nat m - Z.of_nat 0)) with m by lia.
  rewrite rev_length, map_length.
  exists ((rev (map TBegin st) ++ line) ++ repeat TEnd m), (length st + k).
  assert (Lb : length (rev (map TBegin st)) = length st) by now rewrite rev_length, map_length.
  assert (Ef : firstn (length st + k) ((rev (map TBegin st) ++ line) ++ repeat TEnd m) =
               rev (map TBegin st) ++ firstn k line).
  { rewrite <- app_assoc, firstn_app, Lb. replace (length st + k - length st) with k by lia.
    rewrite firstn_all2 by (rewrite Lb; lia). f_equal. rewrite firstn_app.
    replace (k - length line) with 0 by lia. now rewrite firstn_O, app_nil_r. }
  split; [|split; [|split; [|split; [|split; [|split; [|split]]]]]].
  - f_equal. f_equal. lia.
  - unfold balanced. rewrite nest_app, En. rewrite <- (app_nil_r (repeat TEnd m)).
    replace m with (m + 0) at 1 by lia. apply nest_ends.
  - unfold newline_free. apply Forall_app. split; [apply Forall_app; split; auto|].
    + apply Forall_rev, Forall_map. apply Forall_forall. reflexivity.
    + apply Forall_forall. intros x Hx. apply repeat_spec in Hx. now subst.
  - rewrite !styled_app, begins_styled, begins_after, app_nil_r, styled_ends_only.
    now rewrite app_nil_r.
  - rewrite !app_length, Lb. lia.
  - rewrite <- app_assoc, nth_error_app2 by (rewrite Lb; lia). rewrite Lb.
    replace (length st + k - length st) with k by lia. rewrite nth_error_app1; auto.
  - rewrite Ef, styled_app, begins_styled, begins_after, app_nil_r. reflexivity.
  - rewrite Ef, after_app, begins_after, app_nil_r. reflexivity.
Qed.

(** ** Decimal numbers *)
Lemma dec_fuel_enough : forall f n, n < f -> forall f', n < f' -> dec_fuel f n = dec_fuel f' n.
Proof.
  induction f as [|f IH]; intros n Hn f' Hf; [lia|]. destruct f'; [lia|].
  cbn [dec_fuel]. destruct (Nat.ltb_spec n 10); auto. f_equal.
  assert (n / 10 < n) by (apply Nat.div_lt; lia). apply IH; lia.
Qed.

Lemma dec_step : forall n, dec n =
  if n <? 10 then [N.of_nat (48 + n)] else dec (n / 10) ++ [N.of_nat (48 + n mod 10)].
Proof.
  intro n. unfold dec at 1. cbn [dec_fuel]. destruct (Nat.ltb_spec n 10); auto. f_equal.
  unfold dec. apply dec_fuel_enough; [|lia]. apply Nat.div_lt; lia.
Qed.

Lemma dec_length_mono : forall m n, n <= m -> length (dec n) <= length (dec m).
Proof.
  induction m as [m IH] using lt_wf_ind. intros n H.
  rewrite (dec_step n), (dec_step m).
  destruct (Nat.ltb_spec n 10), (Nat.ltb_spec m 10); rewrite ?app_length; cbn [length];
    try lia.
  - assert (length (dec (n / 10)) <= length (dec (m / 10))); [|lia].
    apply IH; [apply Nat.div_lt; lia|]. apply Nat.div_le_mono; lia.
Qed.

Opaque dec.

Lemma digit_val_dec : forall d, d < 10 -> digit_val (N.of_nat (48 + d)) = Some (Z.of_nat d).
Proof.
  intros d H. do 10 (destruct d as [|d]; [reflexivity|]). lia.
Qed.

Lemma digits_acc_app : forall a b acc, digits_acc acc (a ++ b) = digits_acc (digits_acc acc a) b.
Proof. induction a; intros; simpl; auto. Qed.

Lemma int_dec : forall n, int_of_digits (dec n) = Z.of_nat n.
Proof.
  induction n as [n IH] using lt_wf_ind. rewrite dec_step. unfold int_of_digits in *.
  destruct (Nat.ltb_spec n 10).
  - cbn [digits_acc]. rewrite digit_val_dec by lia. lia.
  - rewrite digits_acc_app, IH by (apply Nat.div_lt; lia). cbn [digits_acc].
    assert (n mod 10 < 10) by (apply Nat.mod_upper_bound; lia).
    rewrite digit_val_dec by lia. assert (E := Nat.div_mod n 10). lia.
Qed.

Lemma dec_digits : forall n, Forall (fun c => is_digit c = true) (dec n).
Proof.
  induction n as [n IH] using lt_wf_ind. rewrite dec_step.
  assert (G : forall d, d < 10 -> is_digit (N.of_nat (48 + d)) = true).
  { intros d Hd. unfold is_digit. now rewrite digit_val_dec. }
  destruct (Nat.ltb_spec n 10).
  - constructor; auto.
  - apply Forall_app. split; [apply IH; apply Nat.div_lt; lia|].
    constructor; auto. apply G. apply Nat.mod_upper_bound; lia.
Qed.

Lemma dec_nonempty : forall n, 1 <= length (dec n).
Proof.
  intro n. rewrite dec_step. destruct (n <? 10); rewrite ?app_length; cbn [length]; lia.
Qed.

Lemma zfill_spec : forall w s, length s <= w -> Forall (fun c => is_digit c = true) s ->
  length (zfill w s) = w /\ int_of_digits (zfill w s) = int_of_digits s /\
  Forall (fun c => is_digit c = true) (zfill w s).
Proof.
  intros w s Hl Hs. unfold zfill. split; [|split].
  - rewrite app_length, repeat_length. lia.
  - unfold int_of_digits. rewrite digits_acc_app. f_equal.
    induction (w - length s); auto.
  - apply Forall_app. split; auto. apply Forall_forall. intros c Hc.
    apply repeat_spec in Hc. subst. reflexivity.
Qed.

(** ** Line numbers *)
Lemma lines_cons : forall l, exists a ls, lines l = a :: ls.
Proof.
  intros [|x l]; simpl; eauto. destruct (N.eqb (fst x) 10); eauto. destruct (lines l); eauto.
Qed.

Lemma lines_pre : forall p l, Forall (fun x => fst x <> 10%N) p ->
  lines (p ++ l) = match lines l with a :: ls => (p ++ a) :: ls | [] => [] end.
Proof.
  induction p as [|x p IH]; intros l H; simpl.
  - destruct (lines_cons l) as [a [ls ->]]. reflexivity.
  - inversion H as [|? ? Hx Hp]; subst. destruct (N.eqb_spec (fst x) 10); [contradiction|].
    rewrite IH; auto. destruct (lines_cons l) as [a [ls ->]]. reflexivity.
Qed.

Lemma styled_text_no_nl : forall st s, ~ In 10%N s ->
  Forall (fun x : char * list str => fst x <> 10%N) (styled_text st s).
Proof.
  intros st s H. apply Forall_map. apply Forall_forall. intros c Hc. simpl. intros ->. auto.
Qed.

Definition number_chars (w i : nat) (st : list str) : list (char * list str) :=
  styled_text (code_lineno :: st) (zfill w (dec i) ++ [32%N]).

Lemma digit_not_nl : forall c, is_digit c = true -> c <> 10%N.
Proof. intros c H ->. discriminate H. Qed.

Lemma number_no_nl : forall w i, length (dec i) <= w -> ~ In 10%N (zfill w (dec i) ++ [32%N]).
Proof.
  intros w i Hw H. destruct (zfill_spec w (dec i) Hw (dec_digits i)) as [_ [_ HF]].
  apply in_app_or in H. destruct H as [H|[H|[]]]; [|discriminate].
  rewrite Forall_forall in HF. apply HF in H. now apply digit_not_nl in H.
Qed.

Lemma number_numbered : forall w i st, length (dec i) <= w -> numbered w i (number_chars w i st).
Proof.
  intros w i st Hw. destruct (zfill_spec w (dec i) Hw (dec_digits i)) as [H1 [H2 H3]].
  exists (zfill w (dec i)). split; [|split; [|split; [|split]]]; auto.
  - unfold number_chars, styled_text. rewrite map_map. simpl. apply map_id.
  - now rewrite H2, int_dec.
  - apply Forall_map. apply Forall_forall. intros c Hc. simpl.
    assert (c <> 10%N) by (intros ->; exact (number_no_nl w i Hw Hc)).
    destruct (N.eqb_spec c 10); [contradiction|]. eauto.
Qed.

Lemma styled_number : forall w i st ts,
  styled st (TBegin code_lineno :: TText (zfill w (dec i) ++ [32%N]) :: TEnd :: ts) =
  number_chars w i st ++ styled st ts.
Proof.
  intros. change (styled (code_lineno :: st) (TText (zfill w (dec i) ++ [32%N]) :: TEnd :: ts) =
                  number_chars w i st ++ styled st ts).
  now rewrite styled_text_cons.
Qed.

Lemma number_of_lines_from_spec : forall ts k,
  number_of_lines_from k ts = k + number_of_lines_from 0 ts.
Proof.
  induction ts as [|[s|n|s|] ts IH]; intro k; simpl; auto.
  rewrite (IH (k + n)), (IH n). lia.
Qed.
Lemma number_of_lines_nl : forall ts k n,
  number_of_lines_from k (TNewline n :: ts) = number_of_lines_from k ts + n.
Proof.
  intros. simpl. rewrite (number_of_lines_from_spec ts (k + n)), (number_of_lines_from_spec ts k).
  lia.
Qed.

Definition first_line (ls : list (list (char * list str))) : list (char * list str) := hd [] ls.

Lemma add_numbers_spec : forall ts w line st, no_nl ts ->
  length (dec (number_of_lines_from line ts)) <= w ->
  exists ls', lines (styled st (add_numbers_loop w line ts)) =
      hd [] (lines (styled st ts)) :: ls' /\
    with_numbers w (S line) (tl (lines (styled st ts))) ls'.
Proof.
  induction ts as [|t ts IH]; intros w line st Hn Hw.
  - exists []. split; auto. constructor.
  - assert (Hn' : no_nl ts) by (intros s Hs; apply Hn; now right).
    destruct t as [s|n|s|]; cbn [add_numbers_loop].
    + destruct (IH w line st Hn' Hw) as [ls' [E1 E2]]. rewrite !styled_text_cons.
      assert (Hs : Forall (fun x : char * list str => fst x <> 10%N) (styled_text st s)).
      { apply styled_text_no_nl. apply Hn. now left. }
      rewrite !lines_pre by exact Hs. rewrite E1.
      destruct (lines_cons (styled st ts)) as [a [ls El]]. rewrite El in *.
      exists ls'. auto.
    + assert (Hw2 : length (dec (number_of_lines_from (line + n) ts)) <= w) by exact Hw.
      destruct (IH w (line + n) st Hn' Hw2) as [ls' [E1 E2]].
      rewrite styled_nl_cons.
      assert (Hle : line + n <= number_of_lines_from (line + n) ts).
      { rewrite number_of_lines_from_spec. lia. }
      assert (Hd : forall i, i <= line + n -> length (dec i) <= w).
      { intros i Hi. eapply Nat.le_trans; [|exact Hw2]. apply dec_length_mono. lia. }
      clear Hn Hw Hw2 IH Hle. revert line E1 E2 Hd. induction n as [|n IHn]; intros line E1 E2 Hd.
      * exists ls'. rewrite Nat.add_0_r in *. auto.
      * rewrite <- Nat.add_succ_comm in E1, E2, Hd.
        destruct (IHn (S line) E1 E2 Hd) as [ls2 [F1 F2]].
        replace (line + S n) with (S line + n) by lia.
        cbn [number_newlines app]. rewrite styled_nl_cons. cbn [repeat app].
        rewrite styled_number. cbn [lines fst]. rewrite N.eqb_refl.
        eexists. split; [reflexivity|]. cbn [tl].
        rewrite (lines_pre (number_chars w (S line) st))
          by (apply styled_text_no_nl, number_no_nl, Hd; lia).
        rewrite F1.
        destruct (lines_cons (repeat (10%N, []) n ++ styled st ts)) as [a [ls El]].
        rewrite El in *. constructor; auto. apply number_numbered. apply Hd. lia.
    + destruct (IH w line (s :: st) Hn' Hw) as [ls' [E1 E2]]. exists ls'. split; auto.
    + destruct (IH w line (tl st) Hn' Hw) as [ls' [E1 E2]]. exists ls'. split; auto.
Qed.

Lemma number_newlines_nest : forall w n line k ts,
  nest k (number_newlines w n line ++ ts) = nest k ts.
Proof. induction n; intros; simpl; auto. Qed.
Lemma add_numbers_nest : forall ts w line n, nest n (add_numbers_loop w line ts) = nest n ts.
Proof.
  induction ts as [|[s|k|s|] ts IH]; intros w line n; simpl; auto.
  - now rewrite number_newlines_nest.
  - destruct n; auto.
Qed.
Lemma number_newlines_count : forall w n line k ts,
  number_of_lines_from k (number_newlines w n line ++ ts) = number_of_lines_from (k + n) ts.
Proof.
  induction n; intros; simpl; [now rewrite Nat.add_0_r|]. rewrite IHn. f_equal. lia.
Qed.
Lemma add_numbers_count : forall ts w line k,
  number_of_lines_from k (add_numbers_loop w line ts) = number_of_lines_from k ts.
Proof.
  induction ts as [|[s|n|s|] ts IH]; intros w line k; simpl; auto.
  rewrite number_newlines_count. auto.
Qed.

Lemma line_numbers_spec : forall ts, no_nl ts -> exists w,
  1 <= w /\ w = length (dec (number_of_lines ts)) /\
  with_numbers w 1 (lines (styled [] ts)) (lines (styled [] (add_line_numbers ts))) /\
  (forall n, nest n (add_line_numbers ts) = nest n ts) /\
  number_of_lines (add_line_numbers ts) = number_of_lines ts.
Proof.
  intros ts H. exists (length (dec (number_of_lines ts))).
  split; [apply dec_nonempty|]. split; auto. unfold add_line_numbers.
  set (w := length (dec (number_of_lines ts))).
  assert (H1 : length (dec 1) <= w) by (apply dec_length_mono; unfold number_of_lines;
    rewrite number_of_lines_from_spec; lia).
  change [49%N] with (dec 1). split; [|split].
  - rewrite styled_number.
    rewrite lines_pre by (apply styled_text_no_nl, number_no_nl; exact H1).
    destruct (add_numbers_spec ts w 1 [] H) as [ls' [-> E2]]; [unfold w, number_of_lines; lia|].
    destruct (lines_cons (styled [] ts)) as [a [ls El]]. rewrite El in *. simpl hd. simpl tl in E2.
    constructor; auto. now apply number_numbered.
  - intro n. simpl. apply add_numbers_nest.
  - unfold number_of_lines. simpl. apply add_numbers_count.
Qed.

(** Number of lines. *)
Lemma lines_count : forall ts st, no_nl ts ->
  length (lines (styled st ts)) = number_of_lines ts.
Proof.
  unfold number_of_lines. induction ts as [|t ts IH]; intros st Hn; auto.
  assert (Hn' : no_nl ts) by (intros s Hs; apply Hn; now right).
  destruct t as [s|n|s|].
  - rewrite styled_text_cons, lines_pre; [|apply styled_text_no_nl, Hn; now left].
    specialize (IH st Hn'). destruct (lines_cons (styled st ts)) as [a [ls El]].
    rewrite El in *. exact IH.
  - rewrite number_of_lines_nl, styled_nl_cons, <- (IH st Hn').
    clear. induction n; simpl; [lia|]. rewrite IHn. lia.
  - apply (IH (s :: st) Hn').
  - apply (IH (tl st) Hn').
Qed.
