(** Proofs about the model of show.py. *)
From Coq Require Import List ZArith NArith Bool String Lia.
From Verif Require Import Py PyFacts ShowModel ShowSpec.
Import ListNotations.
Open Scope Z_scope.

(** ** Numerals *)
Lemma decimal_digit_val : forall c v, decimal c v <-> digit_val c = Some v.
Proof.
  intros c v. split.
  - intros [z [Hz [Hv Hc]]].
    assert (E : c = (z + Z.to_N v)%N) by lia. subst c.
    unfold digit_val. rewrite digit_in_complete; [| apply spaced_nd | exact Hz | lia].
    f_equal. lia.
  - intro H. apply digit_in_spec in H. destruct H as [z [H1 [H2 [H3 H4]]]].
    exists z. split; auto. lia.
Qed.

Lemma decimal_is_digit : forall c v, decimal c v -> is_digit c = true.
Proof.
  intros c v H. apply decimal_digit_val in H. unfold is_digit. now rewrite H.
Qed.

Lemma is_digit_decimal : forall c, is_digit c = true -> exists v, decimal c v.
Proof.
  intros c H. unfold is_digit in H. destruct (digit_val c) as [v|] eqn:E; [|discriminate].
  exists v. now apply decimal_digit_val.
Qed.

Lemma numeral_digits : forall s n, numeral s n ->
  s <> [] /\ Forall (fun c => is_digit c = true) s /\ int_of_digits s = n.
Proof.
  induction 1 as [c v H | s n c v H IH Hc].
  - repeat split; [discriminate | |].
    + constructor; auto. now apply decimal_is_digit in H.
    + apply decimal_digit_val in H. unfold int_of_digits, digits_acc. now rewrite H.
  - destruct IH as [H1 [H2 H3]]. repeat split.
    + destruct s; discriminate.
    + apply Forall_app. split; auto. constructor; auto. now apply decimal_is_digit in Hc.
    + unfold int_of_digits in *. rewrite digits_acc_app, H3. simpl.
      apply decimal_digit_val in Hc. now rewrite Hc.
Qed.

Lemma digits_numeral : forall s, s <> [] -> Forall (fun c => is_digit c = true) s ->
  numeral s (int_of_digits s).
Proof.
  intros s. induction s as [|c s IH] using rev_ind; intros Hn HF; [congruence|].
  apply Forall_app in HF. destruct HF as [HF Hc]. inversion Hc; subst.
  destruct (is_digit_decimal _ H1) as [v Hv].
  assert (Hd := Hv). apply decimal_digit_val in Hd.
  unfold int_of_digits. rewrite digits_acc_app. simpl. rewrite Hd.
  destruct s as [|c0 s0].
  - simpl. now apply num_one.
  - apply num_snoc; auto. apply IH; auto. discriminate.
Qed.

Lemma digits_acc_nonneg : forall s a, 0 <= a -> 0 <= digits_acc a s.
Proof.
  induction s as [|c s IH]; intros a Ha; auto.
  cbn [digits_acc]. apply IH. destruct (digit_val c) as [v|] eqn:E; [|lia].
  apply decimal_digit_val in E. destruct E as [z [_ [Hv _]]]. lia.
Qed.

Lemma numeral_nonneg : forall s n, numeral s n -> 0 <= n.
Proof.
  intros s n H. apply numeral_digits in H. destruct H as [_ [_ H]]. subst.
  apply digits_acc_nonneg. lia.
Qed.

(** ** The regular expression *)
Definition abs_from (f : from_group) : sel_start :=
  match f with
  | FromDigits s => AtNumber (int_of_digits s)
  | FromNext => AtNext
  | FromLast => AtLast
  end.
Definition abs_tail (t : tail_group) : sel_extent :=
  match t with TailNone => Single | TailOpen => Open | TailEnd s => UpTo (int_of_digits s) end.

Lemma match_tail_complete : forall e se, extent_text e se ->
  exists t, match_tail se = Some t /\ abs_tail t = e.
Proof.
  intros e se H. inversion H; subst.
  - exists TailNone. auto.
  - exists TailOpen. auto.
  - apply numeral_digits in H0. destruct H0 as [H1 [H2 H3]].
    exists (TailEnd s). destruct s as [|c s]; [congruence|].
    split; [|simpl; now rewrite H3].
    change (pys "-" ++ c :: s) with (45%N :: c :: s).
    cbv beta iota delta [match_tail at_dollar].
    assert (Hsp : span is_digit (c :: s) = (c :: s, [])).
    { rewrite <- (app_nil_r (c :: s)) at 1. apply span_exact; auto. }
    rewrite Hsp. reflexivity.
Qed.

Lemma at_dollar_inv : forall s, at_dollar s = true -> s = [] \/ s = [10%N].
Proof.
  intros [|c [|d s]] H; simpl in H; try discriminate; auto.
  apply N.eqb_eq in H. subst. auto.
Qed.

(** A trailing newline is not possible in a stripped string. *)
Lemma stripped_no_nl : forall a, ~ stripped (a ++ [10%N]).
Proof.
  intros a [_ [H|[t [c [H Hc]]]]].
  - destruct a; discriminate.
  - apply app_inj_tail in H. destruct H. subst. discriminate.
Qed.

Lemma match_tail_sound : forall pre s t, stripped (pre ++ s) ->
  match_tail s = Some t -> extent_text (abs_tail t) s.
Proof.
  intros pre s t Hs H. unfold match_tail in H.
  destruct (at_dollar s) eqn:E.
  - inversion H; subst. apply at_dollar_inv in E. destruct E as [-> | ->].
    + constructor.
    + now apply stripped_no_nl in Hs.
  - destruct s as [|c s]; [discriminate|].
    assert (C : c = 43%N \/ c = 45%N \/ (c <> 43%N /\ c <> 45%N)) by lia.
    destruct C as [-> | [-> | [C1 C2]]].
    + destruct (at_dollar s) eqn:E2; [|discriminate]. inversion H; subst.
      apply at_dollar_inv in E2. destruct E2 as [-> | ->]; [constructor|].
      replace (pre ++ [43%N; 10%N]) with ((pre ++ [43%N]) ++ [10%N]) in Hs
        by (rewrite <- app_assoc; reflexivity).
      now apply stripped_no_nl in Hs.
    + destruct (span is_digit s) as [ds rest] eqn:Es.
      destruct ds as [|d ds]; [discriminate|].
      destruct (at_dollar rest) eqn:E2; [|discriminate]. inversion H; subst.
      assert (Ha := span_app _ _ _ _ Es). assert (Hf := span_all _ _ _ _ Es). subst s.
      apply at_dollar_inv in E2. destruct E2 as [-> | ->].
      * rewrite app_nil_r. apply (et_upto (d :: ds)). now apply digits_numeral.
      * replace (pre ++ 45%N :: (d :: ds) ++ [10%N])
          with ((pre ++ 45%N :: d :: ds) ++ [10%N]) in Hs
          by (rewrite <- app_assoc; reflexivity).
        now apply stripped_no_nl in Hs.
    + destruct c as [|p]; [discriminate|].
      do 6 (destruct p as [p|p|]; try discriminate); congruence.
Qed.

Lemma extent_not_digit : forall e se, extent_text e se ->
  se = [] \/ exists c b', se = c :: b' /\ is_digit c = false.
Proof.
  intros e se H. inversion H; subst; auto; right.
  - exists 43%N, []. split; reflexivity.
  - exists 45%N, s. split; reflexivity.
Qed.

Lemma match_show_complete : forall f e sf se, start_text f sf -> extent_text e se ->
  exists f' t, match_show (sf ++ se) = Some (f', t) /\ abs_from f' = f /\ abs_tail t = e.
Proof.
  intros f e sf se Hf He.
  destruct (match_tail_complete _ _ He) as [t [Ht Hat]].
  destruct Hf as [s n H| |]; unfold match_show.
  - apply numeral_digits in H. destruct H as [H1 [H2 H3]].
    rewrite (span_exact is_digit s se); auto.
    + destruct s as [|c s]; [congruence|]. rewrite Ht.
      exists (FromDigits (c :: s)), t. simpl. now rewrite <- H3.
    + now apply extent_not_digit in He.
  - exists FromNext, t. simpl. rewrite Ht. auto.
  - exists FromLast, t. simpl. rewrite Ht. auto.
Qed.

Lemma match_show_sound : forall s f t, stripped s -> match_show s = Some (f, t) ->
  exists sf se, s = sf ++ se /\ start_text (abs_from f) sf /\ extent_text (abs_tail t) se.
Proof.
  intros s f t Hs H. unfold match_show in H.
  destruct (span is_digit s) as [ds rest] eqn:Es.
  destruct ds as [|d ds].
  - destruct (strip_prefix (pys "next") s) as [r|] eqn:E1.
    + apply strip_prefix_spec in E1. subst s.
      destruct (match_tail r) as [t'|] eqn:Et; [|discriminate]. inversion H; subst.
      exists (pys "next"), r. repeat split; try constructor.
      now apply (match_tail_sound (pys "next")).
    + destruct (strip_prefix (pys "last") s) as [r|] eqn:E2; [|discriminate].
      apply strip_prefix_spec in E2. subst s.
      destruct (match_tail r) as [t'|] eqn:Et; [|discriminate]. inversion H; subst.
      exists (pys "last"), r. repeat split; try constructor.
      now apply (match_tail_sound (pys "last")).
  - destruct (match_tail rest) as [t'|] eqn:Et; [|discriminate]. inversion H; subst.
    assert (Ha := span_app _ _ _ _ Es). assert (Hf := span_all _ _ _ _ Es). subst s.
    exists (d :: ds), rest. repeat split.
    + simpl. constructor. apply digits_numeral; auto. discriminate.
    + now apply (match_tail_sound (d :: ds)).
Qed.

(** ** Sets of steps *)
Lemma In_zinsert : forall x y l, In y (zinsert x l) <-> y = x \/ In y l.
Proof.
  induction l as [|a l IH]; simpl; [intuition|].
  destruct (x <? a) eqn:E1; [simpl; intuition|].
  destruct (x =? a) eqn:E2.
  - apply Z.eqb_eq in E2. subst. simpl. intuition.
  - simpl. rewrite IH. intuition.
Qed.

Lemma In_set_update : forall l s y, In y (set_update s l) <-> In y s \/ In y l.
Proof.
  induction l as [|a l IH]; simpl; intros s y; [intuition|].
  rewrite In_zinsert, IH. intuition.
Qed.

Lemma In_zseq : forall n a x, In x (zseq a n) <-> a <= x < a + Z.of_nat n.
Proof.
  induction n as [|n IH]; intros a x; simpl.
  - lia.
  - rewrite IH. lia.
Qed.

Lemma In_zrange : forall a b x, In x (zrange a b) <-> a <= x <= b.
Proof.
  intros a b x. unfold zrange. rewrite In_zseq.
  destruct (Z.le_gt_cases a (b + 1)); lia.
Qed.

Lemma max_default_ge : forall l d x, In x l -> x <= max_default d l.
Proof.
  induction l as [|a l IH]; simpl; intros d x H; [tauto|].
  destruct l as [|b l].
  - destruct H as [H|[]]. lia.
  - destruct H as [->|H].
    + lia.
    + apply (IH d) in H. lia.
Qed.

Lemma max_default_in : forall l d, l <> [] -> In (max_default d l) l.
Proof.
  induction l as [|a l IH]; intros d H; [congruence|].
  destruct l as [|b l].
  - now left.
  - change (max_default d (a :: b :: l)) with (Z.max a (max_default d (b :: l))).
    destruct (Z.max_spec a (max_default d (b :: l))) as [[_ E]|[_ E]]; rewrite E.
    + right. apply IH. discriminate.
    + now left.
Qed.

(** ** Parsing *)

(** Interval text [i] reads as selector [x]. *)
Definition reads (i : str) (x : selector) : Prop :=
  exists f t, match_show i = Some (f, t) /\ x = (abs_from f, abs_tail t).

Lemma starts_at_fun : forall cur f a b, starts_at cur f a -> starts_at cur f b -> a = b.
Proof.
  intros cur f a b H1 H2. inversion H1; subst; inversion H2; subst; congruence.
Qed.

Lemma resolve_from_spec : forall f cur v,
  resolve_from f cur = Ok v <-> starts_at cur (abs_from f) v.
Proof.
  intros f cur v. split; intro H.
  - destruct f as [s| |]; simpl in *.
    + inversion H. constructor.
    + destruct cur; inversion H. now constructor.
    + destruct cur; inversion H. now constructor.
  - destruct f as [s| |]; simpl in *; inversion H; subst; auto.
Qed.

Definition b2n (b : bool) : nat := if b then 1%nat else 0%nat.
Definition is_some {A} (o : option A) : bool := match o with Some _ => true | _ => false end.

Definition shows (st : list Z) (op : option Z) (k : Z) : Prop :=
  In k st \/ exists o, op = Some o /\ o <= k.

Lemma parse_intervals_reads : forall is cur st op r,
  parse_intervals is cur st op = Ok r -> exists xs, Forall2 reads is xs.
Proof.
  induction is as [|i is IH]; intros cur st op r H.
  - exists []. constructor.
  - simpl in H. destruct (match_show i) as [[f t]|] eqn:E; [|discriminate].
    assert (Hr : exists is', exists st' op', is' = is /\
                  parse_intervals is' cur st' op' = Ok r).
    { destruct (resolve_from f cur) as [v|] eqn:Ev; simpl in H; [|discriminate].
      destruct t.
      - eauto.
      - destruct op; [discriminate|]. eauto.
      - destruct (v <=? int_of_digits s); [|discriminate]. eauto. }
    destruct Hr as [is' [st' [op' [-> Hr]]]].
    apply IH in Hr. destruct Hr as [xs Hxs].
    exists ((abs_from f, abs_tail t) :: xs). constructor; auto.
    exists f, t. auto.
Qed.

Lemma parse_intervals_ok : forall is xs cur st op st' op',
  Forall2 reads is xs -> parse_intervals is cur st op = Ok (st', op') ->
  Forall (sensible cur) xs /\
  (List.length (filter is_open xs) + b2n (is_some op) <= 1)%nat /\
  (forall k, shows st' op' k <-> shows st op k \/ exists x, In x xs /\ covers cur x k).
Proof.
  induction is as [|i is IH]; intros xs cur st op st' op' HF H.
  - inversion HF; subst. simpl in H. inversion H; subst.
    repeat split.
    + constructor.
    + destruct op'; simpl; auto.
    + intro Hs. now left.
    + intros [Hs|[x [[] _]]]. exact Hs.
  - inversion HF as [|? x ? xs' Hx HF']; subst. simpl in H.
    destruct Hx as [f [t [Em Ex]]]. rewrite Em in H.
    destruct (resolve_from f cur) as [v|] eqn:Ev; simpl in H; [|discriminate].
    apply resolve_from_spec in Ev.
    destruct t as [| |ds].
    + destruct (IH _ _ _ _ _ _ HF' H) as [H1 [H2 H3]]. subst x. repeat split.
      * constructor; auto. exists v. simpl. auto.
      * simpl. exact H2.
      * intro Hk. apply H3 in Hk. destruct Hk as [[Hk|Hk]|Hk].
        -- apply In_set_update in Hk. destruct Hk as [Hk|Hk].
           ++ left. now left.
           ++ right. exists (abs_from f, Single). split; [now left|].
              exists v. split; auto. simpl. apply In_zrange in Hk. lia.
        -- left. now right.
        -- destruct Hk as [y [Hy Hc]]. right. exists y. split; auto. now right.
      * intros [Hk|[y [[Hy|Hy] Hc]]]; apply H3.
        -- destruct Hk as [Hk|Hk]; left; [left|right]; auto.
           apply In_set_update. now left.
        -- subst y. destruct Hc as [a [Ha Hk]]. simpl in Ha, Hk.
           rewrite (starts_at_fun _ _ _ _ Ha Ev) in Hk. subst k.
           left. left. apply In_set_update. right. apply In_zrange. lia.
        -- right. eauto.
    + destruct op as [o|]; [discriminate|].
      destruct (IH _ _ _ _ _ _ HF' H) as [H1 [H2 H3]]. subst x. repeat split.
      * constructor; auto. exists v. simpl. auto.
      * simpl in *. lia.
      * intro Hk. apply H3 in Hk. destruct Hk as [[Hk|Hk]|Hk].
        -- left. now left.
        -- destruct Hk as [o [Ho Hk]]. inversion Ho; subst o.
           right. exists (abs_from f, Open). split; [now left|].
           exists v. split; auto.
        -- destruct Hk as [y [Hy Hc]]. right. exists y. split; auto. now right.
      * intros [Hk|[y [[Hy|Hy] Hc]]]; apply H3.
        -- destruct Hk as [Hk|[o [Ho _]]]; [left; now left | discriminate].
        -- subst y. destruct Hc as [a [Ha Hk]]. simpl in Ha, Hk.
           rewrite (starts_at_fun _ _ _ _ Ha Ev) in Hk.
           left. right. eauto.
        -- right. eauto.
    + destruct (v <=? int_of_digits ds) eqn:El; [|discriminate]. apply Z.leb_le in El.
      destruct (IH _ _ _ _ _ _ HF' H) as [H1 [H2 H3]]. subst x. repeat split.
      * constructor; auto. exists v. simpl. auto.
      * simpl. exact H2.
      * intro Hk. apply H3 in Hk. destruct Hk as [[Hk|Hk]|Hk].
        -- apply In_set_update in Hk. destruct Hk as [Hk|Hk].
           ++ left. now left.
           ++ right. exists (abs_from f, UpTo (int_of_digits ds)). split; [now left|].
              exists v. split; auto. simpl. apply In_zrange in Hk. lia.
        -- left. now right.
        -- destruct Hk as [y [Hy Hc]]. right. exists y. split; auto. now right.
      * intros [Hk|[y [[Hy|Hy] Hc]]]; apply H3.
        -- destruct Hk as [Hk|Hk]; left; [left|right]; auto.
           apply In_set_update. now left.
        -- subst y. destruct Hc as [a [Ha Hk]]. simpl in Ha, Hk.
           rewrite (starts_at_fun _ _ _ _ Ha Ev) in Hk.
           left. left. apply In_set_update. right. apply In_zrange. lia.
        -- right. eauto.
Qed.

Lemma parse_intervals_total : forall is xs cur st op,
  Forall2 reads is xs -> Forall (sensible cur) xs ->
  (List.length (filter is_open xs) + b2n (is_some op) <= 1)%nat ->
  exists r, parse_intervals is cur st op = Ok r.
Proof.
  induction is as [|i is IH]; intros xs cur st op HF HS HO.
  - eexists. reflexivity.
  - inversion HF as [|? x ? xs' Hx HF']; subst.
    inversion HS as [|? ? Hsx HS']; subst.
    destruct Hx as [f [t [Em Ex]]]. subst x. simpl. rewrite Em.
    destruct Hsx as [a [Ha Hl]]. simpl in Ha, Hl.
    apply resolve_from_spec in Ha. rewrite Ha. simpl.
    destruct t as [| |ds]; simpl in *.
    + now apply (IH xs').
    + destruct op; simpl in *; [lia|]. apply (IH xs'); auto. simpl. lia.
    + apply Z.leb_le in Hl. rewrite Hl. now apply (IH xs').
Qed.

(** ** Whole strings *)
Lemma blank_space : forall s, blank s <-> Forall (fun c => is_space c = true) s.
Proof.
  intro s. unfold blank. split; intro H; eapply Forall_impl; try exact H;
    intros c Hc; now apply is_space_In.
Qed.

Lemma start_text_head : forall f sf, start_text f sf ->
  exists c t, sf = c :: t /\ is_space c = false.
Proof.
  intros f sf H. inversion H; subst.
  - apply numeral_digits in H0. destruct H0 as [H1 [H2 _]].
    destruct sf as [|c s]; [congruence|]. inversion H2; subst.
    exists c, s. split; auto. now apply digit_not_space.
  - eexists _, _. split; [reflexivity|]. reflexivity.
  - eexists _, _. split; [reflexivity|]. reflexivity.
Qed.

Lemma digits_last : forall s, s <> [] -> Forall (fun c => is_digit c = true) s ->
  exists t c, s = t ++ [c] /\ is_space c = false.
Proof.
  intros s Hn HF. destruct (exists_last Hn) as [t [c E]]. exists t, c. split; auto.
  rewrite E in HF. apply Forall_app in HF. destruct HF as [_ HF].
  inversion HF; subst. now apply digit_not_space.
Qed.

Lemma sel_text_stripped : forall f e sf se, start_text f sf -> extent_text e se ->
  stripped (sf ++ se).
Proof.
  intros f e sf se Hf He. split; right.
  - destruct (start_text_head _ _ Hf) as [c [t [-> Hc]]]. now exists c, (t ++ se).
  - inversion He; subst.
    + rewrite app_nil_r. inversion Hf; subst.
      * apply numeral_digits in H. destruct H as [H1 [H2 _]]. now apply digits_last.
      * exists (pys "nex"), 116%N. split; reflexivity.
      * exists (pys "las"), 116%N. split; reflexivity.
    + exists sf, 43%N. split; reflexivity.
    + apply numeral_digits in H. destruct H as [H1 [H2 _]].
      destruct (digits_last _ H1 H2) as [t [c [-> Hc]]].
      exists (sf ++ pys "-" ++ t), c. split; auto. now rewrite <- !app_assoc.
Qed.

Definition no_comma (s : str) := ~ In 44%N s.

Lemma blank_no_comma : forall s, blank s -> no_comma s.
Proof.
  intros s H Hi. unfold blank in H. rewrite Forall_forall in H. apply H in Hi.
  revert Hi. unfold ws_table. simpl. intuition discriminate.
Qed.

Lemma digits_no_comma : forall s, Forall (fun c => is_digit c = true) s -> no_comma s.
Proof.
  intros s H Hi. rewrite Forall_forall in H. apply H in Hi. discriminate.
Qed.

Lemma no_comma_app : forall a b, no_comma a -> no_comma b -> no_comma (a ++ b).
Proof. intros a b Ha Hb Hi. apply in_app_or in Hi. destruct Hi; auto. Qed.

Lemma selector_text_no_comma : forall x s, selector_text x s -> no_comma s.
Proof.
  intros x s H. inversion H; subst.
  apply no_comma_app; [now apply blank_no_comma|].
  apply no_comma_app; [|now apply blank_no_comma].
  apply no_comma_app.
  - inversion H0; subst.
    + apply digits_no_comma. now apply numeral_digits in H4.
    + intros Hi. simpl in Hi. intuition discriminate.
    + intros Hi. simpl in Hi. intuition discriminate.
  - inversion H1; subst.
    + intros [].
    + intros Hi. simpl in Hi. intuition discriminate.
    + apply no_comma_app.
      * intros Hi. simpl in Hi. intuition discriminate.
      * apply digits_no_comma. now apply numeral_digits in H4.
Qed.

Lemma selector_text_reads : forall x s, selector_text x s -> reads (strip s) x.
Proof.
  intros x s H. inversion H; subst.
  rewrite strip_exact; try (now apply blank_space).
  - destruct (match_show_complete _ _ _ _ H0 H1) as [f' [t [Em [Ef Et]]]].
    exists f', t. now rewrite Ef, Et.
  - eapply sel_text_stripped; eauto.
Qed.

Lemma reads_selector_text : forall x s, reads (strip s) x -> selector_text x s.
Proof.
  intros x s [f [t [Em ->]]].
  destruct (strip_spec s) as [l [r [Es [Hl [Hr Hs]]]]].
  destruct (match_show_sound _ _ _ Hs Em) as [sf [se [E [Hf He]]]].
  rewrite Es, E. constructor; auto; now apply blank_space.
Qed.

Lemma selectors_text_join : forall xs s, selectors_text xs s <->
  exists ps, ps <> [] /\ s = join_with [44%N] ps /\ Forall2 (fun p x => selector_text x p) ps xs.
Proof.
  intros xs s. split.
  - induction 1 as [x s H | x s xs s' H H' [ps [Hn [-> HF]]]].
    + exists [s]. repeat split; auto. discriminate.
    + exists (s :: ps). repeat split; auto; try discriminate.
      destruct ps as [|p ps]; [congruence|]. reflexivity.
  - intros [ps [Hn [-> HF]]]. induction HF as [|p x ps xs H HF IH]; [congruence|].
    destruct ps as [|p2 ps].
    + inversion HF; subst. simpl. now constructor.
    + change (join_with [44%N] (p :: p2 :: ps))
        with (p ++ pys "," ++ join_with [44%N] (p2 :: ps)).
      constructor; auto. apply IH. discriminate.
Qed.

Lemma selectors_text_split : forall xs s,
  selectors_text xs s <-> Forall2 reads (map strip (split_on 44%N s)) xs.
Proof.
  intros xs s. rewrite selectors_text_join. split.
  - intros [ps [Hn [-> HF]]]. rewrite split_join; auto.
    + clear Hn. induction HF as [|p x ps xs H HF IH]; simpl; constructor; auto.
      now apply selector_text_reads.
    + clear Hn. induction HF as [|p x ps xs H HF IH]; constructor; auto.
      now apply selector_text_no_comma in H.
  - intro HF. exists (split_on 44%N s). repeat split.
    + apply split_on_not_nil.
    + now rewrite join_split.
    + remember (split_on 44%N s) as ps. clear Heqps. revert xs HF.
      induction ps as [|p ps IH]; intros xs HF; inversion HF; subst; constructor; auto.
      now apply reads_selector_text.
Qed.

Lemma parse_show_str_inv : forall s cur i, parse_show_str s cur = Ok i ->
  exists st op, parse_intervals (map strip (split_on 44%N s)) cur [] None = Ok (st, op) /\
  i = mk_show_info (Some st) op None.
Proof.
  intros s cur i H. unfold parse_show_str in H.
  destruct (map strip (split_on 44%N s)) as [|p ps] eqn:E; [discriminate|].
  destruct (parse_intervals (p :: ps) cur [] None) as [[st op]|] eqn:Ep; [|discriminate].
  simpl in H. inversion H; subst. eauto.
Qed.

Lemma visible_shows : forall st op k,
  is_visible (mk_show_info (Some st) op None) k = true <-> shows st op k.
Proof.
  intros st op k. unfold is_visible, shows. simpl. rewrite orb_true_iff, existsb_exists.
  split; intros [H|H].
  - destruct H as [x [Hx He]]. apply Z.eqb_eq in He. subst. now left.
  - destruct op as [o|]; [|discriminate]. apply Z.leb_le in H. right. eauto.
  - left. exists k. split; auto. apply Z.eqb_refl.
  - destruct H as [o [-> Ho]]. right. now apply Z.leb_le.
Qed.

Theorem show_visible : forall s cur i xs, parse_show (ShowStr s) cur = Ok i ->
  selectors_text xs s ->
  forall k, is_visible i k = true <-> exists x, In x xs /\ covers cur x k.
Proof.
  intros s cur i xs H Hs k. apply parse_show_str_inv in H.
  destruct H as [st [op [H ->]]]. apply selectors_text_split in Hs.
  destruct (parse_intervals_ok _ _ _ _ _ _ _ Hs H) as [_ [_ H3]].
  rewrite visible_shows, H3. unfold shows. simpl. split.
  - intros [[[]|[o [Ho _]]]|Hx]; [discriminate|auto].
  - auto.
Qed.

Theorem show_accepts : forall s cur,
  (exists i, parse_show (ShowStr s) cur = Ok i) <->
  (exists xs, selectors_text xs s /\ acceptable cur xs).
Proof.
  intros s cur. split.
  - intros [i H]. apply parse_show_str_inv in H. destruct H as [st [op [H ->]]].
    destruct (parse_intervals_reads _ _ _ _ _ H) as [xs Hr].
    exists xs. split; [now apply selectors_text_split|].
    destruct (parse_intervals_ok _ _ _ _ _ _ _ Hr H) as [H1 [H2 _]].
    split; auto. simpl in H2. lia.
  - intros [xs [Hs [H1 H2]]]. apply selectors_text_split in Hs.
    destruct (parse_intervals_total _ _ cur [] None Hs H1) as [[st op] H].
    + simpl. lia.
    + exists (mk_show_info (Some st) op None). simpl. unfold parse_show_str.
      destruct (map strip (split_on 44%N s)) as [|p ps] eqn:E.
      * apply map_eq_nil in E. now apply split_on_not_nil in E.
      * rewrite H. reflexivity.
Qed.

(** The reading of a string is unique. *)
Lemma reads_fun : forall i x y, reads i x -> reads i y -> x = y.
Proof. intros i x y [f [t [H1 ->]]] [f' [t' [H2 ->]]]. congruence. Qed.

Theorem selectors_text_unique : forall s xs ys,
  selectors_text xs s -> selectors_text ys s -> xs = ys.
Proof.
  intros s xs ys H1 H2. apply selectors_text_split in H1. apply selectors_text_split in H2.
  remember (map strip (split_on 44%N s)) as ps. clear Heqps s.
  revert ys H2. induction H1 as [|p x ps xs H HF IH]; intros ys H2; inversion H2; subst; auto.
  f_equal; [eapply reads_fun; eauto|auto].
Qed.

Lemma is_visible_int : forall n cur k i, parse_show (ShowInt n) cur = Ok i ->
  (is_visible i k = true <-> k = n).
Proof.
  intros n cur k i H. inversion H; subst. unfold is_visible. simpl.
  rewrite orb_false_r, orb_false_r. apply Z.eqb_eq.
Qed.

Lemma is_visible_none : forall cur k i, parse_show ShowNone cur = Ok i ->
  (is_visible i k = true <-> 1 <= k).
Proof.
  intros cur k i H. inversion H; subst. unfold is_visible. simpl. apply Z.leb_le.
Qed.

(** ** min_steps *)
Lemma max_step_of_spec : forall st op,
  (forall o, op = Some o -> 0 <= o) ->
  1 <= max_step_of st op /\
  (forall x, In x st -> x <= max_step_of st op) /\
  (forall o, op = Some o -> o <= max_step_of st op) /\
  (max_step_of st op = 1 \/ In (max_step_of st op) st \/ op = Some (max_step_of st op)).
Proof.
  intros st op Hop. unfold max_step_of.
  assert (H1 : forall x, In x st -> x <= max_default 1 st)
    by (intros; now apply max_default_ge).
  assert (H2 : max_default 1 st = 1 \/ In (max_default 1 st) st).
  { destruct st as [|a l]; [now left|]. right. now apply max_default_in. }
  set (m := max_default 1 st) in *. clearbody m.
  set (o1 := match op with Some o => if o =? 0 then 1 else o | None => 1 end).
  assert (H3 : 1 <= o1 /\ (forall o, op = Some o -> o <= o1) /\ (o1 = 1 \/ op = Some o1)).
  { unfold o1. destruct op as [o|].
    - specialize (Hop o eq_refl). destruct (o =? 0) eqn:E.
      + apply Z.eqb_eq in E. subst. repeat split; try lia.
        intros o Ho. inversion Ho. lia.
      + apply Z.eqb_neq in E. repeat split; try lia.
        * intros o' Ho. inversion Ho. lia.
        * now right.
    - repeat split; try lia. discriminate. }
  destruct H3 as [H3 [H4 H5]]. clearbody o1. repeat split.
  - lia.
  - intros x Hx. apply H1 in Hx. lia.
  - intros o Ho. apply H4 in Ho. lia.
  - destruct (Z.max_spec m o1) as [[? E]|[? E]]; rewrite E; tauto.
Qed.

(** What parse_intervals collects. *)
Lemma parse_intervals_collect : forall is xs cur st op st' op',
  Forall2 reads is xs -> parse_intervals is cur st op = Ok (st', op') ->
  (forall k, In k st' <-> In k st \/ exists x, In x xs /\ is_open x = false /\ covers cur x k) /\
  (forall o, op' = Some o <-> op = Some o \/
             exists x, In x xs /\ is_open x = true /\ starts_at cur (fst x) o).
Proof.
  induction is as [|i is IH]; intros xs cur st op st' op' HF H.
  - inversion HF; subst. simpl in H. inversion H; subst. split; intros.
    + split; [tauto|]. intros [?|[x [[] _]]]. auto.
    + split; [tauto|]. intros [?|[x [[] _]]]. auto.
  - inversion HF as [|? x ? xs' Hx HF']; subst. simpl in H.
    destruct Hx as [f [t [Em Ex]]]. rewrite Em in H.
    destruct (resolve_from f cur) as [v|] eqn:Ev; simpl in H; [|discriminate].
    apply resolve_from_spec in Ev.
    assert (Hrange : forall e, t <> TailOpen ->
              (forall k, In k (zrange v e) <-> covers cur x k) ->
              parse_intervals is cur (set_update st (zrange v e)) op = Ok (st', op') ->
              (forall k, In k st' <-> In k st \/
                 exists y, In y (x :: xs') /\ is_open y = false /\ covers cur y k) /\
              (forall o, op' = Some o <-> op = Some o \/
                 exists y, In y (x :: xs') /\ is_open y = true /\ starts_at cur (fst y) o)).
    { intros e Ht Hc Hp.
      assert (Hnx : is_open x = false) by (subst x; unfold is_open; destruct t; simpl; congruence).
      destruct (IH _ _ _ _ _ _ HF' Hp) as [A B]. split.
      - intro k. rewrite A, In_set_update, Hc. split.
        + intros [[Hk|Hk]|[y [Hy Hk]]]; [tauto| |].
          * right. exists x. simpl. tauto.
          * right. exists y. simpl. tauto.
        + intros [Hk|[y [[Hy|Hy] [Hn Hk]]]]; [tauto| |].
          * subst y. tauto.
          * right. eauto.
      - intro o. rewrite B. split.
        + intros [Ho|[y [Hy Ho]]]; [tauto|]. right. exists y. simpl. tauto.
        + intros [Ho|[y [[Hy|Hy] [Hn Ho]]]]; [tauto| |].
          * subst y. congruence.
          * right. eauto. }
    destruct t as [| |ds].
    + apply (Hrange v); auto; try discriminate.
      intro k. rewrite In_zrange. subst x. unfold covers. simpl. split.
      * intro Hk. exists v. split; auto. lia.
      * intros [a [Ha Hk]]. rewrite (starts_at_fun _ _ _ _ Ha Ev) in Hk. lia.
    + clear Hrange. destruct op as [o|]; [discriminate|].
      destruct (IH _ _ _ _ _ _ HF' H) as [A B]. subst x. split.
      * intro k. rewrite A. split.
        -- intros [Hk|[y [Hy Hk]]]; [tauto|]. right. exists y. simpl. tauto.
        -- intros [Hk|[y [[Hy|Hy] [Hn Hk]]]]; [tauto| |].
           ++ subst y. discriminate.
           ++ right. eauto.
      * intro o. rewrite B. split.
        -- intros [Ho|[y [Hy Ho]]].
           ++ inversion Ho; subst o. right. exists (abs_from f, Open). simpl. tauto.
           ++ right. exists y. simpl. tauto.
        -- intros [Ho|[y [[Hy|Hy] [Hn Ho]]]]; [discriminate| |].
           ++ subst y. simpl in Ho. left. f_equal. eapply starts_at_fun; eauto.
           ++ right. eauto.
    + destruct (v <=? int_of_digits ds) eqn:El; [|discriminate]. apply Z.leb_le in El.
      apply (Hrange (int_of_digits ds)); auto; try discriminate.
      intro k. rewrite In_zrange. subst x. unfold covers. simpl. split.
      * intro Hk. exists v. split; auto.
      * intros [a [Ha Hk]]. rewrite (starts_at_fun _ _ _ _ Ha Ev) in Hk. lia.
Qed.

Lemma starts_at_nonneg : forall cur x xs s a, (forall c, cur = Some c -> 0 <= c) ->
  selectors_text xs s -> In x xs -> starts_at cur (fst x) a -> 0 <= a.
Proof.
  intros cur x xs s a Hc Hs Hi Ha.
  assert (Hx : exists t, selector_text x t).
  { induction Hs as [y t H | y t ys t' H Hs IH].
    - destruct Hi as [->|[]]. eauto.
    - destruct Hi as [->|Hi]; eauto. }
  destruct Hx as [t Ht]. inversion Ht; subst. simpl in Ha.
  inversion Ha; subst.
  - inversion H; subst. eapply numeral_nonneg; eauto.
  - specialize (Hc _ eq_refl). lia.
  - now apply Hc.
Qed.

Theorem show_min_steps : forall s cur i xs, (forall c, cur = Some c -> 0 <= c) ->
  parse_show (ShowStr s) cur = Ok i -> selectors_text xs s ->
  1 <= min_steps i /\
  (forall x k, In x xs -> mentions cur x k -> k <= min_steps i) /\
  (min_steps i = 1 \/ exists x, In x xs /\ mentions cur x (min_steps i)).
Proof.
  intros s cur i xs Hc H Hs. apply parse_show_str_inv in H.
  destruct H as [st [op [H ->]]]. assert (Hs' := Hs). apply selectors_text_split in Hs'.
  destruct (parse_intervals_collect _ _ _ _ _ _ _ Hs' H) as [A B].
  destruct (parse_intervals_ok _ _ _ _ _ _ _ Hs' H) as [Sn _].
  assert (Hop : forall o, op = Some o -> 0 <= o).
  { intros o Ho. apply B in Ho. destruct Ho as [Ho|[x [Hx [_ Hst]]]]; [discriminate|].
    eapply starts_at_nonneg; eauto. }
  destruct (max_step_of_spec st op Hop) as [M1 [M2 [M3 M4]]].
  unfold min_steps, mk_show_info. simpl. split; [exact M1|]. split.
  - intros x k Hx Hm. rewrite Forall_forall in Sn.
    destruct (Sn x Hx) as [a [Ha Hl]].
    destruct (is_open x) eqn:Eo.
    + destruct Hm as [Hm|Hm].
      * apply M3. apply B. right. eauto.
      * unfold is_open in Eo. rewrite Hm in Eo. discriminate.
    + apply M2. apply A. right. exists x. repeat split; auto.
      exists a. split; auto.
      destruct Hm as [Hm|Hm].
      * rewrite (starts_at_fun _ _ _ _ Hm Ha). unfold is_open in Eo.
        destruct (snd x); [reflexivity | discriminate | lia].
      * rewrite Hm in *. lia.
  - destruct M4 as [M4|[M4|M4]]; [tauto| |]; right.
    + assert (Hk := M4). apply A in Hk.
      destruct Hk as [[]|[x [Hx [Eo [a [Ha Hk]]]]]]. exists x. split; auto.
      unfold is_open in Eo. destruct (snd x) as [| |b] eqn:Ex; [ | discriminate | ].
      * left. now rewrite Hk.
      * right. rewrite Ex. f_equal. apply Z.le_antisymm; [|tauto].
        apply M2. apply A. right. exists x. repeat split; auto.
        -- unfold is_open. now rewrite Ex.
        -- exists a. split; auto. rewrite Ex. lia.
    + apply B in M4. destruct M4 as [M4|[x [Hx [_ Hst]]]]; [discriminate|].
      exists x. split; auto. now left.
Qed.

Lemma ensure_steps_min : forall i n, 1 <= si_min i ->
  min_steps (ensure_steps i n) = Z.max (min_steps i) n.
Proof.
  intros i n H. unfold min_steps, ensure_steps, mk_show_info. simpl.
  destruct (Z.max (si_min i) n =? 0) eqn:E; auto. apply Z.eqb_eq in E. lia.
Qed.

Lemma ensure_steps_visible : forall i n k,
  is_visible (ensure_steps i n) k = is_visible i k.
Proof. reflexivity. Qed.

(** ASCII decimal notation denotes the number. *)
Lemma dec_digit : forall n, 0 <= n -> decimal (Z.to_N (48 + n mod 10)) (n mod 10).
Proof.
  intros n H. exists 48%N. split; [now left|].
  assert (0 <= n mod 10 < 10) by (apply Z.mod_pos_bound; lia). split; lia.
Qed.

Lemma dec_fuel_numeral : forall fuel n acc, 0 <= n < 2 ^ Z.of_nat fuel ->
  (0 < fuel)%nat -> exists s, dec_fuel fuel n acc = s ++ acc /\ numeral s n.
Proof.
  induction fuel as [|f IH]; intros n acc Hn Hf; [lia|].
  cbn [dec_fuel]. cbv zeta. destruct (n <? 10) eqn:E.
  - apply Z.ltb_lt in E. exists [Z.to_N (48 + n mod 10)]. split; auto.
    rewrite <- (Z.mod_small n 10) at 2 by lia. constructor. apply dec_digit. lia.
  - apply Z.ltb_ge in E.
    assert (Hp : 2 ^ Z.of_nat (S f) = 2 * 2 ^ Z.of_nat f)
      by (rewrite Nat2Z.inj_succ, Z.pow_succ_r; lia).
    rewrite Hp in Hn.
    assert (Hd : 0 <= n / 10) by (apply Z.div_pos; lia).
    assert (Hm : n = 10 * (n / 10) + n mod 10) by (apply Z.div_mod; lia).
    assert (0 <= n mod 10 < 10) by (apply Z.mod_pos_bound; lia).
    destruct (IH (n / 10) (Z.to_N (48 + n mod 10) :: acc)) as [s [Es Hs]].
    + lia.
    + destruct f; [simpl in Hn; lia|lia].
    + exists (s ++ [Z.to_N (48 + n mod 10)]). split.
      * rewrite Es, <- app_assoc. reflexivity.
      * rewrite Hm at 2. constructor; auto. apply dec_digit. lia.
Qed.

Theorem dec_numeral : forall n, 0 <= n -> numeral (dec n) n.
Proof.
  intros n H. unfold dec.
  destruct (dec_fuel_numeral (S (Z.to_nat (Z.log2_up n))) n []) as [s [Es Hs]]; try lia.
  - split; auto. rewrite Nat2Z.inj_succ, Z2Nat.id by apply Z.log2_up_nonneg.
    destruct (Z.eq_dec n 0); [subst; reflexivity|].
    destruct (Z.eq_dec n 1); [subst; reflexivity|].
    assert (n <= 2 ^ Z.log2_up n) by (apply Z.log2_up_spec; lia).
    rewrite Z.pow_succ_r by apply Z.log2_up_nonneg. lia.
  - rewrite app_nil_r in Es. now rewrite Es.
Qed.

(** ** Labels (from_label) *)
Lemma split_first_none : forall sep s, split_first sep s = None ->
  forall a b, s <> a ++ sep ++ b.
Proof.
  intros sep. induction s as [|c s IH]; intros H a b E.
  - simpl in H. destruct a; [|discriminate]. simpl in E.
    destruct (strip_prefix sep []) as [r|] eqn:Ep; [discriminate|].
    rewrite strip_prefix_none in Ep. now apply (Ep b).
  - simpl in H. destruct (strip_prefix sep (c :: s)) as [r|] eqn:Ep; [discriminate|].
    destruct (split_first sep s) as [[x y]|] eqn:E2; [discriminate|].
    rewrite strip_prefix_none in Ep.
    destruct a as [|d a]; simpl in E.
    + exact (Ep b E).
    + injection E as _ E. exact (IH eq_refl a b E).
Qed.
