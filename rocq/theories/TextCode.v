(** Proofs about trim_indent, highlight_code and code(). *)
From Coq Require Import List ZArith NArith Bool Arith Lia.
From Verif Require Import Py PyFacts TextModel TextSpec TextProofs TextMerge TextLines.
Import ListNotations.

(** ** trim_indent *)
Lemma is_break_spec : forall c, is_break c = true <-> boundary c.
Proof.
  intro c. unfold is_break, boundary. rewrite existsb_exists. split.
  - intros [x [H1 H2]]. apply N.eqb_eq in H2. now subst.
  - intro H. exists c. split; auto. apply N.eqb_refl.
Qed.

Lemma splitlines_from_spec : forall n s buf, length s < n ->
  Forall (fun c => ~ boundary c) (rev buf) ->
  has_lines (rev buf ++ s) (splitlines_from buf s).
Proof.
  induction n as [|n IH]; intros s buf Hn Hb; [lia|].
  destruct s as [|c s]; cbn [splitlines_from].
  - rewrite app_nil_r. destruct buf as [|x buf]; [constructor|]. constructor; auto.
    intro E. apply (f_equal (@length N)) in E. rewrite rev_length in E. discriminate.
  - simpl in Hn. destruct (is_break c) eqn:Ec.
    + destruct s as [|d s].
      { apply hl_break; auto; [now apply is_break_spec | discriminate | constructor]. }
      destruct (N.eqb_spec c 13) as [->|H13]; cbn [andb].
      * destruct (N.eqb_spec d 10) as [->|H10].
        -- apply hl_crlf; auto. apply (IH s []); [simpl in Hn; lia | constructor].
        -- apply hl_break; auto; [now apply is_break_spec | intros; congruence |].
           apply (IH (d :: s) []); [lia | constructor].
      * apply hl_break; [exact Hb | now apply is_break_spec | intro; contradiction |].
        apply (IH (d :: s) []); [lia | constructor].
    + replace (rev buf ++ c :: s) with (rev (c :: buf) ++ s)
        by (simpl; now rewrite <- app_assoc).
      apply IH; [lia|]. simpl. apply Forall_app. split; auto. constructor; auto.
      intro H. apply is_break_spec in H. congruence.
Qed.
Lemma splitlines_spec : forall s, has_lines s (splitlines s).
Proof. intro s. apply (splitlines_from_spec (S (length s)) s []); auto. constructor. Qed.

Lemma has_lines_free : forall s ls, has_lines s ls ->
  Forall (Forall (fun c => ~ boundary c)) ls.
Proof. intros s ls H. induction H; constructor; auto. Qed.

Lemma list_min_spec : forall ns m, list_min ns = Ok m ->
  In m ns /\ forall n, In n ns -> m <= n.
Proof.
  induction ns as [|n ns IH]; intros m H; [discriminate|]. simpl in H.
  destruct ns as [|k ns].
  - injection H as <-. split; [now left|]. intros x [<-|[]]. lia.
  - destruct (list_min (k :: ns)) as [m'|]; [|discriminate]. injection H as <-.
    destruct (IH m' eq_refl) as [H1 H2]. split.
    + destruct (Nat.min_spec n m') as [[_ ->]|[_ ->]]; [now left|now right].
    + intros x [<-|Hx]; [lia|]. specialize (H2 x Hx). lia.
Qed.
Lemma list_min_ok : forall ns, ns <> [] -> exists m, list_min ns = Ok m.
Proof.
  induction ns as [|n ns IH]; intro H; [congruence|]. simpl. destruct ns as [|k ns]; eauto.
  destruct IH as [m ->]; [discriminate|]. simpl. eauto.
Qed.

Lemma blank_lstrip : forall l, blank l <-> lstrip l = [].
Proof.
  intro l. unfold blank. split; intro H.
  - rewrite <- (app_nil_r l). apply lstrip_exact; auto.
  - destruct (lstrip_spec l) as [a [E [Ha _]]]. rewrite H, app_nil_r in E. now subst.
Qed.
Lemma blank_strip : forall l, blank l <-> strip l = [].
Proof.
  intro l. rewrite blank_lstrip. unfold strip. split; intro H; [now rewrite H|].
  destruct (rstrip_spec (lstrip l)) as [r [E [Hr _]]]. rewrite H in E. simpl in E.
  destruct (lstrip_spec l) as [a [_ [_ Hf]]]. rewrite E in *. destruct r as [|c r]; auto.
  destruct Hf as [Hf|[c' [t' [Hf1 Hf2]]]]; [discriminate|]. injection Hf1 as <- <-.
  inversion Hr; subst. congruence.
Qed.

Definition nonblank (l : str) : bool := match strip l with [] => false | _ => true end.
Lemma nonblank_spec : forall l, nonblank l = true <-> ~ blank l.
Proof.
  intro l. rewrite blank_strip. unfold nonblank. destruct (strip l); split; congruence.
Qed.

(** The indentation of a line that is not blank. *)
Lemma indent_spec : forall l m, ~ blank l -> m <= length l - length (lstrip l) <->
  Forall (fun c => is_space c = true) (firstn m l) /\ m < length l.
Proof.
  intros l m Hb. destruct (lstrip_spec l) as [a [E [Ha Hf]]].
  destruct (lstrip l) as [|c r] eqn:El; [exfalso; apply Hb; now apply blank_lstrip|].
  assert (L : length l = length a + S (length r)) by (rewrite E, app_length; reflexivity).
  split.
  - intro Hm. simpl in Hm. split; [|lia]. rewrite E, firstn_app.
    replace (m - length a) with 0 by lia. simpl. rewrite app_nil_r.
    rewrite <- (firstn_skipn m a) in Ha. apply Forall_app in Ha. tauto.
  - intros [H1 H2]. simpl. destruct (Nat.le_gt_cases m (length a)); [lia|].
    rewrite E, firstn_app in H1. destruct (m - length a) as [|k] eqn:Ek; [lia|].
    apply Forall_app in H1. destruct H1 as [_ H1]. simpl in H1. inversion H1; subst.
    destruct Hf as [Hf|[c' [t' [Hf1 Hf2]]]]; [discriminate|]. injection Hf1 as <- <-. congruence.
Qed.

Lemma trim_ok : forall s r, trim_indent s = Ok r -> exists m ls, has_lines s ls /\
  r = join_with [nl] (map (skipn m) ls) /\
  (forall l, In l ls -> ~ blank l ->
     Forall (fun c => is_space c = true) (firstn m l) /\ m < length l) /\
  (exists l c t, In l ls /\ ~ blank l /\ skipn m l = c :: t /\ is_space c = false) /\
  ls = splitlines s.
Proof.
  intros s r H. unfold trim_indent in H.
  destruct (list_min _) as [m|] eqn:Em; [|discriminate]. simpl in H.
  assert (Er : r = join_with [nl] (map (skipn m) (splitlines s))) by congruence. clear H.
  destruct (list_min_spec _ _ Em) as [H1 H2].
  exists m, (splitlines s). split; [apply splitlines_spec|]. split; auto. split; [|split]; auto.
  - intros l Hl Hb. apply indent_spec; auto. apply H2. apply in_map_iff. exists l. split; auto.
    apply filter_In. split; auto. now apply nonblank_spec.
  - apply in_map_iff in H1. destruct H1 as [l [El Hl]]. apply filter_In in Hl.
    destruct Hl as [Hl Hn]. apply nonblank_spec in Hn.
    destruct (lstrip_spec l) as [a [E [Ha Hf]]].
    destruct (lstrip l) as [|c t] eqn:Es; [exfalso; apply Hn; now apply blank_lstrip|].
    exists l, c, t. split; auto. split; auto.
    assert (length a = m) by (rewrite <- El; rewrite E, app_length; simpl; lia).
    destruct Hf as [Hf|[c' [t' [Hf1 Hf2]]]]; [discriminate|]. injection Hf1 as <- <-.
    split; auto. rewrite <- H, E. apply skipn_app_len.
Qed.

Lemma trim_err : forall s x, trim_indent s = Err x -> x = EValue /\ Forall blank (splitlines s).
Proof.
  intros s x H. unfold trim_indent in H.
  destruct (filter _ (splitlines s)) as [|l ls] eqn:E.
  - simpl in H. injection H as <-. split; auto. apply Forall_forall. intros l Hl.
    apply blank_strip. destruct (strip l) as [|c t] eqn:Es; auto.
    assert (Hin : In l []) by (rewrite <- E; apply filter_In; split; auto; now rewrite Es).
    destruct Hin.
  - destruct (list_min_ok (map (fun l => length l - length (lstrip l)) (l :: ls))) as [m Em];
      [discriminate|]. rewrite Em in H. discriminate.
Qed.

Lemma has_lines_det : forall s l1 l2, has_lines s l1 -> has_lines s l2 -> l1 = l2.
Proof.
  assert (K : forall a b c s t, Forall (fun c => ~ boundary c) a -> Forall (fun c => ~ boundary c) b ->
    boundary c -> forall d, boundary d -> a ++ c :: s = b ++ d :: t -> a = b /\ c = d /\ s = t).
  { induction a as [|x a IH]; intros b c s t Ha Hb Hc d Hd E.
    - destruct b as [|y b]; simpl in E; [injection E; auto|]. injection E as -> E.
      inversion Hb; subst. tauto.
    - destruct b as [|y b]; simpl in E; injection E as -> E; inversion Ha; subst; [tauto|].
      inversion Hb; subst. destruct (IH b c s t) with (d := d) as [-> [-> ->]]; auto. }
  assert (K2 : forall a c s, Forall (fun c => ~ boundary c) (a ++ c :: s) -> ~ boundary c).
  { intros a c s H. apply Forall_app in H. destruct H as [_ H]. now inversion H. }
  assert (B13 : boundary 13%N) by (unfold boundary; simpl; tauto).
  intros s l1 l2 H. revert l2. induction H as [|l Hl Hf|l s ls Hf H IH|l c s ls Hf Hc Hn H IH];
    intros l2 H2.
  - remember [] as z eqn:Ez. destruct H2 as [|l Hl Hf|l s ls Hf H|l c s ls Hf Hc Hn H]; auto;
      try congruence; destruct l; discriminate.
  - remember l as z eqn:Ez. destruct H2 as [|l' Hl' Hf'|l' s' ls' Hf' H'|l' c' s' ls' Hf' Hc' Hn' H'];
      subst; auto; try congruence.
    + apply K2 in Hf. tauto.
    + apply K2 in Hf. tauto.
  - remember (l ++ 13%N :: 10%N :: s) as z eqn:Ez.
    destruct H2 as [|l' Hl' Hf'|l' s' ls' Hf' H'|l' c' s' ls' Hf' Hc' Hn' H'].
    + destruct l; discriminate.
    + subst. apply K2 in Hf'. tauto.
    + apply K in Ez; auto. destruct Ez as [-> [_ E]]. injection E as ->. f_equal. now apply IH.
    + apply K in Ez; auto. destruct Ez as [-> [-> ->]]. exfalso. now apply (Hn' eq_refl s).
  - remember (l ++ c :: s) as z eqn:Ez.
    destruct H2 as [|l' Hl' Hf'|l' s' ls' Hf' H'|l' c' s' ls' Hf' Hc' Hn' H'].
    + destruct l; discriminate.
    + subst. apply K2 in Hf'. tauto.
    + apply K in Ez; auto. destruct Ez as [-> [E1 E]]. exfalso. now apply (Hn (eq_sym E1) s').
    + apply K in Ez; auto. destruct Ez as [-> [-> ->]]. f_equal. now apply IH.
Qed.

Lemma has_lines_join : forall ls, Forall (Forall (fun c => ~ boundary c)) ls ->
  (forall l, last ls [1%N] = l -> l <> []) -> has_lines (join_with [nl] ls) ls.
Proof.
  induction ls as [|l ls IH]; intros Hf Hl; [constructor|]. inversion Hf; subst.
  destruct ls as [|l2 ls].
  - simpl. constructor; auto.
  - change (join_with [nl] (l :: l2 :: ls)) with (l ++ nl :: join_with [nl] (l2 :: ls)).
    apply hl_break; auto; [unfold boundary, nl; simpl; tauto | discriminate].
Qed.

Lemma skipn_free : forall (P : N -> Prop) m l, Forall P l -> Forall P (skipn m l).
Proof.
  intros P m l H. rewrite <- (firstn_skipn m l) in H. apply Forall_app in H. tauto.
Qed.

(** Trimming again does nothing, if the last trimmed line is not empty. *)
Lemma trim_again : forall s r, trim_indent s = Ok r ->
  (forall r', r <> r' ++ [nl]) -> r <> [] -> trim_indent r = Ok r.
Proof.
  intros s r H Hr Hne. destruct (trim_ok _ _ H) as [m [ls [Hl [Er [H1 [[l [c [t [L1 [L2 [L3 L4]]]]]] Els]]]]]].
  set (ls' := map (skipn m) ls) in *.
  assert (Hf : Forall (Forall (fun c => ~ boundary c)) ls').
  { unfold ls'. apply Forall_map. eapply Forall_impl; [|exact (has_lines_free _ _ Hl)].
    intros a Ha. now apply skipn_free. }
  assert (Hlast : forall x, last ls' [1%N] = x -> x <> []).
  { intros x Hx ->. destruct ls' as [|y ys] eqn:E; [discriminate|].
    assert (E2 : y :: ys = removelast (y :: ys) ++ [[]]).
    { rewrite (app_removelast_last [1%N]) at 1 by discriminate. now rewrite Hx. }
    destruct (removelast (y :: ys)) as [|z zs].
    - rewrite E2 in Er. simpl in Er. congruence.
    - apply (Hr (join_with [nl] (z :: zs))). rewrite Er, E2. clear.
      revert z. induction zs as [|w ws IH]; intro z; simpl; auto.
      simpl in IH. rewrite IH. now rewrite <- app_assoc. }
  assert (Hs : splitlines r = ls').
  { apply (has_lines_det r); [apply splitlines_spec|]. rewrite Er. now apply has_lines_join. }
  unfold trim_indent. rewrite Hs.
  assert (Hc : exists k, list_min (map (fun l => length l - length (lstrip l))
            (filter (fun l => match strip l with [] => false | _ => true end) ls')) = Ok k /\ k = 0).
  { assert (Hin : In (c :: t) (filter nonblank ls')).
    { apply filter_In. split.
      - unfold ls'. rewrite <- L3. apply in_map. exact L1.
      - apply nonblank_spec. intro Hb. inversion Hb; congruence. }
    destruct (list_min_ok (map (fun l => length l - length (lstrip l)) (filter nonblank ls')))
      as [k Hk].
    { intro E. apply map_eq_nil in E. rewrite E in Hin. destruct Hin. }
    exists k. split; [exact Hk|]. destruct (list_min_spec _ _ Hk) as [_ Hmin].
    assert (Hz : k <= length (c :: t) - length (lstrip (c :: t))).
    { apply Hmin. apply in_map_iff. exists (c :: t). auto. }
    unfold lstrip in Hz. cbn [span] in Hz. rewrite L4 in Hz. cbn [snd] in Hz. lia. }
  destruct Hc as [k [-> ->]]. cbn [rbind]. f_equal. rewrite Er. f_equal.
  rewrite <- (map_id ls') at 2. apply map_ext. reflexivity.
Qed.

(** ** highlight_code *)
Definition split_piece (t : str) : list token :=
  match t with [] => [TNewline 1] | _ => [TText t; TNewline 1] end.

Lemma pieces_spec : forall ls st k, ls <> [] -> Forall (fun l => ~ In nl l) ls ->
  events st (removelast (flat_map split_piece ls)) = map (seen st) (join_with [nl] ls) /\
  nest k (removelast (flat_map split_piece ls)) = Some k /\
  Forall pre_ok (removelast (flat_map split_piece ls)) /\
  (forall s, after s (removelast (flat_map split_piece ls)) = s) /\
  (forall o, flat o (removelast (flat_map split_piece ls))).
Proof.
  induction ls as [|l ls IH]; intros st k Hn Hf; [congruence|]. inversion Hf as [|? ? Hl Hls]; subst.
  destruct ls as [|l2 ls].
  - destruct l as [|c l]; simpl; repeat split; auto; try (now rewrite app_nil_r);
      repeat constructor; exact Hl.
  - assert (E : removelast (flat_map split_piece (l :: l2 :: ls)) =
                split_piece l ++ removelast (flat_map split_piece (l2 :: ls))).
    { change (flat_map split_piece (l :: l2 :: ls)) with
        (split_piece l ++ flat_map split_piece (l2 :: ls)).
      apply removelast_app. destruct l2; discriminate. }
    rewrite E. destruct (IH st k) as [H1 [H2 [H3 [H4 H5]]]]; auto; [discriminate|].
    change (join_with [nl] (l :: l2 :: ls)) with (l ++ nl :: join_with [nl] (l2 :: ls)).
    rewrite map_app. cbn [map]. split; [|split; [|split; [|split]]].
    + rewrite events_app. replace (after st (split_piece l)) with st by (destruct l; reflexivity).
      rewrite H1. destruct l as [|c l]; auto.
      cbn [split_piece events app repeat]. rewrite <- app_assoc. reflexivity.
    + rewrite nest_app. destruct l; simpl; auto.
    + apply Forall_app. split; auto. destruct l; repeat constructor. exact Hl.
    + intro s. rewrite after_app. destruct l; simpl; auto.
    + intro o. destruct l; simpl; auto.
Qed.

Lemma format_token_spec : forall ty v, exists m,
  (forall st, styled st (format_token (ty, v)) = styled_text (m :: st) v) /\
  (forall k, nest k (format_token (ty, v)) = Some k) /\
  Forall pre_ok (format_token (ty, v)) /\
  (forall st, after st (format_token (ty, v)) = st) /\
  (forall q, flat false q -> flat false (format_token (ty, v) ++ q)) /\
  m = pygments_ ++ ty /\
  (forall st w, v = w ++ [nl] -> exists E, events st (format_token (ty, v)) = E ++ [break]).
Proof.
  intros ty v. exists (pygments_ ++ ty). unfold format_token.
  destruct (str_eqb v [nl]) eqn:E.
  - apply str_eqb_eq in E. subst v.
    split; [|split; [|split; [|split; [|split; [|split]]]]]; auto.
    + repeat constructor.
    + intros st w _. exists []. reflexivity.
  - destruct (existsb (N.eqb nl) v) eqn:En.
    + assert (Hf := split_on_no nl v). assert (Hn := split_on_not_nil nl v).
      fold split_piece. set (ls := split_on nl v) in *.
      assert (Hv : join_with [nl] ls = v) by apply join_split.
      destruct (pieces_spec ls [] 0 Hn Hf) as [_ [_ [H3 [H4 H5]]]].
      set (ps := removelast (flat_map split_piece ls)) in *.
      split; [|split; [|split; [|split; [|split; [|split]]]]]; auto.
      * intro st. unfold styled. cbn [events chars]. rewrite events_app, chars_app.
        cbn [events chars]. rewrite app_nil_r.
        destruct (pieces_spec ls ((pygments_ ++ ty) :: st) 0 Hn Hf) as [H1 _].
        fold ps in H1. rewrite H1, Hv. apply chars_seen.
      * intro k. cbn [nest]. rewrite nest_app.
        destruct (pieces_spec ls [] (S k) Hn Hf) as [_ [H2 _]]. fold ps in H2. now rewrite H2.
      * constructor; [exact I|]. apply Forall_app. split; auto. repeat constructor.
      * intro st. cbn [after]. rewrite after_app, H4. reflexivity.
      * intros q Hq. cbn [app flat]. split; auto. rewrite <- app_assoc. simpl.
        specialize (H5 true). clear - H5 Hq H4.
        (* the pieces contain no blocks *)
        assert (G : Forall (fun t => match t with TBegin _ => False | TEnd => False | _ => True end) ps).
        { unfold ps. clear. assert (G : forall l, Forall (fun t => match t with TBegin _ => False
             | TEnd => False | _ => True end) (flat_map split_piece l)).
          { induction l as [|[|c a] l IH]; simpl; repeat constructor; auto. }
          specialize (G ls). apply Forall_forall. intros t Ht. rewrite Forall_forall in G.
          apply G. rewrite removelast_firstn_len in Ht.
          rewrite <- (firstn_skipn (pred (length (flat_map split_piece ls)))).
          apply in_or_app. now left. }
        clear H5 H4. induction G as [|t ts Ht G IH]; simpl; auto. destruct t; tauto.
      * intros st w Hw.
        destruct (pieces_spec ls ((pygments_ ++ ty) :: st) 0 Hn Hf) as [H1 _].
        fold ps in H1. cbn [events]. rewrite events_app, H1, Hv, Hw, map_app.
        cbn [events map]. rewrite app_nil_r. eexists (Open _ :: _). reflexivity.
    + assert (Hn : ~ In 10%N v).
      { intro H. assert (Hx : existsb (N.eqb nl) v = true) by
          (apply existsb_exists; exists 10%N; split; auto). congruence. }
      simpl. split; [|split; [|split; [|split; [|split; [|split]]]]]; auto.
      * intro st. unfold styled. simpl. rewrite app_nil_r. apply chars_seen.
      * repeat constructor. exact Hn.
      * intros st w ->. exfalso. apply Hn. apply in_or_app. right. now left.
Qed.

(** What the formatter makes of the tokens of the lexer. *)
Definition lexed (toks : list (str * str)) : list (char * list str) :=
  flat_map (fun tv => styled_text [pygments_ ++ fst tv] (snd tv)) toks.

Lemma format_spec : forall toks,
  styled [] (flat_map format_token toks) = lexed toks /\
  nest 0 (flat_map format_token toks) = Some 0 /\
  Forall pre_ok (flat_map format_token toks) /\
  after [] (flat_map format_token toks) = [] /\
  flat false (flat_map format_token toks).
Proof.
  induction toks as [|[ty v] toks [H1 [H2 [H3 [H4 H5]]]]].
  - repeat split; auto; constructor.
  - destruct (format_token_spec ty v) as [m [F1 [F2 [F3 [F4 [F5 [Fm _]]]]]]].
    cbn [flat_map]. split; [|split; [|split; [|split]]].
    + rewrite styled_app, F1, F4, H1, Fm. reflexivity.
    + rewrite nest_app, F2. exact H2.
    + apply Forall_app. auto.
    + rewrite after_app, F4. exact H4.
    + now apply F5.
Qed.

(** Normalisation keeps flatness. *)
Fixpoint flat_end (o : bool) (ts : list token) : bool :=
  match ts with
  | [] => o
  | TBegin _ :: ts' => flat_end true ts'
  | TEnd :: ts' => flat_end false ts'
  | _ :: ts' => flat_end o ts'
  end.
Lemma flat_app : forall a b o, flat o (a ++ b) <-> flat o a /\ flat (flat_end o a) b.
Proof. induction a as [|[s|n|s|] a IH]; intros b o; simpl; try tauto; rewrite ?IH; tauto. Qed.
Definition same_flat (a b : list token) : Prop := forall o, flat o a <-> flat o b.

Lemma normalize_flat : forall ts res r, normalize_loop ts res = Ok r ->
  same_flat (rev r) (rev res ++ ts).
Proof.
  induction ts as [|t ts IH]; intros res r H.
  - simpl in H. injection H as <-. rewrite app_nil_r. intro; tauto.
  - assert (P : forall res', normalize_loop ts res' = Ok r ->
       same_flat (rev res' ++ ts) (rev res ++ t :: ts) -> same_flat (rev r) (rev res ++ t :: ts)).
    { intros res' H1 H2 o. rewrite (IH _ _ H1 o). apply H2. }
    assert (P0 : normalize_loop ts (t :: res) = Ok r -> same_flat (rev r) (rev res ++ t :: ts)).
    { intro H1. apply (P _ H1). simpl. rewrite <- app_assoc. intro; tauto. }
    destruct t as [[|c s]|v|s|]; cbn [normalize_loop] in H; auto.
    + apply (P _ H). intro o. rewrite !flat_app. simpl. tauto.
    + destruct res as [|[s|u|s|] res']; auto. apply (P _ H). intro o.
      simpl. rewrite <- !app_assoc, !flat_app. simpl. tauto.
    + destruct res as [|[s|u|s|] res']; auto; [discriminate|]. apply (P _ H). intro o.
      simpl. rewrite <- !app_assoc, !flat_app. simpl. tauto.
Qed.
Lemma normalize_tokens_flat : forall ts r, normalize_tokens ts = Ok r -> flat false ts -> flat false r.
Proof.
  intros ts r H Hf. unfold normalize_tokens in H.
  destruct (normalize_loop ts []) as [q|] eqn:E; [|discriminate].
  assert (r = rev (match q with TNewline _ :: r' => r' | _ => q end)) by (simpl in H; congruence).
  subst r. apply (proj2 (normalize_flat _ _ _ E false)) in Hf.
  destruct q as [|[s|n|s|] q]; auto. simpl in Hf. apply flat_app in Hf. tauto.
Qed.

Lemma chars_trailing : forall a b, without_trailing break a b ->
  exists k, chars a = chars b ++ repeat (10%N, []) k.
Proof.
  intros a b [[k ->] _]. exists k. now rewrite chars_app, chars_repeat.
Qed.

Lemma highlight_spec : forall lex code, exists ts k, highlight_code lex code = Ok ts /\
  balanced ts /\ tidy ts /\ flat false ts /\
  lexed (lex code) = styled [] ts ++ repeat (10%N, []) k.
Proof.
  intros lex code. unfold highlight_code.
  destruct (format_spec (lex code)) as [H1 [H2 [H3 [H4 H5]]]].
  destruct (normalize_spec _ _ H3 H2) as [r [Hr [Hn [Ht He]]]].
  destruct (chars_trailing _ _ (He [])) as [k Hk]. exists r, k.
  split; auto. split; auto. split; auto. split; [eapply normalize_tokens_flat; eauto|].
  rewrite <- H1. exact Hk.
Qed.

Lemma lexed_text : forall toks, map fst (lexed toks) = flat_map snd toks.
Proof.
  induction toks as [|[ty v] toks IH]; auto. unfold lexed in *. cbn [flat_map snd fst]. rewrite map_app, IH. f_equal.
  unfold styled_text. rewrite map_map. apply map_id.
Qed.

Lemma map_fst_repeat : forall k, map fst (repeat (10%N, @nil str) k) = repeat 10%N k.
Proof. induction k; simpl; congruence. Qed.
Lemma repeat_snoc : forall (A : Type) (x : A) k, repeat x (S k) = repeat x k ++ [x].
Proof. induction k; simpl; auto. simpl in IHk. now rewrite <- IHk. Qed.

Lemma trailing_unique : forall (A : Type) (x : A) a b k, a = b ++ repeat x k ->
  (forall y, a <> y ++ [x]) -> a = b.
Proof.
  intros A x a b [|k] H Ha; [now rewrite app_nil_r in H|].
  rewrite repeat_snoc, app_assoc in H. now apply Ha in H.
Qed.

Lemma chars_break_end : forall E E' t, map fst (chars E) = t -> (forall x, t <> x ++ [nl]) ->
  E <> E' ++ [break].
Proof.
  intros E E' t Ht Hn ->. rewrite chars_app, map_app in Ht. simpl in Ht.
  now apply (Hn (map fst (chars E'))).
Qed.

Lemma clean_no_nl : forall ts, clean ts -> no_nl ts.
Proof.
  intros ts H s Hs. unfold clean in H. rewrite Forall_forall in H. apply H in Hs.
  destruct Hs. auto.
Qed.

(** The tokens of the lexer are not empty and make up the code, or the code and one newline
    (which pygments adds). *)
Definition tokenises (lex : str -> list (str * str)) (s : str) : Prop :=
  Forall (fun tv => snd tv <> []) (lex s) /\
  (flat_map snd (lex s) = s \/ flat_map snd (lex s) = s ++ [nl]).

Lemma format_break : forall toks w, Forall (fun tv => snd tv <> []) toks ->
  flat_map snd toks = w ++ [nl] ->
  exists E, events [] (flat_map format_token toks) = E ++ [break].
Proof.
  intros toks w Hn H. destruct toks as [|x toks] using rev_ind; [destruct w; discriminate|].
  clear IHtoks. apply Forall_app in Hn. destruct Hn as [_ Hn]. inversion Hn as [|? ? Hx _]; subst.
  destruct x as [ty v]. simpl in Hx. rewrite flat_map_app in H. simpl in H. rewrite app_nil_r in H.
  destruct (exists_last Hx) as [v' [c Hv]]. rewrite Hv, app_assoc in H.
  apply app_inj_tail in H. destruct H as [_ ->].
  rewrite flat_map_app. cbn [flat_map]. rewrite app_nil_r, events_app.
  destruct (format_token_spec ty v) as [m [_ [_ [_ [_ [_ [_ He]]]]]]].
  destruct (He (after [] (flat_map format_token toks)) v' Hv) as [E ->].
  rewrite app_assoc. eauto.
Qed.

Lemma highlight_exact : forall lex s, tokenises lex s -> (forall x, s <> x ++ [nl]) ->
  exists ts, highlight_code lex s = Ok ts /\ balanced ts /\ tidy ts /\ flat false ts /\
    plain ts = s /\ (lexed (lex s) = styled [] ts \/ lexed (lex s) = styled [] ts ++ [(10%N, [])]).
Proof.
  intros lex s [Hn Hs] Hend. unfold highlight_code.
  destruct (format_spec (lex s)) as [H1 [H2 [H3 [H4 H5]]]].
  destruct (normalize_spec _ _ H3 H2) as [r [Hr [Hb [Ht He]]]].
  assert (Hl := lexed_text (lex s)). rewrite <- H1 in *. unfold styled in *.
  set (F := events [] (flat_map format_token (lex s))) in *.
  exists r. split; auto. split; auto. split; auto. split; [eapply normalize_tokens_flat; eauto|].
  destruct (He []) as [[k Ek] Hlast]. fold F in Ek. unfold plain, styled.
  destruct Hs as [Hs|Hs].
  - assert (E : F = events [] r).
    { eapply trailing_unique; [exact Ek|]. intro y. eapply chars_break_end; [|exact Hend].
      now rewrite Hl, Hs. }
    rewrite <- E. split; [now rewrite Hl|]. auto.
  - destruct (format_break _ _ Hn Hs) as [E HE]. fold F in HE.
    assert (HcE : map fst (chars E) = s).
    { rewrite HE, chars_app, map_app, Hs in Hl. simpl in Hl. apply app_inj_tail in Hl. tauto. }
    assert (EE : E = events [] r).
    { destruct k as [|k].
      - exfalso. apply (Hlast E). simpl in Ek. rewrite app_nil_r in Ek. congruence.
      - rewrite repeat_snoc, app_assoc, HE in Ek. apply app_inj_tail in Ek. destruct Ek as [Ek _].
        eapply trailing_unique; [exact Ek|]. intro y. eapply chars_break_end; [|exact Hend]. auto. }
    rewrite <- EE. split; auto. right. rewrite HE, chars_app. reflexivity.
Qed.

(** ** code() *)
Lemma strip_newlines_spec : forall n s, (forall x, s <> nl :: x) ->
  strip_newlines (repeat nl n ++ s) = (n, s).
Proof.
  intros n s H. induction n as [|n IH]; simpl.
  - destruct s as [|c s]; auto. simpl. destruct (N.eqb_spec c nl); auto. subst.
    exfalso. now apply (H s).
  - now rewrite IH.
Qed.

Lemma code_styles : forall lex text n s tabsize esc_s esc b e ptext,
  delimiters esc_s = Ok (esc, b, e) ->
  expand_tabs tabsize text = repeat nl n ++ s -> (forall x, s <> nl :: x) ->
  parse_text s (Some esc) b e = Ok ptext ->
  (forall x, plain ptext <> x ++ [nl]) -> tokenises lex (plain ptext) ->
  exists r hl, code_tokens (Some lex) text tabsize false true esc_s = Ok r /\
    highlight_code lex (plain ptext) = Ok hl /\
    balanced r /\ no_nl r /\ plain r = repeat nl n ++ plain ptext /\
    (flat false ptext -> joined (styled [] r) (repeat (10%N, []) n ++ styled [] hl)
       (repeat (10%N, []) n ++ styled [] ptext)).
Proof.
  intros lex text n s tabsize esc_s esc b e ptext Hd Ht Hs Hp Hend Hlex.
  destruct (highlight_exact lex (plain ptext) Hlex Hend) as [hl [Hh [Hb [Hti [Hf [Hpl _]]]]]].
  destruct (parse_ok _ _ _ _ _ Hp) as [Pb [Pt _]].
  destruct (tokens_merge_spec hl ptext) as [m [Hm [Mb [Mt [Mtext Mj]]]]]; auto.
  { apply Hti. } { apply Pt. } { rewrite <- !plain_text. exact Hpl. }
  exists (if 0 <? n then TNewline n :: m else m), hl. unfold code_tokens. rewrite Hd, Ht. cbn [rbind].
  rewrite (strip_newlines_spec n s Hs), Hp. cbn [rbind]. rewrite <- plain_text, Hh. cbn [rbind].
  rewrite Hm. cbn [rbind]. split; auto. split; auto.
  assert (Hm0 : plain m = plain ptext).
  { destruct Mtext as [k Hk]. rewrite <- !plain_text in Hk. rewrite Hpl in Hk.
    symmetry. eapply trailing_unique; [exact Hk|]. exact Hend. }
  assert (Hst : styled [] (if 0 <? n then TNewline n :: m else m) =
                repeat (10%N, []) n ++ styled [] m).
  { destruct n; [reflexivity|]. apply styled_nl_cons. }
  split; [|split; [|split]].
  - destruct n; auto.
  - assert (Hc := clean_no_nl m (proj1 Mt)). destruct n; simpl; auto.
    intros x [Hx|Hx]; [discriminate|]. now apply Hc.
  - unfold plain in *. rewrite Hst, map_app, Hm0. f_equal. apply map_fst_repeat.
  - intro Hfl. rewrite Hst. apply joined_nl. destruct (Mj Hf Hfl) as [k Hk].
    assert (k = 0).
    { assert (length (styled [] m ++ repeat (10%N, []) k) = length (styled [] ptext)).
      { clear - Hk. induction Hk; simpl; auto. }
      assert (length (styled [] m) = length (styled [] ptext)).
      { unfold plain in Hm0. apply (f_equal (@length N)) in Hm0. now rewrite !map_length in Hm0. }
      rewrite app_length, repeat_length in H. lia. }
    subst k. now rewrite app_nil_r in Hk.
Qed.

(** Documents without nested styles give flat tokens. *)
Section Flat.
  Variables esc b e : char.
  Hypothesis Hee : esc <> e.
  Notation scan := (scan (Some esc) b e).

  (** No more than [k] styles are open. *)
  Lemma scan_flat_style : forall es rest, Forall (fun d => exists s, d = DText s) es ->
    valids esc b e true es -> forall buf, exists t,
    scan 1 false buf (prints esc b e es ++ e :: rest) =
    (let (ts, m) := scan 0 false [] rest in (TText t :: TEnd :: ts, m)).
  Proof.
    induction es as [|d es IH]; intros rest Hd Hv buf.
    - unfold prints. cbn [flat_map app TextModel.scan is_char].
      destruct (N.eqb_spec e esc); [congruence|]. rewrite N.eqb_refl. cbn [andb Nat.leb Nat.sub].
      eauto.
    - inversion Hd as [|? ? [s ->] Hd']; subst. inversion Hv as [|? ? V Hv']; subst.
      destruct V as [V1 V2]. unfold prints. cbn [flat_map print]. rewrite <- app_assoc.
      rewrite (scan_text esc b e); auto.
  Qed.

  Lemma scan_flat : forall ds, valids esc b e false ds ->
    (forall nm es, In (DStyle nm es) ds -> Forall (fun d => exists s, d = DText s) es) ->
    forall buf, flat false (fst (scan 0 false buf (prints esc b e ds))).
  Proof.
    induction ds as [|d ds IH]; intros Hv Hf buf.
    - simpl. destruct buf; simpl; auto.
    - inversion Hv as [|? ? Vd Hv']; subst.
      assert (IH' : forall buf, flat false (fst (scan 0 false buf (prints esc b e ds)))).
      { apply IH; auto. intros nm es H. apply (Hf nm). now right. }
      unfold prints in *. cbn [flat_map]. destruct d as [s|nm es]; cbn [print].
      + destruct Vd as [V1 V2]. rewrite (scan_text esc b e); auto. intro; lia.
      + apply valid_style in Vd. destruct Vd as [V1 V2].
        cbn [app TextModel.scan is_char]. rewrite N.eqb_refl. rewrite <- app_assoc. cbn [app].
        rewrite (scan_name esc b e) by exact V1. rewrite <- app_assoc. cbn [app].
        destruct (scan_flat_style es (flat_map (print esc b e) ds) (Hf nm es (or_introl eq_refl))
                    V2 []) as [t Et].
        unfold prints in Et. rewrite Et.
        specialize (IH' []). destruct (scan 0 false [] (flat_map (print esc b e) ds)) as [ts m].
        simpl. auto.
  Qed.
End Flat.

Lemma split_flat : forall ts o, flat o (flat_map split_token ts) <-> flat o ts.
Proof.
  assert (K : forall s o q, flat o (split_token (TText s) ++ q) <-> flat o q).
  { intros s o q. simpl. destruct (split_on nl s) as [|l ls]; [tauto|]. simpl.
    induction ls as [|x ls IH]; simpl; tauto. }
  induction ts as [|t ts IH]; intro o; [tauto|]. cbn [flat_map].
  destruct t as [s|n|s|].
  - rewrite K. simpl. apply IH.
  - simpl. apply IH.
  - simpl. rewrite IH. tauto.
  - simpl. apply IH.
Qed.

Lemma docs_flat : forall esc b e ds pt, esc <> e -> valids esc b e false ds ->
  parse_text (prints esc b e ds) (Some esc) b e = Ok pt ->
  (forall nm es, In (DStyle nm es) ds -> forall nm' es', ~ In (DStyle nm' es') es) ->
  flat false pt.
Proof.
  intros esc b e ds pt He Hv Hp Hf. unfold parse_text in Hp.
  assert (F : flat false (fst (scan (Some esc) b e 0 false [] (prints esc b e ds)))).
  { apply scan_flat; auto. intros nm es H. apply Forall_forall. intros d Hd.
    destruct d as [s|nm' es']; eauto. exfalso. exact (Hf nm es H nm' es' Hd). }
  destruct (scan _ _ _ _ _ _ _) as [raw k]. destruct (0 <? k); [discriminate|].
  apply normalize_tokens_flat in Hp; auto. now apply split_flat.
Qed.
