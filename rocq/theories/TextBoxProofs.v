From Coq Require Import List ZArith NArith QArith Bool String Lia Lqa.
From Verif Require Import Py PyFacts LayoutModel LayoutSpec LayoutProofs LayoutProofs2 LayoutProofs3
  LayoutProofs4 SlideModel TextModel TextSpec TextProofs TextMerge TextLines
  TextBoxModel TextBoxSpec.
Import ListNotations.
Local Open Scope Q_scope.

Lemma number_of_lines_breaks : forall ts n, number_of_lines_from n ts = (n + line_breaks ts)%nat.
Proof.
  induction ts as [|t ts IH]; intros n; cbn; auto. destruct t; rewrite IH; lia.
Qed.
Lemma lines_q_breaks : forall ts, lines_q ts = q_of_nat (1 + line_breaks ts).
Proof. intros ts. unfold lines_q, number_of_lines. now rewrite number_of_lines_breaks. Qed.
Lemma q_of_nat_pos : forall n, 0 < q_of_nat (1 + n).
Proof. intros n. unfold q_of_nat, inject_Z, Qlt. cbn [Qnum Qden]. lia. Qed.
Lemma lines_q_pos : forall ts, 0 < lines_q ts.
Proof. intros. rewrite lines_q_breaks. apply q_of_nat_pos. Qed.

Lemma outer_unique : forall c S o o', outer c S o -> outer c S o' -> o = o'.
Proof. intros c S o o' [r [H1 ->]] [r' [H2 ->]]. congruence. Qed.

(** ** Line boxes *)

Lemma line_y_value : forall it S p R i v, area p S = Some R -> ti_box it = l_id (head p) ->
  line_y it i S = Ok v -> v == line_top (ti_tokens it) R (tx_h (st_text S (ti_id it))) i.
Proof.
  intros it S p R i v HR Hb H. unfold line_y in H. unfold area in HR. rewrite Hb, HR in H.
  assert (v = ry R + (rh R - tx_h (st_text S (ti_id it))) / 2 +
          tx_h (st_text S (ti_id it)) / lines_q (ti_tokens it) * inject_Z i) as -> by congruence.
  unfold line_top, one_line. rewrite lines_q_breaks. ring.
Qed.

Lemma place_lazy_y : forall owner l r s S p c R f,
  NoDup (ids l) -> owned owner l -> user_tree owner l -> fresh s -> set_rect l r s = Ok S ->
  within p l -> In c (kids p) -> area p S = Some R -> l_y (head c) = Some (PosLazy f) ->
  exists o, outer c S o /\ exists v, f S = Ok v /\ ry o == v.
Proof.
  intros owner l r s S p c R f Hn Ho Hu Hf Hs Hw Hc HR Hy.
  destruct (lazy_final owner l r s S p c R Hn Ho Hu Hf Hs Hw Hc HR) as [o [H1 H2]].
  exists o. split; auto. destruct (H2 Y) as [_ H3]. specialize (H3 (PosLazy f) Hy).
  apply H3. intros [_ [_ []]].
Qed.
Lemma place_lazy_x : forall owner l r s S p c R f,
  NoDup (ids l) -> owned owner l -> user_tree owner l -> fresh s -> set_rect l r s = Ok S ->
  within p l -> In c (kids p) -> area p S = Some R -> l_x (head c) = Some (PosLazy f) ->
  exists o, outer c S o /\ exists v, f S = Ok v /\ rx o == v.
Proof.
  intros owner l r s S p c R f Hn Ho Hu Hf Hs Hw Hc HR Hy.
  destruct (lazy_final owner l r s S p c R Hn Ho Hu Hf Hs Hw Hc HR) as [o [H1 H2]].
  exists o. split; auto. destruct (H2 X) as [_ H3]. specialize (H3 (PosLazy f) Hy).
  apply H3. intros [X1 _]. discriminate.
Qed.
Lemma size_lazy : forall owner l r s S p c R f a,
  NoDup (ids l) -> owned owner l -> user_tree owner l -> fresh s -> set_rect l r s = Ok S ->
  within p l -> In c (kids p) -> area p S = Some R -> sv_lazy (size_arg a c) = Some f ->
  exists o, outer c S o /\ exists v, f S = Ok v /\ extent a o == v.
Proof.
  intros owner l r s S p c R f a Hn Ho Hu Hf Hs Hw Hc HR Hy.
  destruct (lazy_final owner l r s S p c R Hn Ho Hu Hf Hs Hw Hc HR) as [o [H1 H2]].
  exists o. split; auto. destruct (H2 a) as [H3 _]. unfold is_lazy, sized_as in H3.
  rewrite Hy in H3. auto.
Qed.

(** The head of a box created with the defaults of line_box or inline_box. *)
Lemma defaults_head : forall kw x y w h id c0,
  new_layout id (ba_layout (fill_defaults kw x y w h)) = Ok c0 ->
  opt_pos (setdefault (kw_x kw) x) = Ok (l_x (head c0)) /\
  opt_pos (setdefault (kw_y kw) y) = Ok (l_y (head c0)) /\
  parse_size (or_zero (setdefault (kw_width kw) w)) = Ok (l_width (head c0)) /\
  parse_size (or_zero (setdefault (kw_height kw) h)) = Ok (l_height (head c0)).
Proof.
  intros kw x y w h id c0 H. unfold new_layout, fill_defaults in H. cbn [ba_layout a_x a_y a_width
    a_height a_left a_right a_top a_bottom a_px a_py a_padding a_horizontal] in H.
  destruct (opt_pos (setdefault (kw_x kw) x)) as [px|]; [|discriminate]. cbn [rbind] in H.
  destruct (opt_pos (setdefault (kw_y kw) y)) as [py|]; [|discriminate]. cbn [rbind] in H.
  destruct (parse_size (or_zero (setdefault (kw_width kw) w))) as [pw|]; [|discriminate].
  cbn [rbind] in H.
  destruct (parse_size (or_zero (setdefault (kw_height kw) h))) as [ph|]; [|discriminate].
  cbn [rbind] in H. injection H as <-. cbn [head l_x l_y l_width l_height]. auto.
Qed.

Lemma lazy_pos_default : forall o f p, o = None ->
  opt_pos (setdefault o (ALazy f)) = Ok p -> p = Some (PosLazy f).
Proof. intros o f p -> H. cbn in H. congruence. Qed.
Lemma lazy_size_default : forall o f v, o = None ->
  parse_size (or_zero (setdefault o (ALazy f))) = Ok v -> sv_lazy v = Some f.
Proof. intros o f p -> H. cbn in H. injection H as <-. reflexivity. Qed.

(** ** The drawn text *)

Lemma newline_shift_breaks : forall q ts, newline_shift q ts == q * q_of_nat (line_breaks ts).
Proof.
  intros q ts. induction ts as [|t ts IH]; cbn [newline_shift line_breaks].
  - unfold q_of_nat. cbn. ring.
  - destruct t; auto. rewrite IH. unfold q_of_nat. rewrite Nat2Z.inj_add, inject_Z_plus. ring.
Qed.

(** ** Search of a style *)

Lemma opens_cons : forall name t ts k, opens name (t :: ts) (S k) = opens name ts k.
Proof. reflexivity. Qed.
Lemma filter_seq_shift : forall (f g : nat -> bool) n m, (forall k, f (S k) = g k) ->
  filter f (seq (S m) n) = map S (filter g (seq m n)).
Proof.
  intros f g n. induction n as [|n IH]; intros m H; cbn; auto.
  rewrite H. destruct (g m); cbn; rewrite IH; auto.
Qed.
Lemma occurrences_cons : forall name t ts, occurrences name (t :: ts) =
  (if match t with TBegin n => str_eqb n name | _ => false end then [0%nat] else []) ++
  map S (occurrences name ts).
Proof.
  intros name t ts. unfold occurrences. cbn [List.length seq filter].
  rewrite (filter_seq_shift (opens name (t :: ts)) (opens name ts)) by (apply opens_cons).
  change (opens name (t :: ts) 0) with (match t with TBegin n => str_eqb n name | _ => false end).
  destruct (match t with TBegin n => str_eqb n name | _ => false end); reflexivity.
Qed.

Lemma find_style_spec : forall name ts n i,
  find_style name (S n) i ts =
  match nth_error (occurrences name ts) n with
  | Some k => Ok (i + k)%nat
  | None => Err EException
  end.
Proof.
  intros name ts. induction ts as [|t ts IH]; intros n i.
  - cbn. destruct n; reflexivity.
  - rewrite occurrences_cons.
    assert (M : forall m, nth_error (map S (occurrences name ts)) m =
      option_map S (nth_error (occurrences name ts) m)).
    { intros m. apply nth_error_map. }
    destruct t as [s|m|b|]; cbn [find_style app];
      try (rewrite IH, M; destruct (nth_error (occurrences name ts) n); cbn; auto; f_equal; lia).
    destruct (str_eqb b name) eqn:E; cbn [app].
    + destruct n as [|n]; cbn [nth_error]; [f_equal; lia|].
      rewrite IH, M. destruct (nth_error (occurrences name ts) n); cbn; auto; f_equal; lia.
    + rewrite IH, M. destruct (nth_error (occurrences name ts) n); cbn; auto; f_equal; lia.
Qed.

(** ** Bytes *)

Lemma utf8_app : forall a b x y, utf8 a = Ok x -> utf8 b = Ok y -> utf8 (a ++ b) = Ok (x ++ y).
Proof.
  intros a. induction a as [|c a IH]; intros b x y Hx Hy; cbn [utf8 app] in *.
  - injection Hx as <-. exact Hy.
  - destruct (utf8_char c) as [bs|]; [|discriminate]. cbn [rbind] in *.
    destruct (utf8 a) as [x'|] eqn:E; [|discriminate]. cbn [rbind] in *.
    injection Hx as <-. rewrite (IH b x' y eq_refl Hy). cbn. now rewrite app_assoc.
Qed.
Lemma utf8_app_inv : forall a b z, utf8 (a ++ b) = Ok z -> exists x y,
  utf8 a = Ok x /\ utf8 b = Ok y /\ z = x ++ y.
Proof.
  intros a. induction a as [|c a IH]; intros b z H; cbn [utf8 app] in *.
  - exists [], z. auto.
  - destruct (utf8_char c) as [bs|]; [|discriminate]. cbn [rbind] in *.
    destruct (utf8 (a ++ b)) as [x'|] eqn:E; [|discriminate]. cbn [rbind] in *.
    apply IH in E. destruct E as [x [y [-> [-> ->]]]]. injection H as <-. cbn.
    exists (bs ++ x), y. rewrite <- app_assoc. auto.
Qed.

Lemma tokens_to_text_app : forall a b, tokens_to_text (a ++ b) = tokens_to_text a ++ tokens_to_text b.
Proof.
  induction a as [|t a IH]; intros b; cbn; auto. destruct t; rewrite IH; auto.
  all: now rewrite app_assoc.
Qed.
Lemma plain_app : forall a b, plain (a ++ b) = plain a ++ plain b.
Proof. intros. rewrite !plain_text. apply tokens_to_text_app. Qed.

(** Reading tokens before the one that is looked for. *)
Lemma range_before : forall idx ts i d d' count rest bs, newline_free ts ->
  (i + Z.of_nat (List.length ts) <= idx)%Z -> nest d ts = Some d' -> utf8 (plain ts) = Ok bs ->
  byte_range_from idx i d count None (ts ++ rest) =
  byte_range_from idx (i + Z.of_nat (List.length ts)) d' (count + List.length bs) None rest.
Proof.
  intros idx ts. induction ts as [|t ts IH]; intros i d d' count rest bs Hn Hi Hd Hb.
  - cbn in Hd, Hb. injection Hd as ->. injection Hb as <-. cbn. f_equal; lia.
  - inversion Hn as [|t' ts' Ht Hn']; subst. rewrite plain_text in Hb.
    cbn [List.length] in Hi |- *. rewrite Nat2Z.inj_succ in Hi |- *.
    destruct t as [s|n|s|]; try discriminate; cbn [tokens_to_text app byte_range_from nest] in *.
    + apply utf8_app_inv in Hb. destruct Hb as [x [y [Hx [Hy ->]]]].
      unfold byte_length. rewrite Hx. cbn [rbind]. rewrite (IH _ d d' _ rest y); auto; try lia.
      * rewrite app_length. f_equal; lia.
      * now rewrite plain_text.
    + destruct (Z.eqb_spec i idx) as [->|_]; [lia|].
      rewrite (IH _ (S d) d' _ rest bs); auto; try lia.
      * f_equal; lia.
      * now rewrite plain_text.
    + destruct d as [|d]; [discriminate|]. cbn [Nat.eqb].
      rewrite (IH _ d d' _ rest bs); auto; try lia.
      * f_equal; lia.
      * now rewrite plain_text.
Qed.

(** Reading tokens after the start was found, until the outermost style is closed. *)
Lemma range_after : forall idx ts i d count a rest bs, newline_free ts ->
  (idx < i)%Z -> nest d ts = Some 0%nat -> utf8 (plain ts) = Ok bs ->
  byte_range_from idx i (S d) count (Some a) (ts ++ TEnd :: rest) =
  Ok (a, (count + List.length bs)%nat).
Proof.
  intros idx ts. induction ts as [|t ts IH]; intros i d count a rest bs Hn Hi Hd Hb.
  - cbn in Hd, Hb. injection Hd as ->. injection Hb as <-. cbn. do 2 f_equal; lia.
  - inversion Hn as [|t' ts' Ht Hn']; subst. rewrite plain_text in Hb.
    destruct t as [s|n|s|]; try discriminate; cbn [tokens_to_text app byte_range_from nest] in *.
    + apply utf8_app_inv in Hb. destruct Hb as [x [y [Hx [Hy ->]]]].
      unfold byte_length. rewrite Hx. cbn [rbind]. rewrite (IH _ d _ _ _ y); auto; try lia.
      * rewrite app_length. do 2 f_equal; lia.
      * now rewrite plain_text.
    + destruct (Z.eqb_spec i idx) as [->|_]; [lia|].
      rewrite (IH _ (S d) _ _ _ bs); auto; try lia. now rewrite plain_text.
    + destruct d as [|d]; [discriminate|]. rewrite (IH _ d _ _ _ bs); auto; try lia.
      now rewrite plain_text.
Qed.

Lemma plain_begin : forall n ts, plain (TBegin n :: ts) = plain ts.
Proof. intros. rewrite !plain_text. reflexivity. Qed.
Lemma plain_end : forall ts, plain (TEnd :: ts) = plain ts.
Proof. intros. rewrite !plain_text. reflexivity. Qed.

(** From the opening to where the outermost enclosing style (or the style itself, if it is
    the outermost) is closed. *)
Lemma byte_range_spec : forall pre name mid post d bs,
  newline_free (pre ++ mid) -> nest 0 pre = Some d -> nest d mid = Some 0%nat ->
  utf8 (plain (pre ++ TBegin name :: mid ++ TEnd :: post)) = Ok bs ->
  exists a b, get_byte_range (pre ++ TBegin name :: mid ++ TEnd :: post)
      (Z.of_nat (List.length pre)) = Ok (a, b) /\
    range_of (pre ++ TBegin name :: mid ++ TEnd :: post) a b (plain mid).
Proof.
  intros pre name mid post d bs Hn Hd Hm Hb. apply Forall_app in Hn. destruct Hn as [N1 N2].
  assert (Hb' := Hb). rewrite plain_app, plain_begin, plain_app, plain_end in Hb.
  apply utf8_app_inv in Hb. destruct Hb as [x [y [Hx [Hy ->]]]].
  apply utf8_app_inv in Hy. destruct Hy as [m [z [Hy [Hz ->]]]].
  exists (List.length x), (List.length x + List.length m)%nat. split.
  - unfold get_byte_range. rewrite (range_before _ pre 0 0 d 0 _ x); auto; try lia.
    cbn [byte_range_from]. rewrite Z.eqb_refl.
    rewrite (range_after _ mid _ d _ _ _ m); auto; lia.
  - exists x, m, z. split; auto. split; auto. split; auto. apply app_length.
Qed.

(** ** The loop over the characters of the line *)

Lemma utf8_char_nonempty : forall c bs, utf8_char c = Ok bs -> (0 < List.length bs)%nat.
Proof.
  intros c bs H. unfold utf8_char in H.
  repeat match type of H with (if ?b then _ else _) = _ => destruct b end;
    try discriminate; injection H as <-; cbn; lia.
Qed.

Definition total (g : list (Q * Q)) : Q := fold_right (fun p q => snd p + q) 0 g.

Lemma extents_skip : forall start stop s g off cs bs s' g', (start <= stop)%nat ->
  utf8 s = Ok bs -> (off + List.length bs <= start)%nat -> List.length g = List.length s ->
  offsets_from off (s ++ s') (g ++ g') cs ->
  exists cs', offsets_from (off + List.length bs) s' g' cs' /\
    extents_loop start stop None 0 cs = extents_loop start stop None 0 cs'.
Proof.
  intros start stop s. induction s as [|c s IH]; intros g off cs bs s' g' Hss Hb Ho Hl H.
  - cbn in Hb. injection Hb as <-. destruct g; [|discriminate]. exists cs. cbn in *.
    rewrite Nat.add_0_r. auto.
  - destruct g as [|[x w] g]; [discriminate|]. cbn [app offsets_from] in H.
    destruct cs as [|[[o x'] w'] cs]; [contradiction|].
    destruct H as [-> [-> [-> [b [Hc H]]]]]. cbn [utf8] in Hb. rewrite Hc in Hb. cbn [rbind] in Hb.
    destruct (utf8 s) as [bs'|] eqn:E; [|discriminate]. cbn [rbind] in Hb. injection Hb as <-.
    rewrite app_length in Ho. assert (P := utf8_char_nonempty _ _ Hc).
    destruct (IH g (off + List.length b)%nat cs bs' s' g' Hss eq_refl) as [cs' [H1 H2]]; auto;
      try lia.
    exists cs'. rewrite app_length, Nat.add_assoc. split; auto. rewrite <- H2.
    cbn [extents_loop]. destruct (Nat.leb_spec start off) as [|_]; [lia|]. cbn [andb].
    destruct (Nat.leb_spec stop off) as [|_]; [lia|]. reflexivity.
Qed.

Lemma extents_take : forall start stop s g off cs bs s' g' x w, (start <= off)%nat ->
  utf8 s = Ok bs -> stop = (off + List.length bs)%nat -> List.length g = List.length s ->
  offsets_from off (s ++ s') (g ++ g') cs ->
  exists w', extents_loop start stop (Some x) w cs = Ok (x, w') /\ w' == w + total g.
Proof.
  intros start stop s. induction s as [|c s IH]; intros g off cs bs s' g' x w Hs Hb He Hl H.
  - cbn in Hb. injection Hb as <-. destruct g; [|discriminate]. cbn in He. rewrite Nat.add_0_r in He.
    subst stop. exists w. split; [|unfold total; cbn; ring]. cbn in H.
    destruct cs as [|[[o x'] w'] cs]; [reflexivity|].
    assert (o = off) as ->.
    { destruct s' as [|c s']; destruct g' as [|[? ?] g']; cbn in H; tauto. }
    cbn [extents_loop]. rewrite Nat.ltb_irrefl, andb_false_r, Nat.leb_refl. reflexivity.
  - destruct g as [|[gx gw] g]; [discriminate|]. cbn [app offsets_from] in H.
    destruct cs as [|[[o x'] w'] cs]; [contradiction|].
    destruct H as [-> [-> [-> [b [Hc H]]]]]. cbn [utf8] in Hb. rewrite Hc in Hb. cbn [rbind] in Hb.
    destruct (utf8 s) as [bs'|] eqn:E; [|discriminate]. cbn [rbind] in Hb. injection Hb as <-.
    rewrite app_length in He. assert (P := utf8_char_nonempty _ _ Hc).
    destruct (IH g (off + List.length b)%nat cs bs' s' g' x (w + gw)) as [w2 [H1 H2]]; auto; try lia.
    exists w2. cbn [extents_loop]. destruct (Nat.leb_spec start off) as [_|]; [|lia].
    destruct (Nat.ltb_spec off stop) as [_|]; [|lia]. cbn [andb]. split; auto.
    rewrite H2. unfold total. cbn [fold_right snd]. ring.
Qed.

Lemma extents_spec : forall s1 c s2 s3 g1 x w g2 g3 cs b1 b2,
  offsets_from 0 (s1 ++ (c :: s2) ++ s3) (g1 ++ ((x, w) :: g2) ++ g3) cs ->
  List.length g1 = List.length s1 -> List.length g2 = List.length s2 ->
  utf8 s1 = Ok b1 -> utf8 (c :: s2) = Ok b2 ->
  exists w', extents_loop (List.length b1) (List.length (b1 ++ b2)) None 0 cs = Ok (x, w') /\
    w' == total ((x, w) :: g2).
Proof.
  intros s1 c s2 s3 g1 x w g2 g3 cs b1 b2 H L1 L2 H1 H2. rewrite app_length.
  destruct (extents_skip (List.length b1) (List.length b1 + List.length b2) s1 g1 0 cs b1 _ _
    ltac:(lia) H1 ltac:(lia) L1 H) as [cs' [Hc ->]].
  cbn [app offsets_from plus] in Hc.
  destruct cs' as [|[[o x'] w'] cs']; [contradiction|].
  destruct Hc as [-> [-> [-> [b [Hb Hc]]]]]. cbn [utf8] in H2. rewrite Hb in H2. cbn [rbind] in H2.
  destruct (utf8 s2) as [bs'|] eqn:E; [|discriminate]. cbn [rbind] in H2. injection H2 as <-.
  assert (P := utf8_char_nonempty _ _ Hb). rewrite app_length.
  cbn [extents_loop]. rewrite Nat.leb_refl.
  destruct (Nat.ltb_spec (List.length b1) (List.length b1 + (List.length b + List.length bs')))
    as [_|]; [|lia]. cbn [andb]. rewrite Nat.eqb_refl.
  destruct (extents_take (List.length b1) (List.length b1 + (List.length b + List.length bs'))
    s2 g2 (List.length b1 + List.length b) cs' bs' s3 g3 x (0 + w)) as [w2 [H3 H4]]; auto; try lia.
  exists w2. split; auto. rewrite H4. unfold total. cbn [fold_right snd]. ring.
Qed.

Lemma extents_empty : forall a cs, extents_loop a a None 0 cs = Err EAssertion.
Proof.
  intros a cs. induction cs as [|[[o x] w] cs IH]; cbn [extents_loop]; auto.
  destruct (Nat.leb_spec a o); destruct (Nat.ltb_spec o a); cbn [andb]; auto; lia.
Qed.
