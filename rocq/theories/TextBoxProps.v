(** Properties C33-C35 and C71: boxes around lines and inline styles. *)
From Coq Require Import List ZArith NArith QArith Bool String Lia Lqa.
From Verif Require Import Py PyFacts ShowModel LayoutModel LayoutSpec LayoutProofs LayoutProofs2
  LayoutProofs3 LayoutProofs4 LayoutProps SlideModel TextModel TextSpec TextProofs TextMerge
  TextLines TextProps TextBoxModel TextBoxSpec TextBoxProofs.
Import ListNotations.
Local Open Scope Q_scope.

(** ** C33 *)

(** [c] is a line box of the text [it] in the box [p], created by line_box(i, n) without
    explicit y and height.  After a first render it starts at the top of line [i] and spans
    [n] lines and one pixel. *)
Theorem C33_line_box : forall owner l r s S p c c0 R it i n kw,
  NoDup (ids l) -> owned owner l -> user_tree owner l -> fresh s -> set_rect l r s = Ok S ->
  within p l -> In c (kids p) -> area p S = Some R -> ti_box it = l_id (head p) ->
  new_layout (l_id (head c)) (ba_layout (line_box_args it i n kw)) = Ok c0 -> grown c0 c ->
  kw_y kw = None -> kw_height kw = None ->
  let H := tx_h (st_text S (ti_id it)) in
  exists o, outer c S o /\
    ry o == line_top (ti_tokens it) R H i /\
    rh o == inject_Z n * one_line (ti_tokens it) H + 1.
Proof.
  intros owner l r s S p c c0 R it i n kw Hn Ho Hu Hf Hs Hw Hc HR Hb Hl [G1 [G2 [G3 G4]]] Ky Kh H.
  apply defaults_head in Hl. destruct Hl as [_ [Ly [_ Lh]]].
  apply lazy_pos_default in Ly; auto. apply lazy_size_default in Lh; auto.
  destruct (G4 Y) as [Gl _]. cbn [size_arg] in Gl. rewrite <- Gl in Lh. rewrite <- G3 in Ly.
  destruct (place_lazy_y _ _ _ _ _ _ _ _ _ Hn Ho Hu Hf Hs Hw Hc HR Ly) as [o [O1 [v [V1 V2]]]].
  destruct (size_lazy _ _ _ _ _ _ _ _ _ Y Hn Ho Hu Hf Hs Hw Hc HR Lh) as [o' [O2 [u [U1 U2]]]].
  rewrite (outer_unique _ _ _ _ O2 O1) in U2. exists o. split; auto. split.
  - rewrite V2. eapply line_y_value; eauto.
  - cbn [extent] in U2. rewrite U2. unfold line_height in U1.
    assert (u = inject_Z n * H / lines_q (ti_tokens it) + 1) as -> by (unfold H; congruence).
    unfold one_line. rewrite lines_q_breaks. field. intro X. assert (P := q_of_nat_pos
      (line_breaks (ti_tokens it))). rewrite X in P. now apply Qlt_irrefl in P.
Qed.
Print Assumptions C33_line_box.

(** The lines tile the text: the first starts at its top, each next one where the previous
    one ends, and the last one ends at the bottom; the text is centred in the box. *)
Theorem C33_lines_tile : forall ts R H,
  line_top ts R H 0 - ry R == ry R + rh R - (line_top ts R H 0 + H) /\
  (forall i n, line_top ts R H (i + n) == line_top ts R H i + inject_Z n * one_line ts H) /\
  line_top ts R H (Z.of_nat (1 + line_breaks ts)) == line_top ts R H 0 + H.
Proof.
  intros ts R H. assert (P := q_of_nat_pos (line_breaks ts)).
  assert (P' : ~ q_of_nat (1 + line_breaks ts) == 0) by (intro X; rewrite X in P; now apply Qlt_irrefl in P).
  unfold line_top, one_line. split; [|split].
  - change (inject_Z 0) with 0. field. exact P'.
  - intros i n. rewrite inject_Z_plus. ring.
  - fold (q_of_nat (1 + line_breaks ts)). change (inject_Z 0) with 0. field. exact P'.
Qed.
Print Assumptions C33_lines_tile.

(** The lines are where the text is drawn: after a first render, the text that follows the
    first [k] tokens is drawn with a base line one font size below the top of its line,
    scaled or not. *)
Theorem C33_drawn_lines : forall l r s S p R it w x y sc k,
  NoDup (ids l) -> NoDup (texts l) -> set_rect l r s = Ok S -> within p l ->
  area p S = Some R -> ti_box it = l_id (head p) ->
  st_text s (ti_id it) = mkText w (text_height (ti_tokens it) (ti_size it) (ti_spacing it)) 1 ->
  (if ti_fit it then In (ti_id it) (l_texts (head p)) else ~ In (ti_id it) (texts l)) ->
  render_text it S = Ok (Some (x, y, sc)) ->
  baseline it y sc k ==
    line_top (ti_tokens it) R (tx_h (st_text S (ti_id it)))
      (Z.of_nat (line_breaks (firstn k (ti_tokens it)))) +
    ti_size it * tx_scale (st_text S (ti_id it)).
Proof.
  intros l r s S p R it w x y sc k Hn Ht Hs Hw HR Hb Hx Hfit Hr.
  assert (St : exists sc0, tx_h (st_text S (ti_id it)) ==
      text_height (ti_tokens it) (ti_size it) (ti_spacing it) * sc0 /\
      tx_scale (st_text S (ti_id it)) = sc0 /\ (ti_fit it = false -> sc0 = 1)).
  { destruct (ti_fit it) eqn:F.
    - rewrite (text_final l r s S Hn Ht Hs p (ti_id it) R Hw Hfit HR), Hx.
      unfold scale_callback.
      destruct (negb (Qle_bool w tiny) && negb (Qle_bool (text_height (ti_tokens it) (ti_size it) (ti_spacing it)) tiny));
        cbn [tx_h tx_scale].
      + eexists. split; [reflexivity|]. split; [reflexivity|discriminate].
      + exists 1. split; [ring|]. split; [reflexivity|discriminate].
    - assert (E : st_text S (ti_id it) = st_text s (ti_id it)).
      { symmetry. apply (proj2 (set_rect_outside _ _ _ _ Hs)).
        intro X. apply text_of_texts in X. contradiction. }
      rewrite E, Hx. exists 1. cbn [tx_h tx_scale]. split; [ring|]. auto. }
  destruct St as [sc0 [E1 [E2 E3]]]. unfold render_text in Hr. unfold area in HR.
  rewrite Hb, HR in Hr. destruct (text_x_in_rect R (ti_align it)) as [x'|]; [|discriminate].
  cbn [rbind] in Hr. destruct (Qle_bool (tx_scale (st_text S (ti_id it))) tiny) eqn:Tiny; [discriminate|].
  assert (Y : y = ry R + (rh R - tx_h (st_text S (ti_id it))) / 2 +
     ti_size it * tx_scale (st_text S (ti_id it))) by congruence.
  assert (C : sc = if ti_fit it then Some (tx_scale (st_text S (ti_id it))) else None) by congruence.
  assert (Pos : ~ sc0 == 0).
  { intro Z0. rewrite <- E2 in Z0. assert (Qle_bool (tx_scale (st_text S (ti_id it))) tiny = true).
    { apply Qle_bool_iff. rewrite Z0. discriminate. } congruence. }
  clear Hr Tiny. subst y. rewrite E2 in C |- *.
  unfold baseline, line_top, one_line.
  assert (Sh := newline_shift_breaks (ti_size it * ti_spacing it) (firstn k (ti_tokens it))).
  set (nb := line_breaks (firstn k (ti_tokens it))) in *.
  assert (L : tx_h (st_text S (ti_id it)) / q_of_nat (1 + line_breaks (ti_tokens it)) ==
    ti_size it * ti_spacing it * sc0).
  { rewrite E1. unfold text_height. rewrite lines_q_breaks. field. intro X. assert (P := q_of_nat_pos
      (line_breaks (ti_tokens it))). rewrite X in P. now apply Qlt_irrefl in P. }
  rewrite L. fold (q_of_nat nb). destruct (ti_fit it) eqn:F; subst sc.
  - rewrite Sh. field. exact Pos.
  - rewrite Sh, (E3 eq_refl). ring.
Qed.
Print Assumptions C33_drawn_lines.

(** A slide of 200 x 100 with a box of 100 x 60; the text has three lines of 10 * 2 and is
    scaled to fit; line_box(1) is the middle third. *)
Definition plain_kw : box_kwargs := mkKw None None None None
  (mkBArgs (mkLArgs ANone ANone ANone ANone None None None None None None None false)
     ShowNone None false None None).
Definition demo_tokens : list token :=
  [TText (pys "ab"); TNewline 1; TBegin (pys "x"); TText (pys "c"); TEnd; TNewline 1; TText (pys "d")].
Definition demo_item : text_item :=
  mkItem 2 1 demo_tokens (Some (pys "left")) 10 1 true.
Definition demo_slide : slide :=
  match new_slide 200 100 with
  | Ok s0 =>
      let s1 := fst (box_call s0 0 (mkBArgs (mkLArgs ANone ANone (ANum 100) (ANum 60) None None
        None None None None None false) ShowNone None false None None)) in
      let s2 := fst (text_call s1 1 (fun _ => 20) demo_tokens 10 1 true) in
      let s3 := fst (line_box s2 demo_item 1 1 plain_kw) in
      fst (inline_box (fun _ _ => Ok 3) (fun _ _ => Ok 4) s3 demo_item (pys "x") 1 plain_kw)
  | Err _ => mkSlide (NItem 0 0) (Node (hd 0 None None (px 0) (px 0) false) []) 0 0 empty_store
  end.
Example ex_C33 : exists S, prepare (sl_layout demo_slide) 200 100 (sl_store demo_slide) = Ok S /\
  NoDup (ids (sl_layout demo_slide)) /\ texts (sl_layout demo_slide) = [2%nat] /\
  fresh (sl_store demo_slide) /\
  exists r1 r3 x y sc, st_rect S 1%nat = Some r1 /\ st_rect S 3%nat = Some r3 /\
    ry r1 == 20 /\ rh r1 == 60 /\ ry r3 == 40 /\ rh r3 == 21 /\ rx r3 == rx r1 /\ rw r3 == rw r1 /\
    render_text demo_item S = Ok (Some (x, y, sc)) /\ baseline demo_item y sc 2 == 60.
Proof.
  eexists. split; [vm_compute; reflexivity|].
  split. { vm_compute. repeat constructor; simpl; intuition congruence. }
  split; [reflexivity|]. split; [intros i; reflexivity|].
  do 5 eexists. split; [vm_compute; reflexivity|]. split; [vm_compute; reflexivity|].
  do 6 (split; [vm_compute; reflexivity|]). split; [vm_compute; reflexivity|].
  vm_compute. reflexivity.
Qed.

(** The lazy values that line_box and inline_box pass are among those of [user_tree]. *)
Lemma line_values_user : forall owner it i n qx qw, owner (ti_id it) = ti_box it ->
  user_lazy owner (ti_box it) (line_y it i) /\ user_lazy owner (ti_box it) (line_height it n) /\
  user_lazy owner (ti_box it) (inline_x it qx) /\ user_lazy owner (ti_box it) (inline_width it qw) /\
  user_lazy owner (ti_box it) (inline_height it).
Proof.
  intros owner it i n qx qw Ho. unfold line_y, line_height, inline_x, inline_width, inline_height.
  split.
  { exact (ul_text owner (ti_box it) (ti_id it) (fun r t => Ok (ry r + (rh r - tx_h t) / 2 +
      tx_h t / lines_q (ti_tokens it) * inject_Z i)) Ho). }
  split.
  { exact (ul_text_size owner (ti_box it) (ti_id it) (fun t =>
      inject_Z n * tx_h t / lines_q (ti_tokens it) + 1) Ho). }
  split.
  { exact (ul_text owner (ti_box it) (ti_id it) (fun r t => do x <- text_x_in_rect r (ti_align it);
      Ok (x + qx * tx_scale t)) Ho). }
  split.
  { exact (ul_text_size owner (ti_box it) (ti_id it) (fun t => qw * tx_scale t) Ho). }
  exact (ul_text_size owner (ti_box it) (ti_id it) (fun t =>
      tx_h t / lines_q (ti_tokens it) + 1) Ho).
Qed.

(** The slide meets the hypotheses about lazy values. *)
Example ex_C33_user : let owner := fun _ => 1%nat in
  owned owner (sl_layout demo_slide) /\ user_tree owner (sl_layout demo_slide).
Proof.
  assert (E : exists h0 h1 h3 h4, sl_layout demo_slide =
     Node h0 [Node h1 [Node h3 []; Node h4 []]] /\ l_texts h0 = [] /\ l_texts h1 = [2%nat] /\
     l_texts h3 = [] /\ l_texts h4 = [] /\ l_id h1 = 1%nat /\
     (forall f, ~ lazy_in f h1) /\
     (forall f, lazy_in f h3 -> f = line_y demo_item 1 \/ f = line_height demo_item 1) /\
     (forall f, lazy_in f h4 -> f = inline_x demo_item 3 \/ f = line_y demo_item 1 \/
        f = inline_width demo_item 4 \/ f = inline_height demo_item)).
  { do 4 eexists. split; [lazy; reflexivity|]. do 5 (split; [reflexivity|]).
    split; [|split].
    - intros f [H|[H|[H|H]]]; cbn in H; discriminate.
    - intros f [H|[H|[H|H]]]; cbn in H; try discriminate; injection H as <-; auto.
    - intros f [H|[H|[H|H]]]; cbn in H; try discriminate; injection H as <-; auto. }
  destruct E as [h0 [h1 [h3 [h4 [-> [T0 [T1 [T3 [T4 [I1 [L1 [L3 L4]]]]]]]]]]]].
  intros owner. split.
  - intros c Hc t Ht.
    repeat match goal with
      | H : within _ (Node _ _) |- _ => inversion H; clear H; subst
      | H : In _ (kids (Node _ _)) |- _ => cbn [kids] in H
      | H : In _ (_ :: _) |- _ => destruct H as [<-|H]
      | H : In _ [] |- _ => destruct H
      end; cbn [head] in *; try (rewrite ?T0, ?T3, ?T4 in Ht; destruct Ht; fail); auto.
  - intros p c f Hp Hc Hf.
    assert (V := fun i n qx qw => line_values_user owner demo_item i n qx qw eq_refl).
    change (ti_box demo_item) with 1%nat in V.
    repeat match goal with
      | H : within _ (Node _ _) |- _ => inversion H; clear H; subst
      | H : In _ (kids (Node _ _)) |- _ => cbn [kids] in H
      | H : In _ (_ :: _) |- _ => destruct H as [<-|H]
      | H : In _ [] |- _ => destruct H
      end; cbn [head] in *; try (now destruct (L1 _ Hf)); rewrite I1.
    + destruct (L3 _ Hf) as [-> | ->]; destruct (V 1%Z 1%Z 0 0) as [V1 [V2 _]]; auto.
    + destruct (V 1%Z 1%Z 3 4) as [V1 [V2 [V3 [V4 V5]]]].
      destruct (L4 _ Hf) as [-> | [-> | [-> | ->]]]; auto.
Qed.

(** ** C71 *)

(** Full statement: a line box without explicit x and width has the width of the box of the
    text.  Missing: horizontal boxes (refuted below). *)
Theorem C71_line_width_partial : forall l r s S p c c0 R it i n kw,
  NoDup (ids l) -> set_rect l r s = Ok S ->
  within p l -> In c (kids p) -> area p S = Some R ->
  new_layout (l_id (head c)) (ba_layout (line_box_args it i n kw)) = Ok c0 -> grown c0 c ->
  kw_x kw = None -> kw_width kw = None -> stack_axis p = Y ->
  exists o, outer c S o /\ rx o == rx R /\ rw o == rw R.
Proof.
  intros l r s S p c c0 R it i n kw Hn Hs Hw Hc HR Hl [G1 [G2 [G3 G4]]] Kx Kw Hp.
  destruct (C12_child_geometry_partial l r s S p R c Hn Hs Hw HR Hc) as [o [st [O [_ G]]]].
  exists o. split; auto. destruct (G X) as [Gs Gp].
  apply defaults_head in Hl. destruct Hl as [Lx [_ [Lw _]]]. rewrite Kx in Lx. rewrite Kw in Lw.
  cbn [setdefault] in Lx, Lw. cbn in Lx.
  destruct (G4 X) as [X1 [X2 X3]]. cbn [size_arg] in X1, X2, X3.
  assert (Pf : exists v, parse_size (or_zero (AStr (pys "fill"))) = Ok v /\ sv_lazy v = None /\
    is_fill v = true) by (eexists; split; [vm_compute; reflexivity|]; split; reflexivity).
  destruct Pf as [v [Pf [Pv1 Pv2]]]. rewrite Pf in Lw. injection Lw as Lw'. symmetry in Lw'.
  split.
  - cbn [pos_arg] in Gp. rewrite G2 in Gp.
    assert (E : l_x (head c0) = Some (PosFix 0)) by congruence. rewrite E in Gp.
    assert (P : ~ skewed X p (PosFix 0)) by (intros [? _]; discriminate).
    apply Gp in P. cbn [placed_at start] in P. rewrite P. ring.
  - assert (sized_as X c R o st).
    { apply Gs. right. right. rewrite Hp. discriminate. }
    unfold sized_as in H. cbn [size_arg] in H. 
    assert (Fi : is_fill (l_width (head c)) = is_fill v).
    { rewrite <- Lw'. unfold is_fill. now rewrite X3. }
    rewrite X1, Lw', Pv1, Fi, Pv2 in H. exact H.
Qed.
Print Assumptions C71_line_width_partial.

(** In a horizontal box the line box has width 0. *)
Definition row_slide : slide :=
  match new_slide 200 100 with
  | Ok s0 =>
      let s1 := fst (box_call s0 0 (mkBArgs (mkLArgs ANone ANone (ANum 100) (ANum 60) None None
        None None None None None true) ShowNone None false None None)) in
      let s2 := fst (text_call s1 1 (fun _ => 20) demo_tokens 10 1 false) in
      fst (line_box s2 demo_item 1 1 plain_kw)
  | Err _ => mkSlide (NItem 0 0) (Node (hd 0 None None (px 0) (px 0) false) []) 0 0 empty_store
  end.
Theorem C71_line_width_refuted : exists S r1 r3,
  prepare (sl_layout row_slide) 200 100 (sl_store row_slide) = Ok S /\
  st_rect S 1%nat = Some r1 /\ st_rect S 3%nat = Some r3 /\ rw r1 == 100 /\ rw r3 == 0.
Proof.
  do 3 eexists. split; [vm_compute; reflexivity|]. split; [vm_compute; reflexivity|].
  split; [vm_compute; reflexivity|]. split; vm_compute; reflexivity.
Qed.
Print Assumptions C71_line_width_refuted.

(** ** C34 *)

(** inline_box(name, n) uses the n-th opening of the style in reading order; it raises
    exactly if n is not positive or there are fewer. *)
Theorem C34_occurrence : forall it name n,
  inline_index it name n =
  if (n <=? 0)%Z then Err EAssertion
  else match nth_error (occurrences name (ti_tokens it)) (Z.to_nat n - 1) with
       | Some k => Ok k
       | None => Err EException
       end.
Proof.
  intros it name n. unfold inline_index. destruct (Z.leb_spec n 0); auto.
  destruct (Z.to_nat n) as [|m] eqn:E; [lia|].
  rewrite find_style_spec. rewrite Nat.sub_succ, Nat.sub_0_r.
  destruct (nth_error (occurrences name (ti_tokens it)) m); reflexivity.
Qed.
Print Assumptions C34_occurrence.

(** After a first render, an inline box without explicit x, y and sizes starts vertically
    like the line box of the line that contains the opening, is one line (and one pixel)
    high, and is horizontally where the backend measured the rest of the line from the
    opening, scaled like the text. *)
Theorem C34_inline_box : forall owner l r s S p c c0 R it k kw qx qw a,
  NoDup (ids l) -> owned owner l -> user_tree owner l -> fresh s -> set_rect l r s = Ok S ->
  within p l -> In c (kids p) -> area p S = Some R -> ti_box it = l_id (head p) ->
  text_box_args qx qw it k kw = Ok a -> new_layout (l_id (head c)) (ba_layout a) = Ok c0 ->
  grown c0 c -> kw_x kw = None -> kw_y kw = None -> kw_width kw = None -> kw_height kw = None ->
  let H := tx_h (st_text S (ti_id it)) in
  let sc := tx_scale (st_text S (ti_id it)) in
  exists o line j x w anchor, outer c S o /\
    ry o == line_top (ti_tokens it) R H (Z.of_nat (line_breaks (firstn k (ti_tokens it)))) /\
    rh o == one_line (ti_tokens it) H + 1 /\
    extract_line (ti_tokens it) k = Ok (line, j) /\ qx line j = Ok x /\ qw line j = Ok w /\
    text_x_in_rect R (ti_align it) = Ok anchor /\
    rx o == anchor + x * sc /\ rw o == w * sc.
Proof.
  intros owner l r s S p c c0 R it k kw qx qw a Hn Ho Hu Hf Hs Hw Hc HR Hb Ha Hl
    [G1 [G2 [G3 G4]]] Kx Ky Kw Kh H sc.
  unfold text_box_args in Ha.
  destruct (extract_line (ti_tokens it) k) as [[line j]|]; [|discriminate]. cbn [rbind fst snd] in Ha.
  destruct (qx line j) as [x|] eqn:Ex; [|discriminate]. cbn [rbind] in Ha.
  destruct (qw line j) as [w|] eqn:Ew; [|discriminate]. cbn [rbind] in Ha.
  assert (a = fill_defaults kw (ALazy (inline_x it x))
    (ALazy (line_y it (Z.of_nat (number_of_lines (firstn k (ti_tokens it))) - 1)))
    (ALazy (inline_width it w)) (ALazy (inline_height it))) as -> by congruence.
  apply defaults_head in Hl. destruct Hl as [Lx [Ly [Lw Lh]]].
  apply lazy_pos_default in Ly; auto. apply lazy_size_default in Lh; auto.
  apply lazy_pos_default in Lx; auto. apply lazy_size_default in Lw; auto.
  destruct (G4 Y) as [GY _]. cbn [size_arg] in GY. rewrite <- GY in Lh. rewrite <- G3 in Ly.
  destruct (G4 X) as [GX _]. cbn [size_arg] in GX. rewrite <- GX in Lw. rewrite <- G2 in Lx.
  destruct (place_lazy_y _ _ _ _ _ _ _ _ _ Hn Ho Hu Hf Hs Hw Hc HR Ly) as [o [O1 [v [V1 V2]]]].
  destruct (size_lazy _ _ _ _ _ _ _ _ _ Y Hn Ho Hu Hf Hs Hw Hc HR Lh) as [o' [O2 [u [U1 U2]]]].
  rewrite (outer_unique _ _ _ _ O2 O1) in U2.
  destruct (place_lazy_x _ _ _ _ _ _ _ _ _ Hn Ho Hu Hf Hs Hw Hc HR Lx) as [o3 [O3 [v3 [V3 W3]]]].
  rewrite (outer_unique _ _ _ _ O3 O1) in W3.
  destruct (size_lazy _ _ _ _ _ _ _ _ _ X Hn Ho Hu Hf Hs Hw Hc HR Lw) as [o4 [O4 [u4 [U4 W4]]]].
  rewrite (outer_unique _ _ _ _ O4 O1) in W4. cbn [extent] in U2, W4.
  unfold inline_x in V3. unfold area in HR. rewrite Hb, HR in V3.
  destruct (text_x_in_rect R (ti_align it)) as [anchor|] eqn:Ea; [|discriminate].
  cbn [rbind] in V3.
  exists o, line, j, x, w, anchor. split; auto. split.
  { rewrite V2. rewrite (line_y_value it S p R _ v HR Hb V1).
    unfold number_of_lines. rewrite number_of_lines_breaks.
    replace (Z.of_nat (1 + line_breaks (firstn k (ti_tokens it))) - 1)%Z
      with (Z.of_nat (line_breaks (firstn k (ti_tokens it)))) by lia. reflexivity. }
  split.
  { rewrite U2. unfold inline_height in U1. assert (u = H / lines_q (ti_tokens it) + 1) as ->
      by (unfold H; congruence). unfold one_line. now rewrite lines_q_breaks. }
  do 4 (split; auto). split.
  - rewrite W3. assert (v3 = anchor + x * sc) as -> by (unfold sc; congruence). reflexivity.
  - rewrite W4. unfold inline_width in U4. assert (u4 = w * sc) as -> by (unfold sc; congruence).
    reflexivity.
Qed.
Print Assumptions C34_inline_box.

Example ex_C34 : exists S, prepare (sl_layout demo_slide) 200 100 (sl_store demo_slide) = Ok S /\
  inline_index demo_item (pys "x") 1 = Ok 2%nat /\ inline_index demo_item (pys "x") 2 = Err EException /\
  exists r1 r4, st_rect S 1%nat = Some r1 /\ st_rect S 4%nat = Some r4 /\
    ry r4 == 40 /\ rh r4 == 21 /\ rx r4 == rx r1 + 6 /\ rw r4 == 8.
Proof.
  eexists. split; [vm_compute; reflexivity|]. do 2 (split; [vm_compute; reflexivity|]).
  do 2 eexists. split; [vm_compute; reflexivity|]. split; [vm_compute; reflexivity|].
  do 3 (split; [vm_compute; reflexivity|]). vm_compute. reflexivity.
Qed.

(** ** C35 *)

(** Full statement: the byte range measured for the style opened at a position of a single
    line is that of the text enclosed by the style.  Missing: styles inside another style
    (refuted below; what is measured then is C35_nested_range).  The text must be encodable
    in UTF-8. *)
Theorem C35_byte_range_partial : forall pre name body post bs,
  (forall n, ~ In (TNewline n) (pre ++ body)) -> balanced pre -> balanced body ->
  utf8 (plain (pre ++ TBegin name :: body ++ TEnd :: post)) = Ok bs ->
  exists a b, get_byte_range (pre ++ TBegin name :: body ++ TEnd :: post)
      (Z.of_nat (List.length pre)) = Ok (a, b) /\
    range_of (pre ++ TBegin name :: body ++ TEnd :: post) a b (plain body).
Proof.
  intros pre name body post bs Hn Hp Hb Hu. eapply byte_range_spec; eauto.
  apply Forall_forall. intros t Ht. destruct t as [s|n|s|]; auto. exfalso. now apply (Hn n).
Qed.
Print Assumptions C35_byte_range_partial.

(** For a style inside [d] other styles the measured range starts at the right byte and
    ends where the outermost of these ends: [rest] is what follows up to there. *)
Theorem C35_nested_range : forall pre name body rest post d bs,
  (forall n, ~ In (TNewline n) (pre ++ body ++ rest)) -> nest 0 pre = Some (S d) ->
  balanced body -> nest d rest = Some 0%nat ->
  utf8 (plain (pre ++ TBegin name :: (body ++ TEnd :: rest) ++ TEnd :: post)) = Ok bs ->
  exists a b, get_byte_range (pre ++ TBegin name :: (body ++ TEnd :: rest) ++ TEnd :: post)
      (Z.of_nat (List.length pre)) = Ok (a, b) /\
    range_of (pre ++ TBegin name :: (body ++ TEnd :: rest) ++ TEnd :: post) a b
      (plain body ++ plain rest).
Proof.
  intros pre name body rest post d bs Hn Hp Hb Hr Hu.
  assert (E : plain body ++ plain rest = plain (body ++ TEnd :: rest)).
  { now rewrite plain_app, plain_end. }
  rewrite E. eapply byte_range_spec; eauto.
  - apply Forall_forall. intros t Ht. destruct t as [s|n|s|]; auto. exfalso. apply (Hn n).
    rewrite !in_app_iff in Ht |- *. cbn [In] in Ht. intuition discriminate.
  - rewrite nest_app. unfold balanced in Hb.
    assert (B : nest (S d) body = Some (S d)).
    { assert (G : forall ts m k j, nest m ts = Some k -> nest (m + j) ts = Some (k + j)%nat).
      { clear. induction ts as [|t ts IH]; intros m k j H; cbn in *; [congruence|].
        destruct t; auto. - apply (IH (S m)); auto. - destruct m; [discriminate|]. cbn. auto. }
      apply (G body 0%nat 0%nat (S d)) in Hb. exact Hb. }
    rewrite B. cbn [nest]. exact Hr.
Qed.
Print Assumptions C35_nested_range.

(** In "~a{x ~b{y} z}" the range measured for b includes " z". *)
Definition nested_tokens : list token :=
  match parse_text (pys "~a{x ~b{y} z}") (Some 126%N) 123%N 125%N with Ok ts => ts | Err _ => [] end.
Theorem C35_nested_refuted : exists ts k a b,
  balanced ts /\ nth_error ts k = Some (TBegin (pys "b")) /\
  firstn 3 (skipn k ts) = [TBegin (pys "b"); TText (pys "y"); TEnd] /\
  get_byte_range ts (Z.of_nat k) = Ok (a, b) /\ ~ range_of ts a b (pys "y") /\
  range_of ts a b (pys "y z").
Proof.
  exists nested_tokens, 2%nat, 2%nat, 5%nat. repeat split; try (vm_compute; reflexivity).
  - intros [x [y [z [H1 [H2 [H3 H4]]]]]]. rewrite app_length in H3. vm_compute in H4.
    injection H4 as <-. cbn in H3. lia.
  - exists (pys "x "), (pys "y z"), []. repeat split; vm_compute; reflexivity.
Qed.
Print Assumptions C35_nested_refuted.

(** Given the byte range of a non empty text, the measured position is that of its first
    character and the width the sum of the widths of its characters. *)
Theorem C35_extents : forall ts k a b s1 c s2 s3 g1 x w g2 g3 cs,
  get_byte_range ts k = Ok (a, b) -> plain ts = s1 ++ (c :: s2) ++ s3 ->
  (exists b1 b2, utf8 s1 = Ok b1 /\ utf8 (c :: s2) = Ok b2 /\
     a = List.length b1 /\ b = List.length (b1 ++ b2)) ->
  offsets_from 0 (plain ts) (g1 ++ ((x, w) :: g2) ++ g3) cs ->
  List.length g1 = List.length s1 -> List.length g2 = List.length s2 ->
  exists w', subtext_extents cs ts k = Ok (x, w') /\
    w' == fold_right (fun p q => snd p + q) 0 ((x, w) :: g2).
Proof.
  intros ts k a b s1 c s2 s3 g1 x w g2 g3 cs Hr Hp [b1 [b2 [H1 [H2 [-> ->]]]]] Ho L1 L2.
  unfold subtext_extents. rewrite Hr. cbn [rbind fst snd]. rewrite Hp in Ho.
  eapply extents_spec; eauto.
Qed.
Print Assumptions C35_extents.

(** A style around no text cannot be measured: inline_box raises with the Cairo backend. *)
Theorem C35_empty_refuted : exists ts k, balanced ts /\
  nth_error ts k = Some (TBegin (pys "a")) /\
  forall cs, subtext_extents cs ts (Z.of_nat k) = Err EAssertion.
Proof.
  exists [TText (pys "x"); TBegin (pys "a"); TEnd; TText (pys "y")], 1%nat.
  split; [reflexivity|]. split; [reflexivity|]. intros cs. unfold subtext_extents.
  change (get_byte_range [TText (pys "x"); TBegin (pys "a"); TEnd; TText (pys "y")] (Z.of_nat 1))
    with (@Ok (nat * nat) (1%nat, 1%nat)). cbn [rbind fst snd]. apply extents_empty.
Qed.
Print Assumptions C35_empty_refuted.

Example ex_C35 : let ts := [TText [382%N]; TBegin (pys "a"); TText [8364%N; 97%N]; TEnd; TText (pys "y")] in
  get_byte_range ts 1 = Ok (2%nat, 6%nat) /\ range_of ts 2 6 [8364%N; 97%N] /\
  subtext_extents [(0%nat, 0, 5); (2%nat, 5, 6); (5%nat, 11, 7); (6%nat, 18, 8)] ts 1 = Ok (5, 0 + 6 + 7).
Proof.
  split; [vm_compute; reflexivity|]. split; [|vm_compute; reflexivity].
  do 3 eexists. split; [|split; [|split]].
  - instantiate (1 := pys "y"). instantiate (1 := [226; 130; 172; 97]%N).
    instantiate (1 := [197; 190]%N). vm_compute. reflexivity.
  - reflexivity.
  - reflexivity.
  - vm_compute. reflexivity.
Qed.
