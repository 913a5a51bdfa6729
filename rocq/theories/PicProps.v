(** Properties C88 to C90: pictures, LaTeX and texts are placed alike by both backends. *)
From Coq Require Import List Reals QArith Qreals NArith Bool String Lra Lia.
From Verif Require Import Py PyFacts XmlModel ShapeModel ShapeSpec ShapeProofs ShapePaint ShapeProps ShapeProps2
  PicModel PicSpec PicProofs.
From Verif Require LayoutModel ImageModel ImageProps.
Import ListNotations.
Local Open Scope R_scope.

(** ** C88: pictures *)

Section Pictures.
Variable fmt : R -> str.
Variable num_of : str -> option R.
Variable isfloat : R -> Prop.
Hypothesis Hfmt : good_numbers fmt num_of isfloat.

(** The arguments that image() hands to the backend (boxmixin.py:556-564 and 654-668). *)
Definition pic_x (p : ImageModel.placed) : R := Q2R (ImageModel.p_x p).
Definition pic_y (p : ImageModel.placed) : R := Q2R (ImageModel.p_y p).
Definition pic_w (p : ImageModel.placed) : R := Q2R (ImageModel.p_w p).
Definition pic_h (p : ImageModel.placed) : R := Q2R (ImageModel.p_h p).
Definition pic_scale (p : ImageModel.placed) : R := Q2R (ImageModel.p_scale p).
Definition pic_center (p : ImageModel.placed) : pt := (pic_x p + pic_w p / 2, pic_y p + pic_h p / 2).
(** The centre of the box. *)
Definition box_center (r : LayoutModel.rect) : pt :=
  (Q2R (LayoutModel.rx r) + Q2R (LayoutModel.rw r) / 2, Q2R (LayoutModel.ry r) + Q2R (LayoutModel.rh r) / 2).
(** The numbers that are written are floats. *)
Definition float_pic (p : ImageModel.placed) (rot : option R) : Prop :=
  isfloat (pic_x p) /\ isfloat (pic_y p) /\ isfloat (pic_w p) /\ isfloat (pic_h p) /\
  isfloat (pic_scale p) /\ float_turn isfloat rot (pic_center p).

Lemma placed_at : forall r scale iw ih p, ImageModel.place r scale iw ih = Ok p ->
  pic_w p = Q2R iw * pic_scale p /\ pic_h p = Q2R ih * pic_scale p /\ pic_center p = box_center r.
Proof.
  intros r scale iw ih p H. apply ImageProps.C22_centred in H as (H1 & H2 & _ & H3 & H4 & _).
  apply Qeq_eqR in H1, H2, H3, H4. rewrite Q2R_mult in H1, H2.
  rewrite !Q2R_plus, !Q2R_div in H3, H4 by discriminate.
  replace (Q2R 2) with 2 in H3, H4 by (unfold Q2R; simpl; field).
  split; [exact H1|]. split; [exact H2|]. unfold pic_center, box_center, pic_x, pic_y, pic_w, pic_h.
  now rewrite H3, H4.
Qed.
Lemma pos_R : forall q, (0 < q)%Q -> 0 < Q2R q.
Proof. intros q H. apply Qlt_Rlt in H. replace (Q2R 0) with 0 in H by (unfold Q2R; simpl; field). exact H. Qed.

(** A PNG or JPEG image with a positive scale: both backends put its points to the same
    place, its centre in the centre of the box, turned about that centre; Cairo does so in the
    coordinates of the slide, whatever its view box is. *)
Theorem C88_bitmap : forall r scale iw ih p rot href s,
  ImageModel.place r scale iw ih = Ok p -> (0 < iw)%Q -> (0 < ih)%Q -> (0 < ImageModel.p_scale p)%Q ->
  float_pic p rot ->
  let f := spot (box_center r) (pic_scale p) rot (Q2R iw) (Q2R ih) in
  bitmap_shown num_of (svg_bitmap fmt (pic_x p) (pic_y p) (pic_w p) (pic_h p) rot href) href
    (Q2R iw) (Q2R ih) f /\
  exists s' m, cairo_bitmap (Q2R iw) (Q2R ih) (pic_x p) (pic_y p) (pic_w p) (pic_h p) rot s = Ok (s', m) /\
    c_g s' = c_g s /\ c_saved s' = c_saved s /\ c_path s' = c_path s /\
    forall q, apply m q = apply (ctm s) (f q).
Proof.
  intros r scale iw ih p rot href s H A B K (F1 & F2 & F3 & F4 & _ & T) f.
  destruct (placed_at _ _ _ _ _ H) as (W & E & C). unfold pic_center in *.
  apply pos_R in A, B, K. fold (pic_scale p) in K. unfold f. rewrite <- C. rewrite W, E in *.
  split; [apply (bitmap_svg fmt num_of isfloat Hfmt); auto; repeat split; assumption|].
  now apply bitmap_cairo.
Qed.

(** An SVG or ORA image with a positive scale: on SVG always, with Cairo on slides without a
    view box. *)
Theorem C88_svg_partial : forall r scale iw ih p rot svg format sw sh s dpi ls,
  ImageModel.place r scale iw ih = Ok p -> (0 < iw)%Q -> (0 < ih)%Q -> (0 < ImageModel.p_scale p)%Q ->
  float_pic p rot -> cairo_init format sw sh None = Ok (s, dpi, ls) ->
  let f := spot (box_center r) (pic_scale p) rot (Q2R iw) (Q2R ih) in
  (exists cs, svg_svg fmt svg (pic_x p) (pic_y p) (pic_scale p) rot (Some (pic_center p)) = Ok cs /\
     group_shown num_of cs svg f) /\
  exists m, cairo_svg dpi (Q2R iw) (Q2R ih) (pic_x p) (pic_y p) (pic_w p) (pic_h p) rot = Ok m /\
    forall q, apply m q = apply (ctm s) (f q).
Proof.
  intros r scale iw ih p rot svg format sw sh s dpi ls H A B K (F1 & F2 & _ & _ & F5 & T) I f.
  destruct (placed_at _ _ _ _ _ H) as (W & E & C). unfold pic_center in *.
  apply pos_R in A, B, K. fold (pic_scale p) in K. unfold f. rewrite <- C. rewrite W, E in *.
  split; [now apply (svg_group fmt num_of isfloat Hfmt)|].
  apply init_plain in I as (D & M & _). rewrite M. now apply svg_cairo.
Qed.
End Pictures.
Print Assumptions C88_bitmap.
Print Assumptions C88_svg_partial.

(** With a view box the claim is false: Cairo draws an SVG image as if there were none.  An
    image of 10 times 10 at (0, 0), 2 times larger by the view box. *)
Definition square_box : LayoutModel.rect := LayoutModel.mkRect 0 0 10 10.
Theorem C88_viewbox_refuted : exists p s dpi ls m,
  ImageModel.place square_box None 10 10 = Ok p /\ (0 < ImageModel.p_scale p)%Q /\
  cairo_init FPng 100 100 (Some (0, 0, 50, 50)) = Ok (s, dpi, ls) /\
  cairo_svg dpi 10 10 (pic_x p) (pic_y p) (pic_w p) (pic_h p) None = Ok m /\
  apply m (10, 10) = (10, 10) /\
  apply (ctm s) (spot (box_center square_box) (pic_scale p) None 10 10 (10, 10)) = (20, 20).
Proof.
  assert (P : (exists p, ImageModel.place square_box None 10 10 = Ok p /\ ImageModel.p_scale p == 1 /\
    ImageModel.p_x p == 0 /\ ImageModel.p_y p == 0 /\ ImageModel.p_w p == 10 /\ ImageModel.p_h p == 10)%Q)
    by (eexists; split; [reflexivity|repeat split; reflexivity]).
  destruct P as (p & P & P1 & P2 & P3 & P4 & P5).
  destruct (C81_viewbox 100 100 0 0 50 50 (k_source new_context (0, 0, 0))) as (s & k & vm & V1 & V2 & V3 & _); try lra.
  assert (X : pic_x p = 0 /\ pic_y p = 0 /\ pic_w p = 10 * 1 /\ pic_h p = 10 * 1 /\ pic_scale p = 1).
  { apply Qeq_eqR in P1, P2, P3, P4, P5. unfold pic_x, pic_y, pic_w, pic_h, pic_scale.
    rewrite P1, P2, P3, P4, P5. unfold Q2R; simpl. repeat split; field. }
  destruct X as (X1 & X2 & X3 & X4 & X5).
  destruct (svg_cairo cairo_dpi 0 0 1 10 10 None) as (m & M1 & M2); try (unfold cairo_dpi; lra).
  exists p, s, cairo_dpi, k, m. split; [exact P|]. split; [rewrite P1; reflexivity|].
  split; [unfold cairo_init; cbn [rbind]; rewrite V1; reflexivity|].
  rewrite X1, X2, X3, X4, X5. split; [exact M1|]. split.
  - rewrite M2. unfold spot, apply, mscale, cairo_dpi; simpl. rewrite cos_0, sin_0. apply f_equal2; field.
  - rewrite V3.
    assert (E : spot (box_center square_box) 1 None 10 10 (10, 10) = (10, 10)).
    { unfold spot, box_center, square_box, Q2R; simpl. rewrite cos_0, sin_0. apply f_equal2; field. }
    rewrite E.
    destruct V2 as ((d & D) & K & C & B & T).
    assert (K2 : k = 2) by (destruct T; lra). subst k.
    rewrite D in C |- *. simpl in *. injection C as C1 C2.
    transitivity (apply ident (20, 20)); [|unfold apply, ident; simpl; apply f_equal2; ring].
    change (ctm (k_source new_context (0, 0, 0))) with ident. f_equal. apply f_equal2; lra.
Qed.
Print Assumptions C88_viewbox_refuted.

(** An image without size (scale 0): the SVG backend draws nothing, with Cairo a bitmap is an
    error and an SVG image is drawn in its own size. *)
Definition empty_box : LayoutModel.rect := LayoutModel.mkRect 0 0 0 0.
Theorem C88_zero_refuted : exists p,
  ImageModel.place empty_box None 10 10 = Ok p /\ pic_w p = 0 /\ pic_h p = 0 /\
  (forall s, cairo_bitmap 10 10 (pic_x p) (pic_y p) (pic_w p) (pic_h p) None s = Err EZeroDivision) /\
  exists m, cairo_svg cairo_dpi 10 10 (pic_x p) (pic_y p) (pic_w p) (pic_h p) None = Ok m /\
    apply m (10, 10) = (10, 10).
Proof.
  assert (P : (exists p, ImageModel.place empty_box None 10 10 = Ok p /\
    ImageModel.p_x p == 0 /\ ImageModel.p_y p == 0 /\ ImageModel.p_w p == 0 /\ ImageModel.p_h p == 0)%Q)
    by (eexists; split; [reflexivity|repeat split; reflexivity]).
  destruct P as (p & P & P2 & P3 & P4 & P5).
  apply Qeq_eqR in P2, P3, P4, P5. replace (Q2R 0) with 0 in * by (unfold Q2R; simpl; field).
  exists p. split; [exact P|]. split; [exact P4|]. split; [exact P5|].
  unfold pic_x, pic_y, pic_w, pic_h. rewrite P2, P3, P4, P5. split.
  - intros s. unfold cairo_bitmap. now rewrite req_refl.
  - destruct (svg_cairo cairo_dpi 0 0 1 10 10 None) as (m & M1 & M2); try (unfold cairo_dpi; lra).
    exists m. split.
    + rewrite <- M1. unfold cairo_svg, output_size. rewrite req_refl. cbn [negb andb].
      destruct (req (10 * 1) 0) eqn:E; [apply req_true in E; lra|]. cbn [negb andb].
      destruct (req 10 0) eqn:E'; [apply req_true in E'; lra|]. rewrite E. now rewrite !Rmult_1_r.
    + rewrite M2. unfold spot, apply, mscale, cairo_dpi; simpl. rewrite cos_0, sin_0. apply f_equal2; field.
Qed.
Print Assumptions C88_zero_refuted.

(** ** C89: LaTeX *)

Section Latex.
Variable fmt : R -> str.
Variable num_of : str -> option R.
Variable isfloat : R -> Prop.
Hypothesis Hfmt : good_numbers fmt num_of isfloat.

(** On SVG the picture is in the middle of its box, [scale] times its own size; so it is with
    Cairo if the box has exactly the size of the picture and the slide has no view box. *)
Theorem C89_latex_partial : forall r iw ih k svg format sw sh s dpi ls, 0 < k -> 0 < iw -> 0 < ih ->
  let a := latex_args r iw ih k in
  isfloat (a_x a) -> isfloat (a_y a) -> isfloat k ->
  let f := spot (r_x r + r_w r / 2, r_y r + r_h r / 2) k None iw ih in
  (exists cs, svg_svg fmt svg (a_x a) (a_y a) (a_scale a) None None = Ok cs /\ group_shown num_of cs svg f) /\
  (r_w r = iw * k -> r_h r = ih * k -> cairo_init format sw sh None = Ok (s, dpi, ls) ->
   exists m, cairo_svg dpi iw ih (a_x a) (a_y a) (a_w a) (a_h a) None = Ok m /\
     forall q, apply m q = apply (ctm s) (f q)).
Proof.
  intros r iw ih k svg format sw sh s dpi ls K A B a F1 F2 F3 f.
  assert (C : (a_x a + iw * k / 2, a_y a + ih * k / 2) = (r_x r + r_w r / 2, r_y r + r_h r / 2)).
  { unfold a, latex_args; simpl. apply f_equal2; field. }
  split.
  - destruct (svg_group fmt num_of isfloat Hfmt svg (a_x a) (a_y a) k iw ih None K F1 F2 F3) as (cs & E & G); [exact I|].
    exists cs. split; [exact E|]. unfold f. rewrite <- C. exact G.
  - intros W H I. apply init_plain in I as (D & M & _). rewrite M.
    destruct (svg_cairo dpi (a_x a) (a_y a) k iw ih None D K A B) as (m & E & G).
    exists m. split; [unfold a at 3 4; cbn [latex_args a_w a_h]; rewrite W, H; exact E|].
    unfold f. rewrite <- C. exact G.
Qed.
End Latex.
Print Assumptions C89_latex_partial.

(** In a larger box the picture is neither centred nor scaled as demanded with Cairo: a
    picture of 10 times 10 with scale 1 in a box of 30 times 30 becomes 3 times larger, with
    its corner in (10, 10). *)
Theorem C89_cairo_refuted : exists m,
  let a := latex_args (mkRect 0 0 30 30) 10 10 1 in
  cairo_svg cairo_dpi 10 10 (a_x a) (a_y a) (a_w a) (a_h a) None = Ok m /\
  apply m (0, 0) = (10, 10) /\ apply m (10, 10) = (40, 40) /\
  spot (15, 15) 1 None 10 10 (10, 10) = (20, 20).
Proof.
  destruct (svg_cairo cairo_dpi 10 10 3 10 10 None) as (m & M1 & M2); try (unfold cairo_dpi; lra).
  exists m. cbv zeta. unfold latex_args; cbn [a_x a_y a_w a_h r_x r_y r_w r_h].
  replace (0 + (30 - 10 * 1) / 2) with 10 by field.
  replace 30 with (10 * 3) by ring. split; [exact M1|].
  rewrite !M2. unfold spot, apply, mscale, cairo_dpi; simpl. rewrite cos_0, sin_0.
  split; [|split]; apply f_equal2; field.
Qed.
Print Assumptions C89_cairo_refuted.

(** ** C90: texts *)

(** A text with its anchor in [c] (a point of the baseline of the first line), its glyphs [k]
    times larger, turned about [mid]. *)
Definition glyph_spot (mid c : pt) (k : R) (rot : option R) (p : pt) : pt :=
  let a := match rot with Some d => d * PI / 180 | None => 0 end in
  let dx := fst c + k * fst p - fst mid in
  let dy := snd c + k * snd p - snd mid in
  (fst mid + (cos a * dx - sin a * dy), snd mid + (sin a * dx + cos a * dy)).
Definition scale_or_1 (k : option R) : R := match k with Some v => v | None => 1 end.

Lemma apply_ident : forall p, apply ident p = p.
Proof. intros [x y]. unfold apply, ident; simpl. apply f_equal2; ring. Qed.

Section Texts.
Variable fmt : R -> str.
Variable num_of : str -> option R.
Variable isfloat : R -> Prop.
Hypothesis Hfmt : good_numbers fmt num_of isfloat.

Definition float_text (x y : R) (mid : pt) (rot k : option R) : Prop :=
  isfloat (x / scale_or_1 k) /\ isfloat (y / scale_or_1 k) /\ float_turn isfloat rot mid /\
  match k with Some v => isfloat v | None => True end.

(** The glyphs of the first line of a text are in the same place: relative to the anchor of
    the line, which the alignment determines, scaled and then turned about the middle of the
    box. *)
Theorem C90_anchor : forall r a th size rot k baseline s,
  let x := text_x r a in
  let y := text_y r th size (scale_or_1 k) in
  (forall v, k = Some v -> 0 < v) -> float_text x y (mid_point r) rot k ->
  let f := glyph_spot (r_x r + r_w r / 2, r_y r + r_h r / 2)
             (match a with ALeft => r_x r | AMiddle => r_x r + r_w r / 2 | ARight => r_x r + r_w r end,
              r_y r + (r_h r - th) / 2 + size * scale_or_1 k) (scale_or_1 k) rot in
  (exists xs ys t, svg_text fmt (mid_point r) x y rot k = Ok (xs, ys, t) /\ text_shown num_of xs ys t f) /\
  exists s' m corner, cairo_text r y baseline rot s = Ok (s', m, corner) /\
    c_g s' = c_g s /\ c_saved s' = c_saved s /\ c_path s' = c_path s /\
    let c := pango_anchor corner (r_w r) a baseline in
    forall p, apply m (fst c + scale_or_1 k * fst p, snd c + scale_or_1 k * snd p) = apply (ctm s) (f p).
Proof.
  intros r a th size rot k baseline s x y K (F1 & F2 & T & FK) f.
  assert (TX : x = match a with ALeft => r_x r | AMiddle => r_x r + r_w r / 2 | ARight => r_x r + r_w r end)
    by (unfold x; destruct a; reflexivity).
  assert (G : forall p, f p = apply (match rot with Some d => rotation_about d (mid_point r) | None => ident end)
                                (x + scale_or_1 k * fst p, y + scale_or_1 k * snd p)).
  { intros p. unfold f. rewrite <- TX. fold (text_y r th size (scale_or_1 k)). fold y.
    unfold glyph_spot, mid_point, mid_x, mid_y, rotation_about, ident, apply.
    destruct rot as [d|]; cbn [m_xx m_xy m_yx m_yy m_x0 m_y0 fst snd].
    - apply f_equal2; ring.
    - rewrite cos_0, sin_0. apply f_equal2; ring. }
  split.
  - set (rl := match rot with Some d => if req d 0 then [] else [rotate_str fmt d (mid_point r)] | None => [] end).
    set (rm := match rot with Some d => if req d 0 then [] else [rotation_about d (mid_point r)] | None => [] end).
    set (sl := match k with Some v => [scale_str fmt v] | None => [] end).
    set (sm := match k with Some v => [mkMat v 0 0 v 0 0] | None => [] end).
    assert (F : Forall2 (text_reads num_of) (rl ++ sl) (rm ++ sm)).
    { apply Forall2_app.
      - unfold rl, rm. destruct rot as [d|]; [|constructor]. destruct (req d 0); constructor; [|constructor].
        destruct T. now apply (rotate_reads fmt num_of isfloat Hfmt).
      - unfold sl, sm. destruct k; constructor; [now apply (scale_reads fmt num_of isfloat Hfmt)|constructor]. }
    exists (fmt (x / scale_or_1 k)), (fmt (y / scale_or_1 k)),
      (match rl ++ sl with [] => None | l => Some (join_with (pys " ") l) end).
    split.
    + unfold svg_text, rl, sl. destruct k as [v|]; cbn [scale_or_1].
      * destruct (req v 0) eqn:E; [apply req_true in E; specialize (K v eq_refl); lra|].
        cbn [rbind fst snd]. rewrite ?E. destruct rot as [d|]; [destruct (req d 0)|]; reflexivity.
      * cbn [rbind fst snd]. unfold Rdiv. rewrite !Rinv_1, !Rmult_1_r.
        destruct rot as [d|]; [destruct (req d 0)|]; reflexivity.
    + exists (x / scale_or_1 k), (y / scale_or_1 k), (product (rm ++ sm)).
      split; [exact (proj1 (Hfmt _ F1))|]. split; [exact (proj1 (Hfmt _ F2))|]. split.
      * destruct (rl ++ sl) as [|w l] eqn:E; [inversion F; reflexivity|].
        rewrite <- E in *. now apply transforms_read.
      * intros p. rewrite G.
        assert (P : apply (product sm) (x / scale_or_1 k + fst p, y / scale_or_1 k + snd p) =
                    (x + scale_or_1 k * fst p, y + scale_or_1 k * snd p)).
        { unfold sm. destruct k as [v|]; cbn [product scale_or_1]; rewrite ?apply_mul; unfold apply, ident; simpl.
          - specialize (K v eq_refl). apply f_equal2; field; lra.
          - apply f_equal2; field. }
        rewrite <- P. unfold rm. destruct rot as [d|]; cbn [app product].
        -- destruct (req d 0) eqn:E; cbn [app product].
           ++ apply req_true in E. subst d. rewrite rotation_zero.
              now rewrite apply_ident.
           ++ now rewrite apply_mul.
        -- now rewrite apply_ident.
  - unfold cairo_text.
    assert (E : exists s1, match rot with Some _ => transform (mid_point r) rot 1 1 (k_save s) | None => Ok (k_save s) end = Ok s1 /\
      c_saved s1 = c_g s :: c_saved s /\ c_path s1 = c_path s /\
      ctm s1 = mul (ctm s) (match rot with Some d => rotation_about d (mid_point r) | None => ident end)).
    { destruct rot as [d|].
      - destruct (transform_ctm (mid_point r) (Some d) (k_save s)) as (s1 & E & S1 & S2 & _ & S4). exists s1. auto.
      - exists (k_save s). rewrite mul_ident. auto. }
    destruct E as (s1 & -> & S1 & S2 & S4). cbn [rbind].
    unfold k_restore. cbn [k_paint k_move_to c_saved]. rewrite S1. cbn [rbind].
    eexists _, _, _. split; [reflexivity|]. split; [reflexivity|]. split; [reflexivity|]. split; [exact S2|].
    cbv zeta. intros p. rewrite S4, apply_mul. f_equal. rewrite G. f_equal.
    rewrite TX. unfold pango_anchor. destruct a; cbn [fst snd]; apply f_equal2; ring.
Qed.
End Texts.
Print Assumptions C90_anchor.

(** The distance of two lines is the same on both backends for texts that are not scaled, on
    slides without a view box; it is [line_spacing] times the size of the font. *)
Theorem C90_lines_partial : forall height size ls format sw sh s dpi spacing,
  cairo_init format sw sh None = Ok (s, dpi, spacing) ->
  cairo_line_step height size ls spacing None = ls * size /\ svg_line_step size ls = ls * size.
Proof.
  intros height size ls format sw sh s dpi spacing I. apply init_plain in I as (_ & _ & ->).
  unfold cairo_line_step, svg_line_step. split; ring.
Qed.
Print Assumptions C90_lines_partial.
(** A scaled text: on SVG the distance is scaled with the text, with Cairo only the height of
    the lines is, unless lines have exactly the height of the distance. *)
Theorem C90_scaled_lines_partial : forall height size ls k,
  cairo_line_step height size ls 1 (Some k) = k * svg_line_step size ls <->
  k = 1 \/ height = ls * size.
Proof.
  intros height size ls k. unfold cairo_line_step, svg_line_step. split.
  - intros H. destruct (Req_EM_T k 1) as [E|E]; [now left|]. right.
    assert (X : (k - 1) * (height - ls * size) = 0) by lra.
    apply Rmult_integral in X as [X|X]; lra.
  - intros [-> | ->]; ring.
Qed.
Print Assumptions C90_scaled_lines_partial.
(** For instance with the default font size 28, lines 32 high, spacing 1.2, twice as large. *)
Theorem C90_scaled_lines_refuted : exists height size ls k, size <= height /\ 1 <= ls /\
  cairo_line_step height size ls 1 (Some k) <> k * svg_line_step size ls.
Proof.
  exists 32, 28, (12 / 10), 2. split; [lra|]. split; [lra|].
  rewrite C90_scaled_lines_partial. lra.
Qed.
Print Assumptions C90_scaled_lines_refuted.

(** *** Cases that meet the hypotheses *)

(** An image of 2 times 1 pixels in a box of 4 times 4, turned by 3 degrees. *)
Definition box4 : LayoutModel.rect := LayoutModel.mkRect 0 0 4 4.
Example C88_ex : exists p, ImageModel.place box4 None 2 1 = Ok p /\ (0 < ImageModel.p_scale p)%Q /\
  float_pic isfloat0 p (Some 3) /\ float_pic isfloat0 p None /\
  spot (box_center box4) (pic_scale p) None 2 1 (0, 0) = (0, 1).
Proof.
  assert (P : (exists p, ImageModel.place box4 None 2 1 = Ok p /\ ImageModel.p_scale p == 2 /\
    ImageModel.p_x p == 0 /\ ImageModel.p_y p == 1 /\ ImageModel.p_w p == 4 /\ ImageModel.p_h p == 2)%Q)
    by (eexists; split; [reflexivity|repeat split; reflexivity]).
  destruct P as (p & P & P1 & P2 & P3 & P4 & P5). exists p.
  split; [exact P|]. split; [rewrite P1; reflexivity|].
  apply Qeq_eqR in P1, P2, P3, P4, P5.
  assert (E : pic_x p = 0 /\ pic_y p = 1 /\ pic_w p = 4 /\ pic_h p = 2 /\ pic_scale p = 2).
  { unfold pic_x, pic_y, pic_w, pic_h, pic_scale. rewrite P1, P2, P3, P4, P5. unfold Q2R; simpl. repeat split; field. }
  destruct E as (E1 & E2 & E3 & E4 & E5).
  assert (C : pic_center p = (2, 2)).
  { unfold pic_center. rewrite E1, E2, E3, E4. apply f_equal2; field. }
  unfold float_pic, float_turn, float_pt. rewrite C, E1, E2, E3, E4, E5. simpl. unfold isfloat0.
  split; [repeat split; auto 6|]. split; [repeat split; auto 6|].
  unfold spot, box_center, box4, Q2R; simpl. rewrite cos_0, sin_0. apply f_equal2; field.
Qed.
Example C88_bitmap_ex : exists p, ImageModel.place box4 None 2 1 = Ok p /\
  bitmap_shown num0 (svg_bitmap fmt0 (pic_x p) (pic_y p) (pic_w p) (pic_h p) (Some 3) (pys "data:")) (pys "data:")
    (Q2R 2) (Q2R 1) (spot (box_center box4) (pic_scale p) (Some 3) (Q2R 2) (Q2R 1)).
Proof.
  destruct C88_ex as (p & P & K & F & _). exists p. split; [exact P|].
  exact (proj1 (C88_bitmap fmt0 num0 isfloat0 good0 box4 None 2 1 p (Some 3) (pys "data:") clean P eq_refl eq_refl K F)).
Qed.
(** Both formats have a context without a view box. *)
Example C88_init_ex : forall f, exists s dpi, cairo_init f 4 4 None = Ok (s, dpi, 1).
Proof.
  intros []; unfold cairo_init; cbn [rbind]; [|eauto].
  unfold k_scale. rewrite reqF; [cbn [rbind]; eauto|]. unfold resolution_scale, cairo_dpi, target_dpi. lra.
Qed.
(** A centred text, twice as large, turned by 3 degrees. *)
Example C90_ex : let r := mkRect 0 0 4 4 in
  float_text isfloat0 (text_x r AMiddle) (text_y r 4 1 2) (mid_point r) (Some 3) (Some 2).
Proof.
  unfold float_text, float_turn, float_pt, mid_point, mid_x, mid_y, text_y, isfloat0; simpl.
  repeat split; lra.
Qed.
Example C89_ex : let a := latex_args (mkRect 0 0 4 4) 1 2 2 in isfloat0 (a_x a) /\ isfloat0 (a_y a).
Proof. unfold isfloat0; simpl. split; lra. Qed.
