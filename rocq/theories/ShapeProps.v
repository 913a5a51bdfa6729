(** Properties C59, C60 and C79 to C82: shapes. *)
From Coq Require Import List Reals NArith Bool String Lra Lia.
From Verif Require Import Py PyFacts XmlModel ShapeModel ShapeSpec ShapeProofs ShapePaint ShapeShapes
  ArrowProps.
Import ListNotations.
Local Open Scope R_scope.

(** ** C59: quadratic curves *)

(** The cubic curve drawn by Cairo for a quadratic one has the same points, for every value of
    the parameter. *)
Theorem C59_quadratic : forall p c q t,
  let (a, b) := quad_controls p q c in bez3 p a b q t = bez2 p c q t.
Proof. intros p c q t. apply quad_exact. Qed.
Print Assumptions C59_quadratic.
(** On a context: the piece that is added ends in the target and is that curve. *)
Theorem C59_drawn : forall s p q c, c_cur s = Some (apply (ctm s) p) ->
  exists g, c_path (draw_quadratic_bezier s p q c) =
      c_path s ++ (if c_fresh s then [GMove (apply (ctm s) p)] else []) ++ [g] /\
    c_cur (draw_quadratic_bezier s p q c) = Some (apply (ctm s) q) /\
    forall t, seg_at g t = apply (ctm s) (bez2 p c q t).
Proof.
  intros s p q c C. pose proof (C59_quadratic p c q) as Q.
  unfold draw_quadratic_bezier. destruct (quad_controls p q c) as [a b].
  unfold k_curve_to. rewrite C, C. eexists. split; [reflexivity|]. split; [reflexivity|].
  intros t. rewrite <- Q. exact (seg_at_map (ctm s) (GCubic p a b q) t).
Qed.
Print Assumptions C59_drawn.
Example C59_ex : forall t, fst (bez2 (0, 0) (1, 2) (2, 0) t) = 2 * t.
Proof. intros t. unfold bez2, mix, lin; simpl. ring. Qed.

(** ** C60 and C79: the two backends draw the same *)

Lemma outline_total : forall l q fresh cub quad, exists o, path_outline (Some q) fresh cub quad l = Some o.
Proof.
  induction l as [|c l IH]; intros q fresh cub quad; [now exists []|].
  cbn [path_outline]. destruct c; [apply IH|..];
    match goal with |- exists o, option_map _ (path_outline (Some ?u) ?v ?w ?x _) = _ =>
      destruct (IH u v w x) as (o & ->) end; cbn; eauto.
Qed.
Lemma path_total : forall p0 rest, Forall exact_arity rest ->
  exists o, svg_path_outline ((PM, [p0]) :: rest) = Some o.
Proof.
  intros p0 rest A. destruct (expand_total rest A) as (l & E).
  unfold svg_path_outline. cbn [expand expand1 each1]. rewrite E. cbn [app path_outline]. apply outline_total.
Qed.

(** Shapes, as the methods of boxes request them. *)
Inductive shape :=
| SRect (r : rect) (rx ry rot : option R) (p : paint)
| SEllipse (r : rect) (rot : option R) (p : paint)
| SPolygon (l : list pt) (rot : option R) (p : paint)
| SPolyline (l : list pt) (color : str) (w : option R) (dash : option str)
| SPath (cs : list cmd) (p : paint).

Section Same.
Variable rgb_of : str -> result rgb.
Variable to_float : str -> result R.
Variable fmt : R -> str.
Variable num_of : str -> option R.
Variable isfloat : R -> Prop.

Definition draw_shape (d : shape) : run :=
  match d with
  | SRect r rx ry rot p => draw_rect rgb_of to_float r rx ry rot p
  | SEllipse r rot p => draw_ellipse rgb_of to_float r rot p
  | SPolygon l rot p => draw_polygon rgb_of to_float l rot p
  | SPolyline l c w dash => draw_polyline rgb_of to_float l c w dash
  | SPath cs p => draw_path rgb_of to_float cs p
  end.
Definition svg_shape (d : shape) : result (list xcall) :=
  match d with
  | SRect r rx ry rot p => Ok (svg_rect fmt r rx ry rot p)
  | SEllipse r rot p => Ok (svg_ellipse fmt r rot p)
  | SPolygon l rot p => svg_polygon fmt l rot p
  | SPolyline l c w dash => Ok (svg_polyline fmt l (mkPaint (Some c) None w dash))
  | SPath cs p => Ok (svg_path fmt cs p)
  end.
Definition paint_of (d : shape) : paint :=
  match d with
  | SRect _ _ _ _ p | SEllipse _ _ p | SPolygon _ _ p | SPath _ p => p
  | SPolyline _ c w dash => mkPaint (Some c) None w dash
  end.

(** What the comparison is about: coordinates are floats, rectangles have plain corners,
    polylines two points, paths begin with a move, have one group of points per command and no
    S directly after an S; dashes are separated by spaces of SVG. *)
Definition float_rect (r : rect) : Prop :=
  isfloat (r_x r) /\ isfloat (r_y r) /\ isfloat (r_w r) /\ isfloat (r_h r).
Definition fit (d : shape) : Prop :=
  isfloat (width_or_1 (p_width (paint_of d))) /\ plain_dash (p_dash (paint_of d)) /\
  match d with
  | SRect r rx ry rot _ =>
      truthy_num rx = false /\ truthy_num ry = false /\ float_rect r /\ float_rotation isfloat rot (mid_point r)
  | SEllipse r rot _ =>
      float_rect (mkRect (mid_x r) (mid_y r) (r_w r / 2) (r_h r / 2)) /\ float_rotation isfloat rot (mid_point r)
  | SPolygon l rot _ =>
      Forall (float_pt isfloat) l /\ (forall c, find_centroid l = Ok c -> float_rotation isfloat rot c)
  | SPolyline l c _ _ => (2 <= List.length l)%nat /\ Forall (float_pt isfloat) l /\ c <> []
  | SPath cs _ =>
      Forall (fun c => Forall (float_pt isfloat) (snd c)) cs /\
      (exists p0 rest, cs = (PM, [p0]) :: rest) /\ Forall exact_arity cs /\ no_double_S false cs
  end.
(** How the outlines are compared: a polygon is closed in SVG, in Cairo it only returns to
    its start. *)
Definition same_for (d : shape) : list seg -> list seg -> Prop :=
  match d with SPolygon _ _ _ => same_trace | _ => same_outline end.

(** A context between two shapes. *)
Definition calm (s : ctx) : Prop := c_path s = [] /\ c_cur s = None /\ g_dash (c_g s) = [].
Definition undashed_ellipse (d : shape) : Prop :=
  match d with SEllipse _ _ p => given (p_dash p) = None | _ => True end.

Hypothesis Hfmt : good_numbers fmt num_of isfloat.
Hypothesis Hcol : css_colors rgb_of.
Hypothesis Hchars : float_chars to_float.

Lemma rect_elem : forall r rx ry rot p,
  truthy_num rx = false -> truthy_num ry = false -> float_rect r -> float_rotation isfloat rot (mid_point r) ->
  exists al, element_of (svg_rect fmt r rx ry rot p) = Some (pys "rect", al) /\
    outline_of num_of (pys "rect") al = Some (rect_outline (r_x r) (r_y r) (r_w r) (r_h r)) /\
    matrix_of num_of al = Some (rotation_of rot (mid_point r)) /\
    declared (pys "style") al = Some (paint_style fmt p).
Proof.
  intros r rx ry rot p X Y (F1 & F2 & F3 & F4) FR.
  assert (OX : forall n v, truthy_num v = false -> opt_attr fmt n v = []).
  { intros n [v|] H; [|reflexivity]. cbn in *. destruct (req v 0); [reflexivity|discriminate]. }
  unfold svg_rect. rewrite (OX _ _ X), (OX _ _ Y).
  assert (N : forall x, isfloat x -> num_of (fmt x) = Some x) by (intros; now apply Hfmt).
  destruct (rotation_written fmt num_of isfloat Hfmt rot (mid_point r) FR) as [[-> ->]|(v & -> & E)];
    (eexists; split; [reflexivity|]; split; [|split; [|reflexivity]]).
  - cbn. now rewrite !N by assumption.
  - reflexivity.
  - cbn. now rewrite !N by assumption.
  - exact E.
Qed.
Lemma ellipse_elem : forall r rot p,
  float_rect (mkRect (mid_x r) (mid_y r) (r_w r / 2) (r_h r / 2)) -> float_rotation isfloat rot (mid_point r) ->
  exists al, element_of (svg_ellipse fmt r rot p) = Some (pys "ellipse", al) /\
    outline_of num_of (pys "ellipse") al =
      Some (ellipse_outline (mid_x r) (mid_y r) (r_w r / 2) (r_h r / 2)) /\
    matrix_of num_of al = Some (rotation_of rot (mid_point r)) /\
    declared (pys "style") al = Some (paint_style fmt p).
Proof.
  intros r rot p (F1 & F2 & F3 & F4) FR. cbn in F1, F2, F3, F4. unfold svg_ellipse.
  assert (N : forall x, isfloat x -> num_of (fmt x) = Some x) by (intros; now apply Hfmt).
  destruct (rotation_written fmt num_of isfloat Hfmt rot (mid_point r) FR) as [[-> ->]|(v & -> & E)];
    (eexists; split; [reflexivity|]; split; [|split; [|reflexivity]]).
  - cbn. now rewrite !N by assumption.
  - reflexivity.
  - cbn. now rewrite !N by assumption.
  - exact E.
Qed.
Lemma points_read : forall l, Forall (float_pt isfloat) l -> read_points num_of (points_str fmt l) = Some l.
Proof.
  intros l F. rewrite <- (app_nil_r (points_str fmt l)).
  apply (read_points_written fmt num_of isfloat Hfmt); auto.
Qed.
Lemma polygon_elem : forall l rot p c, find_centroid l = Ok c ->
  Forall (float_pt isfloat) l -> float_rotation isfloat rot c ->
  exists calls al, svg_polygon fmt l rot p = Ok calls /\ element_of calls = Some (pys "polygon", al) /\
    outline_of num_of (pys "polygon") al = Some (polygon_outline l) /\
    matrix_of num_of al = Some (rotation_of rot c) /\
    declared (pys "style") al = Some (paint_style fmt p).
Proof.
  intros l rot p c Ec F FR. unfold svg_polygon.
  assert (RR : (match rot with
            | Some a => if req a 0 then Ok [] else do c <- find_centroid l; Ok (rotation_calls fmt rot c)
            | None => Ok [] end) = Ok (rotation_calls fmt rot c)).
  { destruct rot as [a|]; [|reflexivity]. cbn [rotation_calls]. destruct (req a 0); [reflexivity|].
    now rewrite Ec. }
  rewrite RR. cbn [rbind].
  destruct (rotation_written fmt num_of isfloat Hfmt rot c FR) as [[-> ->]|(v & -> & E)];
    (eexists _, _; split; [reflexivity|]; split; [reflexivity|]; split; [|split; [|reflexivity]]).
  - cbn. now rewrite points_read by assumption.
  - reflexivity.
  - cbn. now rewrite points_read by assumption.
  - exact E.
Qed.

Lemma mul_ident_r : forall m, mul m ident = m.
Proof. intros []. unfold mul, ident; simpl. f_equal; ring. Qed.

(** The middle of the corners: the vectors from it to the corners add up to nothing. *)
Fixpoint total (f : pt -> R) (l : list pt) : R :=
  match l with [] => 0 | p :: l' => f p + total f l' end.
Definition balanced (l : list pt) (c : pt) : Prop :=
  total (fun p => fst p - fst c) l = 0 /\ total (fun p => snd p - snd c) l = 0.
(** The picture that is meant. *)
Definition meant (d : shape) (pic : picture) : Prop :=
  pic_look pic = look_of (paint_of d) /\
  match d with
  | SRect r _ _ rot _ =>
      pic_outline pic = rect_outline (r_x r) (r_y r) (r_w r) (r_h r) /\
      pic_matrix pic = rotation_of rot (r_x r + r_w r / 2, r_y r + r_h r / 2)
  | SEllipse r rot _ =>
      pic_outline pic = ellipse_outline (r_x r + r_w r / 2) (r_y r + r_h r / 2) (r_w r / 2) (r_h r / 2) /\
      pic_matrix pic = rotation_of rot (r_x r + r_w r / 2, r_y r + r_h r / 2)
  | SPolygon l rot _ =>
      pic_outline pic = polygon_outline l /\
      exists c, balanced l c /\ pic_matrix pic = rotation_of rot c
  | SPolyline l _ _ _ => pic_outline pic = polyline_outline l /\ pic_matrix pic = ident
  | SPath cs _ => svg_path_outline cs = Some (pic_outline pic) /\ pic_matrix pic = ident
  end.

Lemma centroid_balanced : forall l c, find_centroid l = Ok c -> balanced l c.
Proof.
  intros l c H.
  assert (F : forall f, rsum (map f l) = total f l).
  { intros f. unfold rsum. assert (G : forall m a, fold_left Rplus (map f m) a = a + total f m).
    { induction m as [|p m IH]; intros a; simpl; [ring|]. rewrite IH. ring. }
    rewrite G. ring. }
  assert (T : forall f k, total (fun p => f p - k) l = total f l - INR (List.length l) * k).
  { intros f k. clear. induction l as [|p l IH]; [simpl; ring|].
    cbn [total]. rewrite IH. change (List.length (p :: l)) with (S (List.length l)). rewrite S_INR. ring. }
  assert (N : l <> []) by (intros ->; discriminate).
  assert (P : INR (List.length l) <> 0) by (apply not_0_INR; now destruct l).
  assert (C : c = (total fst l / INR (List.length l), total snd l / INR (List.length l))).
  { rewrite <- !F. unfold find_centroid in H. destruct l; [now elim N|]. symmetry. injection H as H. exact H. }
  subst c. unfold balanced. rewrite !T. cbn [fst snd]. split; field; exact P.
Qed.

Lemma shape_drawn : forall d s s', fit d -> calm s -> det (ctm s) <> 0 -> draw_shape d s = Ok s' ->
  exists calls pic ms, svg_shape d = Ok calls /\ picture_of num_of calls = Some pic /\
    c_ink s' = c_ink s ++ ms /\
    painted rgb_of to_float (same_for d) (ctm s) pic ms /\ meant d pic /\
    c_saved s' = c_saved s /\ ctm s' = ctm s /\ c_path s' = [] /\ c_cur s' = None /\
    match d with SEllipse _ _ _ => True | _ => c_g s' = c_g s end.
Proof.
  intros d s s' (W & PD & Fd) (P & C & D) Dt H.
  assert (ST : settled s s' -> c_saved s' = c_saved s /\ ctm s' = ctm s /\ c_path s' = [] /\ c_cur s' = None /\
             c_g s' = c_g s).
  { intros (S1 & S2 & S3 & S4). repeat split; auto. unfold ctm. now rewrite S1. }
  destruct d as [r rx ry rot p|r rot p|l rot p|l color w dash|cs p]; cbn [draw_shape paint_of svg_shape same_for] in *.
  - destruct Fd as (X & Y & F & FR).
    destruct (draw_rect_spec rgb_of to_float Hchars r rx ry rot p s s' X Y P D PD H) as (a & b & I & S & Fi & St).
    destruct (rect_elem r rx ry rot p X Y F FR) as (al & E1 & E2 & E3 & E4).
    destruct (picture_intro fmt num_of isfloat rgb_of to_float same_outline Hfmt Hcol Hchars _ _ _ _ _ _ _ a b
                E1 E2 E3 E4 W Fi St) as (pic & Q1 & Q2 & Q3).
    eexists _, pic, (a ++ b). split; [reflexivity|]. split; [exact Q1|]. split; [exact I|].
    split; [exact Q3|].
    split; [rewrite Q2; repeat split; eauto using centroid_balanced|]. apply ST, S.
  - destruct Fd as (F & FR).
    destruct (draw_ellipse_spec rgb_of to_float Hchars r rot p s s' P C D PD H)
      as (a & b & I & S1 & S2 & S3 & S4 & Fi & St).
    destruct (ellipse_elem r rot p F FR) as (al & E1 & E2 & E3 & E4).
    destruct (picture_intro fmt num_of isfloat rgb_of to_float same_outline Hfmt Hcol Hchars _ _ _ _ _ _ _ a b
                E1 E2 E3 E4 W Fi St) as (pic & Q1 & Q2 & Q3).
    eexists _, pic, (a ++ b). split; [reflexivity|]. split; [exact Q1|]. split; [exact I|].
    split; [exact Q3|].
    split; [rewrite Q2; repeat split; eauto|]. auto.
  - destruct Fd as (F & FR).
    assert (CE : exists c, find_centroid l = Ok c).
    { unfold draw_polygon in H. apply ctx_scope_inv in H as (s1 & H1 & _).
      apply bind_ok in H1 as (c & E & _). eauto. }
    destruct CE as (c & Ec). specialize (FR c Ec).
    destruct (draw_polygon_spec rgb_of to_float Hchars l rot p s s' c Ec P D PD H) as (a & b & I & S & Fi & St).
    destruct (polygon_elem l rot p c Ec F FR) as (calls & al & E0 & E1 & E2 & E3 & E4).
    destruct (picture_intro fmt num_of isfloat rgb_of to_float same_trace Hfmt Hcol Hchars _ _ _ _ _ _ _ a b
                E1 E2 E3 E4 W Fi St) as (pic & Q1 & Q2 & Q3).
    exists calls, pic, (a ++ b). split; [exact E0|]. split; [exact Q1|]. split; [exact I|].
    split; [exact Q3|].
    split; [rewrite Q2; repeat split; eauto using centroid_balanced|]. apply ST, S.
  - destruct Fd as (Len & F & Nc).
    destruct (draw_polyline_spec rgb_of to_float Hchars l color w dash s s' Len P D PD H) as (b & I & S & St).
    set (p := mkPaint (Some color) None w dash) in *.
    assert (E : exists al, element_of (svg_polyline fmt l p) = Some (pys "polyline", al) /\
      outline_of num_of (pys "polyline") al = Some (polyline_outline l) /\ matrix_of num_of al = Some ident /\
      declared (pys "style") al = Some (paint_style fmt p)).
    { unfold svg_polyline. eexists. split; [reflexivity|]. split; [|split; reflexivity].
      cbn. now rewrite points_read by assumption. }
    destruct E as (al & E1 & E2 & E3 & E4).
    assert (LO : l_stroke (look_of p) = Some (color, width_or_1 w, given dash)).
    { unfold look_of, p; cbn. destruct color; [now elim Nc|reflexivity]. }
    destruct (picture_intro fmt num_of isfloat rgb_of to_float same_outline Hfmt Hcol Hchars
                _ _ al (polyline_outline l) ident p (ctm s) [] b E1 E2 E3 E4 W) as (pic & Q1 & Q2 & Q3).
    { constructor. }
    { rewrite LO, mul_ident_r. exact St. }
    eexists _, pic, b. split; [reflexivity|]. split; [exact Q1|]. split; [exact I|].
    split; [exact Q3|].
    split; [rewrite Q2; repeat split; eauto using centroid_balanced|]. apply ST, S.
  - destruct Fd as (F & (p0 & rest & Ecs) & A & NS).
    assert (XX : exists o a b, svg_path_outline cs = Some o /\ c_ink s' = c_ink s ++ a ++ b /\ settled s s' /\
      let o' := map (map_seg (ctm s)) o in
      fills rgb_of same_outline o' (l_fill (look_of p)) a /\
      strokes rgb_of to_float same_outline (ctm s) o' (l_stroke (look_of p)) b).
    { destruct (draw_path_spec rgb_of to_float Hchars cs p0 rest p s s' Ecs A NS Dt P D PD H)
        as [(B & B' & ->)|X]; [|exact X].
      destruct (path_total p0 rest) as (o & O); [subst cs; now apply Forall_cons_iff in A|].
      exists o, [], []. rewrite Ecs. split; [exact O|]. rewrite app_nil_r. split; [reflexivity|].
      split; [repeat split; auto|]. unfold look_of. rewrite B, B'. split; constructor. }
    destruct XX as (o & a & b & O & I & S & Fi & St).
    assert (E : exists al, element_of (svg_path fmt cs p) = Some (pys "path", al) /\
      outline_of num_of (pys "path") al = Some o /\ matrix_of num_of al = Some ident /\
      declared (pys "style") al = Some (paint_style fmt p)).
    { unfold svg_path. eexists. split; [reflexivity|]. split; [|split; reflexivity].
      cbn. rewrite (read_path_written fmt num_of isfloat Hfmt cs F). exact O. }
    destruct E as (al & E1 & E2 & E3 & E4).
    destruct (picture_intro fmt num_of isfloat rgb_of to_float same_outline Hfmt Hcol Hchars
                _ _ al o ident p (ctm s) a b E1 E2 E3 E4 W) as (pic & Q1 & Q2 & Q3).
    { rewrite mul_ident_r. exact Fi. }
    { rewrite mul_ident_r. exact St. }
    eexists _, pic, (a ++ b). split; [reflexivity|]. split; [exact Q1|]. split; [exact I|].
    split; [exact Q3|].
    split; [rewrite Q2; repeat split; eauto using centroid_balanced|]. apply ST, S.
Qed.
End Same.

(** *** Theorems *)

(** A path without an S directly after an S: the outline drawn by Cairo and the outline that
    SVG gives to the written element have the same pieces and points, and are filled and
    stroked in the same way.  Missing: a second S in a row, several groups of points after a
    letter (both refuted below). *)
Theorem C60_path_partial : forall rgb_of to_float fmt num_of isfloat cs p s s',
  good_numbers fmt num_of isfloat -> css_colors rgb_of -> float_chars to_float ->
  fit isfloat (SPath cs p) -> calm s -> det (ctm s) <> 0 ->
  draw_path rgb_of to_float cs p s = Ok s' ->
  exists o pic ms, picture_of num_of (svg_path fmt cs p) = Some pic /\
    svg_path_outline cs = Some o /\ pic_outline pic = o /\ pic_matrix pic = ident /\
    c_ink s' = c_ink s ++ ms /\ painted rgb_of to_float same_outline (ctm s) pic ms.
Proof.
  intros rgb_of to_float fmt num_of isfloat cs p s s' Hf Hc Hch F C D H.
  destruct (shape_drawn rgb_of to_float fmt num_of isfloat Hf Hc Hch (SPath cs p) s s' F C D H)
    as (calls & pic & ms & E & P & I & M & W & _).
  injection E as <-. destruct W as (_ & W1 & W2). exists (pic_outline pic), pic, ms. auto 10.
Qed.
Print Assumptions C60_path_partial.

(** All shapes: what Cairo draws is the picture of the SVG element.  Rectangles must have
    plain corners; ellipses need a context without a current point; the outline of a polygon
    is only traced in the same way, since Cairo does not close it. *)
Theorem C79_same_partial : forall rgb_of to_float fmt num_of isfloat d s s',
  good_numbers fmt num_of isfloat -> css_colors rgb_of -> float_chars to_float ->
  fit isfloat d -> calm s -> det (ctm s) <> 0 ->
  draw_shape rgb_of to_float d s = Ok s' ->
  exists calls pic ms, svg_shape fmt d = Ok calls /\ picture_of num_of calls = Some pic /\
    meant d pic /\
    c_ink s' = c_ink s ++ ms /\ painted rgb_of to_float (same_for d) (ctm s) pic ms.
Proof.
  intros rgb_of to_float fmt num_of isfloat d s s' Hf Hc Hch F C D H.
  destruct (shape_drawn rgb_of to_float fmt num_of isfloat Hf Hc Hch d s s' F C D H)
    as (calls & pic & ms & E & P & I & M & W & _). eauto 10.
Qed.
Print Assumptions C79_same_partial.


(** ** C80: shapes do not affect each other *)

Lemma arc_keeps : forall s x y r, c_saved (k_arc s x y r) = c_saved s /\ c_g (k_arc s x y r) = c_g s.
Proof.
  intros s x y r. unfold k_arc, k_line_to. destruct (c_cur s); cbn; auto.
Qed.

Section Sequence.
Variable rgb_of : str -> result rgb.
Variable to_float : str -> result R.
Variable fmt : R -> str.
Variable num_of : str -> option R.
Variable isfloat : R -> Prop.

Lemma ellipse_dash : forall r rot p s s', given (p_dash p) = None ->
  draw_ellipse rgb_of to_float r rot p s = Ok s' -> g_dash (c_g s') = g_dash (c_g s).
Proof.
  intros r rot p s s' G H. unfold draw_ellipse in H. cbv zeta in H.
  apply bind_ok in H as (sx & _ & H). apply bind_ok in H as (sy & _ & H).
  apply bind_ok in H as (s1 & H1 & H).
  apply ctx_scope_inv in H1 as (s2 & H1 & H2).
  apply bind_ok in H1 as (s3 & H3 & H1). apply transform_scale in H3.
  apply bind_ok in H1 as (s4 & H4 & H1).
  assert (S3 : c_saved s3 = c_g s :: c_saved s) by now subst s3.
  assert (S4 : c_saved s4 = c_g s :: c_saved s).
  { destruct (p_bg p) as [b|]; [destruct (truthy_str (Some b))|]; try (injection H4 as <-; exact S3).
    unfold fill_shape in H4. apply bind_ok in H4 as (c & _ & H4). cbn [rbind] in H4. injection H4 as <-.
    cbn [c_saved k_fill k_new_path]. rewrite (proj1 (arc_keeps _ _ _ _)). exact S3. }
  assert (S2 : c_saved s2 = c_g s :: c_saved s).
  { destruct (truthy_str (p_color p)); injection H1 as <-; [|exact S4].
    rewrite (proj1 (arc_keeps _ _ _ _)). exact S4. }
  specialize (H2 S2).
  assert (G1 : c_g s1 = c_g s) by now subst s1.
  destruct (p_color p) as [c|]; [destruct (truthy_str (Some c))|]; try (injection H as <-; now rewrite G1).
  unfold stroke_shape in H. apply bind_ok in H as (x & _ & H). cbv zeta in H.
  apply bind_ok in H as (s5 & H5 & H). cbn [rbind] in H. injection H as <-.
  cbn [c_g k_stroke k_new_path].
  destruct (p_dash p) as [[|ch dd]|]; cbn [truthy_str] in H5; try discriminate G;
    injection H5 as <-; cbn; now rewrite G1.
Qed.

Fixpoint draw_all (ds : list shape) : run := fun s =>
  match ds with
  | [] => Ok s
  | d :: ds' => do s <- draw_shape rgb_of to_float d s; draw_all ds' s
  end.

(** [ms] are the marks of the shape [d]. *)
Definition marks_of (base : mat) (d : shape) (ms : list mark) : Prop :=
  exists calls pic, svg_shape fmt d = Ok calls /\ picture_of num_of calls = Some pic /\
    meant d pic /\ painted rgb_of to_float (same_for d) base pic ms.
End Sequence.

(** Shapes drawn one after another: each leaves its own marks, those of its SVG element, and
    the context is ready for the next one.  Ellipses must have no dashes. *)
Theorem C80_sequence_partial : forall rgb_of to_float fmt num_of isfloat ds s s',
  good_numbers fmt num_of isfloat -> css_colors rgb_of -> float_chars to_float ->
  Forall (fit isfloat) ds -> Forall undashed_ellipse ds -> calm s -> det (ctm s) <> 0 ->
  draw_all rgb_of to_float ds s = Ok s' ->
  exists mss, c_ink s' = c_ink s ++ List.concat mss /\
    Forall2 (marks_of rgb_of to_float fmt num_of (ctm s)) ds mss /\
    calm s' /\ ctm s' = ctm s /\ c_saved s' = c_saved s.
Proof.
  intros rgb_of to_float fmt num_of isfloat ds s s' Hf Hc Hch F. revert s s'.
  induction F as [|d ds F1 F IH]; intros s s' U C D H; cbn [draw_all] in H.
  - injection H as <-. exists []. rewrite app_nil_r. split; [reflexivity|]. split; [constructor|auto].
  - apply Forall_cons_iff in U as [U1 U]. apply bind_ok in H as (s1 & H1 & H).
    destruct (shape_drawn rgb_of to_float fmt num_of isfloat Hf Hc Hch d s s1 F1 C D H1)
      as (calls & pic & ms & E & P & I & M & W & S1 & S2 & S3 & S4 & S5).
    assert (C1 : calm s1).
    { split; [exact S3|split; [exact S4|]]. destruct C as (_ & _ & C).
      destruct d; try (rewrite S5; exact C). cbn [undashed_ellipse] in U1.
      rewrite (ellipse_dash rgb_of to_float _ _ _ _ _ U1 H1). exact C. }
    destruct (IH s1 s' U C1) as (mss & J1 & J2 & J3 & J4 & J5); [now rewrite S2|exact H|].
    exists (ms :: mss). rewrite J1, I. cbn [List.concat]. rewrite <- app_assoc. split; [reflexivity|].
    rewrite S2 in J2. split; [constructor; [|exact J2]|].
    + exists calls, pic. auto.
    + split; [exact J3|]. split; [now rewrite J4|now rewrite J5].
Qed.
Print Assumptions C80_sequence_partial.

(** ** Drawing does not fail *)

Section Total.
Variable rgb_of : str -> result rgb.
Variable to_float : str -> result R.
Definition runs (f : run) : Prop := forall s, exists s', f s = Ok s' /\ c_saved s' = c_saved s.
Definition known (v : option str) : Prop := forall c, given v = Some c -> exists x, rgb_of c = Ok x.
Definition known_paint (p : paint) : Prop :=
  known (p_bg p) /\ known (p_color p) /\
  forall d, given (p_dash p) = Some d -> Forall (fun w => exists x, to_float w = Ok x) (words d).

Lemma floats_total : forall l, Forall (fun w => exists x, to_float w = Ok x) l ->
  exists xs, floats to_float l = Ok xs.
Proof.
  induction 1 as [|w l (x & E) _ (xs & IH)]; [now exists []|]. cbn [floats]. rewrite E, IH. cbn. eauto.
Qed.
Lemma fill_runs : forall cb b, runs cb -> (exists x, rgb_of b = Ok x) -> runs (fill_shape rgb_of cb b).
Proof.
  intros cb b H (x & E) s. unfold fill_shape. rewrite E. cbn [rbind].
  destruct (H (k_source s x)) as (s1 & -> & S). cbn [rbind]. eexists. split; [reflexivity|]. exact S.
Qed.
Lemma stroke_runs : forall cb c w dash, runs cb -> (exists x, rgb_of c = Ok x) ->
  (forall d, given dash = Some d -> Forall (fun w => exists x, to_float w = Ok x) (words d)) ->
  runs (stroke_shape rgb_of to_float cb c w dash).
Proof.
  intros cb c w dash H (x & E) D s. unfold stroke_shape. rewrite E. cbn [rbind]. cbv zeta.
  assert (X : exists s1, (match dash with
          | Some d => if truthy_str dash then do f <- floats to_float (words d); Ok (k_dash (k_width (k_source s x) (width_or_1 w)) f)
                      else Ok (k_width (k_source s x) (width_or_1 w))
          | None => Ok (k_width (k_source s x) (width_or_1 w)) end) = Ok s1 /\ c_saved s1 = c_saved s).
  { destruct dash as [[|ch d]|]; cbn [truthy_str]; try (eexists; split; reflexivity).
    destruct (floats_total _ (D _ eq_refl)) as (xs & ->). cbn [rbind]. eexists; split; reflexivity. }
  destruct X as (s1 & -> & S1). cbn [rbind]. destruct (H s1) as (s2 & -> & S2). cbn [rbind].
  eexists. split; [reflexivity|]. cbn. now rewrite S2.
Qed.
Lemma fill_stroke_runs : forall cb p, runs cb -> known_paint p -> runs (fill_stroke_shape rgb_of to_float cb p).
Proof.
  intros cb p H (B & C & D) s. unfold fill_stroke_shape.
  assert (X : exists s1, (match p_bg p with
          | Some b => if truthy_str (p_bg p) then fill_shape rgb_of cb b s else Ok s
          | None => Ok s end) = Ok s1 /\ c_saved s1 = c_saved s).
  { destruct (p_bg p) as [[|ch b]|]; cbn [truthy_str]; try (eexists; split; reflexivity).
    apply fill_runs; auto. }
  destruct X as (s1 & -> & S1). cbn [rbind]. rewrite <- S1.
  destruct (p_color p) as [[|ch b]|]; cbn [truthy_str]; try (eexists; split; reflexivity).
  apply stroke_runs; auto.
Qed.
Lemma scope_runs : forall body, runs body -> runs (ctx_scope body).
Proof.
  intros body H s. unfold ctx_scope. destruct (H (k_save s)) as (s1 & -> & S). cbn [rbind].
  unfold k_restore. rewrite S. cbn. eexists. split; reflexivity.
Qed.
Lemma transform_runs : forall c rot sx sy, sx * sy <> 0 -> runs (transform c rot sx sy).
Proof.
  intros c rot sx sy N s. unfold transform.
  destruct (negb (req sx 1) || negb (req sy 1)).
  - unfold k_scale. destruct (req (sx * sy) 0) eqn:E; [apply req_true in E; contradiction|].
    cbn [rbind]. eexists. split; [reflexivity|]. now destruct rot.
  - cbn [rbind]. eexists. split; [reflexivity|]. now destruct rot.
Qed.
Lemma seq_runs : forall f g, runs f -> runs g -> runs (fun s => do s <- f s; g s).
Proof.
  intros f g F G s. destruct (F s) as (s1 & -> & S1). cbn [rbind].
  destruct (G s1) as (s2 & E & S2). exists s2. split; [exact E|congruence].
Qed.
Lemma rectangle_runs : forall x y w h, runs (fun s => k_rectangle s x y w h).
Proof. intros x y w h s. eexists. split; reflexivity. Qed.
Lemma rounded_runs : forall x y w h rx ry, runs (rounded_rectangle x y w h rx ry).
Proof.
  intros x y w h rx ry s. unfold rounded_rectangle. cbv zeta.
  assert (L : forall s0 v, c_cur s0 <> None -> exists s1, k_rel_line_to s0 v = Ok s1 /\
            c_saved s1 = c_saved s0 /\ c_cur s1 <> None).
  { intros s0 v N. unfold k_rel_line_to. destruct (c_cur s0); [|now elim N].
    eexists. split; [reflexivity|]. split; [reflexivity|discriminate]. }
  assert (C : forall s0 a b p, c_cur s0 <> None -> exists s1, k_rel_curve_to s0 a b p = Ok s1 /\
            c_saved s1 = c_saved s0 /\ c_cur s1 <> None).
  { intros s0 a b p N. unfold k_rel_curve_to. destruct (c_cur s0); [|now elim N].
    eexists. split; [reflexivity|]. split; [reflexivity|discriminate]. }
  match goal with |- context [k_move_to ?a ?b] =>
    assert (S0 : c_saved (k_move_to a b) = c_saved s) by reflexivity;
    assert (N0 : c_cur (k_move_to a b) <> None) by discriminate;
    generalize dependent (k_move_to a b) end.
  intros s0 S0 N0.
  repeat match goal with |- exists s', rbind (k_rel_line_to ?a ?v) _ = _ /\ _ =>
           let s1 := fresh "s" in let E := fresh "E" in let S1 := fresh "S" in let N1 := fresh "N" in
           destruct (L a v) as (s1 & E & S1 & N1); [assumption|]; rewrite E; cbn [rbind]; rewrite S0 in S1;
           clear E; clear dependent a; rename s1 into s0; rename S1 into S0; rename N1 into N0
         | |- exists s', rbind (k_rel_curve_to ?a ?v ?w0 ?x0) _ = _ /\ _ =>
           let s1 := fresh "s" in let E := fresh "E" in let S1 := fresh "S" in let N1 := fresh "N" in
           destruct (C a v w0 x0) as (s1 & E & S1 & N1); [assumption|]; rewrite E; cbn [rbind]; rewrite S0 in S1;
           clear E; clear dependent a; rename s1 into s0; rename S1 into S0; rename N1 into N0 end.
  eexists. split; [reflexivity|]. unfold k_close_path. destruct (c_cur s0); [|exact S0].
  destruct (c_start s0); exact S0.
Qed.
Lemma lines_saved : forall l s, c_saved (lines_to s l) = c_saved s.
Proof.
  induction l as [|p l IH]; intros s; [reflexivity|]. cbn [lines_to]. rewrite IH.
  unfold k_line_to. now destruct (c_cur s).
Qed.
Lemma curve_saved : forall s a b p, c_saved (k_curve_to s a b p) = c_saved s.
Proof. intros s a b p. unfold k_curve_to. destruct (c_cur s) eqn:E; [now rewrite E|reflexivity]. Qed.
Lemma path_runs : forall cs, Forall exact_arity cs -> forall cub quad, runs (fun s => path_loop s cub quad cs).
Proof.
  induction 1 as [|[n ps] cs A _ IH]; intros cub quad s; [now exists s|].
  unfold exact_arity in A. cbn [fst snd] in A. cbn [path_loop].
  assert (X : exists s1 c q, path_step s cub quad (n, ps) = Ok (s1, c, q) /\ c_saved s1 = c_saved s).
  { unfold path_step. destruct n; destruct ps as [|p1 [|p2 [|p3 [|? ?]]]]; try discriminate; cbn [arg nth_error rbind];
      eexists _, _, _; (split; [reflexivity|]); try reflexivity; try apply curve_saved.
    unfold k_line_to. now destruct (c_cur s). }
  destruct X as (s1 & c & q & -> & S). cbn [rbind].
  destruct (IH c q s1) as (s2 & -> & S2). exists s2. split; [reflexivity|congruence].
Qed.

(** What Cairo can draw. *)
Definition drawable (d : shape) : Prop :=
  known_paint (paint_of d) /\
  match d with
  | SRect _ _ _ _ _ => True
  | SEllipse r _ _ => 0 < r_w r /\ 0 < r_h r
  | SPolygon l _ _ => l <> []
  | SPolyline l c _ _ => l <> [] /\ c <> []
  | SPath cs _ => Forall exact_arity cs
  end.
Lemma drawable_runs : forall d, drawable d -> runs (draw_shape rgb_of to_float d).
Proof.
  intros [r rx ry rot p|r rot p|l rot p|l c w dash|cs p] (K & H); cbn [paint_of draw_shape] in *.
  - unfold draw_rect. apply scope_runs. apply seq_runs; [apply transform_runs; lra|].
    apply fill_stroke_runs; [|exact K]. intros s.
    set (rx' := match rx with None => ry | _ => rx end).
    set (ry' := match ry with None => rx' | _ => ry end).
    destruct (truthy_num rx' || truthy_num ry') eqn:Q; [|apply rectangle_runs].
    assert (AB : exists a b, rx' = Some a /\ ry' = Some b).
    { unfold ry', rx' in *. destruct rx, ry; try discriminate; eauto. }
    destruct AB as (a & b & -> & ->). apply rounded_runs.
  - destruct H as [W Hh]. intros s. unfold draw_ellipse. cbv zeta.
    set (larger := if rlt (r_w r) (r_h r) then r_h r else r_w r).
    set (smaller := if rlt (r_w r) (r_h r) then r_w r else r_h r).
    assert (L : 0 < larger /\ 0 < smaller) by (unfold larger, smaller; destruct (rlt _ _); auto).
    assert (Z : req larger 0 = false) by (destruct (req larger 0) eqn:E; [apply req_true in E; lra|reflexivity]).
    assert (X : forall k, exists v, (if req larger k then Ok 1 else if req larger 0 then Err EZeroDivision
                  else Ok (smaller / larger)) = Ok v /\ 0 < v).
    { intros k. rewrite Z. destruct (req larger k); eexists; (split; [reflexivity|]); [lra|].
      apply Rmult_lt_0_compat; [apply L|apply Rinv_0_lt_compat, L]. }
    destruct (X (r_w r)) as (sx & -> & Px). destruct (X (r_h r)) as (sy & -> & Py). cbn [rbind].
    assert (DR : runs (fun s => Ok (k_arc s (fst (mid_point r)) (snd (mid_point r)) (larger / 2)))).
    { intros s0. eexists. split; [reflexivity|]. apply arc_keeps. }
    destruct K as (B & C & D).
    match goal with |- context [ctx_scope ?b s] => assert (SR : runs b) end.
    { apply seq_runs; [apply transform_runs; apply Rgt_not_eq; now apply Rmult_lt_0_compat|].
      intros s0.
      assert (Y : exists s1, (match p_bg p with
          | Some b => if truthy_str (p_bg p) then fill_shape rgb_of
              (fun s => Ok (k_arc s (fst (mid_point r)) (snd (mid_point r)) (larger / 2))) b s0 else Ok s0
          | None => Ok s0 end) = Ok s1 /\ c_saved s1 = c_saved s0).
      { destruct (p_bg p) as [[|ch b]|]; cbn [truthy_str]; try (eexists; split; reflexivity).
        apply fill_runs; auto. }
      destruct Y as (s1 & -> & S1). cbn [rbind]. rewrite <- S1.
      destruct (truthy_str (p_color p)); [apply DR|now exists s1]. }
    destruct (scope_runs _ SR s) as (s1 & -> & S1). cbn [rbind]. rewrite <- S1.
    destruct (p_color p) as [[|ch b]|]; cbn [truthy_str]; try (eexists; split; reflexivity).
    apply stroke_runs; auto. intros s0. now exists s0.
  - unfold draw_polygon. apply scope_runs. intros s. destruct l as [|p0 l]; [now elim H|].
    unfold find_centroid. cbn [rbind].
    match goal with |- exists s', rbind (transform ?c _ _ _ _) ?k = _ /\ _ =>
      apply (seq_runs (transform c rot 1 1) k) end; [apply transform_runs; lra|].
    apply fill_stroke_runs; [|exact K]. intros s0. eexists. split; [reflexivity|]. now rewrite lines_saved.
  - unfold draw_polyline. apply scope_runs. destruct H as [H Hc]. destruct K as (_ & C & D).
    apply stroke_runs; [|apply C; now destruct c|exact D].
    intros s. destruct l as [|p0 l]; [now elim H|]. eexists. split; [reflexivity|]. now rewrite lines_saved.
  - unfold draw_path. apply scope_runs. apply fill_stroke_runs; [|exact K]. now apply path_runs.
Qed.
End Total.

(** Shapes with known colours and numbers are always drawn by Cairo, and every [save] is
    matched by a [restore].  Ellipses must have a width and a height. *)
Theorem C79_total : forall rgb_of to_float d s, drawable rgb_of to_float d ->
  exists s', draw_shape rgb_of to_float d s = Ok s' /\ c_saved s' = c_saved s.
Proof. intros rgb_of to_float d s H. now apply drawable_runs. Qed.
Print Assumptions C79_total.

(** *** A concrete setting *)

Definition black : str := pys "black".
Definition rgb0 (s : str) : result rgb := if str_eqb s black then Ok (0, 0, 0) else Err EValue.
Definition digit_of (c : char) : option R :=
  if N.eqb c 48 then Some 0 else if N.eqb c 49 then Some 1 else if N.eqb c 50 then Some 2
  else if N.eqb c 51 then Some 3 else if N.eqb c 52 then Some 4 else None.
Definition num0 (s : str) : option R := match s with [c] => digit_of c | _ => None end.
Definition float0 (s : str) : result R := match num0 s with Some x => Ok x | None => Err EValue end.
Definition fmt0 (x : R) : str :=
  if req x 0 then [48%N] else if req x 1 then [49%N] else if req x 2 then [50%N]
  else if req x 3 then [51%N] else if req x 4 then [52%N] else [].
Definition isfloat0 (x : R) : Prop := x = 0 \/ x = 1 \/ x = 2 \/ x = 3 \/ x = 4.

Lemma reqF : forall a b, a < b \/ b < a -> req a b = false.
Proof. intros a b H. destruct (req a b) eqn:E; [apply req_true in E; lra|reflexivity]. Qed.
Lemma good0 : good_numbers fmt0 num0 isfloat0.
Proof.
  intros x H. assert (N : exists c, fmt0 x = [c] /\ digit_of c = Some x /\ numeral_char c).
  { unfold fmt0. unfold numeral_char.
    destruct H as [-> | [-> | [-> | [-> | ->]]]];
      repeat (first [rewrite req_refl | rewrite reqF by lra]);
      eexists; (split; [reflexivity|]); repeat split; try reflexivity; discriminate. }
  destruct N as (c & -> & D & NC). cbn [num0]. split; [exact D|]. split; [discriminate|]. now constructor.
Qed.
Lemma css0 : css_colors rgb0.
Proof.
  intros c x H. unfold rgb0 in H. destruct (str_eqb c black) eqn:E; [|discriminate].
  apply str_eqb_eq in E. subst c. split; [|discriminate].
  intros K. vm_compute in K. repeat (destruct K as [K|K]; [discriminate|]). exact K.
Qed.
Lemma chars0 : float_chars float0.
Proof.
  intros v x H. unfold float0, num0 in H. destruct v as [|c [|]]; try discriminate.
  assert (N : c <> 44%N /\ c <> 59%N) by (split; intros ->; discriminate).
  destruct N as [N1 N2]. split; intros [K|[]]; auto.
Qed.

Definition pen (dash : option str) : paint := mkPaint (Some black) None (Some 2) dash.
Definition clean : ctx := mkCtx (mkG ident (0, 0, 0) 1 []) [] [] None None false [].
Definition box0 : rect := mkRect 1 1 2 2.

Lemma pen_fit : isfloat0 (width_or_1 (p_width (pen None))).
Proof. cbn. destruct (req 2 0) eqn:E; [apply req_true in E; lra|]. unfold isfloat0. auto. Qed.
Lemma clean_calm : calm clean. Proof. now repeat split. Qed.
Lemma clean_det : det (ctm clean) <> 0. Proof. cbn. unfold det, ident; simpl. lra. Qed.

(** A sequence with all kinds of shapes. *)
Definition drawing0 : list shape :=
  [SRect box0 None None (Some 3) (mkPaint (Some black) (Some black) (Some 2) None);
   SEllipse (mkRect 1 1 2 2) None (pen None);
   SPolyline [(0, 1); (2, 3); (4, 4)] black None (Some (pys "3 1"));
   SPath [(PM, [(0, 1)]); (PC, [(0, 2); (3, 3); (4, 4)]); (PS, [(1, 2); (0, 0)]); (PT, [(1, 4)])] (pen None);
   SPolygon [(0, 0); (4, 0); (2, 3)] None (pen None)].
Lemma req1 : req 1 1 = true. Proof. apply req_refl. Qed.
Ltac all_floats := repeat (first [apply Forall_nil | apply Forall_cons | split; [assumption|assumption] | cbn [fst snd]]).
Example C80_sequence_ex : Forall (fit isfloat0) drawing0 /\ Forall undashed_ellipse drawing0 /\
  exists s', draw_all rgb0 float0 drawing0 clean = Ok s'.
Proof.
  assert (I0 : isfloat0 0) by (unfold isfloat0; auto 10). assert (I1 : isfloat0 1) by (unfold isfloat0; auto 10).
  assert (I2 : isfloat0 2) by (unfold isfloat0; auto 10). assert (I3 : isfloat0 3) by (unfold isfloat0; auto 10).
  assert (I4 : isfloat0 4) by (unfold isfloat0; auto 10).
  assert (M : 1 + 2 / 2 = 2) by field. assert (H1 : 2 / 2 = 1) by field.
  assert (ND : forall p, p_dash p = None -> plain_dash (p_dash p)) by (intros p -> s c E; discriminate).
  split; [|split].
  - repeat apply Forall_cons; [..|apply Forall_nil]; unfold fit; cbn [paint_of].
    + split; [exact pen_fit|]. split; [now apply ND|].
      unfold mid_point, mid_x, mid_y, box0, float_rect, float_rotation, float_pt; simpl. rewrite M. auto 10.
    + split; [exact pen_fit|]. split; [now apply ND|].
      unfold mid_point, mid_x, mid_y, float_rect, float_rotation; simpl. rewrite M, H1. auto 10.
    + split; [exact I1|]. split; [|split; [simpl; lia|split; [all_floats|discriminate]]].
      intros s c E K SP. injection E as <-. cbn in K.
      destruct K as [<-|[<-|[<-|[]]]]; first [reflexivity|discriminate].
    + split; [exact pen_fit|]. split; [now apply ND|]. split; [all_floats|].
      split; [eauto|]. split; [repeat constructor|]. cbn. repeat split; congruence.
    + split; [exact pen_fit|]. split; [now apply ND|]. split; [all_floats|]. intros; exact I.
  - repeat constructor.
  - assert (K : forall p, p_dash p = None \/ p_dash p = Some (pys "3 1") -> incl [p_bg p; p_color p] [None; Some black] ->
              known_paint rgb0 float0 p).
    { intros p HD HC. assert (KC : forall v, In v [p_bg p; p_color p] -> known rgb0 v).
      { intros v Hv. apply HC in Hv. destruct Hv as [<-|[<-|[]]]; intros c E; [discriminate|].
        injection E as <-. exists (0, 0, 0). reflexivity. }
      split; [apply KC; now left|]. split; [apply KC; right; now left|].
      intros d E. destruct HD as [HD|HD]; rewrite HD in E; [discriminate|]. injection E as <-.
      change (words (pys "3 1")) with [[51%N]; [49%N]]. repeat constructor; eexists; reflexivity. }
    assert (ALL : forall ds, Forall (drawable rgb0 float0) ds -> forall s, exists s', draw_all rgb0 float0 ds s = Ok s').
    { induction 1 as [|d ds Hd _ IH]; intros s; [now exists s|]. cbn [draw_all].
      destruct (C79_total rgb0 float0 d s Hd) as (s1 & -> & _). cbn [rbind]. apply IH. }
    apply ALL. repeat apply Forall_cons; [..|apply Forall_nil]; (split; [apply K; [now (left + right)|]|]).
    all: try (intros v [<-|[<-|[]]]; cbn; now auto).
    all: cbn; try lra; try exact I; try (repeat constructor); discriminate.
Qed.

(** The theorems apply to them. *)
Example C79_same_ex : exists s' mss, draw_all rgb0 float0 drawing0 clean = Ok s' /\ c_ink s' = List.concat mss /\
  Forall2 (marks_of rgb0 float0 fmt0 num0 ident) drawing0 mss.
Proof.
  destruct C80_sequence_ex as (F & U & s' & E).
  destruct (C80_sequence_partial rgb0 float0 fmt0 num0 isfloat0 drawing0 clean s' good0 css0 chars0 F U clean_calm clean_det E)
    as (mss & I & M & _).
  exists s', mss. auto.
Qed.

(** *** Where the backends differ *)

(** Two S in a row: Cairo reflects the first control point of the previous curve instead of
    its second one, so the curves differ. *)
Theorem C60_double_S_refuted : exists cs s' path o,
  Forall exact_arity cs /\ draw_path rgb0 float0 cs (pen None) clean = Ok s' /\
  c_ink s' = [MStroke path (0, 0, 0) 2 [] ident] /\ svg_path_outline cs = Some o /\
  ~ same_trace path (map (map_seg ident) o).
Proof.
  exists [(PM, [(0, 0)]); (PS, [(1, 2); (2, 0)]); (PS, [(3, 2); (4, 0)])].
  unfold draw_path, ctx_scope, fill_stroke_shape, stroke_shape.
  cbn -[req k_curve_to reflect unapply apply width_or_1].
  unfold k_curve_to. cbn -[req reflect unapply apply width_or_1].
  assert (W : width_or_1 (Some 2) = 2) by (cbn; now rewrite reqF by lra).
  eexists _, _, _. split; [repeat constructor|]. split; [reflexivity|]. rewrite W. split; [reflexivity|].
  split; [reflexivity|]. intros S. inversion S as [|? ? ? ? _ S1]; subst. inversion S1 as [|? ? ? ? _ S2]; subst.
  inversion S2 as [|? ? ? ? S3 _]; subst. specialize (S3 (1 / 2)).
  apply (f_equal snd) in S3. revert S3.
  unfold seg_at, map_seg, bez3, bez2, mix, lin, apply, unapply, reflect, or_else, assumed, opposite, det, ident; cbn.
  intros S3. field_simplify in S3. lra.
Qed.
Print Assumptions C60_double_S_refuted.

(** Several groups of points after a letter: SVG repeats the command, Cairo ignores all groups
    but the first. *)
Theorem C60_groups_refuted : exists cs s' path o,
  draw_path rgb0 float0 cs (pen None) clean = Ok s' /\
  c_ink s' = [MStroke path (0, 0, 0) 2 [] ident] /\ svg_path_outline cs = Some o /\
  List.length path = 2%nat /\ List.length o = 3%nat.
Proof.
  exists [(PM, [(0, 0)]); (PL, [(1, 2); (2, 0)])].
  unfold draw_path, ctx_scope, fill_stroke_shape, stroke_shape.
  cbn -[req unapply apply width_or_1].
  assert (W : width_or_1 (Some 2) = 2) by (cbn; now rewrite reqF by lra).
  eexists _, _, _. split; [reflexivity|]. rewrite W. split; [reflexivity|].
  split; [reflexivity|]. split; reflexivity.
Qed.
Print Assumptions C60_groups_refuted.

(** A command without points is accepted by the check of paths, but Cairo cannot draw it. *)
Theorem C60_no_points_refuted : forall rgb_of to_float s c x p,
  rgb_of c = Ok x -> c <> [] -> p_color p = Some c -> p_bg p = None -> p_dash p = None ->
  draw_path rgb_of to_float [(PM, [])] p s = Err EIndex.
Proof.
  intros rgb_of to_float s c x p E N C B D. unfold draw_path, ctx_scope, fill_stroke_shape.
  rewrite B, C. cbn [rbind]. destruct c as [|ch c]; [now elim N|]. cbn [truthy_str].
  unfold stroke_shape. rewrite E, D. reflexivity.
Qed.
Print Assumptions C60_no_points_refuted.
Example C60_no_points_ex : draw_path rgb0 float0 [(PM, [])] (pen None) clean = Err EIndex.
Proof. apply (C60_no_points_refuted rgb0 float0 clean black (0, 0, 0)); try reflexivity; discriminate. Qed.

(** A polygon is closed by SVG; Cairo draws a line back to the start and leaves the outline
    open, which shows in the corner there. *)
Theorem C79_polygon_refuted : exists l s' path calls pic,
  draw_polygon rgb0 float0 l None (pen None) clean = Ok s' /\
  svg_polygon fmt0 l None (pen None) = Ok calls /\ picture_of num0 calls = Some pic /\
  c_ink s' = [MStroke path (0, 0, 0) 2 [] ident] /\
  In KClose (map kind_of (pic_outline pic)) /\ ~ In KClose (map kind_of path).
Proof.
  set (d := SPolygon [(0, 0); (4, 0); (2, 3)] None (pen None)).
  assert (ID : forall m, mul (mul ident (mtranslate (fst m) (snd m))) (mtranslate (- fst m) (- snd m)) = ident).
  { intros [x y]. unfold mul, ident, mtranslate; simpl. f_equal; ring. }
  exists [(0, 0); (4, 0); (2, 3)].
  assert (P : exists calls pic, svg_polygon fmt0 [(0, 0); (4, 0); (2, 3)] None (pen None) = Ok calls /\
    picture_of num0 calls = Some pic /\ In KClose (map kind_of (pic_outline pic))).
  { destruct C80_sequence_ex as (F & _ & _).
    assert (Fd : fit isfloat0 d) by (rewrite Forall_forall in F; apply F; simpl; auto 10).
    assert (Dr : drawable rgb0 float0 d).
    { split; [|discriminate]. split; [intros c E; discriminate|]. split; [|intros c E; discriminate].
      intros c E. injection E as <-. exists (0, 0, 0). reflexivity. }
    destruct (C79_total rgb0 float0 d clean Dr) as (s1 & E1 & _).
    destruct (C79_same_partial rgb0 float0 fmt0 num0 isfloat0 d clean s1 good0 css0 chars0 Fd clean_calm clean_det E1)
      as (calls & pic & ms & Q1 & Q2 & (_ & Q3 & _) & _).
    exists calls, pic. split; [exact Q1|]. split; [exact Q2|]. rewrite Q3. simpl. auto 10. }
  destruct P as (calls & pic & P1 & P2 & P3).
  unfold draw_polygon, ctx_scope, transform, find_centroid. rewrite !req_refl. cbn [rbind negb orb].
  set (c := (rsum _ / _, rsum _ / _)).
  unfold fill_stroke_shape, stroke_shape.
  cbn -[req apply mul ident width_or_1 c mtranslate fst snd]. rewrite (ID c).
  assert (W : width_or_1 (Some 2) = 2) by (cbn; now rewrite reqF by lra). rewrite W.
  eexists _, _, calls, pic. split; [reflexivity|]. split; [exact P1|]. split; [exact P2|].
  split; [reflexivity|]. split; [exact P3|].
  cbn. intros [K|[K|[K|[K|[]]]]]; discriminate.
Qed.
Print Assumptions C79_polygon_refuted.

(** Dashes separated by commas: SVG reads them, Cairo fails. *)
Theorem C79_dash_comma_refuted :
  pieces dash_sep [] (pys "3,1") = [pys "3"; pys "1"] /\ num0 (pys "3") = Some 3 /\ num0 (pys "1") = Some 1 /\
  forall rgb_of to_float r s x, float_chars to_float -> rgb_of black = Ok x ->
    exists e, draw_rect rgb_of to_float r None None None (pen (Some (pys "3,1"))) s = Err e.
Proof.
  split; [reflexivity|]. split; [reflexivity|]. split; [reflexivity|].
  intros rgb_of to_float r s x Hc E. unfold draw_rect, ctx_scope, transform. rewrite !req_refl.
  cbn [rbind negb orb]. unfold fill_stroke_shape, stroke_shape.
  cbn [pen p_bg p_color p_width p_dash truthy_str black rbind]. change (pys "black") with black. rewrite E. cbn [rbind].
  change (words (pys "3,1")) with [pys "3,1"]. cbn [floats].
  destruct (to_float (pys "3,1")) as [v|e] eqn:T; [|eexists; reflexivity].
  apply Hc in T as [T _]. elim T. right. now left.
Qed.
Print Assumptions C79_dash_comma_refuted.

(** An ellipse with dashes: they stay set, and the rectangle drawn next is dashed too. *)
Theorem C80_ellipse_dash_refuted : exists r s1 s2 path w base,
  draw_ellipse rgb0 float0 r None (pen (Some (pys "3 1"))) clean = Ok s1 /\
  draw_rect rgb0 float0 r None None None (pen None) s1 = Ok s2 /\
  c_ink s2 = c_ink s1 ++ [MStroke path (0, 0, 0) w [3; 1] base] /\
  l_stroke (look_of (pen None)) = Some (black, w, None).
Proof.
  exists (mkRect 1 1 2 2).
  assert (L : rlt 2 2 = false) by (unfold rlt; destruct (Rlt_dec 2 2); [lra|reflexivity]).
  assert (W : width_or_1 (Some 2) = 2) by (cbn; now rewrite reqF by lra).
  unfold draw_ellipse, draw_rect, ctx_scope, transform, fill_stroke_shape, stroke_shape.
  cbn [r_w r_h]. rewrite L, !(req_refl 2). cbn -[req apply mul ident width_or_1 offset]. rewrite W, !(req_refl 1).
  cbn -[req apply mul ident width_or_1 offset]. rewrite ?W.
  eexists _, _, _, _, _. split; [reflexivity|]. cbn -[req apply mul ident offset].
  rewrite ?(reqF 2 0) by lra.
  split; [reflexivity|]. split; [reflexivity|]. reflexivity.
Qed.
Print Assumptions C80_ellipse_dash_refuted.

(** A text leaves its position as the current point: the outline of an ellipse that is only
    stroked then begins with a line from there. *)
Theorem C80_text_refuted : exists at_ r s1 s2 path,
  draw_text_at (0, 0) None at_ 0 clean = Ok s1 /\
  draw_ellipse rgb0 float0 r None (pen None) s1 = Ok s2 /\
  c_ink s2 = c_ink s1 ++ [MStroke path (0, 0, 0) 2 [] ident] /\
  exists rest, path = GMove (apply ident at_) :: GLine (apply ident at_) (3, 2) :: rest.
Proof.
  exists (4, 4), (mkRect 1 1 2 2).
  assert (L : rlt 2 2 = false) by (unfold rlt; destruct (Rlt_dec 2 2); [lra|reflexivity]).
  assert (W : width_or_1 (Some 2) = 2) by (cbn; now rewrite reqF by lra).
  unfold draw_text_at, draw_ellipse, ctx_scope, transform, stroke_shape.
  cbn [r_w r_h]. rewrite L, !(req_refl 2). cbn -[req apply mul ident width_or_1 offset]. rewrite W, !(req_refl 1).
  cbn -[req apply mul ident width_or_1 offset]. rewrite ?W.
  eexists _, _, _. split; [reflexivity|]. cbn -[req apply mul ident offset].
  split; [reflexivity|]. split; [reflexivity|]. eexists. apply f_equal2; [reflexivity|]. apply f_equal2; [|reflexivity]. apply f_equal2; [reflexivity|].
  unfold apply, mul, ident, mtranslate, mid_point, mid_x, mid_y; simpl. apply f_equal2; field.
Qed.
Print Assumptions C80_text_refuted.
