(** The document of a page on the SVG backend, and what the items of boxes ask a rendering
    context to draw.  Numbers of shapes and pictures are reals, those of texts rationals; an
    item that raises ends the rendering of the page, so the calls made before are dropped. *)
From Coq Require Import List ZArith NArith QArith Reals Bool String.
From Verif Require Import Py XmlModel StyleModel TextModel TextBoxModel DrawModel ShapeModel PicModel.
Import ListNotations.
Local Open Scope R_scope.

(** The calls of a rendering context (render/backends/rcontext.py:10-62).  A text carries the
    middle of its rectangle, which is all that the SVG backend uses. *)
Inductive gcall :=
| GRect (r : rect) (rx ry rotation : option R) (p : paint)
| GEllipse (r : rect) (rotation : option R) (p : paint)
| GPolygon (l : list pt) (rotation : option R) (p : paint)
| GPolyline (l : list pt) (p : paint)
| GPath (cs : list cmd) (p : paint)
| GText (mid : Q * Q) (x y : Q) (ts : list token) (s : style) (styles : str -> option style)
    (rotation : pyval) (scale : option Q)
| GBitmap (x y w h : R) (rotation : option R) (href : str)
| GSvg (svg : str) (x y scale : R) (rotation : option R) (center : option pt).

(** ** What items ask for *)

(** arrow.py:34-53, Arrow.render. *)
Definition arrow_item (a : arrow) (p1 p2 : pt) (color : option str) : result (list gcall) :=
  do ps <- arrow_points a p1 p2;
  Ok [match a_stroke a with
      | Some w => GPolyline ps (mkPaint color None (Some w) None)
      | None => GPolygon ps None (mkPaint None color None None)
      end].
(** boxmixin.py:406-426, the drawing of a line; [p] are the evaluated points. *)
Definition line_item (p : list pt) (color : str) (w : option R) (dash : option str)
  (start_arrow end_arrow : option arrow) : result (list gcall) :=
  do q <- shorten_line p start_arrow end_arrow;
  do a1 <- match start_arrow with
           | Some a => do p0 <- arg p 0; do p1 <- arg p 1; arrow_item a p1 p0 (Some color)
           | None => Ok []
           end;
  do a2 <- match end_arrow with
           | Some a => do z <- last_or p; do y <- last_or (removelast p); arrow_item a y z (Some color)
           | None => Ok []
           end;
  Ok (GPolyline q (mkPaint (Some color) None w dash) :: a1 ++ a2).
(** boxmixin.py:358-374, the drawing of a path; [cs] are the evaluated commands. *)
Definition path_item (cs : list cmd) (p : paint) (end_arrow : option arrow) : result (list gcall) :=
  match end_arrow with
  | None => Ok [GPath cs p]
  | Some a =>
      do r <- shorten_path cs a;
      let (cs', e) := r in
      do l <- arrow_item a (fst e) (snd e) (p_color p);
      Ok (GPath cs' p :: l)
  end.
(** textboxitem.py:48-63, TextBoxItem.render; [x] and [y] are the computed position. *)
Definition text_item (mid : Q * Q) (x y : Q) (ts : list token) (s : style) (styles : str -> option style)
  (rotation : pyval) (scale_to_fit : bool) (scale : Q) : result (list gcall) :=
  Ok (if Qle_bool scale (1 # 100000) then []
      else [GText mid x y ts s styles rotation (if scale_to_fit then Some scale else None)]).

(** box.py:98-136, Box._debug_paint.  [num] is format_num, [x] and [y] the place of the label,
    [mid] the middle of the moved rectangle; [s] is the style of the label. *)
Definition at_least (v : R) : R := if rlt v (1 / 10) then 1 / 10 else v.
Definition frame_dash (depth : nat) : option str :=
  match Nat.modulo depth 3 with O => None | S O => Some (pys "4 2") | _ => Some (pys "1 2") end.
Definition frame_label (num : R -> str) (name : option str) (depth : nat) (w h : R) : str :=
  (if Nat.odd depth then [8598%N] else [8601%N]) ++ pys " " ++
  match name with Some [] | None => [] | Some n => n ++ pys " " end ++
  pys "[" ++ num w ++ pys "," ++ num h ++ pys "]".
Definition frame_item (num : R -> str) (r : rect) (name : option str) (depth : nat)
  (mid : Q * Q) (x y : Q) (s : style) (styles : str -> option style) : result (list gcall) :=
  let r := mkRect (r_x r) (r_y r) (at_least (r_w r)) (at_least (r_h r)) in
  Ok [GRect r None None None (mkPaint (Some (pys "#ff00ff")) None (Some 2) (frame_dash depth));
      GText mid x y [TText (frame_label num name depth (r_w r) (r_h r))] s styles PNone None].

(** ** svg/rcontext.py and svg/backend.py *)

Section Svg.
Variable fmt : R -> str.
Variable fmtv : pyval -> str.

(** svg/utils.py:7-18, svg_begin without the Inkscape namespace, and svg_end. *)
Definition svg_begin (w h : R) (view_box : option (R * R * R * R)) : list xcall :=
  [CElement (pys "svg"); attr "xmlns" (pys "http://www.w3.org/2000/svg");
   attr "xmlns:xlink" (pys "http://www.w3.org/1999/xlink");
   attr "width" (fmt w); attr "height" (fmt h)] ++
  match view_box with
  | Some (a, b, c, d) => [attr "viewBox" (join_with (pys " ") [fmt a; fmt b; fmt c; fmt d])]
  | None => []
  end.
Definition svg_end : list xcall := [CClose (Some (pys "svg"))].

(** svg/rcontext.py:20-98: the calls of the writer of the page. *)
Definition svg_call (g : gcall) : trace unit :=
  match g with
  | GRect r rx ry rot p => calls (svg_rect fmt r rx ry rot p)
  | GEllipse r rot p => calls (svg_ellipse fmt r rot p)
  | GPolygon l rot p => tbind (lift (svg_polygon fmt l rot p)) calls
  | GPolyline l p => calls (svg_polyline fmt l p)
  | GPath cs p => calls (svg_path fmt cs p)
  | GText mid x y ts s styles rot scale => svg_draw_text fmtv mid x y ts s styles rot scale
  | GBitmap x y w h rot href => calls (svg_bitmap fmt x y w h rot href)
  | GSvg svg x y scale rot center =>
      tbind (lift (do cs <- svg_svg fmt svg x y scale rot center;
                   do w <- xrun new_xml cs; to_string w))
        (fun out => calls [CRaw out])
  end.
Fixpoint svg_calls (l : list gcall) : trace unit :=
  match l with
  | [] => tret tt
  | g :: l' => tbind (svg_call g) (fun _ => svg_calls l')
  end.
Definition svg_item (it : result (list gcall)) : trace unit := tbind (lift it) svg_calls.
Fixpoint svg_items (l : list (result (list gcall))) : trace unit :=
  match l with
  | [] => tret tt
  | it :: l' => tbind (svg_item it) (fun _ => svg_items l')
  end.
(** svg/backend.py:74-80 with svg/rcontext.py:16-19 and 96-98; [l] are the sorted painters. *)
Definition svg_page (w h : R) (view_box : option (R * R * R * R)) (l : list (result (list gcall)))
  : trace unit :=
  tbind (calls (svg_begin w h view_box)) (fun _ => tbind (svg_items l) (fun _ => calls svg_end)).
Definition svg_document (w h : R) (view_box : option (R * R * R * R)) (l : list (result (list gcall)))
  : result str :=
  do x <- perform new_xml (svg_page w h view_box l); to_string x.
End Svg.
