(** Model of the placement of pictures and texts: draw_bitmap, draw_svg and draw_text of both
    backends (render/backends/svg/rcontext.py, svg/draw.py, cairo/rcontext.py, cairo/svg.py),
    the calls made by _image_bitmap and _image_svg (boxtree/boxmixin.py), ext/latex.py and
    text/textboxitem.py.

    A drawn picture is described by the affine map from its own pixels to the surface.
    Simplified: as in ShapeModel coordinates are real numbers; an SVG picture has the size in
    pixels that svg_size_to_pixels computes and its view box has the aspect ratio of its size. *)
From Coq Require Import List Reals NArith Bool String.
From Verif Require Import Py XmlModel ShapeModel.
Import ListNotations.
Local Open Scope R_scope.

(** ** The Cairo surface *)

(** A new context: the state after [cairo.Context(surface)]. *)
Definition new_context : ctx :=
  mkCtx (mkG ident (0, 0, 0) 2 []) [] [] None None false [].

Inductive export_format := FPdf | FPng.
(** cairo/rcontext.py:32-36, the resolutions. *)
Definition target_dpi : R := 96.
Definition cairo_dpi : R := 72.
Definition resolution_scale : R := cairo_dpi / target_dpi.

(** cairo/rcontext.py:40-82, __init__: the context, cairosvg_dpi and line_scaling. *)
Definition cairo_init (f : export_format) (width height : R) (viewbox : option (R * R * R * R))
  : result (ctx * R * R) :=
  do s <- match f with
          | FPdf => k_scale new_context resolution_scale resolution_scale
          | FPng => Ok (k_source new_context (0, 0, 0))
          end;
  let dpi := match f with FPdf => target_dpi | FPng => cairo_dpi end in
  match viewbox with
  | Some (vx, vy, vw, vh) =>
      do r <- apply_viewbox width height vx vy vw vh s;
      Ok (fst r, dpi, snd r)
  | None => Ok (s, dpi, 1)
  end.

(** cairo/rcontext.py:217-235, draw_bitmap of an image of [iw] times [ih] pixels.  After
    [set_device_scale(a, b)] a pixel is 1/a wide and 1/b high; [set_source_surface(surface, x,
    y)] puts the corner of the surface at (x, y) in the user space of the moment. *)
Definition cairo_bitmap (iw ih x y w h : R) (rotation : option R) (s : ctx) : result (ctx * mat) :=
  if req w 0 || req h 0 then Err EZeroDivision else
  let a := iw / w in
  let b := ih / h in
  do s1 <- transform (x + w / 2, y + h / 2) rotation 1 1 (k_save s);
  let m := mul (ctm s1) (mul (mtranslate x y) (mscale (/ a) (/ b))) in
  do s2 <- k_restore (k_paint (k_move_to s1 (x, y)) 0);
  Ok (s2, m).

(** preserve_ratio of cairosvg for the default of preserveAspectRatio, on a picture of [iw]
    times [ih] that is given the area [w] times [h]. *)
Definition keep_ratio (w h iw ih : R) : mat :=
  let k := rmin (w / iw) (h / ih) in
  mkMat k 0 0 k ((w - k * iw) / 2) ((h - k * ih) / 2).

(** cairo/svg.py:57-77, the size of the output; [scale] is 1. *)
Definition output_size (ow oh iw ih : R) : R * R :=
  let tw := negb (req ow 0) in
  let th := negb (req oh 0) in
  if tw && th then (ow, oh)
  else if tw then (ow, if negb (req iw 0) then ih * (ow / iw) else ih)
  else if th then ((if negb (req ih 0) then iw * (oh / ih) else iw), oh)
  else (iw, ih).

(** cairo/svg.py:79-97 and 110-125, and cairo/rcontext.py:237-258, draw_svg: a new context on
    the surface.  [device_units_per_user_units] of cairosvg is 72 / dpi. *)
Definition cairo_svg (dpi iw ih x y ow oh : R) (rotation : option R) : result mat :=
  let (w, h) := output_size ow oh iw ih in
  if req w 0 || req h 0 then Err EValue else
  do s <- k_scale new_context (72 / dpi) (72 / dpi);
  do s <- transform (x + w / 2, y + h / 2) rotation 1 1 s;
  let s := k_translate s x y in
  Ok (mul (ctm s) (keep_ratio w h iw ih)).

(** ** The SVG backend *)

Section Svg.
Variable fmt : R -> str.

(** svg/draw.py:124-141, draw_bitmap; [href] is the text "data:..." and extra_args is None. *)
Definition svg_bitmap (x y w h : R) (rotation : option R) (href : str) : list xcall :=
  [CElement (pys "image"); attr "x" (fmt x); attr "y" (fmt y);
   attr "width" (fmt w); attr "height" (fmt h)] ++
  rotation_calls fmt rotation (x + w / 2, y + h / 2) ++
  [CSet (pys "xlink:href") href false; CClose (Some (pys "image"))].

Definition rotate_str (a : R) (c : pt) : str :=
  pys "rotate(" ++ fmt a ++ pys " " ++ fmt (fst c) ++ pys " " ++ fmt (snd c) ++ pys ")".
Definition scale_str (k : R) : str := pys "scale(" ++ fmt k ++ pys ")".
Definition translate_str (x y : R) : str := pys "translate(" ++ fmt x ++ pys ", " ++ fmt y ++ pys ")".

(** svg/rcontext.py:75-98, draw_svg: the calls of the inner writer, whose text is then
    written as it is. *)
Definition svg_svg (svg : str) (x y scale : R) (rotation : option R) (center : option pt)
  : result (list xcall) :=
  do rot <- match rotation with
            | Some a => match center with Some c => Ok [rotate_str a c] | None => Err EAssertion end
            | None => Ok []
            end;
  let l := rot ++ [translate_str x y] ++ (if req scale 1 then [] else [scale_str scale]) in
  Ok [CElement (pys "g"); attr "transform" (join_with (pys " ") l); CRaw svg; CClose (Some (pys "g"))].

(** svg/rcontext.py:37-70, draw_text: the attributes x, y and transform of the text. *)
Definition svg_text (mid : pt) (x y : R) (rotation scale : option R) : result (str * str * option str) :=
  do xy <- match scale with
           | Some k => if req k 0 then Err EZeroDivision else Ok (x / k, y / k)
           | None => Ok (x, y)
           end;
  let l := (match rotation with
            | Some a => if req a 0 then [] else [rotate_str a mid]
            | None => []
            end) ++
           (match scale with
            | Some k => if req k 0 then [] else [scale_str k]
            | None => []
            end) in
  Ok (fmt (fst xy), fmt (snd xy), match l with [] => None | _ => Some (join_with (pys " ") l) end).
(** svg/draw.py:67 and 79-90: the distance of two lines. *)
Definition svg_line_step (size line_spacing : R) : R := size * line_spacing.
End Svg.

(** ** Texts with Cairo *)

(** textboxitem.py:12-21 and cairo/text.py:245-250: the alignments; others are an error in
    text_x_in_rect and in get_pango_alignment. *)
Inductive align := ALeft | AMiddle | ARight.
(** textboxitem.py:12-21, text_x_in_rect. *)
Definition text_x (r : rect) (a : align) : R :=
  match a with
  | ALeft => r_x r
  | AMiddle => r_x r + r_w r / 2
  | ARight => r_x r + r_w r
  end.
(** textboxitem.py:47-63, render: where the text is drawn; [th] is the height of the text. *)
Definition text_y (r : rect) (th size scale : R) : R :=
  r_y r + (r_h r - th) / 2 + size * scale.

(** cairo/rcontext.py:185-215, draw_text: the context after [transform] and the corner at
    which the layout is shown. *)
Definition cairo_text (r : rect) (y baseline : R) (rotation : option R) (s : ctx)
  : result (ctx * mat * pt) :=
  do s1 <- match rotation with
           | Some _ => transform (mid_point r) rotation 1 1 (k_save s)
           | None => Ok (k_save s)
           end;
  let at_ := (r_x r, y - baseline) in
  do s2 <- k_restore (k_paint (k_move_to s1 at_) 0);
  Ok (s2, ctm s1, at_).
(** Pango: where a line of a layout of the given width, shown at a corner, is aligned to; and
    the distance of two lines: the height of a line, which the scale attribute scales, and the
    spacing (cairo/text.py:151-167).  [height] is the result of get_text_height. *)
Definition pango_anchor (corner : pt) (width : R) (a : align) (baseline : R) : pt :=
  (match a with
   | ALeft => fst corner
   | AMiddle => fst corner + width / 2
   | ARight => fst corner + width
   end, snd corner + baseline).
Definition cairo_line_step (height size line_spacing spacing_scale : R) (text_scale : option R) : R :=
  match text_scale with Some k => k * height | None => height end +
  (line_spacing * size - height) * spacing_scale.

(** ** LaTeX *)

(** latex.py:59-60 and 70-83, _draw: the arguments of draw_svg for a picture of [iw] times
    [ih] pixels. *)
Record svg_args := mkSvgArgs { a_x : R; a_y : R; a_w : R; a_h : R; a_scale : R }.
Definition latex_args (r : rect) (iw ih scale : R) : svg_args :=
  let svg_width := iw * scale in
  let svg_height := ih * scale in
  mkSvgArgs (r_x r + (r_w r - svg_width) / 2) (r_y r + (r_h r - svg_height) / 2) (r_w r) (r_h r) scale.
