(** Model of the calls of the Cairo rendering context one after another
    (render/backends/cairo/rcontext.py:84-258): shapes, texts and pictures on the same context.
    Numbers of shapes and pictures are reals, those of texts rationals, as in PageModel. *)
From Coq Require Import List Reals QArith Qreals Bool String.
From Verif Require Import Py StyleModel TextModel ShapeModel PicModel PageModel.
Import ListNotations.
Local Open Scope R_scope.

(** The rotation of a text: None or a number. *)
Definition rotation_num (v : pyval) : result (option R) :=
  match v with
  | PNone => Ok None
  | PNum q => Ok (Some (Q2R q))
  | _ => Err EType
  end.

Section Calls.
Variable rgb_of : str -> result rgb.
Variable to_float : str -> result R.
(** Where the [n]-th call puts its text, cairo/rcontext.py:214: it depends on Pango. *)
Variable place : nat -> pt.

(** cairo/rcontext.py:84-258, one call.  What a text or a picture paints is only named by the
    number of the call.  draw_svg works with a new context on the same surface
    (cairo/svg.py:110-125), so it changes nothing but the surface.  A polyline without color is
    an error of get_rgb_color (cairo/utils.py:7-18). *)
Definition cairo_call (n : nat) (g : gcall) : run :=
  match g with
  | GRect r rx ry rot p => draw_rect rgb_of to_float r rx ry rot p
  | GEllipse r rot p => draw_ellipse rgb_of to_float r rot p
  | GPolygon l rot p => draw_polygon rgb_of to_float l rot p
  | GPolyline l p =>
      match p_color p with
      | Some c => draw_polyline rgb_of to_float l c (p_width p) (p_dash p)
      | None => fun _ => Err EType
      end
  | GPath cs p => draw_path rgb_of to_float cs p
  | GText mid _ _ _ _ _ rot _ => fun s =>
      do a <- rotation_num rot;
      draw_text_at (Q2R (fst mid), Q2R (snd mid)) a (place n) n s
  | GBitmap x y w h rot _ => draw_bitmap_at x y w h rot n
  | GSvg _ _ _ _ _ _ => fun s => Ok (k_paint s n)
  end.
(** boxtree: the painters of a page, in their order; [n] is the number of the first call. *)
Fixpoint cairo_calls (n : nat) (l : list gcall) : run := fun s =>
  match l with
  | [] => Ok s
  | g :: l' => do s <- cairo_call n g s; cairo_calls (S n) l' s
  end.
End Calls.
