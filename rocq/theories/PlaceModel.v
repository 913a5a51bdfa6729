(** Model of the points of boxes (boxtree/lazy.py and x, y, p, mid_point of
    boxtree/boxmixin.py) and of the calls that draw shapes on a slide: rect(), ellipse(),
    polygon(), line() and path() of boxtree/boxmixin.py.  A shape is drawn by a function that
    is called for every page, when the rectangles of all boxes are known.

    Simplified: the numbers of the layout are rationals and those of drawings are reals. *)
From Coq Require Import List ZArith NArith QArith Bool String Reals Qreals.
From Verif Require Import Py ShowModel LayoutModel SlideModel XmlModel.
From Verif Require ShapeModel PageModel.
Import ListNotations.

(** ** Points *)

(** lazy.py:26-34, a LazyPoint. *)
Definition lazy_point := (lazy * lazy)%type.
(** lazy.py:36-47, LazyPoint.add. *)
Definition point_add (x y : Q) (p : lazy_point) : lazy_point :=
  (lazy_map (fun v => (v + x)%Q) (fst p), lazy_map (fun v => (v + y)%Q) (snd p)).
(** lazy.py:49-51, LazyPoint.eval; also eval_pair (lazy.py:63-71) of two LazyValues. *)
Definition point_eval (S : store) (p : lazy_point) : result (Q * Q) :=
  do x <- fst p S; do y <- snd p S; Ok (x, y).

(** Values given by the caller: strings, sequences, LazyPoints, and numbers, LazyValues or
    None. *)
Definition value := ShapeModel.praw lazy_point arg.
(** The argument of PosValue.parse (value.py:83-113). *)
Definition coord (v : value) : arg :=
  match v with
  | ShapeModel.RStr s => AStr s
  | ShapeModel.RVal a => a
  | _ => AOther true
  end.
(** layout.py:203-211, Layout.x and Layout.y of the box [b]: the argument is parsed at the
    call, the rectangle is read at the evaluation. *)
Definition at_x (b : nat) (v : value) : result lazy := do p <- parse_pos (coord v); Ok (layout_x b p).
Definition at_y (b : nat) (v : value) : result lazy := do p <- parse_pos (coord v); Ok (layout_y b p).
(** layout.py:213-215, Layout.point; lazy.py:58-59. *)
Definition at_xy (b : nat) (v w : value) : result lazy_point :=
  do x <- at_x b v; do y <- at_y b w; Ok (x, y).

(** boxmixin.py:801-815: x, y, p and mid_point of the object [r]. *)
Definition box_x (s : slide) (r : nat) (v : value) : result lazy :=
  match get_box r (sl_box s) with None => Err EAttribute | Some (b, _) => at_x (b_id b) v end.
Definition box_y (s : slide) (r : nat) (v : value) : result lazy :=
  match get_box r (sl_box s) with None => Err EAttribute | Some (b, _) => at_y (b_id b) v end.
Definition box_p (s : slide) (r : nat) (v w : value) : result lazy_point :=
  match get_box r (sl_box s) with None => Err EAttribute | Some (b, _) => at_xy (b_id b) v w end.
Definition mid_point (s : slide) (r : nat) : result lazy_point :=
  box_p s r (ShapeModel.RStr (pys "50%")) (ShapeModel.RStr (pys "50%")).

(** ** Shapes *)

(** The shapes with their arguments. *)
Inductive shape :=
| ShRect (rx ry rotation : option R) (p : ShapeModel.paint)
| ShEllipse (rotation : option R) (p : ShapeModel.paint)
| ShPolygon (points : list value) (rotation : option R) (p : ShapeModel.paint)
| ShPath (commands : list value) (p : ShapeModel.paint) (end_arrow : option ShapeModel.arrow)
| ShLine (points : list value) (color : str) (width : option R) (dash : option str)
    (start_arrow end_arrow : option ShapeModel.arrow).

Definition real_rect (r : rect) : ShapeModel.rect :=
  ShapeModel.mkRect (Q2R (rx r)) (Q2R (ry r)) (Q2R (rw r)) (Q2R (rh r)).
Definition real_eval (S : store) (p : lazy_point) : result ShapeModel.pt :=
  do xy <- point_eval S p; Ok (Q2R (fst xy), Q2R (snd xy)).
(** The function given to SimpleBoxItem (boxitem.py:23-26). *)
Definition drawing := store -> result (list PageModel.gcall).

(** What a shape on the box [b] draws; None if nothing is added.
    rect: boxmixin.py:227-240; ellipse: 269-280; polygon: 312-325; path: 354-376 (no commands:
    nothing); line: 406-430. *)
Definition shape_drawing (b : nat) (sh : shape) : result (option drawing) :=
  match sh with
  | ShRect rx ry rot p => Ok (Some (fun S =>
      match st_rect S b with
      | Some r => Ok [PageModel.GRect (real_rect r) rx ry rot p]
      | None => Err EAttribute
      end))
  | ShEllipse rot p => Ok (Some (fun S =>
      match st_rect S b with
      | Some r => Ok [PageModel.GEllipse (real_rect r) rot p]
      | None => Err EAttribute
      end))
  | ShPolygon vs rot p =>
      do ps <- ShapeModel.unpack_points _ _ (at_xy b) vs;
      Ok (Some (fun S => do qs <- ShapeModel.eval_points _ (real_eval S) ps;
                         Ok [PageModel.GPolygon qs rot p]))
  | ShPath vs p arrow =>
      do cs <- ShapeModel.check_path _ _ (at_xy b) vs;
      match cs with
      | [] => Ok None
      | _ => Ok (Some (fun S => do ds <- ShapeModel.eval_path _ (real_eval S) cs;
                                PageModel.path_item ds p arrow))
      end
  | ShLine vs color w dash a1 a2 =>
      if negb (Nat.leb 2 (List.length vs)) then Err EAssertion
      else do ps <- ShapeModel.unpack_points _ _ (at_xy b) vs;
           Ok (Some (fun S => do qs <- ShapeModel.eval_points _ (real_eval S) ps;
                              PageModel.line_item qs color w dash a1 a2))
  end.

(** A slide with the drawings of its shapes. *)
Record canvas := mkCanvas { cv_slide : slide; cv_draws : list (nat * drawing) }.

(** slide.py:36-43, a new slide. *)
Definition new_canvas (width height : Q) : result canvas :=
  do s <- new_slide width height; Ok (mkCanvas s []).

(** A shape called on the object [r] (boxmixin.py:432-436); the result is the new item, or
    the object itself. *)
Definition shape_call (c : canvas) (r : nat) (sh : shape) : canvas * result nat :=
  match get_box r (sl_box (cv_slide c)) with
  | None => (c, Err EAttribute)
  | Some (b, _) =>
      match shape_drawing (b_id b) sh with
      | Err e => (c, Err e)
      | Ok None => (c, Ok r)
      | Ok (Some d) =>
          match item_call (cv_slide c) r Shape with
          | (s, Ok i) => (mkCanvas s ((i, d) :: cv_draws c), Ok i)
          | (s, Err e) => (mkCanvas s (cv_draws c), Err e)
          end
      end
  end.

(** The calls on a slide: a shape, or any other call. *)
Inductive ccall := KShape (r : nat) (sh : shape) | KOther (c : call).
Definition cperform (c : canvas) (k : ccall) : canvas * result nat :=
  match k with
  | KShape r sh => shape_call c r sh
  | KOther k => let (s, res) := perform (cv_slide c) k in (mkCanvas s (cv_draws c), res)
  end.

(** What the item [i] draws (boxitem.py:23-26); [other] draws texts and images. *)
Fixpoint lookup (i : nat) (l : list (nat * drawing)) : option drawing :=
  match l with
  | [] => None
  | (j, d) :: l' => if Nat.eqb i j then Some d else lookup i l'
  end.
Definition item_drawing (c : canvas) (other : nat -> drawing) (i : nat) : drawing :=
  match lookup i (cv_draws c) with Some d => d | None => other i end.
