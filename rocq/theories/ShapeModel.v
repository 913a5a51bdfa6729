(** Model of the drawing of shapes: the Cairo backend (render/backends/cairo/draw.py,
    shapes.py, rcontext.py), the SVG backend (render/backends/svg/draw.py, utils.py), the
    geometry helpers (utils/geom.py), paths (shapes/path.py) and arrows (shapes/arrow.py).

    Simplified: coordinates are real numbers, so there is no rounding; the circle that Cairo
    draws with [arc] is exact. *)
From Coq Require Import List Reals NArith Bool String.
From Verif Require Import Py XmlModel.
Import ListNotations.
Local Open Scope R_scope.

Definition pt := (R * R)%type.

(** Comparisons of floats. *)
Definition rlt (a b : R) : bool := if Rlt_dec a b then true else false.
Definition req (a b : R) : bool := if Req_EM_T a b then true else false.
(** The truth value of a number or None. *)
Definition truthy_num (v : option R) : bool :=
  match v with Some r => negb (req r 0) | None => false end.
(** The truth value of a string or None. *)
Definition truthy_str (v : option str) : bool :=
  match v with Some (_ :: _) => true | _ => false end.

(** ** geom.py *)

(** geom.py:5-57, a Rect. *)
Record rect := mkRect { r_x : R; r_y : R; r_w : R; r_h : R }.
(** geom.py:28-38, mid_x, mid_y, mid_point. *)
Definition mid_x (r : rect) : R := r_x r + r_w r / 2.
Definition mid_y (r : rect) : R := r_y r + r_h r / 2.
Definition mid_point (r : rect) : pt := (mid_x r, mid_y r).

(** geom.py:73-74, segment_delta. *)
Definition segment_delta (p1 p2 : pt) : pt := (fst p2 - fst p1, snd p2 - snd p1).
(** geom.py:77-79, segment_len. *)
Definition segment_len (p1 p2 : pt) : R :=
  let (dx, dy) := segment_delta p1 p2 in sqrt (dx * dx + dy * dy).
(** geom.py:82-86, segment_resize. *)
Definition segment_resize (p1 p2 : pt) (len_change : R) : result pt :=
  let (dx, dy) := segment_delta p1 p2 in
  let ln := segment_len p1 p2 in
  if req ln 0 then Err EZeroDivision else
  let t := 1 + len_change / ln in
  Ok (fst p1 + dx * t, snd p1 + dy * t).
(** geom.py:89-92, find_centroid. *)
Definition rsum (l : list R) : R := fold_left Rplus l 0.
Definition find_centroid (points : list pt) : result pt :=
  match points with
  | [] => Err EZeroDivision
  | _ => Ok (rsum (map fst points) / INR (List.length points),
             rsum (map snd points) / INR (List.length points))
  end.

(** ** path.py *)

Inductive pname := PM | PL | PC | PS | PQ | PT.
(** path.py:3, COMMAND_NARGS. *)
Definition pname_of (s : str) : option pname :=
  if str_eqb s (pys "M") then Some PM else if str_eqb s (pys "L") then Some PL
  else if str_eqb s (pys "C") then Some PC else if str_eqb s (pys "S") then Some PS
  else if str_eqb s (pys "Q") then Some PQ else if str_eqb s (pys "T") then Some PT
  else None.
Definition nargs (n : pname) : nat :=
  match n with PM => 1 | PL => 1 | PC => 3 | PS => 2 | PQ => 2 | PT => 1 end.

Section Check.
(** A point to be evaluated when drawing. *)
Variable P : Type.
(** Numbers and other values that can be coordinates. *)
Variable V : Type.
(** A value given by the caller; [RSeq is_list l] is a list or a tuple. *)
Inductive praw :=
| RStr (s : str) | RSeq (is_list : bool) (l : list praw) | RLazy (p : P) | RVal (v : V) | ROther.
(** [box.x(a), box.y(b)] (boxmixin.py, x and y). *)
Variable box_xy : praw -> praw -> result P.

(** lazy.py:55-60, unpack_point. *)
Definition unpack_point (v : praw) : result P :=
  match v with
  | RLazy p => Ok p
  | RSeq _ [a; b] => box_xy a b
  | _ => Err EException
  end.
Fixpoint unpack_points (l : list praw) : result (list P) :=
  match l with
  | [] => Ok []
  | v :: l' => do p <- unpack_point v; do ps <- unpack_points l'; Ok (p :: ps)
  end.
(** path.py:13-16; a list is not hashable. *)
Definition command_name (v : praw) : result pname :=
  match v with
  | RStr s => match pname_of s with Some n => Ok n | None => Err EException end
  | RSeq true _ => Err EType
  | _ => Err EException
  end.
(** path.py:6-25, check_and_unpack_path_commands. *)
Definition check_command (v : praw) : result (pname * list P) :=
  match v with
  | RSeq _ (name :: args) =>
      do n <- command_name name;
      if negb (Nat.eqb (Nat.modulo (List.length args) (nargs n)) 0) then Err EException
      else do ps <- unpack_points args; Ok (n, ps)
  | _ => Err EException
  end.
Fixpoint check_path (l : list praw) : result (list (pname * list P)) :=
  match l with
  | [] => Ok []
  | v :: l' => do c <- check_command v; do cs <- check_path l'; Ok (c :: cs)
  end.

(** path.py:28-32, eval_path_commands; [ev] evaluates a point. *)
Variable ev : P -> result pt.
Fixpoint eval_points (l : list P) : result (list pt) :=
  match l with
  | [] => Ok []
  | p :: l' => do q <- ev p; do qs <- eval_points l'; Ok (q :: qs)
  end.
Fixpoint eval_path (l : list (pname * list P)) : result (list (pname * list pt)) :=
  match l with
  | [] => Ok []
  | (n, ps) :: l' => do qs <- eval_points ps; do cs <- eval_path l'; Ok ((n, qs) :: cs)
  end.
End Check.
Arguments RStr {P V} s.
Arguments RSeq {P V} is_list l.
Arguments RLazy {P V} p.
Arguments RVal {P V} v.
Arguments ROther {P V}.

Definition cmd := (pname * list pt)%type.

(** [l[-1]]. *)
Fixpoint last_opt {A} (l : list A) : option A :=
  match l with [] => None | [a] => Some a | _ :: l' => last_opt l' end.
Definition last_or {A} (l : list A) : result A :=
  match last_opt l with Some a => Ok a | None => Err EIndex end.
(** path.py:35-47, path_points_for_end_arrow. *)
Definition path_points_for_end_arrow (cs : list cmd) : result (pt * pt) :=
  do c <- last_or cs;
  let (n, pairs) := c in
  if match n with PM | PL => true | _ => false end then Err EException else
  if Nat.leb 2 (List.length pairs) then
    do a <- last_or (removelast pairs); do b <- last_or pairs; Ok (a, b)
  else if Nat.leb 2 (List.length cs) then
    do c' <- last_or (removelast cs); do a <- last_or (snd c'); do b <- last_or pairs; Ok (a, b)
  else Err EException.
(** path.py:50-51, path_update_end_point. *)
Definition path_update_end_point (cs : list cmd) (p : pt) : result (list cmd) :=
  do c <- last_or cs;
  let (n, pairs) := c in
  match pairs with
  | [] => Err EIndex
  | _ => Ok (removelast cs ++ [(n, removelast pairs ++ [p])])
  end.

(** ** arrow.py *)

(** [math.atan2(y, x)]. *)
Definition atan2 (y x : R) : R :=
  if Rlt_dec 0 x then atan (y / x)
  else if Rlt_dec x 0 then
    (if Rle_dec 0 y then atan (y / x) + PI else atan (y / x) - PI)
  else if Rlt_dec 0 y then PI / 2
  else if Rlt_dec y 0 then - (PI / 2)
  else 0.

(** arrow.py:28-32, an Arrow; [a_angle] is in radians. *)
Record arrow := mkArrow { a_size : R; a_angle : R; a_stroke : option R; a_inner : option R }.
Definition new_arrow (size angle : R) (stroke_width inner : option R) : arrow :=
  mkArrow size (angle * PI / 180) stroke_width inner.

(** arrow.py:35-48: the points of the head. *)
Definition arrow_points (a : arrow) (p1 p2 : pt) : result (list pt) :=
  let (dx, dy) := segment_delta p1 p2 in
  let d := atan2 dx dy + PI in
  let (px, py) := p2 in
  let x1 := px + a_size a * sin (d - a_angle a) in
  let y1 := py + a_size a * cos (d - a_angle a) in
  let x2 := px + a_size a * sin (d + a_angle a) in
  let y2 := py + a_size a * cos (d + a_angle a) in
  let points := [(x1, y1); p2; (x2, y2)] in
  if truthy_num (a_inner a) && negb (truthy_num (a_stroke a)) then
    match a_inner a with
    | Some i =>
        do q <- segment_resize p1 p2 (- i * a_size a * cos (a_angle a)); Ok (points ++ [q])
    | None => Ok points
    end
  else Ok points.

(** arrow.py:55-60, move_end_point. *)
Definition move_end_point (a : arrow) (p1 p2 : pt) : result pt :=
  let shift :=
    if negb (truthy_num (a_stroke a)) then cos (a_angle a) * a_size a / 2
    else match a_stroke a with Some w => w / 2 | None => 0 end in
  segment_resize p1 p2 (- shift).

(** ** Affine maps and outlines *)

(** x' = xx x + xy y + x0, y' = yx x + yy y + y0. *)
Record mat := mkMat { m_xx : R; m_xy : R; m_yx : R; m_yy : R; m_x0 : R; m_y0 : R }.
Definition apply (m : mat) (p : pt) : pt :=
  (m_xx m * fst p + m_xy m * snd p + m_x0 m, m_yx m * fst p + m_yy m * snd p + m_y0 m).
(** The map that applies [n] first. *)
Definition mul (m n : mat) : mat :=
  mkMat (m_xx m * m_xx n + m_xy m * m_yx n) (m_xx m * m_xy n + m_xy m * m_yy n)
        (m_yx m * m_xx n + m_yy m * m_yx n) (m_yx m * m_xy n + m_yy m * m_yy n)
        (m_xx m * m_x0 n + m_xy m * m_y0 n + m_x0 m) (m_yx m * m_x0 n + m_yy m * m_y0 n + m_y0 m).
Definition ident : mat := mkMat 1 0 0 1 0 0.
Definition mtranslate (x y : R) : mat := mkMat 1 0 0 1 x y.
Definition mscale (x y : R) : mat := mkMat x 0 0 y 0 0.
Definition mrotate (a : R) : mat := mkMat (cos a) (- sin a) (sin a) (cos a) 0 0.
Definition det (m : mat) : R := m_xx m * m_yy m - m_xy m * m_yx m.
(** The inverse map, for det m <> 0. *)
Definition unapply (m : mat) (p : pt) : pt :=
  let x := fst p - m_x0 m in let y := snd p - m_y0 m in
  ((m_yy m * x - m_xy m * y) / det m, (m_xx m * y - m_yx m * x) / det m).

(** A piece of an outline; [GCircle m] is the image of the unit circle. *)
Inductive seg :=
| GMove (p : pt) | GLine (p q : pt) | GCubic (p a b q : pt) | GQuad (p c q : pt)
| GCircle (m : mat) | GClose (p q : pt).

(** ** The Cairo context

    What the calls of cairocffi do, following the documentation of Cairo.  A path is kept in
    device coordinates and is not part of the state that [save] and [restore] handle.  The
    start of a subpath is recorded when its first piece is drawn. *)

Definition rgb := (R * R * R)%type.
Record gstate := mkG { g_ctm : mat; g_src : rgb; g_lw : R; g_dash : list R }.
(** What has been painted; a stroke is made with a pen shaped by a matrix. *)
Inductive mark :=
| MFill (path : list seg) (c : rgb)
| MStroke (path : list seg) (c : rgb) (lw : R) (dash : list R) (pen : mat)
| MOther (n : nat).
Record ctx := mkCtx {
  c_g : gstate; c_saved : list gstate;
  c_path : list seg; c_cur : option pt; c_start : option pt; c_fresh : bool;
  c_ink : list mark
}.
Definition ctm (s : ctx) : mat := g_ctm (c_g s).
Definition with_g (s : ctx) (g : gstate) : ctx :=
  mkCtx g (c_saved s) (c_path s) (c_cur s) (c_start s) (c_fresh s) (c_ink s).
Definition with_ctm (s : ctx) (m : mat) : ctx :=
  with_g s (mkG m (g_src (c_g s)) (g_lw (c_g s)) (g_dash (c_g s))).

Definition k_save (s : ctx) : ctx :=
  mkCtx (c_g s) (c_g s :: c_saved s) (c_path s) (c_cur s) (c_start s) (c_fresh s) (c_ink s).
Definition k_restore (s : ctx) : result ctx :=
  match c_saved s with
  | [] => Err EException
  | g :: r => Ok (mkCtx g r (c_path s) (c_cur s) (c_start s) (c_fresh s) (c_ink s))
  end.
Definition k_translate (s : ctx) (x y : R) : ctx := with_ctm s (mul (ctm s) (mtranslate x y)).
Definition k_rotate (s : ctx) (a : R) : ctx := with_ctm s (mul (ctm s) (mrotate a)).
(** A scale that cannot be inverted is an error. *)
Definition k_scale (s : ctx) (x y : R) : result ctx :=
  if req (x * y) 0 then Err EException else Ok (with_ctm s (mul (ctm s) (mscale x y))).
Definition k_source (s : ctx) (c : rgb) : ctx :=
  with_g s (mkG (ctm s) c (g_lw (c_g s)) (g_dash (c_g s))).
Definition k_width (s : ctx) (w : R) : ctx :=
  with_g s (mkG (ctm s) (g_src (c_g s)) w (g_dash (c_g s))).
Definition k_dash (s : ctx) (d : list R) : ctx :=
  with_g s (mkG (ctm s) (g_src (c_g s)) (g_lw (c_g s)) d).

Definition k_new_path (s : ctx) : ctx :=
  mkCtx (c_g s) (c_saved s) [] None None false (c_ink s).
(** Without a current point the result is (0, 0). *)
Definition k_current_point (s : ctx) : pt :=
  match c_cur s with None => (0, 0) | Some p => unapply (ctm s) p end.
Definition k_move_to (s : ctx) (p : pt) : ctx :=
  let d := apply (ctm s) p in
  mkCtx (c_g s) (c_saved s) (c_path s) (Some d) (Some d) true (c_ink s).
(** Add a piece that starts in the current point [p] and ends in [q] (device coordinates). *)
Definition k_add (s : ctx) (p : pt) (g : seg) (q : pt) : ctx :=
  mkCtx (c_g s) (c_saved s)
        (c_path s ++ (if c_fresh s then [GMove p] else []) ++ [g]) (Some q) (c_start s) false (c_ink s).
Definition k_line_to (s : ctx) (p : pt) : ctx :=
  match c_cur s with
  | None => k_move_to s p
  | Some c => let d := apply (ctm s) p in k_add s c (GLine c d) d
  end.
Definition k_curve_to (s : ctx) (a b p : pt) : ctx :=
  let s := match c_cur s with None => k_move_to s a | Some _ => s end in
  match c_cur s with
  | None => s
  | Some c =>
      let d := apply (ctm s) p in
      k_add s c (GCubic c (apply (ctm s) a) (apply (ctm s) b) d) d
  end.
(** The vector [v] in device coordinates, from the device point [c]. *)
Definition offset (m : mat) (c v : pt) : pt :=
  (fst c + (m_xx m * fst v + m_xy m * snd v), snd c + (m_yx m * fst v + m_yy m * snd v)).
Definition k_rel_line_to (s : ctx) (v : pt) : result ctx :=
  match c_cur s with
  | None => Err EException
  | Some c => let d := offset (ctm s) c v in Ok (k_add s c (GLine c d) d)
  end.
Definition k_rel_curve_to (s : ctx) (a b p : pt) : result ctx :=
  match c_cur s with
  | None => Err EException
  | Some c =>
      let d := offset (ctm s) c p in
      Ok (k_add s c (GCubic c (offset (ctm s) c a) (offset (ctm s) c b) d) d)
  end.
(** Afterwards the current point is the start of the subpath. *)
Definition k_close_path (s : ctx) : ctx :=
  match c_cur s, c_start s with
  | Some c, Some b =>
      let s := k_add s c (GClose c b) b in
      mkCtx (c_g s) (c_saved s) (c_path s) (Some b) (Some b) true (c_ink s)
  | _, _ => s
  end.
Definition k_rectangle (s : ctx) (x y w h : R) : result ctx :=
  let s := k_move_to s (x, y) in
  do s <- k_rel_line_to s (w, 0);
  do s <- k_rel_line_to s (0, h);
  do s <- k_rel_line_to s (- w, 0);
  Ok (k_close_path s).
(** [arc] from 0 to 2 pi: a line from the current point, if any, to the start of the arc. *)
Definition k_arc (s : ctx) (x y r : R) : ctx :=
  let s := k_line_to s (x + r, y) in
  match c_cur s with
  | None => s
  | Some c => k_add s c (GCircle (mul (ctm s) (mul (mtranslate x y) (mscale r r)))) c
  end.
Definition k_fill (s : ctx) : ctx :=
  k_new_path (mkCtx (c_g s) (c_saved s) (c_path s) (c_cur s) (c_start s) (c_fresh s)
                    (c_ink s ++ [MFill (c_path s) (g_src (c_g s))])).
Definition k_stroke (s : ctx) : ctx :=
  k_new_path (mkCtx (c_g s) (c_saved s) (c_path s) (c_cur s) (c_start s) (c_fresh s)
    (c_ink s ++ [MStroke (c_path s) (g_src (c_g s)) (g_lw (c_g s)) (g_dash (c_g s)) (ctm s)])).
Definition k_paint (s : ctx) (n : nat) : ctx :=
  mkCtx (c_g s) (c_saved s) (c_path s) (c_cur s) (c_start s) (c_fresh s) (c_ink s ++ [MOther n]).

(** ** cairo/draw.py, shapes.py, rcontext.py *)

(** [s.split()]: the words of a string. *)
Fixpoint words_acc (acc : str) (s : str) : list str :=
  match s with
  | [] => match acc with [] => [] | _ => [acc] end
  | c :: s' =>
      if is_space c then match acc with [] => words_acc [] s' | _ => acc :: words_acc [] s' end
      else words_acc (acc ++ [c]) s'
  end.
Definition words (s : str) : list str := words_acc [] s.

(** How a shape is painted: color, bg_color, stroke_width, stroke_dasharray. *)
Record paint := mkPaint {
  p_color : option str; p_bg : option str; p_width : option R; p_dash : option str
}.

Section Cairo.
(** cairo/utils.py:7-18, get_rgb_color for a string; webcolors is a parameter. *)
Variable rgb_of : str -> result rgb.
(** [float(s)]. *)
Variable to_float : str -> result R.

Fixpoint floats (l : list str) : result (list R) :=
  match l with
  | [] => Ok []
  | s :: l' => do x <- to_float s; do xs <- floats l'; Ok (x :: xs)
  end.
Definition run := ctx -> result ctx.

(** [stroke_width or 1]. *)
Definition width_or_1 (w : option R) : R :=
  match w with Some v => if req v 0 then 1 else v | None => 1 end.

(** cairo/draw.py:34-37, fill_shape. *)
Definition fill_shape (cb : run) (bg : str) : run := fun s =>
  do c <- rgb_of bg;
  do s <- cb (k_source s c);
  Ok (k_fill s).
(** cairo/draw.py:40-47, stroke_shape. *)
Definition stroke_shape (cb : run) (color : str) (w : option R) (dash : option str) : run := fun s =>
  do c <- rgb_of color;
  let s := k_width (k_source s c) (width_or_1 w) in
  do s <- match dash with
          | Some d => if truthy_str dash then do f <- floats (words d); Ok (k_dash s f) else Ok s
          | None => Ok s
          end;
  do s <- cb s;
  Ok (k_stroke s).
(** cairo/draw.py:50-62, fill_stroke_shape. *)
Definition fill_stroke_shape (cb : run) (p : paint) : run := fun s =>
  do s <- match p_bg p with
          | Some b => if truthy_str (p_bg p) then fill_shape cb b s else Ok s
          | None => Ok s
          end;
  match p_color p with
  | Some c =>
      if truthy_str (p_color p) then stroke_shape cb c (p_width p) (p_dash p) s else Ok s
  | None => Ok s
  end.
(** cairo/draw.py:65-71, ctx_scope; the state after an exception is not modelled. *)
Definition ctx_scope (body : run) : run := fun s =>
  do s <- body (k_save s); k_restore s.
(** cairo/draw.py:74-86, transform. *)
Definition transform (c : pt) (rotation : option R) (sx sy : R) : run := fun s =>
  let s := k_translate s (fst c) (snd c) in
  let s := match rotation with Some a => k_rotate s (a * PI / 180) | None => s end in
  do s <- (if negb (req sx 1) || negb (req sy 1) then k_scale s sx sy else Ok s);
  Ok (k_translate s (- fst c) (- snd c)).

(** cairo/draw.py:10-31, rounded_rectangle. *)
Definition arc_to_bezier : R := 55228475 / 100000000.
Definition rounded_rectangle (x y w h rx ry : R) : run := fun s =>
  let rx := if rlt (w - rx) rx then w / 2 else rx in
  let ry := if rlt (h - ry) ry then h / 2 else ry in
  let c1 := arc_to_bezier * rx in
  let c2 := arc_to_bezier * ry in
  let s := k_move_to (k_new_path s) (x + rx, y) in
  do s <- k_rel_line_to s (w - 2 * rx, 0);
  do s <- k_rel_curve_to s (c1, 0) (rx, c2) (rx, ry);
  do s <- k_rel_line_to s (0, h - 2 * ry);
  do s <- k_rel_curve_to s (0, c2) (c1 - rx, ry) (- rx, ry);
  do s <- k_rel_line_to s (- w + 2 * rx, 0);
  do s <- k_rel_curve_to s (- c1, 0) (- rx, - c2) (- rx, - ry);
  do s <- k_rel_line_to s (0, - h + 2 * ry);
  do s <- k_rel_curve_to s (0, - c2) (rx - c1, - ry) (rx, - ry);
  Ok (k_close_path s).

(** cairo/rcontext.py:84-109, draw_rect. *)
Definition draw_rect (r : rect) (rx ry : option R) (rotation : option R) (p : paint) : run :=
  let rx := match rx with None => ry | _ => rx end in
  let ry := match ry with None => rx | _ => ry end in
  let draw : run := fun s =>
    if truthy_num rx || truthy_num ry then
      match rx, ry with
      | Some a, Some b => rounded_rectangle (r_x r) (r_y r) (r_w r) (r_h r) a b s
      | _, _ => Err EType
      end
    else k_rectangle s (r_x r) (r_y r) (r_w r) (r_h r) in
  ctx_scope (fun s =>
    do s <- transform (mid_point r) rotation 1 1 s;
    fill_stroke_shape draw p s).

(** cairo/rcontext.py:111-135, draw_ellipse. *)
Definition draw_ellipse (r : rect) (rotation : option R) (p : paint) : run := fun s =>
  let swap := rlt (r_w r) (r_h r) in
  let larger := if swap then r_h r else r_w r in
  let smaller := if swap then r_w r else r_h r in
  do sx <- (if req larger (r_w r) then Ok 1
            else if req larger 0 then Err EZeroDivision else Ok (smaller / larger));
  do sy <- (if req larger (r_h r) then Ok 1
            else if req larger 0 then Err EZeroDivision else Ok (smaller / larger));
  let center := mid_point r in
  let draw : run := fun s => Ok (k_arc s (fst center) (snd center) (larger / 2)) in
  do s <- ctx_scope (fun s =>
    do s <- transform center rotation sx sy s;
    do s <- match p_bg p with
            | Some b => if truthy_str (p_bg p) then fill_shape draw b s else Ok s
            | None => Ok s
            end;
    if truthy_str (p_color p) then draw s else Ok s) s;
  match p_color p with
  | Some c =>
      if truthy_str (p_color p) then
        stroke_shape (fun s => Ok s) c (p_width p) (p_dash p) s
      else Ok s
  | None => Ok s
  end.

Fixpoint lines_to (s : ctx) (ps : list pt) : ctx :=
  match ps with [] => s | p :: ps' => lines_to (k_line_to s p) ps' end.
(** cairo/rcontext.py:137-146, draw_polygon. *)
Definition draw_polygon (points : list pt) (rotation : option R) (p : paint) : run :=
  ctx_scope (fun s =>
    do c <- find_centroid points;
    do s <- transform c rotation 1 1 s;
    fill_stroke_shape (fun s =>
      match points with
      | [] => Err EIndex
      | p0 :: ps => Ok (lines_to (k_move_to s p0) (ps ++ [p0]))
      end) p s).
(** cairo/rcontext.py:148-156, draw_polyline. *)
Definition draw_polyline (points : list pt) (color : str) (w : option R) (dash : option str) : run :=
  ctx_scope (fun s =>
    stroke_shape (fun s =>
      match points with
      | [] => Err EIndex
      | p0 :: ps => Ok (lines_to (k_move_to s p0) ps)
      end) color w dash s).

(** shapes.py:4-10, reflect. *)
Definition reflect (cp anchor : pt) : pt :=
  let vec := (fst cp - fst anchor, snd cp - snd anchor) in
  let neg := (- fst vec, - snd vec) in
  (fst anchor + fst neg, snd anchor + snd neg).
(** shapes.py:44-48, draw_quadratic_bezier. *)
Definition quad_controls (p1 p2 cp : pt) : pt * pt :=
  (((2 * fst cp + fst p1) / 3, (2 * snd cp + snd p1) / 3),
   ((2 * fst cp + fst p2) / 3, (2 * snd cp + snd p2) / 3)).
Definition draw_quadratic_bezier (s : ctx) (p1 p2 cp : pt) : ctx :=
  let (c1, c2) := quad_controls p1 p2 cp in k_curve_to s c1 c2 p2.
(** [last_cp or location]. *)
Definition or_else (o : option pt) (p : pt) : pt := match o with Some q => q | None => p end.
Definition arg (l : list pt) (n : nat) : result pt :=
  match nth_error l n with Some p => Ok p | None => Err EIndex end.
(** shapes.py:13-41, draw_path: one round of the loop. *)
Definition path_step (s : ctx) (cub quad : option pt) (c : cmd) : result (ctx * option pt * option pt) :=
  let location := k_current_point s in
  let (n, args) := c in
  match n with
  | PM => do p <- arg args 0; Ok (k_move_to s p, None, None)
  | PL => do p <- arg args 0; Ok (k_line_to s p, None, None)
  | PC =>
      do b <- arg args 1; do a <- arg args 0; do p <- arg args 2;
      Ok (k_curve_to s a b p, Some b, None)
  | PS =>
      let cp := reflect (or_else cub location) location in
      do b <- arg args 0; do p <- arg args 1;
      Ok (k_curve_to s cp b p, Some cp, None)
  | PQ =>
      do cp <- arg args 0; do p <- arg args 1;
      Ok (draw_quadratic_bezier s location p cp, None, Some cp)
  | PT =>
      let cp := reflect (or_else quad location) location in
      do p <- arg args 0;
      Ok (draw_quadratic_bezier s location p cp, None, Some cp)
  end.
Fixpoint path_loop (s : ctx) (cub quad : option pt) (cs : list cmd) : result ctx :=
  match cs with
  | [] => Ok s
  | c :: cs' => do r <- path_step s cub quad c;
                let '(s, cub, quad) := r in path_loop s cub quad cs'
  end.
(** cairo/rcontext.py:158-164, draw_path. *)
Definition draw_path (cs : list cmd) (p : paint) : run :=
  ctx_scope (fun s => fill_stroke_shape (fun s => path_loop s None None cs) p s).

(** cairo/rcontext.py:185-215, draw_text; only what it does to the context: show_layout
    leaves the current point where it was. *)
Definition draw_text_at (mid : pt) (rotation : option R) (at_ : pt) (n : nat) : run :=
  ctx_scope (fun s =>
    do s <- match rotation with Some _ => transform mid rotation 1 1 s | None => Ok s end;
    Ok (k_paint (k_move_to s at_) n)).
(** cairo/rcontext.py:217-235, draw_bitmap; only what it does to the context. *)
Definition draw_bitmap_at (x y w h : R) (rotation : option R) (n : nat) : run :=
  ctx_scope (fun s =>
    do s <- transform (x + w / 2, y + h / 2) rotation 1 1 s;
    Ok (k_paint (k_move_to s (x, y)) n)).

(** cairo/draw.py:89-98, apply_viewbox. *)
Definition rmin (a b : R) : R := if rlt b a then b else a.
Definition apply_viewbox (width height : R) (vx vy vw vh : R) : ctx -> result (ctx * R) := fun s =>
  if req vw 0 || req vh 0 then Err EZeroDivision else
  let scale := rmin (width / vw) (height / vh) in
  let s := k_translate s (- vx * scale) (- vy * scale) in
  do s <- k_scale s scale scale;
  if req scale 0 then Err EZeroDivision else
  let tx := (width / scale - vw) / 2 in
  let ty := (height / scale - vh) / 2 in
  Ok (k_translate s tx ty, scale).

(** boxmixin.py:406-426, the drawing of a line; [p] are the evaluated points. *)
Fixpoint set_last {A} (l : list A) (a : A) : list A :=
  match l with [] => [] | [_] => [a] | x :: l' => x :: set_last l' a end.
Definition shorten_line (p : list pt) (start_arrow end_arrow : option arrow) : result (list pt) :=
  do q <- match start_arrow with
          | Some a =>
              match p with
              | p0 :: p1 :: rest => do m <- move_end_point a p1 p0; Ok (m :: p1 :: rest)
              | _ => Err EIndex
              end
          | None => Ok p
          end;
  match end_arrow with
  | Some a => do z <- last_or p; do y <- last_or (removelast p);
              do m <- move_end_point a y z; Ok (set_last q m)
  | None => Ok q
  end.
(** arrow.py:34-53, Arrow.render on the Cairo backend. *)
Definition render_arrow (a : arrow) (p1 p2 : pt) (color : option str) : run := fun s =>
  do ps <- arrow_points a p1 p2;
  match a_stroke a with
  | Some w => match color with
              | Some c => draw_polyline ps c (Some w) None s
              | None => Err EType
              end
  | None => draw_polygon ps None (mkPaint None color None None) s
  end.
Definition draw_line (p : list pt) (color : str) (w : option R) (dash : option str)
  (start_arrow end_arrow : option arrow) : run := fun s =>
  do q <- shorten_line p start_arrow end_arrow;
  do s <- draw_polyline q color w dash s;
  do s <- match start_arrow with
          | Some a => do p0 <- arg p 0; do p1 <- arg p 1; render_arrow a p1 p0 (Some color) s
          | None => Ok s
          end;
  match end_arrow with
  | Some a => do z <- last_or p; do y <- last_or (removelast p); render_arrow a y z (Some color) s
  | None => Ok s
  end.
(** boxmixin.py:358-374, the drawing of a path; [cs] are the evaluated commands. *)
Definition shorten_path (cs : list cmd) (a : arrow) : result (list cmd * (pt * pt)) :=
  do e <- path_points_for_end_arrow cs;
  do q <- move_end_point a (fst e) (snd e);
  do cs' <- path_update_end_point cs q;
  Ok (cs', e).
Definition draw_path_arrow (cs : list cmd) (p : paint) (end_arrow : option arrow) : run := fun s =>
  match end_arrow with
  | None => draw_path cs p s
  | Some a =>
      do r <- shorten_path cs a;
      let (cs', e) := r in
      do s <- draw_path cs' p s;
      render_arrow a (fst e) (snd e) (p_color p) s
  end.
End Cairo.

(** ** svg/draw.py: the calls of the XML writer *)

Section Svg.
(** [str()] of a number. *)
Variable fmt : R -> str.
Definition attr (n : string) (v : str) : xcall := CSet (pys n) v true.

(** svg/utils.py:56-57, apply_rotation. *)
Definition rotation_calls (rotation : option R) (c : pt) : list xcall :=
  match rotation with
  | Some a =>
      if req a 0 then []
      else [attr "transform" (pys "rotate(" ++ fmt a ++ pys " " ++ fmt (fst c) ++ pys " " ++
              fmt (snd c) ++ pys ")")]
  | None => []
  end.
(** svg/draw.py:27-46, set_paint_style. *)
Definition paint_style (p : paint) : str :=
  join_with (pys ";")
    ((match p_bg p with
      | Some b => if truthy_str (p_bg p) then [pys "fill:" ++ b] else [pys "fill:none"]
      | None => [pys "fill:none"]
      end) ++
     match p_color p with
     | Some c =>
         if truthy_str (p_color p) then
           [pys "stroke:" ++ c; pys "stroke-width:" ++ fmt (width_or_1 (p_width p))] ++
           match p_dash p with
           | Some d => if truthy_str (p_dash p) then [pys "stroke-dasharray:" ++ d] else []
           | None => []
           end
         else [pys "stroke:none"]
     | None => [pys "stroke:none"]
     end).
Definition paint_call (p : paint) : xcall := attr "style" (paint_style p).

Definition opt_attr (n : string) (v : option R) : list xcall :=
  match v with Some r => if req r 0 then [] else [attr n (fmt r)] | None => [] end.
(** svg/draw.py:144-157, draw_rect. *)
Definition svg_rect (r : rect) (rx ry rotation : option R) (p : paint) : list xcall :=
  [CElement (pys "rect"); attr "x" (fmt (r_x r)); attr "y" (fmt (r_y r));
   attr "width" (fmt (r_w r)); attr "height" (fmt (r_h r))] ++
  opt_attr "rx" rx ++ opt_attr "ry" ry ++ rotation_calls rotation (mid_point r) ++
  [paint_call p; CClose (Some (pys "rect"))].
(** svg/draw.py:160-169, draw_ellipse. *)
Definition svg_ellipse (r : rect) (rotation : option R) (p : paint) : list xcall :=
  [CElement (pys "ellipse"); attr "cx" (fmt (mid_x r)); attr "cy" (fmt (mid_y r));
   attr "rx" (fmt (r_w r / 2)); attr "ry" (fmt (r_h r / 2))] ++
  rotation_calls rotation (mid_point r) ++
  [paint_call p; CClose (Some (pys "ellipse"))].
(** "{x},{y}" *)
Definition pair_str (p : pt) : str := fmt (fst p) ++ pys "," ++ fmt (snd p).
Definition points_str (ps : list pt) : str := join_with (pys " ") (map pair_str ps).
(** svg/draw.py:172-181, draw_polygon. *)
Definition svg_polygon (points : list pt) (rotation : option R) (p : paint) : result (list xcall) :=
  do rot <- match rotation with
            | Some a => if req a 0 then Ok [] else
                          do c <- find_centroid points; Ok (rotation_calls rotation c)
            | None => Ok []
            end;
  Ok ([CElement (pys "polygon"); attr "points" (points_str points)] ++ rot ++
      [paint_call p; CClose (Some (pys "polygon"))]).
(** svg/draw.py:184-191, draw_polyline. *)
Definition svg_polyline (points : list pt) (p : paint) : list xcall :=
  [CElement (pys "polyline"); attr "points" (points_str points);
   paint_call p; CClose (Some (pys "polyline"))].
(** svg/draw.py:194-203, draw_path and command_to_str. *)
Definition letter (n : pname) : str :=
  match n with
  | PM => pys "M" | PL => pys "L" | PC => pys "C" | PS => pys "S" | PQ => pys "Q" | PT => pys "T"
  end.
Definition command_to_str (c : cmd) : str := letter (fst c) ++ points_str (snd c).
Definition path_str (cs : list cmd) : str := join_with (pys " ") (map command_to_str cs).
Definition svg_path (cs : list cmd) (p : paint) : list xcall :=
  [CElement (pys "path"); attr "d" (path_str cs); paint_call p; CClose (Some (pys "path"))].
End Svg.
