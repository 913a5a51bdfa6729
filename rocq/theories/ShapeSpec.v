(** What the shapes of SVG mean, independently of the two backends: points of outlines, a
    reader of the attributes and the outline that the SVG specification gives an element. *)
From Coq Require Import List Reals NArith Bool String.
From Verif Require Import Py XmlModel ShapeModel.
Import ListNotations.
Local Open Scope R_scope.

(** ** Points *)

Definition lin (a b : R) (t : R) : R := (1 - t) * a + t * b.
Definition mix (p q : pt) (t : R) : pt := (lin (fst p) (fst q) t, lin (snd p) (snd q) t).
(** Bezier curves by repeated interpolation (de Casteljau). *)
Definition bez2 (p c q : pt) (t : R) : pt := mix (mix p c t) (mix c q t) t.
Definition bez3 (p a b q : pt) (t : R) : pt := mix (bez2 p a b t) (bez2 a b q t) t.

(** The point of a piece at the parameter [t] in [0, 1]. *)
Definition seg_at (g : seg) (t : R) : pt :=
  match g with
  | GMove p => p
  | GLine p q => mix p q t
  | GCubic p a b q => bez3 p a b q t
  | GQuad p c q => bez2 p c q t
  | GCircle m => apply m (cos (2 * PI * t), sin (2 * PI * t))
  | GClose p q => mix p q t
  end.
Inductive kind := KMove | KLine | KCurve | KCircle | KClose.
Definition kind_of (g : seg) : kind :=
  match g with
  | GMove _ => KMove | GLine _ _ => KLine | GCubic _ _ _ _ => KCurve | GQuad _ _ _ => KCurve
  | GCircle _ => KCircle | GClose _ _ => KClose
  end.
(** Two outlines with the same pieces, point by point. *)
Definition same_seg (a b : seg) : Prop :=
  kind_of a = kind_of b /\ forall t, seg_at a t = seg_at b t.
Definition same_outline : list seg -> list seg -> Prop := Forall2 same_seg.
(** The same points in the same order, whether or not subpaths are closed. *)
Definition same_trace : list seg -> list seg -> Prop :=
  Forall2 (fun a b => forall t, seg_at a t = seg_at b t).

(** The image of a piece. *)
Definition map_seg (m : mat) (g : seg) : seg :=
  match g with
  | GMove p => GMove (apply m p)
  | GLine p q => GLine (apply m p) (apply m q)
  | GCubic p a b q => GCubic (apply m p) (apply m a) (apply m b) (apply m q)
  | GQuad p c q => GQuad (apply m p) (apply m c) (apply m q)
  | GCircle n => GCircle (mul m n)
  | GClose p q => GClose (apply m p) (apply m q)
  end.

(** Pens: a rotation of the pen changes nothing. *)
Definition same_pen (m n : mat) : Prop :=
  exists a, let r := mul m (mrotate a) in
    m_xx n = m_xx r /\ m_xy n = m_xy r /\ m_yx n = m_yx r /\ m_yy n = m_yy r.

(** ** Paths *)

(** A path command with its points; several groups of points after a letter repeat the
    command, except that a move is followed by lines. *)
Inductive simple := ToM (p : pt) | ToL (p : pt) | ToC (a b p : pt) | ToS (b p : pt)
                  | ToQ (c p : pt) | ToT (p : pt).
Fixpoint each1 (f : pt -> simple) (l : list pt) : list simple :=
  match l with [] => [] | p :: l' => f p :: each1 f l' end.
Fixpoint each2 (f : pt -> pt -> simple) (l : list pt) : option (list simple) :=
  match l with
  | [] => Some []
  | a :: p :: l' => option_map (cons (f a p)) (each2 f l')
  | _ => None
  end.
Fixpoint each3 (f : pt -> pt -> pt -> simple) (l : list pt) : option (list simple) :=
  match l with
  | [] => Some []
  | a :: b :: p :: l' => option_map (cons (f a b p)) (each3 f l')
  | _ => None
  end.
Definition expand1 (c : cmd) : option (list simple) :=
  match c with
  | (_, []) => None
  | (PM, p :: l) => Some (ToM p :: each1 ToL l)
  | (PL, l) => Some (each1 ToL l)
  | (PC, l) => each3 ToC l
  | (PS, l) => each2 ToS l
  | (PQ, l) => each2 ToQ l
  | (PT, l) => Some (each1 ToT l)
  end.
Fixpoint expand (cs : list cmd) : option (list simple) :=
  match cs with
  | [] => Some []
  | c :: cs' => match expand1 c, expand cs' with
                | Some a, Some b => Some (a ++ b)
                | _, _ => None
                end
  end.

(** The other side of [c], seen from [p]. *)
Definition opposite (c p : pt) : pt := (2 * fst p - fst c, 2 * snd p - snd c).
(** The control point assumed by S (by T): the reflection of the last control point of a
    directly preceding C or S (Q or T), otherwise the current point.  [cub] and [quad] are
    those last control points. *)
Definition assumed (last : option pt) (p : pt) : pt :=
  match last with Some c => opposite c p | None => p end.

(** The outline of a path: current point (None before the first command), whether a new
    subpath begins, last control points. *)
Fixpoint path_outline (cur : option pt) (fresh : bool) (cub quad : option pt) (l : list simple)
  : option (list seg) :=
  match l with
  | [] => Some []
  | c :: l' =>
      match c, cur with
      | ToM p, _ => path_outline (Some p) true None None l'
      | _, None => None
      | _, Some q =>
          let start := if fresh then [GMove q] else [] in
          let '(g, e, cub', quad') :=
            match c with
            | ToM p => (GMove p, p, None, None)
            | ToL p => (GLine q p, p, None, None)
            | ToC a b p => (GCubic q a b p, p, Some b, None)
            | ToS b p => (GCubic q (assumed cub q) b p, p, Some b, None)
            | ToQ k p => (GQuad q k p, p, None, Some k)
            | ToT p => (GQuad q (assumed quad q) p, p, None, Some (assumed quad q))
            end in
          option_map (fun r => start ++ g :: r) (path_outline (Some e) false cub' quad' l')
      end
  end.
Definition svg_path_outline (cs : list cmd) : option (list seg) :=
  match expand cs with Some l => path_outline None true None None l | None => None end.

(** ** Other shapes *)

Fixpoint lines (p : pt) (l : list pt) : list seg :=
  match l with [] => [] | q :: l' => GLine p q :: lines q l' end.
(** A polyline, and a polygon: a closed polyline. *)
Definition polyline_outline (l : list pt) : list seg :=
  match l with
  | p :: q :: l' => GMove p :: lines p (q :: l')
  | _ => []
  end.
Definition polygon_outline (l : list pt) : list seg :=
  match l with
  | [] => []
  | p :: l' => GMove p :: lines p l' ++ [GClose (last l' p) p]
  end.
(** A rectangle without rounded corners. *)
Definition rect_outline (x y w h : R) : list seg :=
  let a := (x, y) in let b := (x + w, y) in let c := (x + w, y + h) in let d := (x, y + h) in
  [GMove a; GLine a b; GLine b c; GLine c d; GClose d a].
(** An ellipse: the unit circle stretched and moved; it starts at its rightmost point. *)
Definition ellipse_outline (cx cy rx ry : R) : list seg :=
  [GMove (cx + rx, cy); GCircle (mkMat rx 0 0 ry cx cy)].

(** The map of [transform="rotate(a cx cy)"], [a] in degrees: clockwise about (cx, cy), with
    the y axis pointing down. *)
Definition rotation_about (a : R) (c : pt) : mat :=
  let k := a * PI / 180 in
  mkMat (cos k) (- sin k) (sin k) (cos k)
        (fst c - cos k * fst c + sin k * snd c) (snd c - sin k * fst c - cos k * snd c).

(** ** Reading attributes *)

Section Read.
(** Numbers written by the program. *)
Variable num_of : str -> option R.

(** The pieces of a string between separators. *)
Fixpoint pieces (sep : char -> bool) (acc : str) (s : str) : list str :=
  match s with
  | [] => match acc with [] => [] | _ => [rev acc] end
  | c :: s' =>
      if sep c then match acc with [] => pieces sep [] s' | _ => rev acc :: pieces sep [] s' end
      else pieces sep (c :: acc) s'
  end.
Definition comma_space (c : char) : bool := N.eqb c 44 || N.eqb c 32.

Fixpoint all_numbers (l : list str) : option (list R) :=
  match l with
  | [] => Some []
  | s :: l' => match num_of s, all_numbers l' with
               | Some x, Some xs => Some (x :: xs)
               | _, _ => None
               end
  end.
Fixpoint pairs (l : list R) : option (list pt) :=
  match l with
  | [] => Some []
  | x :: y :: l' => option_map (cons (x, y)) (pairs l')
  | _ => None
  end.
(** A list of points: numbers separated by commas and white space. *)
Definition read_points (s : str) : option (list pt) :=
  match all_numbers (pieces comma_space [] s) with Some l => pairs l | None => None end.

(** Path data: each command letter is followed by its points. *)
Definition command_letter (c : char) : option pname := pname_of [c].
Fixpoint read_commands (cur : option pname) (acc : str) (s : str) : option (list cmd) :=
  match s with
  | [] =>
      match cur with
      | Some n => option_map (fun ps => [(n, ps)]) (read_points (rev acc))
      | None => match acc with [] => Some [] | _ => None end
      end
  | c :: s' =>
      match command_letter c with
      | Some n =>
          match cur with
          | Some n0 => match read_points (rev acc), read_commands (Some n) [] s' with
                       | Some ps, Some r => Some ((n0, ps) :: r)
                       | _, _ => None
                       end
          | None => match acc with [] => read_commands (Some n) [] s' | _ => None end
          end
      | None => read_commands cur (c :: acc) s'
      end
  end.
Definition read_path (s : str) : option (list cmd) := read_commands None [] s.

(** [rotate(a x y)]. *)
Definition read_rotation (s : str) : option (R * pt) :=
  match strip_prefix (pys "rotate(") s with
  | Some r =>
      match rev r with
      | c :: b =>
          if N.eqb c 41 then
            match all_numbers (pieces comma_space [] (rev b)) with
            | Some [a; x; y] => Some (a, (x, y))
            | _ => None
            end
          else None
      | [] => None
      end
  | None => None
  end.

(** A style attribute: declarations separated by semicolons, name and value by a colon. *)
Definition declarations (s : str) : list (str * str) :=
  map (fun d => match split_first (pys ":") d with Some p => p | None => (d, []) end)
      (pieces (N.eqb 59) [] s).
Fixpoint declared (n : str) (l : list (str * str)) : option str :=
  match l with
  | [] => None
  | (k, v) :: l' => if str_eqb k n then Some v else declared n l'
  end.
Definition visible_paint (v : option str) : option str :=
  match v with Some s => if str_eqb s (pys "none") then None else Some s | None => None end.
(** Fill colour; stroke colour, width and dashes. *)
Record look := mkLook { l_fill : option str; l_stroke : option (str * R * option str) }.
Definition read_style (s : str) : option look :=
  let ds := declarations s in
  match visible_paint (declared (pys "stroke") ds) with
  | None => Some (mkLook (visible_paint (declared (pys "fill") ds)) None)
  | Some c =>
      match declared (pys "stroke-width") ds with
      | Some w => match num_of w with
                  | Some x => Some (mkLook (visible_paint (declared (pys "fill") ds))
                                     (Some (c, x, declared (pys "stroke-dasharray") ds)))
                  | None => None
                  end
      | None => None
      end
  end.

(** ** Elements *)

(** The attributes set by calls of the XML writer that write one empty element. *)
Fixpoint attributes (cs : list xcall) : option (list (str * str)) :=
  match cs with
  | [CClose _] => Some []
  | CSet n v _ :: cs' => option_map (cons (n, v)) (attributes cs')
  | _ => None
  end.
Definition element_of (cs : list xcall) : option (str * list (str * str)) :=
  match cs with
  | CElement n :: cs' => option_map (fun a => (n, a)) (attributes cs')
  | _ => None
  end.

Definition number_attr (n : string) (al : list (str * str)) : option R :=
  match declared (pys n) al with Some v => num_of v | None => None end.
(** The radii of a rectangle: a missing one is the other one. *)
Definition plain_corners (al : list (str * str)) : bool :=
  match declared (pys "rx") al, declared (pys "ry") al with None, None => true | _, _ => false end.
Definition outline_of (n : str) (al : list (str * str)) : option (list seg) :=
  if str_eqb n (pys "rect") then
    match number_attr "x" al, number_attr "y" al, number_attr "width" al, number_attr "height" al with
    | Some x, Some y, Some w, Some h =>
        if plain_corners al then Some (rect_outline x y w h) else None
    | _, _, _, _ => None
    end
  else if str_eqb n (pys "ellipse") then
    match number_attr "cx" al, number_attr "cy" al, number_attr "rx" al, number_attr "ry" al with
    | Some x, Some y, Some a, Some b => Some (ellipse_outline x y a b)
    | _, _, _, _ => None
    end
  else if str_eqb n (pys "polygon") then
    match declared (pys "points") al with
    | Some s => option_map polygon_outline (read_points s)
    | None => None
    end
  else if str_eqb n (pys "polyline") then
    match declared (pys "points") al with
    | Some s => option_map polyline_outline (read_points s)
    | None => None
    end
  else if str_eqb n (pys "path") then
    match declared (pys "d") al with
    | Some s => match read_path s with Some cs => svg_path_outline cs | None => None end
    | None => None
    end
  else None.
Definition matrix_of (al : list (str * str)) : option mat :=
  match declared (pys "transform") al with
  | None => Some ident
  | Some s => option_map (fun r => rotation_about (fst r) (snd r)) (read_rotation s)
  end.
(** A picture: outline, transformation and paint of one element. *)
Record picture := mkPicture { pic_outline : list seg; pic_matrix : mat; pic_look : look }.
Definition picture_of (cs : list xcall) : option picture :=
  match element_of cs with
  | Some (n, al) =>
      match outline_of n al, matrix_of al, declared (pys "style") al with
      | Some o, Some m, Some s => option_map (mkPicture o m) (read_style s)
      | _, _, _ => None
      end
  | None => None
  end.
End Read.

(** ** Painting *)

(** What separates the numbers of stroke-dasharray: commas and white space. *)
Definition dash_sep (c : char) : bool :=
  N.eqb c 44 || N.eqb c 32 || N.eqb c 9 || N.eqb c 10 || N.eqb c 12 || N.eqb c 13.

Section Painted.
Variable rgb_of : str -> result rgb.
Variable to_float : str -> result R.
(** How two outlines are compared. *)
Variable same : list seg -> list seg -> Prop.

(** [ms] are the marks of a picture on a device with the matrix [base]: the fill, if any,
    then the stroke, if any. *)
Inductive fills (o : list seg) : option str -> list mark -> Prop :=
| fill_none : fills o None []
| fill_some : forall c rgb o', rgb_of c = Ok rgb -> same o' o -> fills o (Some c) [MFill o' rgb].
Inductive strokes (base : mat) (o : list seg) : option (str * R * option str) -> list mark -> Prop :=
| stroke_none : strokes base o None []
| stroke_some : forall c w d rgb ds o' pen, rgb_of c = Ok rgb -> same o' o -> same_pen base pen ->
    match d with
    | None => ds = []
    | Some s => Forall2 (fun v x => to_float v = Ok x) (pieces dash_sep [] s) ds
    end ->
    strokes base o (Some (c, w, d)) [MStroke o' rgb w ds pen].
Definition painted (base : mat) (p : picture) (ms : list mark) : Prop :=
  exists a b, ms = a ++ b /\
    let o := map (map_seg (mul base (pic_matrix p))) (pic_outline p) in
    fills o (l_fill (pic_look p)) a /\ strokes base o (l_stroke (pic_look p)) b.
End Painted.
