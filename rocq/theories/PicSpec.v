(** What the placement of pictures and texts means, independently of the two backends. *)
From Coq Require Import List Reals NArith Bool String.
From Verif Require Import Py XmlModel ShapeModel ShapeSpec ShapeProps2.
Import ListNotations.
Local Open Scope R_scope.

(** A picture of [iw] times [ih] pixels, [k] times as large, its centre in [c], turned
    clockwise by [rot] degrees about that centre: where the point [p] of the picture is. *)
Definition spot (c : pt) (k : R) (rot : option R) (iw ih : R) (p : pt) : pt :=
  let a := match rot with Some d => d * PI / 180 | None => 0 end in
  let dx := k * (fst p - iw / 2) in
  let dy := k * (snd p - ih / 2) in
  (fst c + (cos a * dx - sin a * dy), snd c + (sin a * dx + cos a * dy)).

Section Read.
Variable num_of : str -> option R.

(** ** Lists of transformations, as the SVG specification defines them *)
Fixpoint drop_spaces (s : str) : str :=
  match s with c :: s' => if comma_space c then drop_spaces s' else s | [] => [] end.
Definition function_matrix (n : str) (l : list R) : option mat :=
  if str_eqb n (pys "rotate") then
    match l with [a; x; y] => Some (rotation_about a (x, y)) | _ => None end
  else if str_eqb n (pys "translate") then
    match l with [x; y] => Some (mkMat 1 0 0 1 x y) | _ => None end
  else if str_eqb n (pys "scale") then
    match l with [k] => Some (mkMat k 0 0 k 0 0) | _ => None end
  else None.
(** "name(numbers", without the closing parenthesis. *)
Definition read_function (w : str) : option mat :=
  match split_first (pys "(") (drop_spaces w) with
  | Some (n, args) =>
      match all_numbers num_of (pieces comma_space [] args) with
      | Some l => function_matrix n l
      | None => None
      end
  | None => None
  end.
(** The first transformation of the list is applied last. *)
Fixpoint read_functions (l : list str) : option mat :=
  match l with
  | [] => Some ident
  | w :: l' => match read_function w, read_functions l' with
               | Some m, Some n => Some (mul m n)
               | _, _ => None
               end
  end.
Definition read_transforms (s : str) : option mat := read_functions (pieces (N.eqb 41) [] s).

(** ** Elements *)

(** The calls write an image element that shows the data [href], whose size is [iw] times
    [ih] pixels; [f] tells where its points are: the rectangle of the element is filled as
    preserveAspectRatio demands by default. *)
Definition bitmap_shown (cs : list xcall) (href : str) (iw ih : R) (f : pt -> pt) : Prop :=
  exists al x y w h m k g,
    element_of cs = Some (pys "image", al) /\ declared (pys "xlink:href") al = Some href /\
    number_attr num_of "x" al = Some x /\ number_attr num_of "y" al = Some y /\
    number_attr num_of "width" al = Some w /\ number_attr num_of "height" al = Some h /\
    matrix_of num_of al = Some m /\ meets w h 0 0 iw ih k g /\
    forall p, f p = apply m (x + fst (g p), y + snd (g p)).

(** The calls write a group with a transformation around the document [svg]. *)
Definition group_shown (cs : list xcall) (svg : str) (f : pt -> pt) : Prop :=
  exists t e n m, cs = [CElement (pys "g"); CSet (pys "transform") t e; CRaw svg; CClose n] /\
    read_transforms t = Some m /\ forall p, f p = apply m p.

(** A text element with the given attributes: the point [p] of a glyph, relative to the anchor
    of the first line and measured in the units of the font, is in [f p]. *)
Definition text_shown (xs ys : str) (t : option str) (f : pt -> pt) : Prop :=
  exists x y m, num_of xs = Some x /\ num_of ys = Some y /\
    match t with Some s => read_transforms s | None => Some ident end = Some m /\
    forall p, f p = apply m (x + fst p, y + snd p).
End Read.
