(** Model of elsie/render/ora.py: OpenRaster images to SVG. *)
From Coq Require Import List NArith QArith Bool String.
From Verif Require Import Py XmlModel ImageModel.
Import ListNotations.

(** An element of stack.xml. *)
Inductive onode := ONode (tag : str) (attrs : list (str * str)) (kids : list onode).
Definition o_attrs (n : onode) : list (str * str) := let (_, a, _) := n in a.
Definition o_tag (n : onode) : str := let (t, _, _) := n in t.
Definition o_get (n : onode) (name : string) : option str := attr_get (pys name) (o_attrs n).

(** ora.py:47-54, the entry of a source: encoded data, mime type, left, top, width, height. *)
Record source := mkSource {
  so_data : str; so_mime : str; so_x : Q; so_y : Q; so_w : Q; so_h : Q
}.

Section Ora.
(** [float()] of a string (None: ValueError) and [str()] of a number. *)
Variable to_float : str -> option Q.
Variable num : Q -> str.
(** ora.py:22-54, the sources: the image of a layer file, None if it has no visible pixel.
    Simplified: the archive is a function, all files named by [src] exist and are readable,
    and none is too big. *)
Variable load : str -> option source.

(** [str()] of the result of [get]. *)
Definition ostr (o : option str) : str := match o with Some s => s | None => pys "None" end.

(** [float(element.get(..))]; TypeError for None. *)
Definition ofloat (o : option str) : result Q :=
  match o with
  | None => Err EType
  | Some s => match to_float s with Some q => Ok q | None => Err EValue end
  end.

(** ora.py:64-65, _check_visibility. *)
Definition check_visibility (n : onode) : bool :=
  match o_get n "visibility" with Some v => str_eqb v (pys "visible") | None => false end.

Definition is_zero (o : option str) : bool :=
  match o with Some s => str_eqb s (pys "0") | None => false end.

(** ora.py:72-74, 76-77, 92-93. *)
Definition transform_calls (n : onode) : list xcall :=
  if is_zero (o_get n "x") && is_zero (o_get n "y") then []
  else [CSet (pys "transform") (pys "translate(" ++ ostr (o_get n "x") ++ pys ", " ++
          ostr (o_get n "y") ++ pys ")") true].
Definition opacity_calls (o : Q) : list xcall :=
  if Qle_bool (9999 # 10000) o then [] else [CSet (pys "opacity") (num o) true].
Definition label_call (n : onode) : xcall :=
  CSet (pys "inkscape:label") (ostr (o_get n "name")) true.

(** ora.py:83-104, _layer_to_svg, with svg/draw.py:124-141, draw_bitmap, for data that is
    a string and no rotation: the calls of the XML writer. *)
Definition layer_to_svg (n : onode) : result (list xcall) :=
  if negb (check_visibility n) then Ok []
  else match o_get n "src" with
  | None => Err EKey
  | Some src =>
      match load src with
      | None => Ok []
      | Some s =>
          do o <- ofloat (o_get n "opacity");
          do x <- ofloat (o_get n "x");
          do y <- ofloat (o_get n "y");
          Ok ([CElement (pys "image"); CSet (pys "x") (num (x + so_x s)) true;
               CSet (pys "y") (num (y + so_y s)) true;
               CSet (pys "width") (num (so_w s)) true; CSet (pys "height") (num (so_h s)) true]
              ++ label_call n :: opacity_calls o ++
              [CSet (pys "xlink:href")
                 (pys "data:" ++ so_mime s ++ pys ";base64," ++ so_data s) false;
               CClose (Some (pys "image"))])
      end
  end.

(** ora.py:68-80, _stack_to_svg, and 107-112, _children_to_svg (its loop [go] takes the
    children from the last to the first). *)
Fixpoint stack_to_svg (n : onode) : result (list xcall) :=
  let (tag, attrs, kids) := n in
  if negb (check_visibility n) then Ok []
  else
    do o <- ofloat (o_get n "opacity");
    do inner <- (fix go (l : list onode) : result (list xcall) :=
       match l with
       | [] => Ok []
       | k :: l' =>
           do later <- go l';
           do this <- (if str_eqb (o_tag k) (pys "stack") then stack_to_svg k
                       else if str_eqb (o_tag k) (pys "layer") then layer_to_svg k
                       else Ok []);
           Ok (later ++ this)
       end) kids;
    Ok (CElement (pys "g") :: transform_calls n ++ opacity_calls o ++ [label_call n] ++ inner ++
        [CClose (Some (pys "g"))]).

Fixpoint children_to_svg (l : list onode) : result (list xcall) :=
  match l with
  | [] => Ok []
  | k :: l' =>
      do later <- children_to_svg l';
      do this <- (if str_eqb (o_tag k) (pys "stack") then stack_to_svg k
                  else if str_eqb (o_tag k) (pys "layer") then layer_to_svg k
                  else Ok []);
      Ok (later ++ this)
  end.

(** ora.py:56-61 with svg/utils.py:7-22, svg_begin and svg_end.  The mime type check of
    lines 15-18 is not modelled. *)
Definition opt_set (name : string) (o : option str) : list xcall :=
  match o with Some v => [CSet (pys name) v true] | None => [] end.
Definition ora_calls (root : onode) : result (list xcall) :=
  let (_, _, kids) := root in
  do inner <- children_to_svg kids;
  Ok ([CElement (pys "svg"); CSet (pys "xmlns") (pys "http://www.w3.org/2000/svg") true;
       CSet (pys "xmlns:xlink") (pys "http://www.w3.org/1999/xlink") true;
       CSet (pys "xmlns:inkscape") (pys "http://www.inkscape.org/namespaces/inkscape") true] ++
      opt_set "width" (o_get root "w") ++ opt_set "height" (o_get root "h") ++ inner ++
      [CClose (Some (pys "svg"))]).
Definition convert_ora (root : onode) : result str :=
  do cs <- ora_calls root;
  do x <- xrun new_xml cs;
  to_string x.
End Ora.
