(** Model of slides with everything that is drawn on them: shapes, texts (text() of
    boxtree/boxmixin.py and text/textboxitem.py) and images (_image_bitmap and _image_svg of
    boxtree/boxmixin.py), as calls of the rendering context.  What an SVG image draws depends
    on the page.

    Simplified: texts are given as tokens with a full style (parsing is TextModel, styles are
    StyleModel) and the named styles of the box at the time of the call; size and line spacing
    of the style that are not numbers are a TypeError; images are given as read from their
    files; an SVG image whose labels cannot be read leaves the slide as it was (in the code
    its box has already asked for the size of the image). *)
From Coq Require Import List ZArith NArith QArith Bool String Reals Qreals.
From Verif Require Import Py ShowModel LayoutModel SlideModel TextModel TextBoxModel StyleModel ImageModel PlaceModel.
From Verif Require ShapeModel PageModel.
Import ListNotations.

Section Art.
(** backend.compute_text_width; et.tostring; str.isalpha and float() of svg/utils.py. *)
Variable measure : list token -> style -> (str -> option style) -> Q.
Variable serialize : xnode -> str.
Variable isalpha : char -> bool.
Variable to_float : str -> option Q.

(** What is drawn, with the arguments: boxmixin.py:749-758 and 795-799 (texts), 512 (bitmaps;
    [href] is the data), 585-593 (SVG images). *)
Inductive art :=
| AtShape (sh : shape)
| AtText (ts : list token) (s : style) (styles : str -> option style) (fit : bool) (rotation : pyval)
| AtBitmap (iw ih : Q) (scale : option Q) (rotation : option R) (href : str)
| AtSvg (root : xnode) (scale : option Q) (fragments : bool) (show_begin : Z)
    (select : option (list (option Z))) (rotation : option R).

(** textboxitem.py:25-45, a new TextBoxItem with number [i] in the box [b]. *)
Definition text_of_style (i b : nat) (ts : list token) (s : style) (fit : bool) : result text_item :=
  match s_size s, s_line_spacing s with
  | PNum size, PNum spacing =>
      Ok (mkItem i b ts (match s_align s with PStr a => Some a | _ => None end) size spacing fit)
  | _, _ => Err EType
  end.
(** utils/geom.py:29-38, Rect.mid_point. *)
Definition rect_mid (r : rect) : Q * Q := (rx r + rw r / 2, ry r + rh r / 2)%Q.
(** textboxitem.py:47-64, TextBoxItem.render. *)
Definition text_drawing (it : text_item) (s : style) (styles : str -> option style) (rotation : pyval)
  : drawing := fun S =>
  match st_rect S (ti_box it) with
  | None => Err EAttribute
  | Some r =>
      do o <- render_text it S;
      match o with
      | None => Ok []
      | Some (x, y, scale) => Ok [PageModel.GText (rect_mid r) x y (ti_tokens it) s styles rotation scale]
      end
  end.
(** boxmixin.py:544-563, draw of _image_bitmap. *)
Definition bitmap_drawing (b : nat) (iw ih : Q) (scale : option Q) (rotation : option R) (href : str)
  : drawing := fun S =>
  match st_rect S b with
  | None => Err EAttribute
  | Some r =>
      do p <- place r scale iw ih;
      Ok [PageModel.GBitmap (Q2R (p_x p)) (Q2R (p_y p)) (Q2R (p_w p)) (Q2R (p_h p)) rotation href]
  end.
(** boxmixin.py:622-668, draw of _image_svg, on page [page]. *)
Definition svg_drawing (b : nat) (root : xnode) (iw ih : Q) (scale : option Q) (show_begin steps : Z)
  (select : option (list (option Z))) (rotation : option R) (page : Z) : drawing := fun S =>
  match st_rect S b with
  | None => Err EAttribute
  | Some r =>
      do d <- page_data select show_begin steps 0 [root] page;
      match fst d with
      | None => Ok []
      | Some t =>
          do p <- place r scale iw ih;
          Ok [PageModel.GSvg (serialize t) (Q2R (p_x p)) (Q2R (p_y p)) (Q2R (p_scale p)) rotation
                (Some (Q2R (p_x p + p_w p / 2), Q2R (p_y p + p_h p / 2)))]
      end
  end.

(** The item [i] that a call adds to the box [b]: what it asks for and what it draws; None if
    nothing is added.  boxmixin.py:512-563, 585-668 and 795-799. *)
Definition art_item (i b : nat) (a : art) : result (option (item_kind * (Z -> drawing))) :=
  match a with
  | AtShape sh =>
      do d <- shape_drawing b sh;
      Ok (match d with Some d => Some (Shape, fun _ => d) | None => None end)
  | AtText ts s styles fit rot =>
      do it <- text_of_style i b ts s fit;
      Ok (Some (TextItem (measure ts s styles) (text_height ts (ti_size it) (ti_spacing it)) fit,
                fun _ => text_drawing it s styles rot))
  | AtBitmap iw ih scale rot href =>
      Ok (Some (ImageItem (iw * or_one scale) (ih * or_one scale) None,
                fun _ => bitmap_drawing b iw ih scale rot href))
  | AtSvg root scale fragments show_begin select rot =>
      do iw <- svg_size_to_pixels isalpha to_float (attr_get (pys "width") (x_attrs root));
      do ih <- svg_size_to_pixels isalpha to_float (attr_get (pys "height") (x_attrs root));
      do steps <- image_steps select fragments root;
      Ok (Some (ImageItem (iw * or_one scale) (ih * or_one scale) (Some (image_pages show_begin steps)),
                svg_drawing b root iw ih scale show_begin steps select rot))
  end.

(** A slide with the drawings of all its items. *)
Record art_slide := mkArt { ar_slide : slide; ar_draws : list (nat * (Z -> drawing)) }.
(** slide.py:36-43, a new slide. *)
Definition new_art (width height : Q) : result art_slide :=
  do s <- new_slide width height; Ok (mkArt s []).
(** A call that draws on the object [r]. *)
Definition art_call (c : art_slide) (r : nat) (a : art) : art_slide * result nat :=
  match get_box r (sl_box (ar_slide c)) with
  | None => (c, Err EAttribute)
  | Some (b, _) =>
      match art_item (sl_next (ar_slide c)) (b_id b) a with
      | Err e => (c, Err e)
      | Ok None => (c, Ok r)
      | Ok (Some (k, d)) =>
          match item_call (ar_slide c) r k with
          | (s, Ok i) => (mkArt s ((i, d) :: ar_draws c), Ok i)
          | (s, Err e) => (mkArt s (ar_draws c), Err e)
          end
      end
  end.
(** The calls on a slide: box(), also by line_box() and inline_box(), and everything that draws. *)
Inductive acall := ABox (r : nat) (a : box_args) | ADraw (r : nat) (a : art).
Definition aperform (c : art_slide) (k : acall) : art_slide * result nat :=
  match k with
  | ABox r a => let (s, res) := box_call (ar_slide c) r a in (mkArt s (ar_draws c), res)
  | ADraw r a => art_call c r a
  end.

(** What the item [i] draws on page [page] (boxitem.py:23-26). *)
Fixpoint draw_of (i : nat) (l : list (nat * (Z -> drawing))) : option (Z -> drawing) :=
  match l with
  | [] => None
  | (j, d) :: l' => if Nat.eqb i j then Some d else draw_of i l'
  end.
Definition art_drawing (c : art_slide) (page : Z) (i : nat) : drawing := fun S =>
  match draw_of i (ar_draws c) with Some d => d page S | None => Err EException end.
End Art.
