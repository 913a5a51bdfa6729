(** What the document of a page shows, in terms of the nodes that an XML reader finds in it. *)
From Coq Require Import List Reals QArith Qreals NArith Bool String.
From Verif Require Import Py XmlModel XmlSpec StyleModel StyleSpec TextModel TextSpec TextBoxModel
  DrawModel DrawSpec DrawLoop ShapeModel ShapeSpec ShapePaint ShapeProps PicSpec PageModel.
Import ListNotations.
Local Open Scope R_scope.

Section Read.
Variable num_of : str -> option R.

(** The picture of an empty element. *)
Definition node_picture (n : node) : option picture :=
  match n with
  | NElem name al [] =>
      match outline_of num_of name al, matrix_of num_of al, declared (pys "style") al with
      | Some o, Some m, Some s => option_map (mkPicture o m) (read_style num_of s)
      | _, _, _ => None
      end
  | _ => None
  end.

(** The shapes among the calls of a context; lines have no background. *)
Definition shape_of (g : gcall) : option shape :=
  match g with
  | GRect r rx ry rot p => Some (SRect r rx ry rot p)
  | GEllipse r rot p => Some (SEllipse r rot p)
  | GPolygon l rot p => Some (SPolygon l rot p)
  | GPolyline l (mkPaint (Some c) None w dash) => Some (SPolyline l c w dash)
  | GPath cs p => Some (SPath cs p)
  | _ => None
  end.
(** The characters of a text. *)
Definition letters (ts : list token) : str :=
  flat_map (fun t => match t with TText s => s | _ => [] end) ts.

(** Numbers that are written so that an SVG reader gets them back. *)
Definition readable (fmtv : pyval -> str) (q : Q) : Prop :=
  num_of (fmtv (PNum q)) = Some (Q2R q) /\ fmtv (PNum q) <> [] /\ Forall numeral_char (fmtv (PNum q)).
Definition opt_list {A} (o : option A) : list A := match o with Some x => [x] | None => [] end.
(** The attributes of a text element turn the text about [mid] and enlarge it. *)
Definition text_placed (fmtv : pyval -> str) (mid : Q * Q) (rot : pyval) (scale : option Q)
    (al : list (str * str)) : Prop :=
  forall a : option Q, rot = match a with Some d => PNum d | None => PNone end ->
  Forall (readable fmtv) (fst mid :: snd mid :: opt_list a ++ opt_list scale) ->
  let k := match scale with Some k => Q2R k | None => 1 end in
  exists m, match declared (pys "transform") al with Some t => read_transforms num_of t | None => Some ident end = Some m /\
    forall p, apply m p =
      apply (match a with Some d => rotation_about (Q2R d) (Q2R (fst mid), Q2R (snd mid)) | None => ident end)
        (k * fst p, k * snd p).
(** The values of text-anchor, by alignment. *)
Definition anchors : list (pyval * str) :=
  [(PStr (pys "left"), pys "start"); (PStr (pys "middle"), pys "middle"); (PStr (pys "right"), pys "end")].

(** [drawn g ns]: the nodes [ns] show what the call [g] asks for. *)
Inductive drawn (fmtv : pyval -> str) : gcall -> list node -> Prop :=
| drawn_shape g d n pic : shape_of g = Some d -> node_picture n = Some pic -> meant d pic ->
    drawn fmtv g [n]
| drawn_bitmap x y w h rot href al :
    declared (pys "xlink:href") al = Some href ->
    number_attr num_of "x" al = Some x -> number_attr num_of "y" al = Some y ->
    number_attr num_of "width" al = Some w -> number_attr num_of "height" al = Some h ->
    matrix_of num_of al = Some (rotation_of rot (x + w / 2, y + h / 2)) ->
    drawn fmtv (GBitmap x y w h rot href) [NElem (pys "image") al []]
| drawn_svg svg x y k rot c t m ks :
    read svg = Some ks -> read_transforms num_of t = Some m ->
    (forall p, apply m p = apply (match rot, c with Some a, Some q => rotation_about a q | _, _ => ident end)
                             (x + k * fst p, y + k * snd p)) ->
    drawn fmtv (GSvg svg x y k rot c) [NElem (pys "g") [(pys "transform", t)] ks]
| drawn_text mid x y ts s styles rot scale al ks :
    let k := match scale with Some k => k | None => 1%Q end in
    map fst (doc_glyphs [] (NElem (pys "text") al ks)) = hard_spaces (letters ts) ->
    (exists x' y', (x' * k == x)%Q /\ (y' * k == y)%Q /\
       declared (pys "x") al = Some (fmtv (PNum x')) /\ declared (pys "y") al = Some (fmtv (PNum y'))) ->
    ((forall n s', In (TBegin n) ts -> styles n = Some s' -> ~ switches_off s') ->
     Forall2 (same_look fmtv) (doc_glyphs [] (NElem (pys "text") al ks)) (glyphs styles [Some s] ts)) ->
    (exists a, declared (pys "text-anchor") al = Some a /\ In (s_align s, a) anchors) ->
    text_placed fmtv mid rot scale al ->
    drawn fmtv (GText mid x y ts s styles rot scale) [NElem (pys "text") al ks].
(** The nodes of several calls. *)
Inductive drawn_all (fmtv : pyval -> str) : list gcall -> list node -> Prop :=
| da_nil : drawn_all fmtv [] []
| da_cons g l a b : drawn fmtv g a -> drawn_all fmtv l b -> drawn_all fmtv (g :: l) (a ++ b).
End Read.

(** ** Calls that can be written *)

Section Tidy.
Variable isfloat : R -> Prop.
Variable fmtv : pyval -> str.

Definition legal_option (v : option str) : Prop := forall s, v = Some s -> legal_value s = true.
Definition legal_paint (p : paint) : Prop :=
  legal_option (p_bg p) /\ legal_option (p_color p) /\ legal_option (p_dash p) /\
  no_semicolon (p_bg p) /\ no_semicolon (p_color p) /\ no_semicolon (p_dash p) /\
  given (p_bg p) <> Some (pys "none") /\ given (p_color p) <> Some (pys "none").
(** Colours and data that XML can represent, numbers that can be written; texts as in C39. *)
Definition tidy (g : gcall) : Prop :=
  match g with
  | GBitmap x y w h rot href =>
      isfloat x /\ isfloat y /\ isfloat w /\ isfloat h /\
      float_rotation isfloat rot (x + w / 2, y + h / 2) /\ legal_value href = true
  | GSvg svg x y k rot c =>
      isfloat x /\ isfloat y /\ isfloat k /\
      match rot, c with Some a, Some q => isfloat a /\ float_pt isfloat q | Some _, None => False | _, _ => True end /\
      ~ In 13%N svg /\ exists ks, read svg = Some ks
  | GText mid x y ts s styles rot scale =>
      TextSpec.balanced ts /\ known_names styles ts /\ complete s /\
      (forall n s', styles n = Some s' -> valid_style s') /\
      (forall n, dummyb n = true -> styles n = None) /\ regular styles [Some s] ts /\
      printable fmtv s /\ (forall n s', styles n = Some s' -> printable fmtv s') /\
      legal_texts ts /\ legal_value (fmtv rot) = true /\
      (forall k, scale = Some k -> ~ (k == 0)%Q)
  | _ => exists d, shape_of g = Some d /\ fit isfloat d /\ legal_paint (paint_of d) /\
           match d with SPolygon l _ _ => l <> [] | _ => True end
  end.
End Tidy.

(** What a writer of its own makes of some drawing. *)
Definition alone (t : trace unit) : result str := do x <- perform new_xml t; to_string x.
