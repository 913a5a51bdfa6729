(** Model of the measurement and the drawing of lines by the Cairo backend
    (render/backends/cairo/rcontext.py, text.py).  Pango is a parameter: a function from the
    characters of a line with their attributes to positions and widths. *)
From Coq Require Import List ZArith NArith QArith Bool String.
From Verif Require Import Py LayoutModel StyleModel TextModel TextBoxModel DrawModel.
Import ListNotations.
Local Open Scope Q_scope.

(** A character with its attributes, None if there are none for it. *)
Definition look := (char * option pango_attrs)%type.

(** The attributes of the characters of a text that starts at byte [off]: those of the range
    that has the first byte of the character. *)
Definition has_byte (p : nat) (g : segment) : bool :=
  let '(_, a, b) := g in Nat.leb a p && Nat.ltb p b.
Definition bytes_of (c : char) : nat :=
  match utf8_char c with Ok bs => List.length bs | Err _ => 0%nat end.
Fixpoint looks_from (segs : list segment) (off : nat) (text : str) : list look :=
  match text with
  | [] => []
  | c :: text' =>
      (c, option_map (fun g : segment => style_to_attributes (fst (fst g))) (find (has_byte off) segs)) ::
      looks_from segs (off + bytes_of c) text'
  end.

(** The lines of a text. *)
Fixpoint look_lines (l : list look) : list (list look) :=
  match l with
  | [] => [[]]
  | g :: l' =>
      if N.eqb (fst g) 10 then [] :: look_lines l'
      else match look_lines l' with
           | x :: r => (g :: x) :: r
           | [] => [[g]]
           end
  end.

(** text.py:130-156, build_layout: the characters with their attributes and the alignment.
    The spacing between lines is in C90. *)
Definition build_layout (ts : list token) (s : style) (styles : str -> option style)
  : result (list look * pyval) :=
  match styles default_ with
  | None => Err EKey
  | Some d =>
      let s' := compose d s in
      (* text.py:145 and 221-229, get_pango_alignment *)
      do _ <- match s_align s' with
              | PStr a => if str_eqb a (pys "left") || str_eqb a (pys "middle") || str_eqb a (pys "right")
                          then Ok tt else Err EKey
              | _ => Err EKey
              end;
      do r <- text_and_attributes ts s' styles;
      do q <- num (s_line_spacing s');
      if Qle_bool 1 q then Ok (looks_from (snd r) 0 (fst r), s_align s') else Err EAssertion
  end.

Section Pango.
(** The positions and widths of the characters of a line, for a scale of the text; the
    width of the line as Pango aligns it, and the width that get_extents gives (text.py:168-170). *)
Variable shape : Q -> list look -> list (Q * Q).
Variable aligned_width measured_width : Q -> list look -> Q.

(** The iterator over the characters (text.py:202-216): byte offset, position and width. *)
Fixpoint char_table (off : nat) (text : str) (g : list (Q * Q)) : list (nat * Q * Q) :=
  match text, g with
  | c :: text', (x, w) :: g' => (off, x, w) :: char_table (off + bytes_of c) text' g'
  | _, _ => []
  end.
Definition align_of (s : style) : option str := match s_align s with PStr a => Some a | _ => None end.

(** rcontext.py:172-183, compute_subtext_extents, with backend.py:50-54 and text.py:194-218:
    position and width of the block that token [j] opens. *)
Definition block_extents (ts : list token) (s : style) (styles : str -> option style) (j : Z)
  : result (Q * Q) :=
  do lay <- build_layout ts s styles;
  let g := fst lay in
  do start <- text_x_in_rect (mkRect 0 0 (measured_width 1 g) 0) (align_of s);
  if existsb (fun x : look => N.eqb (fst x) 10) g then Err EAssertion
  else
    do r <- subtext_extents (char_table 0 (map fst g) (shape 1 g)) ts j;
    Ok (fst r - start, snd r).
(** backend.py:35-48, compute_text_x and compute_text_width with an id_index. *)
Definition query_x (s : style) (styles : str -> option style) (ts : list token) (j : Z) : result Q :=
  do r <- block_extents ts s styles j; Ok (fst r).
Definition query_w (s : style) (styles : str -> option style) (ts : list token) (j : Z) : result Q :=
  do r <- block_extents ts s styles j; Ok (snd r).

(** Pango's alignment of a line in the width of the layout. *)
Definition pango_offset (align : pyval) (space : Q) : Q :=
  match align with
  | PStr a => if str_eqb a (pys "middle") then space / 2
              else if str_eqb a (pys "right") then space else 0
  | _ => 0
  end.
(** rcontext.py:185-215, draw_text without rotation: position and width of character number
    [col] of line number [row] on the page. *)
Definition drawn_char (R : rect) (ts : list token) (s : style) (styles : str -> option style)
  (scale : option Q) (row col : nat) : result (Q * Q) :=
  do lay <- build_layout ts s styles;
  let k := match scale with Some k => k | None => 1 end in
  match nth_error (look_lines (fst lay)) row with
  | None => Err EIndex
  | Some line =>
      match nth_error (shape k line) col with
      | None => Err EIndex
      | Some (x, w) => Ok (rx R + pango_offset (snd lay) (rw R - aligned_width k line) + x, w)
      end
  end.
End Pango.
