(** Model of elsie/text/textboxitem.py and of the measuring of inline boxes by the Cairo
    backend (render/backends/cairo/text.py). *)
From Coq Require Import List ZArith NArith QArith Bool String.
From Verif Require Import Py LayoutModel SlideModel TextModel.
Import ListNotations.
Local Open Scope Q_scope.

(** textboxitem.py:12-21, text_x_in_rect; the align attribute may be any string or None. *)
Definition text_x_in_rect (r : rect) (align : option str) : result Q :=
  match align with
  | Some a =>
      if str_eqb a (pys "left") then Ok (rx r)
      else if str_eqb a (pys "middle") then Ok (rx r + rw r / 2)
      else if str_eqb a (pys "right") then Ok (rx r + rw r)
      else Err EException
  | None => Err EException
  end.

(** textboxitem.py:25-34, a TextBoxItem: its number in the store, the number of its box,
    its tokens and the attributes of its style that matter here. *)
Record text_item := mkItem {
  ti_id : nat; ti_box : nat; ti_tokens : list token;
  ti_align : option str; ti_size : Q; ti_spacing : Q; ti_fit : bool
}.

Definition lines_q (ts : list token) : Q := inject_Z (Z.of_nat (number_of_lines ts)).

(** textboxitem.py:66-71, the height of the text; the width comes from the backend. *)
Definition text_height (ts : list token) (size spacing : Q) : Q :=
  lines_q ts * (size * spacing).

(** boxmixin.py:795-799 and textboxitem.py:25-45: creation of a text in the box of the
    object [r] of a slide; [measure] is backend.compute_text_width. *)
Definition text_call (s : slide) (r : nat) (measure : list token -> Q) (ts : list token)
  (size spacing : Q) (fit : bool) : slide * result nat :=
  item_call s r (TextItem (measure ts) (text_height ts size spacing) fit).

(** textboxitem.py:47-64, render: the position given to draw_text and the scale passed, or
    None if nothing is drawn. *)
Definition render_text (it : text_item) (s : store) : result (option (Q * Q * option Q)) :=
  match st_rect s (ti_box it) with
  | None => Err EAttribute
  | Some r =>
      let t := st_text s (ti_id it) in
      do x <- text_x_in_rect r (ti_align it);
      let y := ry r + (rh r - tx_h t) / 2 + ti_size it * tx_scale t in
      if Qle_bool (tx_scale t) tiny then Ok None
      else Ok (Some (x, y, if ti_fit it then Some (tx_scale t) else None))
  end.

(** render/backends/svg/rcontext.py:49-60 and svg/draw.py:57-58, 69, 88-91: the vertical
    position of the base line at which the text after the first [k] tokens is drawn.  Each
    newline token moves it by [line_size * value]; with a scale, [y] is divided by the scale
    and the whole element is scaled. *)
Fixpoint newline_shift (line_size : Q) (ts : list token) : Q :=
  match ts with
  | [] => 0
  | TNewline n :: ts' => line_size * inject_Z (Z.of_nat n) + newline_shift line_size ts'
  | _ :: ts' => newline_shift line_size ts'
  end.
Definition baseline (it : text_item) (y : Q) (scale : option Q) (k : nat) : Q :=
  let shift := newline_shift (ti_size it * ti_spacing it) (firstn k (ti_tokens it)) in
  match scale with
  | None => y + shift
  | Some sc => (y / sc + shift) * sc
  end.

(** The keyword arguments of line_box and inline_box: the four that have defaults here may
    be absent; the others are passed on. *)
Record box_kwargs := mkKw {
  kw_x : option arg; kw_y : option arg; kw_width : option arg; kw_height : option arg;
  kw_rest : box_args
}.
(** [dict.setdefault]. *)
Definition setdefault (o : option arg) (d : arg) : arg :=
  match o with Some a => a | None => d end.
Definition fill_defaults (kw : box_kwargs) (x y w h : arg) : box_args :=
  let b := kw_rest kw in
  let l := ba_layout b in
  mkBArgs (mkLArgs (setdefault (kw_x kw) x) (setdefault (kw_y kw) y)
             (setdefault (kw_width kw) w) (setdefault (kw_height kw) h)
             (a_left l) (a_right l) (a_top l) (a_bottom l) (a_px l) (a_py l) (a_padding l)
             (a_horizontal l))
    (ba_show b) (ba_z b) (ba_prepend b) (ba_above b) (ba_below b).

(** textboxitem.py:97-102 and 140-146, compute_y for line [index]. *)
Definition line_y (it : text_item) (index : Z) : lazy := fun s =>
  match st_rect s (ti_box it) with
  | Some r =>
      Ok (ry r + (rh r - tx_h (st_text s (ti_id it))) / 2 +
          tx_h (st_text s (ti_id it)) / lines_q (ti_tokens it) * inject_Z index)
  | None => Err EAttribute
  end.
(** textboxitem.py:104-106. *)
Definition line_height (it : text_item) (n_lines : Z) : lazy := fun s =>
  Ok (inject_Z n_lines * tx_h (st_text s (ti_id it)) / lines_q (ti_tokens it) + 1).

(** textboxitem.py:83-112, line_box: the arguments given to [self._box.box]. *)
Definition line_box_args (it : text_item) (index n_lines : Z) (kw : box_kwargs) : box_args :=
  fill_defaults kw (ANum 0) (ALazy (line_y it index)) (AStr (pys "fill"))
    (ALazy (line_height it n_lines)).
Definition line_box (s : slide) (it : text_item) (index n_lines : Z) (kw : box_kwargs)
  : slide * result nat :=
  box_call s (ti_box it) (line_box_args it index n_lines kw).

(** textboxitem.py:128-137, the search of inline_box. *)
Fixpoint find_style (name : str) (count : nat) (i : nat) (ts : list token) : result nat :=
  match ts with
  | [] => Err EException
  | TBegin n :: ts' =>
      if str_eqb n name then
        match count with
        | S (S c) => find_style name (S c) (S i) ts'
        | _ => Ok i
        end
      else find_style name count (S i) ts'
  | _ :: ts' => find_style name count (S i) ts'
  end.
Definition inline_index (it : text_item) (name : str) (n_th : Z) : result nat :=
  if (n_th <=? 0)%Z then Err EAssertion
  else find_style name (Z.to_nat n_th) 0 (ti_tokens it).

(** textboxitem.py:148-150, compute_height of _text_box_helper. *)
Definition inline_height (it : text_item) : lazy := fun s =>
  Ok (tx_h (st_text s (ti_id it)) / lines_q (ti_tokens it) + 1).
(** textboxitem.py:164-167 and 170. *)
Definition inline_x (it : text_item) (query_x : Q) : lazy := fun s =>
  match st_rect s (ti_box it) with
  | Some r => do x <- text_x_in_rect r (ti_align it);
              Ok (x + query_x * tx_scale (st_text s (ti_id it)))
  | None => Err EAttribute
  end.
Definition inline_width (it : text_item) (query_w : Q) : lazy := fun s =>
  Ok (query_w * tx_scale (st_text s (ti_id it))).

(** textboxitem.py:139-173, _text_box_helper: the arguments given to [self._box.box].
    [query_x] and [query_w] are backend.compute_text_x and compute_text_width of a part of
    a line. *)
Definition text_box_args (query_x query_w : list token -> Z -> result Q) (it : text_item)
  (index : nat) (kw : box_kwargs) : result box_args :=
  let line_number := (Z.of_nat (number_of_lines (firstn index (ti_tokens it))) - 1)%Z in
  do li <- extract_line (ti_tokens it) index;
  do qx <- query_x (fst li) (snd li);
  do qw <- query_w (fst li) (snd li);
  Ok (fill_defaults kw (ALazy (inline_x it qx)) (ALazy (line_y it line_number))
        (ALazy (inline_width it qw)) (ALazy (inline_height it))).
(** textboxitem.py:114-137, inline_box. *)
Definition inline_box (query_x query_w : list token -> Z -> result Q) (s : slide)
  (it : text_item) (name : str) (n_th : Z) (kw : box_kwargs) : slide * result nat :=
  match inline_index it name n_th with
  | Err e => (s, Err e)
  | Ok i =>
      match text_box_args query_x query_w it i kw with
      | Err e => (s, Err e)
      | Ok a => box_call s (ti_box it) a
      end
  end.

(** ** Cairo *)

(** UTF-8 encoding of a code point; surrogates cannot be encoded (UnicodeEncodeError, a
    ValueError). *)
Definition utf8_char (c : char) : result (list N) :=
  if (c <? 128)%N then Ok [c]
  else if (c <? 2048)%N then Ok [192 + c / 64; 128 + c mod 64]%N
  else if (c <? 65536)%N then
    if ((55296 <=? c) && (c <=? 57343))%N then Err EValue
    else Ok [224 + c / 4096; 128 + (c / 64) mod 64; 128 + c mod 64]%N
  else Ok [240 + c / 262144; 128 + (c / 4096) mod 64; 128 + (c / 64) mod 64; 128 + c mod 64]%N.
Fixpoint utf8 (s : str) : result (list N) :=
  match s with
  | [] => Ok []
  | c :: s' => do b <- utf8_char c; do bs <- utf8 s'; Ok (b ++ bs)
  end.
(** cairo/text.py:62-63, byte_length. *)
Definition byte_length (s : str) : result nat :=
  do bs <- utf8 s; Ok (List.length bs).

(** cairo/text.py:173-191, get_byte_range: [i] is the index of the first of the tokens that
    are left, [depth] the length of the stack. *)
Fixpoint byte_range_from (id_index : Z) (i : Z) (depth : nat) (count : nat)
  (start : option nat) (ts : list token) : result (nat * nat) :=
  match ts with
  | [] => Err EAssertion
  | TText s :: ts' =>
      do n <- byte_length s;
      byte_range_from id_index (i + 1) depth (count + n) start ts'
  | TNewline _ :: _ => Err EAssertion
  | TBegin _ :: ts' =>
      byte_range_from id_index (i + 1) (S depth) count
        (if (i =? id_index)%Z then Some count else start) ts'
  | TEnd :: ts' =>
      match depth with
      | O => Err EIndex
      | S d =>
          match start, d with
          | Some a, O => Ok (a, count)
          | _, _ => byte_range_from id_index (i + 1) d count start ts'
          end
      end
  end.
Definition get_byte_range (ts : list token) (id_index : Z) : result (nat * nat) :=
  byte_range_from id_index 0 0 0 None ts.

(** cairo/text.py:201-218, the loop of compute_subtext_extents.  The characters of the laid
    out line come with their byte offset, x position and width. *)
Fixpoint extents_loop (start stop : nat) (x : option Q) (width : Q)
  (cs : list (nat * Q * Q)) : result (Q * Q) :=
  match cs with
  | [] => match x with Some v => Ok (v, width) | None => Err EAssertion end
  | (off, cx, cw) :: cs' =>
      if Nat.leb start off && Nat.ltb off stop then
        match x with
        | None => if Nat.eqb start off then extents_loop start stop (Some cx) (width + cw) cs'
                  else Err EAssertion
        | Some _ => extents_loop start stop x (width + cw) cs'
        end
      else if Nat.leb stop off then
        match x with Some v => Ok (v, width) | None => Err EAssertion end
      else extents_loop start stop x width cs'
  end.
Definition subtext_extents (cs : list (nat * Q * Q)) (ts : list token) (id_index : Z)
  : result (Q * Q) :=
  do r <- get_byte_range ts id_index;
  extents_loop (fst r) (snd r) None 0 cs.
