(** Model of the styles of a deck (slides/slidedeck.py:82-103) and of the styles for
    highlighted code (text/highlight.py:40-51). *)
From Coq Require Import List ZArith NArith QArith Bool String.
From Verif Require Import Py StyleModel TextModel.
Import ListNotations.

(** What a style of pygments says about a type of tokens: the colour is six hexadecimal digits,
    '' or None. *)
Record entry := mkEntry { e_color : option str; e_bold : bool; e_italic : bool }.
(** The style as it is iterated over: str(token) and the entry. *)
Definition theme := list (str * entry).

(** highlight.py:43-49: the style of one type of tokens. *)
Definition highlight_style (e : entry) : result style :=
  do s0 <- make_style no_args;
  do s1 <- match e_color e with
           | Some (c :: r) => set_attr s0 Color (PStr (pys "#" ++ c :: r))
           | _ => Ok s0
           end;
  do s2 <- if e_bold e then set_attr s1 Bold (PBool true) else Ok s1;
  if e_italic e then set_attr s2 Italic (PBool true) else Ok s2.

(** Dictionaries of styles; the first entry of a key counts, so an assignment is put in front. *)
Definition styles_dict := list (str * style).

(** highlight.py:40-51, make_highlight_styles. *)
Fixpoint highlight_from (th : theme) (results : styles_dict) : result styles_dict :=
  match th with
  | [] => Ok results
  | (token, e) :: th' =>
      do s <- highlight_style e;
      highlight_from th' ((pygments_ ++ token, s) :: results)
  end.
Definition make_highlight_styles (th : theme) : result styles_dict := highlight_from th [].

(** slidedeck.py:82-101: the literal dictionary. *)
Definition args (font size align spacing color bold italic variant : pyval) : style :=
  mkStyle font size align spacing color bold italic variant PNone (PNum 0).
Definition word (s : string) : pyval := PStr (pys s).
Definition basic_styles : list (str * style) :=
  [(pys "default", args (word "sans-serif") (PNum 28) (word "middle") (PNum (6 # 5)) (word "black") PNone PNone (word "lining-nums"));
   (pys "tt", args (word "monospace") PNone PNone PNone PNone PNone PNone PNone);
   (pys "emph", args PNone PNone PNone PNone PNone PNone (PBool true) PNone);
   (pys "alert", args PNone PNone PNone PNone (word "red") (PBool true) PNone PNone);
   (pys "code", args (word "monospace") (PNum 20) (word "left") (PNum (6 # 5)) (word "#222") PNone PNone PNone);
   (pys "code_lineno", args PNone PNone PNone PNone (word "gray") PNone PNone PNone)]%string.
Fixpoint make_all (l : list (str * style)) : result styles_dict :=
  match l with
  | [] => Ok []
  | (n, a) :: l' => do s <- make_style a; do r <- make_all l'; Ok ((n, s) :: r)
  end.
(** slidedeck.py:102, update: all entries of the second dictionary are assigned. *)
Definition dict_update (d other : styles_dict) : styles_dict := other ++ d.
Definition deck_styles (th : theme) : result styles_dict :=
  do basic <- make_all basic_styles;
  do hl <- make_highlight_styles th;
  Ok (dict_update basic hl).
