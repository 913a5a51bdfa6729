(** Model of the placeholders of elsie/ext/todo.py. *)
From Coq Require Import List ZArith NArith QArith Bool String.
From Verif Require Import Py ShowModel LayoutModel SlideModel ListModel ShortModel TextModel.
Import ListNotations.

Section Todo.
(** The width and height of a parsed text: Inkscape's answer and textboxitem.py:66-81, which
    are modelled elsewhere. *)
Variable measure : list token -> Q * Q.

(** [x.m(...)] after the calls so far. *)
Definition then_call {A} (r : slide * result A) (f : slide -> A -> slide * result nat) : slide * result nat :=
  match r with
  | (s, Ok a) => f s a
  | (s, Err e) => (s, Err e)
  end.
(** ext/todo.py:6-9, the text. [name] is None or a string. *)
Definition todo_text (name : option str) : str :=
  match name with
  | None | Some [] => pys "TODO"
  | Some n => pys "TODO" ++ nl :: n
  end.
(** boxmixin.py:755-799, [inner_box.text(text)] with the default style, which is taken to be
    complete. *)
Definition todo_label (s : slide) (r : nat) (text : str) : slide * result nat :=
  match text_tokens text (pys "~") with
  | Err e => (s, Err e)
  | Ok ts => item_call s r (TextItem (fst (measure ts)) (snd (measure ts)) false)
  end.
(** ext/todo.py:1-13, todo_placeholder, on the object [r]. [own] is the attribute [box.name]:
    an error if the object has none (items have none). The colours of the rectangles are not
    modelled here. *)
Definition todo_placeholder (s : slide) (r : nat) (name : option str) (own : result (option str))
  : slide * result nat :=
  match (match name with None => own | Some n => Ok (Some n) end) with
  | Err e => (s, Err e)
  | Ok name =>
      then_call (fbox s r [Kpadding (Some 3)]) (fun s todo_box =>
      then_call (item_call s todo_box Shape) (fun s _ =>
      then_call (fbox s todo_box [Kpadding (Some 20)]) (fun s inner_box =>
      then_call (item_call s inner_box Shape) (fun s _ =>
      then_call (todo_label s inner_box (todo_text name)) (fun s _ =>
      (s, Ok todo_box))))))
  end.
End Todo.
