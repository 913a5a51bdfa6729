(** Model of the styles in ext/markdown.py: which style objects and style dictionaries the
    texts of a document get.  MarkdownModel.v has the boxes and texts without styles; here the
    same functions are walked through once more with the store of StyleModel.v, one action for
    every call that makes a box or touches a style.  Boxes are their style containers. *)
From Coq Require Import List ZArith NArith QArith Bool String.
From Verif Require Import Py ListModel StyleModel MarkdownModel.
Import ListNotations.
Local Open Scope Z_scope.

(** A text that was drawn: the name of its style, the style object that text() and code() give
    to the item, and the dictionary it keeps for inline styles (boxmixin.py:750, 789-797). *)
Record look := mkLook { lk_name : str; lk_style : nat; lk_dict : nat }.

(** Programs that act on the store and may raise. *)
Definition prog (A : Type) : Type := world -> world * result A.
Definition pret {A} (x : A) : prog A := fun w => (w, Ok x).
Definition praise {A} (e : exn) : prog A := fun w => (w, Err e).
Definition pbind {A B} (p : prog A) (f : A -> prog B) : prog B := fun w =>
  match p w with
  | (w', Ok x) => f x w'
  | (w', Err e) => (w', Err e)
  end.
Definition does (a : action) : prog nat := fun w => act w a.

Section Each.
  Context {A : Type}.
  Variable f : A -> prog (list look).
  (** [for x in l: ...], with the texts that were drawn. *)
  Fixpoint each (l : list A) : prog (list look) :=
    match l with
    | [] => pret []
    | x :: l' => pbind (f x) (fun a => pbind (each l') (fun b => pret (a ++ b)))
    end.
End Each.

Definition md_blockquote : str := pys "md-blockquote".
(** [TextStyle(align="left")], and the other arguments of markdown.py:66-75. *)
Definition left_args : style := put no_args Align (PStr (pys "left")).
Definition md_args : list (str * style) :=
  [(md_paragraph, no_args);
   (md_bold, put no_args Bold (PBool true));
   (md_italic, put no_args Italic (PBool true));
   (md_link, put no_args Color (PStr (pys "#0EBFE9")));
   (md_blockquote, put no_args Color (PStr (pys "#A9A9A9")))] ++
  map (fun i => (pys "md-h" ++ str_of_int (i + 1), put no_args Size (PNum (inject_Z (40 - i * 2)))))
    [0; 1; 2; 3; 4; 5].

(** markdown.py:65-75: [default.compose(s(...))] for every entry. *)
Fixpoint make_styles (default : nat) (l : list (str * style)) : prog (list (str * nat)) :=
  match l with
  | [] => pret []
  | (n, args) :: l' =>
      pbind (does (AStyle args)) (fun e =>
      pbind (does (ACompose default e)) (fun k =>
      pbind (make_styles default l') (fun r => pret ((n, k) :: r))))
  end.
(** markdown.py:77-79. *)
Fixpoint set_missing (box : nat) (l : list (str * nat)) : prog unit :=
  match l with
  | [] => pret tt
  | (n, k) :: l' =>
      pbind (fun w => if has_style w box n then (w, Ok k) else act w (ASetStyle box n k default_))
        (fun _ => set_missing box l')
  end.
(** markdown.py:64-81, create_root_md_box. *)
Definition create_root_md_box (root : nat) : prog nat :=
  pbind (does (ANewBox root)) (fun box =>
  pbind (does (AStyle left_args)) (fun default =>
  pbind (make_styles default md_args) (fun styles =>
  pbind (set_missing box styles) (fun _ => pret box)))).

(** boxmixin.py:750 and 789-798: the style of a text and the dictionary it keeps. *)
Definition draw_look (box : nat) (name : str) : prog (list look) :=
  pbind (does (AGet box (ByName name) true)) (fun k w => (w, Ok [mkLook name k (dict_of w box)])).
(** markdown.py:84-86 and 109-111: a new box with a text in it. *)
Definition text_look (box : nat) (name : str) : prog (list look) :=
  pbind (does (ANewBox box)) (fun container => draw_look container name).

(** list.py:135-159, item() with the label of the list, which is never None here (list.py:170,
    217, 250): the box of the item, its label, and the box for its content. *)
Definition item_look (parent : nat) : prog (nat * list look) :=
  pbind (does (ANewBox parent)) (fun box =>
  pbind (does (AStyle left_args)) (fun k =>
  pbind (does (AUpdateStyle box default_ k)) (fun _ =>
  pbind (does (ANewBox box)) (fun label_box =>
  pbind (draw_look label_box default_) (fun l =>
  pbind (does (ANewBox box)) (fun content => pret (content, l))))))).

(** markdown.py:89-147: a block in [box]; [lst] is the box of the active list (list.py:29).
    Only styles can raise here, and the numbers that headings and sublists (list.py:163-164)
    reject; texts that cannot be parsed are left to MarkdownModel.v. *)
Fixpoint build_look (b : block) (box : nat) (lst : option nat) : prog (list look) :=
  match b with
  | BHeading level _ =>
      match md_heading level with
      | Err e => praise e
      | Ok style => text_look box style
      end
  | BParagraph _ => text_look box md_paragraph
  | BBlank => text_look box md_paragraph
  | BQuote bs =>
      pbind (does (ANewBox box)) (fun container =>
      pbind (does (AGet container (ByName md_blockquote) false)) (fun k =>
      pbind (does (AUpdateStyle container default_ k)) (fun _ =>
      each (fun b => build_look b container lst) bs)))
  | BFenced _ _ => text_look box (pys "code")
  | BList ordered start _ items =>
      pbind (does (ANewBox box)) (fun container =>
      pbind (match lst with
             | Some p => if ordered && (start <? 1) then praise EAssertion else does (ANewBox p)
             | None => does (ANewBox container)
             end) (fun parent =>
      each (fun bs =>
        pbind (item_look parent) (fun r =>
        pbind (each (fun b => build_look b (fst r) (Some parent)) bs) (fun l => pret (snd r ++ l)))) items))
  | BOther => pret []
  end.
(** markdown.py:174-179. *)
Definition markdown_look (root : nat) (doc : list block) : prog (list look) :=
  pbind (create_root_md_box root) (fun wrapper => each (fun b => build_look b wrapper None) doc).
