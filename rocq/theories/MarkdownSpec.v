(** What a markdown document shows, told from the document alone. *)
From Coq Require Import String List ZArith NArith QArith Bool.
From Verif Require Import Py TextModel TextSpec ShowModel LayoutModel SlideModel SlideSpec ListModel MarkdownModel.
Import ListNotations.
Local Open Scope Z_scope.

(** The text of inline nodes with the styles around it (as in TextSpec.v). *)
Fixpoint inline_events (st : list str) (i : inline) : list event :=
  let inside (name : str) (l : list inline) := Open (name :: st) :: flat_map (inline_events (name :: st)) l in
  match i with
  | IRaw s | IOther s => map (seen st) s
  | IEmphasis l => inside (pys "md-italic") l
  | IStrong l => inside (pys "md-bold") l
  | ILink l => inside (pys "md-link") l
  | IBreak => [break]
  end.
Definition inlines_events (l : list inline) : list event := flat_map (inline_events []) l.

Section All.
  Context {A : Type}.
  Variable P : A -> Prop.
  Fixpoint all (l : list A) : Prop := match l with [] => True | x :: l' => P x /\ all l' end.
End All.

(** Nodes of the supported kinds whose texts do not contain the escape character and, in a
    style, no closing brace. *)
Fixpoint ok_inline (esc : char) (inside : bool) (i : inline) : Prop :=
  match i with
  | IRaw s => ~ In esc s /\ (inside = true -> ~ In 125%N s)
  | IEmphasis l | IStrong l | ILink l => all (ok_inline esc true) l
  | IBreak => esc <> 10%N
  | IOther _ => False
  end.
(** Documents that markdown() accepts: such texts, headings 1 to 6, known languages, nested
    ordered lists that do not start before 1. *)
Fixpoint ok_block (lexer_of : str -> option (str -> list (str * str))) (esc : char) (inside : bool) (b : block) : Prop :=
  match b with
  | BHeading k l => 1 <= k <= 6 /\ all (ok_inline esc false) l
  | BParagraph l => all (ok_inline esc false) l
  | BBlank => esc <> 10%N
  | BQuote bs => all (ok_block lexer_of esc inside) bs
  | BFenced lang _ => lang = [] \/ lexer_of lang <> None
  | BList ordered start _ items =>
      (inside = true -> ordered = true -> 1 <= start) /\ all (all (ok_block lexer_of esc true)) items
  | BOther => True
  end.

(** What is on the slide: texts with their style, code, labels of list items; the flag tells
    whether it is in a list. *)
Inductive content := CText (style : str) (evs : list event) | CCode (lang text : str) | CLabel.
Definition mark := (bool * content)%type.

(** In the order of the document. *)
Fixpoint document (inside : bool) (b : block) : list mark :=
  match b with
  | BHeading k l => [(inside, CText (pys "md-h" ++ [Z.to_N (48 + k)]) (inlines_events l))]
  | BParagraph l => [(inside, CText (pys "md-paragraph") (inlines_events l))]
  | BBlank => [(inside, CText (pys "md-paragraph") [break])]
  | BQuote bs => flat_map (document inside) bs
  | BFenced lang t => [(inside, CCode lang t)]
  | BList _ _ _ items => flat_map (fun item => (true, CLabel) :: flat_map (document true) item) items
  | BOther => []
  end.

(** In the order in which markdown() puts it on the slide: the lists in an item of a list come
    after everything else of the item. *)
Fixpoint own (inside : bool) (b : block) : list mark :=
  match b with
  | BQuote bs => flat_map (own inside) bs
  | BList _ _ _ _ => []
  | _ => document inside b
  end.
Fixpoint lists (b : block) : list mark :=
  match b with
  | BQuote bs => flat_map lists bs
  | BList _ _ _ items =>
      flat_map (fun item => (true, CLabel) :: flat_map (own true) item ++ flat_map lists item) items
  | _ => []
  end.
Fixpoint placed (b : block) : list mark :=
  match b with
  | BQuote bs => flat_map placed bs
  | BList _ _ _ _ => lists b
  | _ => document false b
  end.

(** Documents in which the lists in an item are at its end. *)
Definition is_list (b : block) : bool := match b with BList _ _ _ _ => true | _ => false end.
Definition is_other (b : block) : bool := match b with BOther => true | _ => false end.
Fixpoint listless (b : block) : bool :=
  match b with BList _ _ _ _ => false | BQuote bs => forallb listless bs | _ => true end.
Fixpoint lists_last (l : list block) : bool :=
  match l with
  | [] => true
  | b :: l' => if is_list b then forallb (fun x => is_list x || is_other x) l' else lists_last l'
  end.
Fixpoint regular (b : block) : bool :=
  match b with
  | BQuote bs => forallb regular bs
  | BList _ _ _ items =>
      forallb (fun item => lists_last item &&
        forallb (fun b => match b with BQuote _ => listless b | _ => regular b end) item) items
  | _ => true
  end.

(** The item [i] is what the mark says; [texts] are the texts drawn by markdown(). *)
Definition matches (lexer_of : str -> option (str -> list (str * str))) (texts : list (nat * str * list token))
  (i : nat) (c : content) : Prop :=
  match c with
  | CText style evs => exists ts, In (i, style, ts) texts /\ balanced ts /\ without_trailing break evs (events [] ts)
  | CCode lang t => exists ts, In (i, pys "code", ts) texts /\ balanced ts /\
      let code := join_with (repeat 32%N 4) (split_on 9%N t) in
      match lang with
      | [] => without_trailing 10%N code (plain ts)
      | _ => exists lex k, lexer_of lang = Some lex /\ flat_map snd (lex code) = plain ts ++ repeat 10%N k
      end
  | CLabel => forall style ts, ~ In (i, style, ts) texts
  end.

(** The labels of all list items in the order of the document: numbers or bullets. *)
Inductive lab := Num (n : Z) | Bul (s : str).
Section Numbered.
  Variable f : block -> list lab.
  Fixpoint numbered (ordered : bool) (k : Z) (bullet : str) (items : list (list block)) : list lab :=
    match items with
    | [] => []
    | item :: items' =>
        (if ordered then Num k else Bul bullet) :: flat_map f item ++ numbered ordered (k + 1) bullet items'
    end.
End Numbered.
Fixpoint labels (b : block) : list lab :=
  match b with
  | BQuote bs => flat_map labels bs
  | BList ordered start bullet items => numbered labels ordered start bullet items
  | _ => []
  end.
