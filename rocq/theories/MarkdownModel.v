(** Model of ext/markdown.py: a parsed document is turned into texts, boxes and lists.

    The parser (marko) is not modelled: documents are trees of its nodes.  The boxes are
    those of SlideModel.v, the lists those of ListModel.v; the styles that are set on boxes
    (markdown.py:66-79 and 103) are those of MdLookModel.v. *)
From Coq Require Import List ZArith NArith QArith Bool String.
From Verif Require Import Py TextModel ShowModel LayoutModel SlideModel ListModel.
Import ListNotations.
Local Open Scope Z_scope.

(** marko's inline nodes: RawText, Emphasis, StrongEmphasis, Link, LineBreak; all others
    (code spans, escaped characters, images, autolinks, HTML) with their text. *)
Inductive inline :=
| IRaw (s : str) | IEmphasis (l : list inline) | IStrong (l : list inline)
| ILink (l : list inline) | IBreak | IOther (s : str).
(** marko's block nodes; [BOther] are those not in MD_BUILD_FNS (markdown.py:132-139).  The
    children of a fenced code block are one RawText.  The items of a list are ListItems. *)
Inductive block :=
| BHeading (level : Z) (l : list inline)
| BParagraph (l : list inline)
| BBlank
| BQuote (bs : list block)
| BFenced (lang text : str)
| BList (ordered : bool) (start : Z) (bullet : str) (items : list (list block))
| BOther.

Definition md_paragraph : str := pys "md-paragraph".
Definition md_bold : str := pys "md-bold".
Definition md_italic : str := pys "md-italic".
Definition md_link : str := pys "md-link".
(** markdown.py:11-14, md_heading_style_name. *)
Definition md_heading (level : Z) : result str :=
  if (1 <=? level) && (level <=? 6) then Ok (pys "md-h" ++ str_of_int level) else Err EAssertion.

(** markdown.py:44-45, wrap_text_with_style. *)
Definition wrap (esc text style : str) : str := esc ++ style ++ pys "{" ++ text ++ pys "}".
(** markdown.py:48-61, get_raw_text: what a child contributes. *)
Fixpoint raw_text (esc : str) (i : inline) : str :=
  match i with
  | IRaw s => s
  | IEmphasis l => wrap esc (flat_map (raw_text esc) l) md_italic
  | IStrong l => wrap esc (flat_map (raw_text esc) l) md_bold
  | ILink l => wrap esc (flat_map (raw_text esc) l) md_link
  | IBreak => [10%N]
  | IOther _ => []
  end.
Definition get_raw_text (esc : str) (l : list inline) : str := flat_map (raw_text esc) l.

(** The slide, the lists, and the texts drawn by markdown: the number of the item, its style
    and its tokens. *)
Record mstate := mkM { m_state : state; m_texts : list (nat * str * list token) }.
(** markdown.py:30-35, the context. *)
Record ctx := mkCtx { cx_box : nat; cx_list : option nat }.

Section RunAll.
  Context {A : Type}.
  Variable f : A -> mstate -> mstate * result unit.
  (** [for x in l: f(x)], up to the first exception. *)
  Fixpoint run_all (l : list A) (m : mstate) : mstate * result unit :=
    match l with
    | [] => (m, Ok tt)
    | x :: l' => match f x m with
                 | (m, Ok _) => run_all l' m
                 | (m, Err e) => (m, Err e)
                 end
    end.
End RunAll.

Section Markdown.
(** The measured width and height of a text; labels are measured in default style. *)
Variable measure_text : str -> list token -> Q * Q.
Variable measure : str -> Q * Q.
(** get_lexer_by_name: raises for unknown names. *)
Variable lexer_of : str -> option (str -> list (str * str)).
Variable esc : str.

(** [container.text(...)], [container.code(...)] with the tokens or the exception. *)
Definition draw (m : mstate) (container : nat) (style : str) (ts : result (list token)) : mstate * result unit :=
  match ts with
  | Err e => (m, Err e)
  | Ok ts =>
      let (w, h) := measure_text style ts in
      match item_call (ls_slide (m_state m)) container (TextItem w h false) with
      | (x, Err e) => (mkM (with_slide (m_state m) x) (m_texts m), Err e)
      | (x, Ok id) => (mkM (with_slide (m_state m) x) (m_texts m ++ [(id, style, ts)]), Ok tt)
      end
  end.
(** A call of ListModel that returns the number of a box or list, and what follows. *)
Definition with_box (m : mstate) (r : state * result nat) (k : nat -> mstate -> mstate * result unit)
  : mstate * result unit :=
  match r with
  | (s, Err e) => (mkM s (m_texts m), Err e)
  | (s, Ok n) => k n (mkM s (m_texts m))
  end.

(** markdown.py:84-86, build_text. *)
Definition build_text (c : ctx) (text style : str) (m : mstate) : mstate * result unit :=
  with_box m (sbox (m_state m) (cx_box c)) (fun container m => draw m container style (text_tokens text esc)).
(** markdown.py:109-111 and boxmixin.py:666-680, code() with its defaults. *)
Definition build_code (c : ctx) (lang text : str) (m : mstate) : mstate * result unit :=
  with_box m (sbox (m_state m) (cx_box c)) (fun container m =>
    draw m container (pys "code")
      (match lang with
       | [] => code_tokens None text 4 false false (pys "~")
       | _ => match lexer_of lang with
              | None => Err EException
              | Some lex => code_tokens (Some lex) text 4 false false (pys "~")
              end
       end)).
(** markdown.py:115-125: the new list. *)
Definition new_list (c : ctx) (container : nat) (ordered : bool) (start : Z) (bullet : str) (s : state)
  : state * result nat :=
  match cx_list c with
  | Some n =>
      if ordered then sublist s n (arabic measure) (Some start) None None (Some []) []
      else sublist s n ListModel.bullet None None (Some (LText bullet)) None []
  | None =>
      if ordered then top_list s container (arabic measure) 10 25 None start None 0 []
      else top_list s container ListModel.bullet 10 25 (Some (LText bullet)) 1 None 0 []
  end.

(** markdown.py:89-129 and 142-147. *)
Fixpoint build (b : block) (c : ctx) (m : mstate) : mstate * result unit :=
  match b with
  | BHeading level l =>
      match md_heading level with
      | Err e => (m, Err e)
      | Ok style => build_text c (get_raw_text esc l) style m
      end
  | BParagraph l => build_text c (get_raw_text esc l) md_paragraph m
  | BBlank => build_text c [10%N] md_paragraph m
  | BQuote bs =>
      with_box m (sbox (m_state m) (cx_box c)) (fun container m =>
        run_all (fun b => build b (mkCtx container (cx_list c))) bs m)
  | BFenced lang text => build_code c lang text m
  | BList ordered start bullet items =>
      with_box m (sbox (m_state m) (cx_box c)) (fun container m =>
        with_box m (new_list c container ordered start bullet (m_state m)) (fun n m =>
          run_all (fun bs m =>
            with_box m (item measure (m_state m) n None None []) (fun box m =>
              run_all (fun b => build b (mkCtx box (Some n))) bs m)) items m))
  | BOther => (m, Ok tt)
  end.
(** markdown.py:174-178: the wrapper box and all blocks; [root] is the object on which
    markdown() works. *)
Definition markdown (root : nat) (doc : list block) (m : mstate) : mstate * result unit :=
  with_box m (box_with (m_state m) root [] []) (fun wrapper m =>
    run_all (fun b => build b (mkCtx wrapper None)) doc m).
End Markdown.
