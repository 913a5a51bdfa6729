(** Model of elsie/utils/sxml.py: the XML writer. *)
From Coq Require Import List NArith Bool String.
From Verif Require Import Py.
Import ListNotations.

(** [text.replace(c, by)] for a one character [c]. *)
Fixpoint replace_char (c : char) (by_ : str) (s : str) : str :=
  match s with
  | [] => []
  | x :: s' => if N.eqb x c then by_ ++ replace_char c by_ s' else x :: replace_char c by_ s'
  end.

(** sxml.py:61-65, escape_text. *)
Definition escape_text (s : str) : str :=
  let s := replace_char 38 (pys "&amp;") s in
  let s := replace_char 60 (pys "&lt;") s in
  replace_char 62 (pys "&gt;") s.

(** sxml.py:1-5, an Xml object: the chunks in order, the stack (top first), is_open. *)
Record xml := mkXml { x_chunks : list str; x_stack : list str; x_open : bool }.
Definition new_xml : xml := mkXml [] [] false.

Definition put_chunks (x : xml) (l : list str) : xml :=
  mkXml (x_chunks x ++ l) (x_stack x) (x_open x).

(** sxml.py:7-10, _close. *)
Definition close_tag (x : xml) : xml :=
  if x_open x then mkXml (x_chunks x ++ [pys ">"]) (x_stack x) false else x.
(** sxml.py:12-14, raw_text. *)
Definition raw_text (x : xml) (t : str) : result xml := Ok (put_chunks (close_tag x) [t]).
(** sxml.py:16-21, element. *)
Definition element (x : xml) (name : str) : result xml :=
  let x := put_chunks (close_tag x) [pys "<"; name] in
  Ok (mkXml (x_chunks x) (name :: x_stack x) true).
(** sxml.py:23-27, set; [value] is [str(value)]. *)
Definition set_ (x : xml) (name value : str) (escape : bool) : result xml :=
  if x_open x then
    let value := if escape then replace_char 39 (pys "\'") value else value in
    Ok (put_chunks x [pys " " ++ name ++ pys "='" ++ escape_text value ++ pys "'"])
  else Err EAssertion.
(** sxml.py:29-33, text; [t] is [str(text)]. *)
Definition text_ (x : xml) (t : str) : result xml :=
  Ok (put_chunks (close_tag x) [replace_char 32 (pys "&#160;") (escape_text t)]).
(** sxml.py:35-48, close. *)
Definition close (x : xml) (name : option str) : result xml :=
  match x_stack x with
  | [] => Err EAssertion
  | top :: rest =>
      if match name with Some n => negb (str_eqb top n) | None => false end then Err EException
      else if x_open x then Ok (mkXml (x_chunks x ++ [pys " />"]) rest false)
      else Ok (mkXml (x_chunks x ++ [pys "</"; top; pys ">"]) rest false)
  end.
(** sxml.py:50-52, to_string; write (54-58) writes the same characters to a file. *)
Definition to_string (x : xml) : result str :=
  match x_stack x with [] => Ok (List.concat (x_chunks x)) | _ => Err EAssertion end.

(** A call of a method of the writer. *)
Inductive xcall :=
| CRaw (t : str) | CElement (name : str) | CSet (name value : str) (escape : bool)
| CText (t : str) | CClose (name : option str).
Definition xdo (x : xml) (c : xcall) : result xml :=
  match c with
  | CRaw t => raw_text x t
  | CElement n => element x n
  | CSet n v e => set_ x n v e
  | CText t => text_ x t
  | CClose n => close x n
  end.
Fixpoint xrun (x : xml) (cs : list xcall) : result xml :=
  match cs with
  | [] => Ok x
  | c :: cs' => do x' <- xdo x c; xrun x' cs'
  end.
