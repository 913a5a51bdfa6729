(** What texts mean, independently of how they are parsed. *)
From Coq Require Import String List ZArith NArith Bool Arith.
From Verif Require Import Py TextModel.
Import ListNotations.

(** What is seen when tokens are read in order: characters with the styles around them
    (innermost first) and the openings of styles.  A line break has no visible style. *)
Inductive event :=
| Char (c : char) (styles : list str)
| Open (styles : list str).
Definition break : event := Char 10%N [].
Definition seen (st : list str) (c : char) : event :=
  if N.eqb c 10 then break else Char c st.

Fixpoint events (st : list str) (ts : list token) : list event :=
  match ts with
  | [] => []
  | TText s :: ts' => map (seen st) s ++ events st ts'
  | TNewline n :: ts' => repeat break n ++ events st ts'
  | TBegin s :: ts' => Open (s :: st) :: events (s :: st) ts'
  | TEnd :: ts' => events (tl st) ts'
  end.

(** The characters only. *)
Fixpoint chars (evs : list event) : list (char * list str) :=
  match evs with
  | [] => []
  | Char c s :: evs' => (c, s) :: chars evs'
  | Open _ :: evs' => chars evs'
  end.
Definition styled (st : list str) (ts : list token) : list (char * list str) :=
  chars (events st ts).
(** The text only. *)
Definition plain (ts : list token) : str := map fst (styled [] ts).

(** Number of open styles after the tokens, None if one is closed that was not open. *)
Fixpoint nest (n : nat) (ts : list token) : option nat :=
  match ts with
  | [] => Some n
  | TBegin _ :: ts' => nest (S n) ts'
  | TEnd :: ts' => match n with O => None | S k => nest k ts' end
  | _ :: ts' => nest n ts'
  end.
Definition balanced (ts : list token) : Prop := nest 0 ts = Some 0.

(** [l'] is [l] without its trailing line breaks. *)
Definition without_trailing {A} (x : A) (l l' : list A) : Prop :=
  (exists k, l = l' ++ repeat x k) /\ (forall l'', l' <> l'' ++ [x]).

(** No empty texts, no newline character in a text token, no empty newline token. *)
Definition ok_token (t : token) : Prop :=
  match t with
  | TText s => s <> [] /\ ~ In 10%N s
  | TNewline n => 1 <= n
  | _ => True
  end.
Definition clean (ts : list token) : Prop := Forall ok_token ts.

(** ... and no newline token before another one, before an end, or at the end. *)
Definition tidy (ts : list token) : Prop :=
  clean ts /\
  (forall a n u b, ts = a ++ TNewline n :: u :: b -> u <> TEnd /\ forall m, u <> TNewline m) /\
  (forall a n, ts <> a ++ [TNewline n]).

(** Styled documents and how they are written. *)
Inductive doc := DText (s : str) | DStyle (name : str) (ds : list doc).

Section Delimiters.
  Variables esc b e : char.

  Fixpoint print (d : doc) : str :=
    match d with
    | DText s => s
    | DStyle n ds => esc :: n ++ b :: flat_map print ds ++ [e]
    end.
  Definition prints (ds : list doc) : str := flat_map print ds.

  (** A text does not contain the escape character, inside of a style also not the end
      character; a style name does not contain the begin character. *)
  Fixpoint valid (inside : bool) (d : doc) : Prop :=
    match d with
    | DText s => ~ In esc s /\ (inside = true -> ~ In e s)
    | DStyle n ds => ~ In b n /\
        (fix go (l : list doc) : Prop :=
           match l with [] => True | x :: l' => valid true x /\ go l' end) ds
    end.
  Definition valids (inside : bool) (ds : list doc) : Prop := Forall (valid inside) ds.
End Delimiters.

Fixpoint doc_events (st : list str) (d : doc) : list event :=
  match d with
  | DText s => map (seen st) s
  | DStyle n ds => Open (n :: st) :: flat_map (doc_events (n :: st)) ds
  end.
Definition docs_events (st : list str) (ds : list doc) : list event :=
  flat_map (doc_events st) ds.

(** [l] is made of [l1] and [l2], keeping the order of both. *)
Inductive shuffle {A} : list A -> list A -> list A -> Prop :=
| sh_nil : shuffle [] [] []
| sh_left : forall x l1 l2 l, shuffle l1 l2 l -> shuffle (x :: l1) l2 (x :: l)
| sh_right : forall x l1 l2 l, shuffle l1 l2 l -> shuffle l1 (x :: l2) (x :: l).

(** Position by position: the styles of [l] are made of those of [l1] and [l2]. *)
Inductive joined : list (char * list str) -> list (char * list str) ->
  list (char * list str) -> Prop :=
| jo_nil : joined [] [] []
| jo_cons : forall c s s1 s2 l l1 l2, shuffle s1 s2 s -> joined l l1 l2 ->
    joined ((c, s) :: l) ((c, s1) :: l1) ((c, s2) :: l2).

(** At most one style is open at any time. *)
Fixpoint flat (opened : bool) (ts : list token) : Prop :=
  match ts with
  | [] => True
  | TBegin _ :: ts' => opened = false /\ flat true ts'
  | TEnd :: ts' => flat false ts'
  | _ :: ts' => flat opened ts'
  end.

(** The styles open after the tokens. *)
Fixpoint after (st : list str) (ts : list token) : list str :=
  match ts with
  | [] => st
  | TBegin s :: ts' => after (s :: st) ts'
  | TEnd :: ts' => after (tl st) ts'
  | _ :: ts' => after st ts'
  end.

(** Lines of a styled text. *)
Fixpoint lines (l : list (char * list str)) : list (list (char * list str)) :=
  match l with
  | [] => [[]]
  | x :: l' =>
      if N.eqb (fst x) 10 then [] :: lines l'
      else match lines l' with
           | [] => [[x]]
           | a :: ls => (x :: a) :: ls
           end
  end.

(** Lines of a string for Python's splitlines: a line ends at a line boundary character,
    CR LF is one boundary, and there is no line after the last boundary. *)
Definition boundary (c : char) : Prop :=
  In c [10; 11; 12; 13; 28; 29; 30; 133; 8232; 8233]%N.
Inductive has_lines : str -> list str -> Prop :=
| hl_nil : has_lines [] []
| hl_last : forall l, l <> [] -> Forall (fun c => ~ boundary c) l -> has_lines l [l]
| hl_crlf : forall l s ls, Forall (fun c => ~ boundary c) l -> has_lines s ls ->
    has_lines (l ++ 13%N :: 10%N :: s) (l :: ls)
| hl_break : forall l c s ls, Forall (fun c => ~ boundary c) l -> boundary c ->
    (c = 13%N -> forall s', s <> 10%N :: s') -> has_lines s ls ->
    has_lines (l ++ c :: s) (l :: ls).
Definition blank (l : str) : Prop := Forall (fun c => is_space c = true) l.

(** ** Line numbers *)
(** No newline characters in text tokens. *)
Definition no_nl (ts : list token) : Prop := forall s, In (TText s) ts -> ~ In 10%N s.

(** [p] is the printed number [i]: digits of width [w] and a space, in the style of line
    numbers. *)
Definition numbered (w : nat) (i : nat) (p : list (char * list str)) : Prop :=
  exists d, map fst p = d ++ [32%N] /\ length d = w /\
    Forall (fun c => is_digit c = true) d /\ int_of_digits d = Z.of_nat i /\
    Forall (fun x => exists st, snd x = pys "code_lineno"%string :: st) p.

Inductive with_numbers (w : nat) : nat -> list (list (char * list str)) ->
  list (list (char * list str)) -> Prop :=
| wn_nil : forall i, with_numbers w i [] []
| wn_cons : forall i p l ls ls', numbered w i p -> with_numbers w (S i) ls ls' ->
    with_numbers w i (l :: ls) ((p ++ l) :: ls').

