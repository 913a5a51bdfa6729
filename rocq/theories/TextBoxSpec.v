(** Specification of the boxes made from parts of a text. *)
From Coq Require Import List ZArith NArith QArith Bool String.
From Verif Require Import Py LayoutModel LayoutSpec SlideModel TextModel TextSpec TextBoxModel.
Import ListNotations.
Local Open Scope Q_scope.

(** The number of line breaks in a token list. *)
Fixpoint line_breaks (ts : list token) : nat :=
  match ts with
  | [] => 0
  | TNewline n :: ts' => (n + line_breaks ts')%nat
  | _ :: ts' => line_breaks ts'
  end.
Definition q_of_nat (n : nat) : Q := inject_Z (Z.of_nat n).

(** A text of height [H] centred vertically in [R] and divided into as many lines of equal
    height as it has: top of line [i], height of one line. *)
Definition one_line (ts : list token) (H : Q) : Q := H / q_of_nat (1 + line_breaks ts).
Definition line_top (ts : list token) (R : rect) (H : Q) (i : Z) : Q :=
  ry R + (rh R - H) / 2 + inject_Z i * one_line ts H.

(** [grown c0 c]: [c] is the box created as [c0], possibly with content added later: what
    was given for its position, size and padding is unchanged. *)
Definition grown (c0 c : layout) : Prop :=
  l_id (head c) = l_id (head c0) /\
  l_x (head c) = l_x (head c0) /\ l_y (head c) = l_y (head c0) /\
  forall a, sv_lazy (size_arg a c) = sv_lazy (size_arg a c0) /\
    sv_ratio (size_arg a c) = sv_ratio (size_arg a c0) /\
    sv_fill (size_arg a c) = sv_fill (size_arg a c0).

(** The positions of the tokens that open style [name], in reading order. *)
Definition opens (name : str) (ts : list token) (k : nat) : bool :=
  match nth_error ts k with Some (TBegin n) => str_eqb n name | _ => false end.
Definition occurrences (name : str) (ts : list token) : list nat :=
  filter (opens name ts) (seq 0 (List.length ts)).

(** The UTF-8 bytes of a text; [range_of ts a b s]: the bytes from [a] to [b] of the text
    of the tokens are those of [s]. *)
Definition range_of (ts : list token) (a b : nat) (s : str) : Prop :=
  exists before bytes after, utf8 (plain ts) = Ok (before ++ bytes ++ after) /\
    List.length before = a /\ List.length (before ++ bytes) = b /\ utf8 s = Ok bytes.

(** The characters of a laid out line: byte offset of each, with its position and width. *)
Fixpoint offsets_from (off : nat) (s : str) (g : list (Q * Q)) (cs : list (nat * Q * Q)) : Prop :=
  match s, g, cs with
  | [], [], [] => True
  | c :: s', (x, w) :: g', (o, x', w') :: cs' =>
      o = off /\ x' = x /\ w' = w /\
      exists bs, utf8_char c = Ok bs /\ offsets_from (off + List.length bs) s' g' cs'
  | _, _, _ => False
  end.
