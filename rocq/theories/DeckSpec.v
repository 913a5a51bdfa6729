(** What the deck and the pages should be, independently of the code. *)
From Coq Require Import List ZArith QArith NArith Bool String.
From Verif Require Import Py XmlModel XmlSpec DeckModel.
Import ListNotations.

(** ** Names *)

(** The slides (without PDFs), their names, and the slides without a name. *)
Definition slides_of (l : list entry) : list slide_obj :=
  flat_map (fun e => match e with ESlide s => [s] | EPdf _ => [] end) l.
Definition names (l : list entry) : list str :=
  flat_map (fun s => match so_name s with Name n => [n] | _ => [] end) (slides_of l).
(** The entries other than slides named [n]. *)
Definition not_named (n : str) (e : entry) : bool :=
  match e with
  | ESlide s => match so_name s with Name m => negb (str_eqb m n) | _ => true end
  | EPdf _ => true
  end.
Definition no_pdf (l : list entry) : Prop := Forall (fun e => exists s, e = ESlide s) l.
(** [empty p]: a new deck with policy [p]. *)
Definition empty (p : policy) : deck := mkDeck p [] 0.

(** ** Pages *)

(** The pages of some entries: every fragment of every slide in order; a PDF counts once
    (all its pages are taken over by the merger). *)
Definition pages (steps : slide_obj -> Z) (l : list entry) : list (entry * Z) :=
  flat_map (fun e => match e with
                     | ESlide s => map (fun k => (e, Z.of_nat k)) (seq 1 (Z.to_nat (steps s)))
                     | EPdf _ => [(e, 1%Z)]
                     end) l.

(** The files that render() passed to the merger. *)
Definition written (es : list event) : list (list str) :=
  flat_map (fun e => match e with EvWrite fs => [fs] | _ => [] end) es.
Definition debug_files (es : list event) : list (nat * Z) :=
  flat_map (fun e => match e with EvDebugFile f => [f] | _ => [] end) es.

(** ** Grids *)

(** [pieces n xss xs]: [xs] cut in pieces of [n], only the last of which may be shorter;
    no piece is empty. *)
Inductive pieces {A} (n : nat) : list (list A) -> list A -> Prop :=
| pieces_nil : pieces n [] []
| pieces_last : forall x xs, (List.length (x :: xs) <= n)%nat -> pieces n [x :: xs] (x :: xs)
| pieces_full : forall x xss xs, List.length x = n -> xss <> [] -> pieces n xss xs ->
    pieces n (x :: xss) (x ++ xs).

(** Number [i] of a list laid out row by row in [columns] columns: column and row. *)
Definition column (columns i : nat) : nat := (i mod columns)%nat.
Definition row (columns i : nat) : nat := (i / columns)%nat.

Section Grid.
Variable fmt : Q -> str.
Variables width height : Q.
Variables columns rows : nat.
(** The content of a page with the given slides. *)
Definition shift (i : nat) : str :=
  pys "translate(" ++ fmt (inject_Z (Z.of_nat (column columns i)) * width) ++ pys ", " ++
  fmt (inject_Z (Z.of_nat (row columns i)) * height) ++ pys ")".
Definition cell (i : nat) (content : list node) : node :=
  NElem (pys "g") [(pys "transform", shift i)] content.
Fixpoint cells (i : nat) (contents : list (list node)) : list node :=
  match contents with
  | [] => []
  | c :: cs => cell i c :: cells (S i) cs
  end.
Definition sheet (contents : list (list node)) : node :=
  NElem (pys "svg")
    [(pys "xmlns", pys "http://www.w3.org/2000/svg");
     (pys "xmlns:xlink", pys "http://www.w3.org/1999/xlink");
     (pys "width", fmt (width * inject_Z (Z.of_nat columns)));
     (pys "height", fmt (height * inject_Z (Z.of_nat rows)))] (cells 0 contents).
(** [is_page u contents]: the unit [u] is an SVG that reads as a sheet with the contents. *)
Definition is_page (u : runit) (contents : list (list node)) : Prop :=
  exists out, u = USvg None out /\ read out = Some [sheet contents].
End Grid.
