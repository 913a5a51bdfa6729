(** Model of the frames that debug_boxes shows: Box.get_painters with the depth of boxes. *)
From Coq Require Import List ZArith NArith QArith Bool String.
From Verif Require Import Py ShowModel LayoutModel SlideModel.
Import ListNotations.

(** A painter, for a frame with the depth that its closure has captured. *)
Inductive dpainter := DItem (i : nat) (z : Z) | DFrame (i : nat) (z : Z) (depth : nat).
Definition no_depth (p : dpainter) : painter :=
  match p with DItem i z => PItem i z | DFrame i z _ => PFrame i z end.
(** box.py:80-96, Box.get_painters; the closure of a frame gets [depth - 1] where [depth] has
    been increased before. *)
Fixpoint get_painters_at (debug : bool) (step : Z) (depth : nat) (n : node) : list dpainter :=
  match n with
  | NItem i z => [DItem i z]
  | NBox b cs =>
      if is_visible (b_show b) step then
        let depth := S depth in
        flat_map (get_painters_at debug step depth) cs ++
        (if debug then [DFrame (b_id b) (b_z b) (depth - 1)] else [])
      else []
  end.
(** The stable sort by level of backend.py:77 (cairo/backend.py:25). *)
Fixpoint insert_at (p : dpainter) (l : list dpainter) : list dpainter :=
  match l with
  | [] => [p]
  | q :: l' => if (painter_z (no_depth p) <=? painter_z (no_depth q))%Z then p :: l else q :: insert_at p l'
  end.
Fixpoint sort_at (l : list dpainter) : list dpainter :=
  match l with [] => [] | p :: l' => insert_at p (sort_at l') end.
Definition page_at (debug : bool) (s : slide) (step : Z) : list dpainter :=
  sort_at (get_painters_at debug step 0 (sl_box s)).
