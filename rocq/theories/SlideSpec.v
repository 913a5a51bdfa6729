(** Specification vocabulary for slides. *)
From Coq Require Import List ZArith NArith QArith Bool.
From Verif Require Import Py ShowModel ShowSpec LayoutModel LayoutSpec SlideModel.
Import ListNotations.
Open Scope Z_scope.

(** The box tree with a hole: the boxes around the hole, innermost first, with the
    children before and after it. *)
Definition context := list (bhead * list node * list node).
Fixpoint fill (C : context) (n : node) : node :=
  match C with
  | [] => n
  | (b, pre, post) :: C' => fill C' (NBox b (pre ++ n :: post))
  end.

(** [found n b cs r]: the object [r] of the tree [n] is the box [b] with children [cs], or
    an item among these children; [C] is what surrounds the box. *)
Definition found (n : node) (r : nat) (C : context) (b : bhead) (cs : list node) : Prop :=
  n = fill C (NBox b cs) /\ (b_id b = r \/ exists z, In (NItem r z) cs).

(** [under bs i z n]: the item [i] of level [z] is in the tree [n], inside the boxes [bs]
    (outermost first). *)
Inductive under : list bhead -> nat -> Z -> node -> Prop :=
| un_item : forall i z, under [] i z (NItem i z)
| un_box : forall bs i z b cs c, In c cs -> under bs i z c -> under (b :: bs) i z (NBox b cs).

(** [box_in b n]: the box [b] is in the tree. *)
Inductive box_in : bhead -> node -> Prop :=
| bi_here : forall b cs, box_in b (NBox b cs)
| bi_kid : forall b d cs c, In c cs -> box_in b c -> box_in b (NBox d cs).

(** All numbers in a tree. *)
Fixpoint node_ids (n : node) : list nat :=
  match n with
  | NItem i _ => [i]
  | NBox b cs => b_id b :: flat_map node_ids cs
  end.

(** The whole tree in depth first order, each painter with the boxes around it (outermost
    first), starting from the boxes [bs]; a frame is painted after the content of its box. *)
Fixpoint walk (debug : bool) (bs : list bhead) (n : node) : list (list bhead * painter) :=
  match n with
  | NItem i z => [(bs, PItem i z)]
  | NBox b cs =>
      flat_map (walk debug (bs ++ [b])) cs ++
      (if debug then [(bs ++ [b], PFrame (b_id b) (b_z b))] else [])
  end.

(** [mentions_frag c cur k]: the call [c], made when the current fragment is [cur],
    mentions fragment [k]. *)
Definition mentions_frag (c : call) (cur k : Z) : Prop :=
  match c with
  | CBox _ a =>
      match ba_show a with
      | ShowNone => k = 1
      | ShowInt n => k = n
      | ShowStr s => exists xs x, selectors_text xs s /\ In x xs /\ mentions (Some cur) x k
      | ShowOther => False
      end
  | CItem _ (ImageItem _ _ (Some n)) => k = n
  | CItem _ _ => False
  end.

(** [history s h s']: from [s], the successful calls [h], each with the current fragment
    and the number of the new object, lead to [s'] (last call first). *)
Inductive history (s : slide) : list (call * Z * nat) -> slide -> Prop :=
| hi_nil : history s [] s
| hi_cons : forall h s1 c s2 i, history s h s1 -> perform s1 c = (s2, Ok i) ->
    history s ((c, current_fragment s1, i) :: h) s2.

(** Reachable by any calls, including rejected ones. *)
Inductive reachable (s : slide) : slide -> Prop :=
| re_nil : reachable s s
| re_cons : forall s1 c s2 r, reachable s s1 -> perform s1 c = (s2, r) -> reachable s s2.

(** Parent-child edges between boxes, and between layouts. *)
Fixpoint box_edges (n : node) : list (nat * nat) :=
  match n with
  | NItem _ _ => []
  | NBox b cs =>
      flat_map (fun c => match c with NItem _ _ => [] | NBox d _ => [(b_id b, b_id d)] end) cs
      ++ flat_map box_edges cs
  end.
Fixpoint layout_edges (l : layout) : list (nat * nat) :=
  let (h, cs) := l in
  map (fun c => (l_id h, l_id (head c))) cs ++ flat_map layout_edges cs.
