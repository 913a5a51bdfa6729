(** Specification vocabulary for the layout: what a user can observe of a laid out tree
    (rectangles), independent of how set_rect computes it. *)
From Coq Require Import List ZArith QArith Bool.
From Verif Require Import Py LayoutModel.
Import ListNotations.
Open Scope Q_scope.

Inductive axis := X | Y.
Definition other (a : axis) : axis := match a with X => Y | Y => X end.

Definition start (a : axis) (r : rect) : Q := match a with X => rx r | Y => ry r end.
Definition extent (a : axis) (r : rect) : Q := match a with X => rw r | Y => rh r end.
Definition stop (a : axis) (r : rect) : Q := start a r + extent a r.

(** The axis along which the children of a box are stacked. *)
Definition stack_axis (l : layout) : axis := if l_horizontal (head l) then X else Y.

Definition size_arg (a : axis) (l : layout) : size_value :=
  match a with X => l_width (head l) | Y => l_height (head l) end.
Definition pos_arg (a : axis) (l : layout) : option pos_value :=
  match a with X => l_x (head l) | Y => l_y (head l) end.
Definition pad_before (a : axis) (l : layout) : Q :=
  match a with X => l_left (head l) | Y => l_top (head l) end.
Definition pad_after (a : axis) (l : layout) : Q :=
  match a with X => l_right (head l) | Y => l_bottom (head l) end.
Definition pad (a : axis) (l : layout) : Q := pad_before a l + pad_after a l.

(** The children that are stacked: those without a position on the stacking axis. *)
Definition stacked (l : layout) : list layout :=
  filter (fun c => match pos_arg (stack_axis l) c with None => true | Some _ => false end)
    (kids l).

(** The content area of a box after layout, and the rectangle it was allotted by its
    parent: the content area grown by the paddings. *)
Definition area (l : layout) (s : store) : option rect := st_rect s (l_id (head l)).
Definition grow (l : layout) (r : rect) : rect :=
  mkRect (rx r - l_left (head l)) (ry r - l_top (head l))
         (rw r + l_left (head l) + l_right (head l))
         (rh r + l_top (head l) + l_bottom (head l)).
Definition outer (l : layout) (s : store) (o : rect) : Prop :=
  exists r, area l s = Some r /\ o = grow l r.

(** Equality of rectangles as rational numbers. *)
Definition req (a b : rect) : Prop :=
  rx a == rx b /\ ry a == ry b /\ rw a == rw b /\ rh a == rh b.

(** [tiles a rs p q]: along axis [a] the rectangles [rs] follow each other without gap or
    overlap from [p] to [q]. *)
Fixpoint tiles (a : axis) (rs : list rect) (p q : Q) : Prop :=
  match rs with
  | [] => p == q
  | r :: rs' => start a r == p /\ tiles a rs' (stop a r) q
  end.

(** Kinds of sizes. *)
Definition is_fill (v : size_value) : bool := negb (sv_fill v =? 0)%Z.
Definition is_lazy (v : size_value) : bool :=
  match sv_lazy v with Some _ => true | None => false end.
(** A size given by a number, or not given. *)
Definition is_natural (v : size_value) : Prop :=
  sv_lazy v = None /\ sv_fill v = 0%Z /\ (sv_ratio v = None \/ exists q, sv_ratio v = Some q /\ q == 0).

(** The space a box asks for along an axis: at least its own minimum (size argument,
    text, image), and at least what its stacked children ask for (the sum along the
    stacking axis, the maximum across) plus its padding. *)
Fixpoint demand (a : axis) (l : layout) : Q :=
  let (h, cs) := l in
  let ds :=
    (fix go (cs : list layout) : list Q :=
       match cs with
       | [] => []
       | c :: cs' =>
           match pos_arg (if l_horizontal h then X else Y) c with
           | None => demand a c :: go cs'
           | Some _ => go cs'
           end
       end) cs in
  let content :=
    match a, l_horizontal h with
    | X, true | Y, false => fold_right Qplus 0 ds
    | _, _ => match ds with [] => 0 | d :: ds' => fold_right qmax d ds' end
    end in
  qmax (sv_min (size_arg a l)) (content + pad a l).

(** All identities in a tree. *)
Fixpoint ids (l : layout) : list nat :=
  let (h, cs) := l in
  l_id h :: (fix go (cs : list layout) : list nat :=
               match cs with [] => [] | c :: cs' => ids c ++ go cs' end) cs.

(** [within c l]: [c] is [l] or a descendant of [l]. *)
Inductive within : layout -> layout -> Prop :=
| within_refl : forall l, within l l
| within_kid : forall c d h cs, In d cs -> within c d -> within c (Node h cs).

(** No box of the tree has a size or position given by a lazy value. *)
Definition static_head (h : lhead) : Prop :=
  sv_lazy (l_width h) = None /\ sv_lazy (l_height h) = None /\
  (forall f, l_x h <> Some (PosLazy f)) /\ (forall f, l_y h <> Some (PosLazy f)).
Definition static (l : layout) : Prop := forall c, within c l -> static_head (head c).

(** Meaning of a position argument: where the allotted rectangle [o] must start inside
    the content area [R] of the parent. *)
Definition placed_at (a : axis) (p : pos_value) (R o : rect) (st : store) : Prop :=
  match p with
  | PosFix q => start a o == start a R + q
  | PosRatio q => start a o == start a R + extent a R * q
  | PosAlign q => start a o == start a R + (extent a R - extent a o) * q
  | PosLazy f => exists v, f st = Ok v /\ start a o == v
  | PosEmpty => False
  end.

(** Meaning of a size argument of box [c]: the extent of its allotted rectangle [o], when
    the box does not compete for the free space of the stacking axis. *)
Definition sized_as (a : axis) (c : layout) (R o : rect) (st : store) : Prop :=
  let v := size_arg a c in
  match sv_lazy v with
  | Some f => exists q, f st = Ok q /\ extent a o == q
  | None =>
      if is_fill v then extent a o == extent a R
      else match sv_ratio v with
           | Some q => (q == 0 /\ extent a o == demand a c) \/
                       (~ q == 0 /\ extent a o == qmax (extent a R * q) (demand a c))
           | None => extent a o == demand a c
           end
  end.

(** A box with default position, a number (or nothing) as sizes, and no negative numbers. *)
Definition natural_box (c : layout) : Prop :=
  forall a, pos_arg a c = None /\ is_natural (size_arg a c) /\
            0 <= sv_min (size_arg a c) /\ 0 <= pad_before a c /\ 0 <= pad_after a c.

(** All boxes strictly inside [l] are natural. *)
Definition natural_inside (l : layout) : Prop :=
  forall p d, within p l -> In d (kids p) -> natural_box d.

Definition inside (o R : rect) : Prop :=
  forall a, start a R <= start a o /\ stop a o <= stop a R.

Definition translate (v : axis -> Q) (r : rect) : rect :=
  mkRect (rx r + v X) (ry r + v Y) (rw r) (rh r).

(** Before the first render no rectangle is known. *)
Definition fresh (s : store) : Prop := forall i, st_rect s i = None.

(** [inserted c l l']: [l'] is [l] with the box [c] added among the children of some box. *)
Inductive inserted (c : layout) : layout -> layout -> Prop :=
| ins_here : forall h cs1 cs2, inserted c (Node h (cs1 ++ cs2)) (Node h (cs1 ++ c :: cs2))
| ins_deep : forall h cs1 d d' cs2, inserted c d d' ->
    inserted c (Node h (cs1 ++ d :: cs2)) (Node h (cs1 ++ d' :: cs2)).

(** The texts of a tree that are scaled to fit. *)
Definition text_of (t : nat) (l : layout) : Prop :=
  exists c, within c l /\ In t (l_texts (head c)).

(** The lazy values used by a box. *)
Definition lazy_in (f : lazy) (h : lhead) : Prop :=
  l_x h = Some (PosLazy f) \/ l_y h = Some (PosLazy f) \/
  sv_lazy (l_width h) = Some f \/ sv_lazy (l_height h) = Some f.

(** Two stores agree except on the boxes and texts of [c]. *)
Definition agree_outside (c : layout) (s1 s2 : store) : Prop :=
  (forall i, ~ In i (ids c) -> st_rect s1 i = st_rect s2 i) /\
  (forall t, ~ text_of t c -> st_text s1 t = st_text s2 t).

(** The lazy values of [l] do not look at [c]. *)
Definition ignores (c l : layout) : Prop :=
  forall b f, within b l -> lazy_in f (head b) ->
  forall s1 s2, agree_outside c s1 s2 -> f s1 = f s2.

(** [earlier owner S st]: what has been computed in [st] is still so in [S]; [owner t] is
    the box that holds text [t]. *)
Definition earlier (owner : nat -> nat) (S st : store) : Prop :=
  forall i r, st_rect st i = Some r ->
    st_rect S i = Some r /\ (forall t, owner t = i -> st_text st t = st_text S t).

(** Every text item belongs to the box that runs its callback. *)
Definition owned (owner : nat -> nat) (l : layout) : Prop :=
  forall c, within c l -> forall t, In t (l_texts (head c)) -> owner t = l_id (head c).

(** The lazy values a user can build and pass to a child of box [i]: coordinates of any
    box, functions of them, constants, and places in a text of box [i] (line_box and
    inline_box create a child of the box that holds the text). *)
Inductive user_lazy (owner : nat -> nat) (i : nat) : lazy -> Prop :=
| ul_x : forall j p, (forall f, p = PosLazy f -> user_lazy owner i f) ->
    user_lazy owner i (layout_x j p)
| ul_y : forall j p, (forall f, p = PosLazy f -> user_lazy owner i f) ->
    user_lazy owner i (layout_y j p)
| ul_map : forall g f, user_lazy owner i f -> user_lazy owner i (lazy_map g f)
| ul_const : forall r, user_lazy owner i (fun _ => r)
| ul_text : forall t g, owner t = i -> user_lazy owner i (fun s =>
    match st_rect s i with Some r => g r (st_text s t) | None => Err EAttribute end)
| ul_text_size : forall t g, owner t = i -> user_lazy owner i (fun s => Ok (g (st_text s t))).

(** Every lazy value of the tree was built by the user in one of these ways. *)
Definition user_tree (owner : nat -> nat) (l : layout) : Prop :=
  forall p c f, within p l -> In c (kids p) -> lazy_in f (head c) ->
  user_lazy owner (l_id (head p)) f.

(** No box holds a text that is scaled to fit. *)
Definition no_scaled_text (l : layout) : Prop :=
  forall c, within c l -> l_texts (head c) = [].

(** [precedes i j l]: the box [i] comes before the box [j] when the tree is walked from
    the root, each box before its children. *)
Definition precedes (i j : nat) (l : layout) : Prop :=
  exists pre post, ids l = pre ++ j :: post /\ In i pre.

(** The texts that are scaled to fit, in the order of the walk. *)
Fixpoint texts (l : layout) : list nat :=
  let (h, cs) := l in
  l_texts h ++ (fix go (cs : list layout) : list nat :=
                  match cs with [] => [] | c :: cs' => texts c ++ go cs' end) cs.

(** A padding argument resolves to the specific value, else to the one of the axis, else
    to the common one, else to 0. *)
Inductive resolves : option Q -> option Q -> option Q -> Q -> Prop :=
| res_specific : forall q b c, resolves (Some q) b c q
| res_axis : forall q c, resolves None (Some q) c q
| res_common : forall q, resolves None None (Some q) q
| res_none : resolves None None None 0.

(** A box that is positioned explicitly on both axes. *)
Definition positioned (c : layout) : Prop := forall a, pos_arg a c <> None.

(** A vertical position in a horizontal box that depends on the height of the parent. *)
Definition skewed (a : axis) (l : layout) (p : pos_value) : Prop :=
  a = Y /\ stack_axis l = X /\
  match p with PosRatio _ | PosAlign _ => True | _ => False end.
