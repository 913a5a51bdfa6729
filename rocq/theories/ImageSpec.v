(** Specification of image fragments, independent of the code that removes elements. *)
From Coq Require Import List ZArith NArith QArith Bool String.
From Verif Require Import Py ShowSpec ImageModel.
Import ListNotations.
Open Scope Z_scope.

(** [first_at sep s a b]: the first [sep] in [s] stands between [a] and [b]. *)
Definition first_at (sep s a b : str) : Prop :=
  s = a ++ sep ++ b /\
  forall a' b', s = a' ++ sep ++ b' -> (List.length a <= List.length a')%nat.
Definition absent (sep s : str) : Prop := forall a b, s <> a ++ sep ++ b.

(** [label_selector l sel]: [sel] is the text between the first two "**" of the label, or
    after the only one. *)
Definition label_selector (l sel : str) : Prop :=
  exists a r, first_at (pys "**") l a r /\
    ((exists b, first_at (pys "**") r sel b) \/ (sel = r /\ absent (pys "**") r)).

(** The element carries this label. *)
Definition label_name : str := pys "{http://www.inkscape.org/namespaces/inkscape}label".
Definition labelled (n : xnode) (l : str) : Prop :=
  attr_get label_name (x_attrs n) = Some l.

(** The label of the element has a selector, and the selector excludes fragment [k]. *)
Definition hides (k : Z) (n : xnode) : Prop :=
  exists l sel xs, labelled n l /\ label_selector l sel /\ selectors_text xs sel /\
    forall x, In x xs -> ~ covers None x k.

(** [chain n l m]: [l] are the elements from below [n] down to [m]. *)
Inductive chain : xnode -> list xnode -> xnode -> Prop :=
| ch_self : forall n, chain n [] n
| ch_kid : forall n c t l m, In (c, t) (x_kids n) -> chain c l m -> chain n (c :: l) m.

(** Identities of the elements of a document. *)
Definition ids (n : xnode) : list nat := map x_id (x_iter n).

(** [frag k n n']: [n'] is [n] without the excluded elements and what is below them (and
    the text that follows them), everything else in the same order and nesting. *)
Inductive frag (k : Z) : xnode -> xnode -> Prop :=
| fr_node : forall i tag attrs text kids kids', frag_kids k kids kids' ->
    frag k (XNode i tag attrs text kids) (XNode i tag attrs text kids')
with frag_kids (k : Z) : list (xnode * str) -> list (xnode * str) -> Prop :=
| fr_nil : frag_kids k [] []
| fr_hide : forall c t l l', hides k c -> frag_kids k l l' -> frag_kids k ((c, t) :: l) l'
| fr_keep : forall c c' t l l', ~ hides k c -> frag k c c' -> frag_kids k l l' ->
    frag_kids k ((c, t) :: l) ((c', t) :: l').

(** The fragments mentioned in a label. *)
Definition label_mentions (n : xnode) (k : Z) : Prop :=
  exists l sel xs x, labelled n l /\ label_selector l sel /\ selectors_text xs sel /\
    In x xs /\ mentions None x k.

(** The label of an element is acceptable: no selector, or a sensible one. *)
Definition label_ok (n : xnode) : Prop :=
  forall l sel, labelled n l -> label_selector l sel ->
  exists xs, selectors_text xs sel /\ acceptable None xs.

(** CSS pixels of one unit: 96 pixels per inch, 25.4 mm and 72 pt per inch. *)
Inductive css_unit : str -> Q -> Prop :=
| css_none : css_unit [] 1
| css_px : css_unit (pys "px") 1
| css_mm : css_unit (pys "mm") (96 / (254 # 10))
| css_cm : css_unit (pys "cm") (960 / (254 # 10))
| css_pt : css_unit (pys "pt") (96 / 72)
| css_in : css_unit (pys "in") 96.

(** A value with references: text, then references [#w], each up to the next [#]. *)
Fixpoint join_refs (a : str) (ws : list str) : str :=
  match ws with [] => a | w :: ws' => a ++ pys "#" ++ join_refs w ws' end.

Definition hash : char := 35%N.

(** Every [#] of the value starts a reference to the element [i], and to no other element
    of the document ([refs] are the texts from the [#]s on). *)
Definition refers_only (all : list str) (i : str) (v a : str) (ps : list str) : Prop :=
  v = join_refs a (map (fun p => i ++ p) ps) /\ ~ In hash a /\
  (forall p, In p ps -> ~ In hash p) /\
  (forall p j, In p ps -> In j all -> j <> i -> forall q, i ++ p <> j ++ q).
