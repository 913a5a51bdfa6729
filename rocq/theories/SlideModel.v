(** Model of elsie/slides/slide.py, boxtree/box.py, boxtree/boxitem.py and of the methods
    of boxtree/boxmixin.py that change the box tree. *)
From Coq Require Import List ZArith NArith QArith Bool String.
From Verif Require Import Py ShowModel LayoutModel.
Import ListNotations.

(** box.py:19-49, the fields of a Box that matter here.  A box and its layout have the
    same number; z levels are integers. *)
Record bhead := mkBox { b_id : nat; b_show : show_info; b_z : Z }.

(** box.py:46, the children: items (boxitem.py:12-14) and boxes. *)
Inductive node := NItem (id : nat) (z : Z) | NBox (b : bhead) (children : list node).
Definition node_id (n : node) : nat :=
  match n with NItem i _ => i | NBox b _ => b_id b end.

(** slide.py:15-45, the fields of a Slide that matter here; [sl_next] is the number of the
    next object, [sl_store] holds the rectangles and the texts of the slide. *)
Record slide := mkSlide {
  sl_box : node; sl_layout : layout; sl_max : Z; sl_next : nat; sl_store : store
}.

(** slide.py:36-43, Slide.__init__: the root box has a fixed position and size. *)
Definition new_slide (width height : Q) : result slide :=
  do l <- new_layout 0 (mkLArgs (ANum 0) (ANum 0) (ANum width) (ANum height)
                          None None None None None None None false);
  Ok (mkSlide (NBox (mkBox 0 (mk_show_info None None None) 0) []) l 1 1
        (mkStore (fun _ => None) (fun _ => mkText 0 0 1))).

(** boxmixin.py:136 and box.py:51-52, boxitem.py:16-17: the box on which a method of the
    object [i] (a box or an item) works, with its children. *)
Fixpoint get_box (i : nat) (n : node) : option (bhead * list node) :=
  match n with
  | NItem _ _ => None
  | NBox b cs =>
      if Nat.eqb (b_id b) i then Some (b, cs)
      else if existsb (fun c => match c with NItem j _ => Nat.eqb j i | _ => false end) cs
      then Some (b, cs)
      else (fix go (l : list node) : option (bhead * list node) :=
              match l with
              | [] => None
              | c :: l' => match get_box i c with Some x => Some x | None => go l' end
              end) cs
  end.

(** Mutation of the box [i]. *)
Fixpoint upd_box (i : nat) (f : bhead -> list node -> node) (n : node) : node :=
  match n with
  | NItem _ _ => n
  | NBox b cs => if Nat.eqb (b_id b) i then f b cs else NBox b (map (upd_box i f) cs)
  end.

(** Mutation of the layout [i]. *)
Fixpoint upd_layout (i : nat) (f : layout -> layout) (l : layout) : layout :=
  match l with
  | Node h cs => if Nat.eqb (l_id h) i then f l else Node h (map (upd_layout i f) cs)
  end.
Fixpoint get_layout (i : nat) (l : layout) : option layout :=
  match l with
  | Node h cs =>
      if Nat.eqb (l_id h) i then Some l
      else (fix go (ls : list layout) : option layout :=
              match ls with
              | [] => None
              | c :: ls' => match get_layout i c with Some x => Some x | None => go ls' end
              end) cs
  end.

(** [list.index(obj)]: objects are compared by identity. *)
Fixpoint list_index (i : nat) (cs : list node) : result nat :=
  match cs with
  | [] => Err EValue
  | c :: cs' => if Nat.eqb (node_id c) i then Ok 0%nat
                else do k <- list_index i cs'; Ok (S k)
  end.
(** [list.insert(k, obj)] for 0 <= k. *)
Fixpoint list_insert (k : nat) (x : node) (cs : list node) : list node :=
  match k, cs with
  | O, _ => x :: cs
  | S _, [] => [x]
  | S k', c :: cs' => c :: list_insert k' x cs'
  end.

(** box.py:58-71, Box.add_child. *)
Definition add_child (x : node) (prepend : bool) (above below : option nat)
  (cs : list node) : result (list node) :=
  match above, below with
  | Some _, Some _ => Err EException
  | _, Some b => do k <- list_index b cs; Ok (list_insert k x cs)
  | Some a, None => do k <- list_index a cs; Ok (list_insert (S k) x cs)
  | None, None => Ok (if prepend then list_insert 0 x cs else cs ++ [x])
  end.

(** boxmixin.py:56-77, the arguments of box(). *)
Record box_args := mkBArgs {
  ba_layout : layout_args; ba_show : show_arg; ba_z : option Z;
  ba_prepend : bool; ba_above : option nat; ba_below : option nat
}.

Definition set_max (s : slide) (m : Z) : slide :=
  mkSlide (sl_box s) (sl_layout s) m (sl_next s) (sl_store s).
Definition set_tree (s : slide) (n : node) : slide :=
  mkSlide n (sl_layout s) (sl_max s) (sl_next s) (sl_store s).

(** boxmixin.py:136-161, BoxMixin.box called on the object [r].  The state is returned
    also if the call raises. *)
Definition box_call (s : slide) (r : nat) (a : box_args) : slide * result nat :=
  match get_box r (sl_box s) with
  | None => (s, Err EAttribute)   (* there is no such object *)
  | Some (b, cs) =>
      let id := sl_next s in
      match new_layout id (ba_layout a) with
      | Err e => (s, Err e)
      | Ok l =>
          let s1 := mkSlide (sl_box s)
                      (upd_layout (b_id b) (fun p => add_kid p l (ba_prepend a)) (sl_layout s))
                      (sl_max s) (S id) (sl_store s) in
          let z := match ba_z a with Some z => z | None => b_z b end in
          match parse_show (ba_show a) (Some (sl_max s)) with
          | Err e => (s1, Err e)
          | Ok show =>
              let s2 := set_max s1 (Z.max (sl_max s1) (max_step show)) in
              match add_child (NBox (mkBox id show z) []) (ba_prepend a) (ba_above a)
                      (ba_below a) cs with
              | Err e => (s2, Err e)
              | Ok cs' => (set_tree s2 (upd_box (b_id b) (fun b _ => NBox b cs') (sl_box s2)),
                           Ok id)
              end
          end
      end
  end.

(** The drawing items: shapes; texts with their measured size; images with their scaled
    size and, for SVG, the number of fragments needed (show_begin - 1 + image_steps). *)
Inductive item_kind :=
| Shape
| TextItem (w h : Q) (scale_to_fit : bool)
| ImageItem (w h : Q) (steps : option Z).

(** textboxitem.py:66-81 (the size requests) and 36-45 (the callback). *)
Definition text_layout (t : nat) (w h : Q) (scale_to_fit : bool) (l : layout) : layout :=
  let (hd, cs) := l in
  let hd1 := if negb scale_to_fit || match l_wdef hd with ANone => true | _ => false end
             then ensure_width hd w else hd in
  let hd2 := if negb scale_to_fit || match l_hdef hd with ANone => true | _ => false end
             then ensure_height hd1 h else hd1 in
  Node (mkHead (l_id hd2) (l_x hd2) (l_y hd2) (l_wdef hd2) (l_hdef hd2) (l_width hd2)
          (l_height hd2) (l_left hd2) (l_right hd2) (l_top hd2) (l_bottom hd2)
          (l_horizontal hd2)
          (if scale_to_fit then l_texts hd2 ++ [t] else l_texts hd2)) cs.

(** boxmixin.py:432-436 and 795-799, the new item at the end of the children. *)
Definition append_item (s : slide) (b : nat) (z : Z) : slide :=
  mkSlide (upd_box b (fun h cs => NBox h (cs ++ [NItem (sl_next s) z])) (sl_box s))
    (sl_layout s) (sl_max s) (S (sl_next s)) (sl_store s).

(** box.py:143-145, Box._ensure_steps. *)
Definition ensure_box_steps (s : slide) (b : nat) (steps : Z) : slide :=
  set_max (set_tree s (upd_box b (fun h cs =>
      NBox (mkBox (b_id h) (ensure_steps (b_show h) steps) (b_z h)) cs) (sl_box s)))
    (Z.max (sl_max s) steps).

Definition set_layout (s : slide) (l : layout) : slide :=
  mkSlide (sl_box s) l (sl_max s) (sl_next s) (sl_store s).

(** rect(), text(), image(), ... called on the object [r].  If set_image_size_request
    raises (image of zero width or height), its first ensure_width is dropped. *)
Definition item_call (s : slide) (r : nat) (k : item_kind) : slide * result nat :=
  match get_box r (sl_box s) with
  | None => (s, Err EAttribute)
  | Some (b, _) =>
      let id := sl_next s in
      match k with
      | Shape => (append_item s (b_id b) (b_z b), Ok id)
      | TextItem w h fit =>
          let s1 := mkSlide (sl_box s)
                      (upd_layout (b_id b) (text_layout id w h fit) (sl_layout s))
                      (sl_max s) (sl_next s) (upd_text (sl_store s) id (mkText w h 1)) in
          (append_item s1 (b_id b) (b_z b), Ok id)
      | ImageItem w h steps =>
          match get_layout (b_id b) (sl_layout s) with
          | None => (s, Err EAttribute)
          | Some l =>
              match set_image_size_request l w h with
              | Err e => (s, Err e)
              | Ok l' =>
                  let s1 := set_layout s (upd_layout (b_id b) (fun _ => l') (sl_layout s)) in
                  let s2 := match steps with
                            | Some n => ensure_box_steps s1 (b_id b) n
                            | None => s1
                            end in
                  (append_item s2 (b_id b) (b_z b), Ok id)
              end
          end
      end
  end.

Inductive call := CBox (r : nat) (a : box_args) | CItem (r : nat) (k : item_kind).
Definition perform (s : slide) (c : call) : slide * result nat :=
  match c with CBox r a => box_call s r a | CItem r k => item_call s r k end.

(** box.py:138-141 and slide.py:58-61, Slide.steps. *)
Fixpoint traverse (n : node) : list Z :=
  match n with
  | NItem _ _ => []
  | NBox b cs => min_steps (b_show b) :: flat_map traverse cs
  end.
Definition steps (s : slide) : Z :=
  max_default 1 (filter (fun v => negb (v =? 0)%Z) (1%Z :: traverse (sl_box s))).

(** slide.py:50-52. *)
Definition current_fragment (s : slide) : Z := sl_max s.

(** What is painted: an item, or the debug frame of a box (box.py:90-95). *)
Inductive painter := PItem (id : nat) (z : Z) | PFrame (id : nat) (z : Z).
Definition painter_z (p : painter) : Z := match p with PItem _ z | PFrame _ z => z end.

(** box.py:80-96, Box.get_painters. *)
Fixpoint get_painters (debug : bool) (step : Z) (n : node) : list painter :=
  match n with
  | NItem i z => [PItem i z]
  | NBox b cs =>
      if is_visible (b_show b) step then
        flat_map (get_painters debug step) cs ++ (if debug then [PFrame (b_id b) (b_z b)] else [])
      else []
  end.

(** [list.sort(key=...)], a stable sort; backend.py:77 and cairo/backend.py:30. *)
Fixpoint insert_painter (p : painter) (l : list painter) : list painter :=
  match l with
  | [] => [p]
  | q :: l' => if (painter_z p <=? painter_z q)%Z then p :: l else q :: insert_painter p l'
  end.
Fixpoint sort_painters (l : list painter) : list painter :=
  match l with [] => [] | p :: l' => insert_painter p (sort_painters l') end.

(** svg/backend.py:74-80 and cairo/backend.py:19-33: the painters of one page. *)
Definition page (debug : bool) (s : slide) (step : Z) : list painter :=
  sort_painters (get_painters debug step (sl_box s)).
