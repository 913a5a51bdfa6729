(** Model of elsie/render/image.py, the image functions of elsie/boxtree/boxmixin.py and
    of elsie/render/backends/svg/utils.py: fragments of SVG images, the choice of the
    fragment of a page, the place of an image, units and renamed ids. *)
From Coq Require Import List ZArith NArith QArith Bool String.
From Verif Require Import Py ShowModel LayoutModel.
Import ListNotations.
Open Scope Z_scope.

(** ** Element trees *)

(** An lxml element: its identity, tag, attributes, text before the first child, and the
    children, each with the text that follows it (lxml's [tail]).  Comments are elements
    without attributes. *)
Inductive xnode :=
| XNode (id : nat) (tag : str) (attrs : list (str * str)) (text : str)
    (kids : list (xnode * str)).

Definition x_id (n : xnode) : nat := let (i, _, _, _, _) := n in i.
Definition x_attrs (n : xnode) : list (str * str) := let (_, _, a, _, _) := n in a.
Definition x_kids (n : xnode) : list (xnode * str) := let (_, _, _, _, k) := n in k.

(** [element.get(name)]. *)
Fixpoint attr_get (name : str) (attrs : list (str * str)) : option str :=
  match attrs with
  | [] => None
  | (n, v) :: attrs' => if str_eqb n name then Some v else attr_get name attrs'
  end.

(** [element.set(name, value)]: in place, or at the end. *)
Fixpoint attr_set (name value : str) (attrs : list (str * str)) : list (str * str) :=
  match attrs with
  | [] => [(name, value)]
  | (n, v) :: attrs' =>
      if str_eqb n name then (n, value) :: attrs' else (n, v) :: attr_set name value attrs'
  end.

(** image.py:9, the attribute inkscape:label. *)
Definition label_attr : str := pys "{http://www.inkscape.org/namespaces/inkscape}label".

(** image.py:8-10, parse_show_info_from_label. *)
Definition parse_label (n : xnode) : result (option show_info) :=
  from_label (attr_get label_attr (x_attrs n)).

(** [root.iter()]: the element and all elements below it in document order. *)
Fixpoint x_iter (n : xnode) : list xnode :=
  let (_, _, _, _, kids) := n in
  n :: (fix go (l : list (xnode * str)) : list xnode :=
          match l with [] => [] | (c, _) :: l' => x_iter c ++ go l' end) kids.

(** image.py:13-19, get_image_steps. *)
Definition steps_of (steps : Z) (n : xnode) : result Z :=
  do i <- parse_label n;
  match i with Some i => Ok (Z.max steps (min_steps i)) | None => Ok steps end.

Fixpoint fold_result {A B} (f : A -> B -> result A) (a : A) (l : list B) : result A :=
  match l with [] => Ok a | b :: l' => do a' <- f a b; fold_result f a' l' end.

Definition get_image_steps (root : xnode) : result Z := fold_result steps_of 1 (x_iter root).

(** image.py:25-31, find_hidden_elements: the pairs of parent and hidden child, by
    identity. *)
Fixpoint find_hidden (step : Z) (n : xnode) : result (list (nat * nat)) :=
  let (i, _, _, _, kids) := n in
  (fix go (l : list (xnode * str)) : result (list (nat * nat)) :=
     match l with
     | [] => Ok []
     | (c, _) :: l' =>
         do info <- parse_label c;
         match match info with Some i => negb (is_visible i step) | None => false end with
         | true => do rest <- go l'; Ok ((i, x_id c) :: rest)
         | false => do sub <- find_hidden step c; do rest <- go l'; Ok (sub ++ rest)
         end
     end) kids.

(** [element.remove(child)] inside the children of the element: lxml takes the text that
    follows the child away with it. *)
Fixpoint drop_kid (c : nat) (l : list (xnode * str)) : list (xnode * str) :=
  match l with
  | [] => []
  | (k, t) :: l' => if Nat.eqb (x_id k) c then l' else (k, t) :: drop_kid c l'
  end.

(** image.py:36, [element.remove(child)], in the document that holds the element. *)
Fixpoint remove_child (p c : nat) (n : xnode) : xnode :=
  let (i, tag, attrs, text, kids) := n in
  let kids' := (fix go (l : list (xnode * str)) :=
                  match l with [] => [] | (k, t) :: l' => (remove_child p c k, t) :: go l' end)
                 kids in
  XNode i tag attrs text (if Nat.eqb i p then drop_kid c kids' else kids').

(** Memory: the documents that exist.  A document is referred to by its index. *)
Definition docs := list xnode.

Fixpoint set_doc (d : nat) (n : xnode) (ds : docs) : docs :=
  match d, ds with
  | _, [] => []
  | O, _ :: ds' => n :: ds'
  | Datatypes.S d', x :: ds' => x :: set_doc d' n ds'
  end.

(** image.py:33, [deepcopy(root)]: a new document with equal contents. *)
Definition deepcopy (d : nat) (ds : docs) : result (nat * docs) :=
  match nth_error ds d with
  | Some n => Ok (List.length ds, ds ++ [n])
  | None => Err EAttribute
  end.

(** image.py:35-36, one removal. *)
Definition remove_in (d : nat) (ds : docs) (pc : nat * nat) : docs :=
  match nth_error ds d with
  | Some n => set_doc d (remove_child (fst pc) (snd pc) n) ds
  | None => ds
  end.

(** image.py:22-37, create_image_data; the serialised document is the tree. *)
Definition create_image_data (root : nat) (step : Z) (ds : docs) : result (xnode * docs) :=
  do (root, ds) <- deepcopy root ds;
  match nth_error ds root with
  | None => Err EAttribute
  | Some n =>
      do hidden <- find_hidden step n;
      let ds := fold_left (remove_in root) hidden ds in
      match nth_error ds root with Some n' => Ok (n', ds) | None => Err EAttribute end
  end.

(** ** The fragment of a page: boxmixin.py:585-668, _image_svg *)

(** boxmixin.py:607-613: the number of image steps. *)
Definition image_steps (select : option (list (option Z))) (fragments : bool) (root : xnode)
  : result Z :=
  match select with
  | Some l => Ok (Z.of_nat (List.length l))
  | None => if fragments then get_image_steps root else Ok 1
  end.

(** boxmixin.py:619, [not select_fragments]. *)
Definition no_selection (select : option (list (option Z))) : bool :=
  match select with None | Some [] => true | Some (_ :: _) => false end.

(** boxmixin.py:615: the number of pages asked for. *)
Definition image_pages (show_begin steps : Z) : Z := show_begin - 1 + steps.

(** boxmixin.py:617-640, the data drawn on a page; [None]: nothing is drawn.  The root is
    document number [root]. *)
Definition page_data (select : option (list (option Z))) (show_begin : Z) (steps : Z)
  (root : nat) (ds : docs) (page : Z) : result (option xnode * docs) :=
  let draw step :=
    if step <? 1 then Ok (None, ds)
    else do (t, ds') <- create_image_data root step ds; Ok (Some t, ds') in
  if (steps =? 1) && no_selection select then
    if page <? show_begin then Ok (None, ds)
    else match nth_error ds root with Some n => Ok (Some n, ds) | None => Err EAttribute end
  else
    let step := page - show_begin + 1 in
    match select with
    | None => draw step
    | Some l =>
        if (0 <? step) && (step <=? Z.of_nat (List.length l)) then
          match nth_error l (Z.to_nat (step - 1)) with
          | Some (Some k) => draw k
          | Some None => Ok (None, ds)
          | None => Err EIndex
          end
        else Ok (None, ds)
    end.

(** ** The place of an image *)

Open Scope Q_scope.

(** Division of Python. *)
Definition qdiv (a b : Q) : result Q := if Qeq_bool b 0 then Err EZeroDivision else Ok (a / b).

(** boxmixin.py:35-45, scaler. *)
Definition scaler (r : rect) (iw ih : Q) : result (option Q) :=
  do sx <- qdiv (rw r) iw;
  do sy <- qdiv (rh r) ih;
  if qtrue (rw r) && qtrue (rh r) then Ok (Some (qmin sx sy))
  else if qtrue (rw r) then Ok (Some sx)
  else if qtrue (rh r) then Ok (Some sy)
  else Ok None.

(** boxmixin.py:546-560 and 642-656: scale, position and size of the drawn image. *)
Record placed := mkPlaced { p_scale : Q; p_x : Q; p_y : Q; p_w : Q; p_h : Q }.

Definition place (r : rect) (scale : option Q) (iw ih : Q) : result placed :=
  do s <- match scale with
          | Some s => Ok s
          | None => do s <- scaler r iw ih; Ok (match s with Some s => s | None => 0 end)
          end;
  let w := iw * s in
  let h := ih * s in
  Ok (mkPlaced s (rx r + (rw r - w) / 2) (ry r + (rh r - h) / 2) w h).

(** boxmixin.py:540-542 and 603-605: [scale or 1] and the size request. *)
Definition or_one (scale : option Q) : Q :=
  match scale with Some s => if qtrue s then s else 1 | None => 1 end.

Definition image_request (l : layout) (scale : option Q) (iw ih : Q) : result layout :=
  set_image_size_request l (iw * or_one scale) (ih * or_one scale).

(** boxmixin.py:481-496: the type of an image from the end of its file name; None is the
    exception of line 496. *)
Inductive image_type := TSvg | TOra | TPng | TJpeg.

Definition endswith (suffix s : str) : bool := startswith (rev suffix) (rev s).

Definition detect_type (source : str) : result image_type :=
  if endswith (pys ".svg") source then Ok TSvg
  else if endswith (pys ".ora") source then Ok TOra
  else if endswith (pys ".png") source then Ok TPng
  else if endswith (pys ".jpeg") source || endswith (pys ".jpg") source then Ok TJpeg
  else Err EException.

(** ** Units: svg/utils.py:25-38, svg_size_to_pixels *)

(** utils.py:27-29: the loop that moves trailing letters to the suffix, on the reversed
    text; [isalpha] is [str.isalpha()]. *)
Fixpoint take_suffix (isalpha : char -> bool) (rtext : str) (suffix : str) : str * str :=
  match rtext with
  | c :: rtext' =>
      if isalpha c then take_suffix isalpha rtext' (c :: suffix) else (rtext, suffix)
  | [] => ([], suffix)
  end.

(** utils.py:25-38; [to_float] is [float()] of a string, None its ValueError.  A missing
    attribute is None, for which float() raises TypeError. *)
Definition svg_size_to_pixels (isalpha : char -> bool) (to_float : str -> option Q)
  (text : option str) : result Q :=
  match text with
  | None => Err EType
  | Some text =>
      let (rtext, suffix) := take_suffix isalpha (rev text) [] in
      let factor := if str_eqb suffix (pys "mm") then 377953 # 100000
                    else if str_eqb suffix (pys "cm") then 377953 # 10000
                    else if str_eqb suffix (pys "pt") then 133333 # 100000
                    else 1 in
      match to_float (rev rtext) with Some q => Ok (q * factor) | None => Err EValue end
  end.

(** ** Renaming ids: svg/utils.py:41-53 *)

(** [part in s]. *)
Fixpoint contains (part s : str) : bool :=
  startswith part s || match s with [] => false | _ :: s' => contains part s' end.

(** [s.replace(old, new)] for a non empty [old]; [skip] characters belong to an
    occurrence that has been replaced. *)
Fixpoint replace_at (old new : str) (skip : nat) (s : str) : str :=
  match s with
  | [] => []
  | c :: s' =>
      match skip with
      | Datatypes.S k => replace_at old new k s'
      | O =>
          if startswith old s then new ++ replace_at old new (Nat.pred (List.length old)) s'
          else c :: replace_at old new O s'
      end
  end.
Definition replace_all (old new s : str) : str := replace_at old new O s.

Definition id_attr : str := pys "id".

(** utils.py:44-47, one element of the first loop. *)
Definition collect_id (n : xnode) : list str :=
  match attr_get id_attr (x_attrs n) with
  | Some (c :: e_id) => [pys "#" ++ c :: e_id]
  | _ => []
  end.
Definition suffix_id (suffix : str) (attrs : list (str * str)) : list (str * str) :=
  match attr_get id_attr attrs with
  | Some (c :: e_id) => attr_set id_attr ((c :: e_id) ++ suffix) attrs
  | _ => attrs
  end.

(** utils.py:50-53, the second loop on one element: [items] is what e.attrib.items()
    returned, [attrs] the attributes as they are changed. *)
Definition rename_one (suffix name value : str) (attrs : list (str * str)) (e_id : str)
  : list (str * str) :=
  if contains e_id value then attr_set name (replace_all e_id (e_id ++ suffix) value) attrs
  else attrs.
Definition rename_item (ids : list str) (suffix : str) (attrs : list (str * str))
  (item : str * str) : list (str * str) :=
  fold_left (rename_one suffix (fst item) (snd item)) ids attrs.
Definition rename_attrs (ids : list str) (suffix : str) (attrs : list (str * str))
  : list (str * str) :=
  fold_left (rename_item ids suffix) attrs attrs.

(** A change of the attributes of every element of [root.iter()]. *)
Fixpoint map_attrs (f : list (str * str) -> list (str * str)) (n : xnode) : xnode :=
  let (i, tag, attrs, text, kids) := n in
  XNode i tag (f attrs) text
    ((fix go (l : list (xnode * str)) :=
        match l with [] => [] | (k, t) :: l' => (map_attrs f k, t) :: go l' end) kids).

(** utils.py:41-53, rename_ids. *)
Definition rename_ids (root : xnode) (suffix : str) : xnode :=
  let ids := flat_map collect_id (x_iter root) in
  let root := map_attrs (suffix_id suffix) root in
  map_attrs (rename_attrs ids suffix) root.
