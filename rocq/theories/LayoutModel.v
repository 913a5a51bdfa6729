(** Model of elsie/boxtree/value.py, lazy.py, layout.py and the layout related part of
    text/textboxitem.py.  Numbers (int and float in Python) are exact rationals. *)
From Coq Require Import List ZArith NArith QArith Bool String.
From Verif Require Import Py.
Import ListNotations.
Open Scope Q_scope.

(** Python's [max(a, b)] and [min(a, b)] on numbers. *)
Definition qmax (a b : Q) : Q := if Qle_bool b a then a else b.
Definition qmin (a b : Q) : Q := if Qle_bool a b then a else b.
(** Truth value of a number. *)
Definition qtrue (q : Q) : bool := negb (Qeq_bool q 0).

(** utils/geom.py:5-18, Rect. *)
Record rect := mkRect { rx : Q; ry : Q; rw : Q; rh : Q }.

(** utils/geom.py:51-57, Rect.shrink. *)
Definition shrink (r : rect) (left right top bottom : Q) : rect :=
  mkRect (rx r + left) (ry r + top) (rw r - left - right) (rh r - top - bottom).

(** Size of a text and its scale: textboxitem.py:27-28, [_text_size] and [_text_scale]. *)
Record text_state := mkText { tx_w : Q; tx_h : Q; tx_scale : Q }.

(** The mutable state that layout computation changes: [Layout.rect] of each layout
    (layout.py:52, None before the first render) and the state of each text item.
    Layouts and texts are identified by numbers. *)
Record store := mkStore {
  st_rect : nat -> option rect;
  st_text : nat -> text_state
}.

Definition upd_rect (s : store) (i : nat) (r : rect) : store :=
  mkStore (fun j => if Nat.eqb j i then Some r else st_rect s j) (st_text s).
Definition upd_text (s : store) (i : nat) (t : text_state) : store :=
  mkStore (st_rect s) (fun j => if Nat.eqb j i then t else st_text s j).

(** lazy.py:4-22, LazyValue: a closure reading the mutable state. *)
Definition lazy := store -> result Q.

(** lazy.py:12-18, LazyValue.map and LazyValue.add. *)
Definition lazy_map (f : Q -> Q) (l : lazy) : lazy :=
  fun s => do v <- l s; Ok (f v).
Definition lazy_add (q : Q) (l : lazy) : lazy := lazy_map (fun v => v + q) l.

(** value.py:77-81, the fields of PosValue; at most one of them is set. *)
Inductive pos_value :=
| PosFix (q : Q) | PosRatio (q : Q) | PosAlign (q : Q) | PosLazy (l : lazy) | PosEmpty.

(** value.py:12-16, the fields of SizeValue. *)
Record size_value := mkSize {
  sv_min : Q; sv_ratio : option Q; sv_fill : Z; sv_lazy : option lazy
}.

(** Arguments: None, number, string, LazyValue, other objects. *)
Inductive arg :=
| ANone | ANum (q : Q) | AStr (s : str) | ALazy (l : lazy) | AOther (truthy : bool).

(** A number followed by a literal suffix and the end of the string ([\d+suffix$]);
    None if there is no match.  Digits are matched greedily; the suffixes used do not
    start with a digit, so backtracking cannot help. *)
Definition match_num (suffix : str) (s : str) : option Z :=
  let (ds, rest) := span is_digit s in
  match ds with
  | [] => None
  | _ => match strip_prefix suffix rest with
         | Some rest' => if at_dollar rest' then Some (int_of_digits ds) else None
         | None => None
         end
  end.

(** [[)]+$]: one or more closing parentheses, then the end. *)
Fixpoint close_parens (s : str) : bool :=
  match s with
  | 41%N :: s' => at_dollar s' || close_parens s'
  | _ => false
  end.

(** [fill[(](\d+)[)]+$] *)
Definition match_fill (s : str) : option Z :=
  match strip_prefix (pys "fill(") s with
  | Some rest =>
      let (ds, rest') := span is_digit rest in
      match ds with
      | [] => None
      | _ => if close_parens rest' then Some (int_of_digits ds) else None
      end
  | None => None
  end.

Definition match_fill_1 (s : str) : bool :=
  match strip_prefix (pys "fill") s with Some rest => at_dollar rest | None => false end.

(** value.py:18-47, SizeValue.parse.  The alternatives of the regular expression of
    lines 8-10 are tried in order. [None] never reaches it (layout.py:40-41). *)
Definition parse_size (a : arg) : result size_value :=
  match a with
  | ANum q => Ok (mkSize q None 0 None)
  | ALazy l => Ok (mkSize 0 None 0 (Some l))
  | ANone | AOther _ => Err EException
  | AStr s =>
      match match_num [] s with
      | Some n => Ok (mkSize (inject_Z n) None 0 None)
      | None =>
          match match_num (pys "%") s with
          | Some n => Ok (mkSize 0 (Some (inject_Z n / 100)) 0 None)
          | None =>
              if match_fill_1 s then Ok (mkSize 0 None 1 None)
              else match match_fill s with
                   | Some n => Ok (mkSize 0 None n None)
                   | None => Err EException
                   end
          end
      end
  end.

(** layout.py:40-41, [width or 0]. *)
Definition or_zero (a : arg) : arg :=
  match a with
  | ANone => ANum 0
  | ANum q => if qtrue q then a else ANum 0
  | AStr s => match s with [] => ANum 0 | _ => a end
  | ALazy _ => a
  | AOther t => if t then a else ANum 0
  end.

(** [\[(\d+)%\]$] *)
Definition match_align (s : str) : option Z :=
  match strip_prefix (pys "[") s with
  | Some rest => match_num (pys "%]") rest
  | None => None
  end.

(** value.py:83-113, PosValue.parse. *)
Definition parse_pos (a : arg) : result pos_value :=
  match a with
  | ANone => Ok PosEmpty
  | ANum q => Ok (PosFix q)
  | ALazy l => Ok (PosLazy l)
  | AOther _ => Err EException
  | AStr s =>
      match match_num [] s with
      | Some n => Ok (PosFix (inject_Z n))
      | None =>
          match match_num (pys "%") s with
          | Some n => Ok (PosRatio (inject_Z n / 100))
          | None =>
              match match_align s with
              | Some n => Ok (PosAlign (inject_Z n / 100))
              | None => Err EException
              end
          end
      end
  end.

(** value.py:115-124, PosValue.compute. *)
Definition pos_compute (p : pos_value) (origin full_size self_size : Q) (s : store)
  : result Q :=
  match p with
  | PosLazy l => l s
  | PosRatio q => Ok (origin + full_size * q)
  | PosAlign q => Ok (origin + (full_size - self_size) * q)
  | PosFix q => Ok (origin + q)
  | PosEmpty => Err EException
  end.

(** value.py:49-54, SizeValue.ensure. *)
Definition ensure (v : size_value) (size : Q) : size_value :=
  if Qle_bool size (sv_min v) then v
  else mkSize size (sv_ratio v) (sv_fill v) (sv_lazy v).

(** Truth value of the ratio attribute: None and 0.0 are false. *)
Definition ratio_true (v : size_value) : option Q :=
  match sv_ratio v with
  | Some q => if qtrue q then Some q else None
  | None => None
  end.

(** value.py:56-66, SizeValue.compute. *)
Definition size_compute (v : size_value) (full_size : Q) (fill_unit : option Q)
  (s : store) : result Q :=
  match sv_lazy v with
  | Some l => l s
  | None =>
      if negb (sv_fill v =? 0)%Z then
        match fill_unit with
        | None => Ok full_size
        | Some u => Ok (u * inject_Z (sv_fill v))
        end
      else match ratio_true v with
           | Some q => Ok (qmax (full_size * q) (sv_min v))
           | None => Ok (sv_min v)
           end
  end.

(** layout.py:15-52, the fields of a Layout except its children.  [l_texts] are the
    texts whose scale_to_fit callbacks are registered (layout.py:95-98). *)
Record lhead := mkHead {
  l_id : nat;
  l_x : option pos_value; l_y : option pos_value;
  l_wdef : arg; l_hdef : arg;
  l_width : size_value; l_height : size_value;
  l_left : Q; l_right : Q; l_top : Q; l_bottom : Q;
  l_horizontal : bool;
  l_texts : list nat
}.
Inductive layout := Node (h : lhead) (children : list layout).
Definition head (l : layout) : lhead := let (h, _) := l in h.
Definition kids (l : layout) : list layout := let (_, cs) := l in cs.

(** layout.py:6-11, _set_padding. *)
Definition set_padding (a b c : option Q) : Q :=
  match a with
  | Some q => q
  | None => match b with
            | Some q => q
            | None => match c with
                      | Some q => if qtrue q then q else 0
                      | None => 0
                      end
            end
  end.

(** Keyword arguments of box() that concern the layout: boxmixin.py:58-71. *)
Record layout_args := mkLArgs {
  a_x : arg; a_y : arg; a_width : arg; a_height : arg;
  a_left : option Q; a_right : option Q; a_top : option Q; a_bottom : option Q;
  a_px : option Q; a_py : option Q; a_padding : option Q;
  a_horizontal : bool
}.

(** layout.py:28-36: a position argument that may be None. *)
Definition opt_pos (a : arg) : result (option pos_value) :=
  match a with
  | ANone => Ok None
  | _ => do p <- parse_pos a; Ok (Some p)
  end.

(** layout.py:15-52 and 71-86, construction of a new layout by Layout.add. *)
Definition new_layout (id : nat) (a : layout_args) : result layout :=
  do x <- opt_pos (a_x a);
  do y <- opt_pos (a_y a);
  do w <- parse_size (or_zero (a_width a));
  do h <- parse_size (or_zero (a_height a));
  Ok (Node (mkHead id x y (a_width a) (a_height a) w h
              (set_padding (a_left a) (a_px a) (a_padding a))
              (set_padding (a_right a) (a_px a) (a_padding a))
              (set_padding (a_top a) (a_py a) (a_padding a))
              (set_padding (a_bottom a) (a_py a) (a_padding a))
              (a_horizontal a) []) []).

(** layout.py:88-91, the insertion into the parent's list. *)
Definition add_kid (l : layout) (c : layout) (prepend : bool) : layout :=
  let (h, cs) := l in Node h (if prepend then c :: cs else cs ++ [c]).

(** layout.py:100-104, Layout.is_managed. *)
Definition is_managed (horizontal : bool) (l : layout) : bool :=
  match (if horizontal then l_x (head l) else l_y (head l)) with
  | None => true
  | Some _ => false
  end.

(** [max(...)] of a non empty sequence, [sum(...)]. *)
Definition max_list (l : list Q) : Q :=
  match l with [] => 0 | q :: l' => fold_left qmax l' q end.
Definition sum_list (l : list Q) : Q := fold_left Qplus l 0.

(** layout.py:181-195, Layout.min_children_size, given the size requests of the managed
    children. *)
Definition min_children_size (horizontal : bool) (rqs : list (size_value * size_value))
  : Q * Q :=
  match rqs with
  | [] => (0, 0)
  | _ =>
      let ws := map (fun rq => sv_min (fst rq)) rqs in
      let hs := map (fun rq => sv_min (snd rq)) rqs in
      if horizontal then (sum_list ws, max_list hs) else (max_list ws, sum_list hs)
  end.

(** layout.py:175-179, Layout.compute_size_request; the inner loop is managed_children
    (106-107) and the list of line 185. *)
Fixpoint size_request (l : layout) : size_value * size_value :=
  let (h, cs) := l in
  let rqs :=
    (fix go (cs : list layout) : list (size_value * size_value) :=
       match cs with
       | [] => []
       | c :: cs' =>
           if is_managed (l_horizontal h) c then size_request c :: go cs' else go cs'
       end) cs in
  let (mx, my) := min_children_size (l_horizontal h) rqs in
  (ensure (l_width h) (mx + (l_left h + l_right h)),
   ensure (l_height h) (my + (l_top h + l_bottom h))).

(** layout.py:106-107, Layout.managed_children. *)
Definition managed_children (l : layout) : list layout :=
  filter (is_managed (l_horizontal (head l))) (kids l).

(** layout.py:130-137, one iteration of the loop that collects fills and free space. *)
Definition account (axis_size : size_value * size_value -> size_value) (rect_size : Q)
  (acc : Z * Q) (c : layout) : Z * Q :=
  let (fills, free) := acc in
  let rq := axis_size (size_request c) in
  if negb (sv_fill rq =? 0)%Z then ((fills + sv_fill rq)%Z, free)
  else match ratio_true rq with
       | Some q => (fills, free - qmax (sv_min rq) (q * rect_size))
       | None => (fills, free - sv_min rq)
       end.

(** layout.py:118-145: the start of the first stacked child and the fill unit. *)
Definition main_axis (l : layout) (r : rect) : Q * Q :=
  let hor := l_horizontal (head l) in
  let rect_size := if hor then rw r else rh r in
  let rect_start := if hor then rx r else ry r in
  let (fills, free) :=
    fold_left (account (if hor then fst else snd) rect_size) (managed_children l)
      (0%Z, rect_size) in
  if negb (fills =? 0)%Z then (rect_start + 0 / 2, free / inject_Z fills)
  else (rect_start + free / 2, 0).

(** layout.py:148-173: the rectangle given to one child and the new value of [dd]. *)
Definition child_rect (hor : bool) (r : rect) (fill_unit : Q) (c : layout) (dd : Q)
  (s : store) : result (rect * Q) :=
  let (rqw, rqh) := size_request c in
  if negb hor then
    do w <- size_compute rqw (rw r) None s;
    do h <- size_compute rqh (rh r) (Some fill_unit) s;
    do x <- match l_x (head c) with
            | Some p => pos_compute p (rx r) (rw r) w s
            | None => Ok (rx r + (rw r - w) / 2)
            end;
    match l_y (head c) with
    | None => Ok (mkRect x dd w h, dd + h)
    | Some p => do y <- pos_compute p (ry r) (rh r) h s; Ok (mkRect x y w h, dd)
    end
  else
    do w <- size_compute rqw (rw r) (Some fill_unit) s;
    do h <- size_compute rqh (rh r) None s;
    do y <- match l_y (head c) with
            | Some p => pos_compute p (ry r) (rw r) h s
            | None => Ok (ry r + (rh r - h) / 2)
            end;
    match l_x (head c) with
    | None => Ok (mkRect dd y w h, dd + w)
    | Some p => do x <- pos_compute p (rx r) (rw r) w s; Ok (mkRect x y w h, dd)
    end.

(** textboxitem.py:38-43, the scale_to_fit callback; 0.00001 is the exact decimal. *)
Definition tiny : Q := 1 # 100000.
Definition scale_callback (r : rect) (t : text_state) : text_state :=
  let (tw, th, sc) := t in
  if negb (Qle_bool tw tiny) && negb (Qle_bool th tiny) then
    let scale := qmin (rw r / tw) (rh r / th) in
    mkText (tw * scale) (th * scale) scale
  else t.

(** layout.py:114-116, the callbacks. *)
Definition run_callbacks (r : rect) (ts : list nat) (s : store) : store :=
  fold_left (fun s t => upd_text s t (scale_callback r (st_text s t))) ts s.

(** layout.py:109-173, Layout.set_rect.  On an exception the (partially updated) store is
    dropped. *)
Fixpoint set_rect (l : layout) (r0 : rect) (s : store) : result store :=
  let (h, cs) := l in
  let r := shrink r0 (l_left h) (l_right h) (l_top h) (l_bottom h) in
  let s1 := run_callbacks r (l_texts h) (upd_rect s (l_id h) r) in
  let (dd0, fill_unit) := main_axis (Node h cs) r in
  (fix go (cs : list layout) (dd : Q) (s : store) : result store :=
     match cs with
     | [] => Ok s
     | c :: cs' =>
         do p <- child_rect (l_horizontal h) r fill_unit c dd s;
         do s' <- set_rect c (fst p) s;
         go cs' (snd p) s'
     end) cs dd0 s1.

(** slide.py:54-56, Slide.prepare. *)
Definition prepare (l : layout) (width height : Q) (s : store) : result store :=
  set_rect l (mkRect 0 0 width height) s.

(** layout.py:197-201, ensure_width and ensure_height, on the head of the layout. *)
Definition ensure_width (h : lhead) (w : Q) : lhead :=
  mkHead (l_id h) (l_x h) (l_y h) (l_wdef h) (l_hdef h)
    (ensure (l_width h) (w + l_left h + l_right h)) (l_height h)
    (l_left h) (l_right h) (l_top h) (l_bottom h) (l_horizontal h) (l_texts h).
Definition ensure_height (h : lhead) (q : Q) : lhead :=
  mkHead (l_id h) (l_x h) (l_y h) (l_wdef h) (l_hdef h) (l_width h)
    (ensure (l_height h) (q + l_top h + l_bottom h))
    (l_left h) (l_right h) (l_top h) (l_bottom h) (l_horizontal h) (l_texts h).

(** layout.py:203-215, Layout.x, Layout.y; [self.rect] of None has no attribute x. *)
Definition layout_x (id : nat) (p : pos_value) : lazy := fun s =>
  match st_rect s id with
  | Some r => pos_compute p (rx r) (rw r) 0 s
  | None => Err EAttribute
  end.
Definition layout_y (id : nat) (p : pos_value) : lazy := fun s =>
  match st_rect s id with
  | Some r => pos_compute p (ry r) (rh r) 0 s
  | None => Err EAttribute
  end.

(** layout.py:217-226, Layout.set_image_size_request. *)
Definition set_image_size_request (l : layout) (iw ih : Q) : result layout :=
  let (h, cs) := l in
  match l_wdef h, l_hdef h with
  | ANone, ANone => Ok (Node (ensure_height (ensure_width h iw) ih) cs)
  | _, _ =>
      let (minx, miny) :=
        min_children_size (l_horizontal h) (map size_request (managed_children l)) in
      let size_x := qmax (sv_min (l_width h)) minx in
      let size_y := qmax (sv_min (l_height h)) miny in
      if Qeq_bool ih 0 || Qeq_bool iw 0 then Err EZeroDivision
      else Ok (Node (ensure_height (ensure_width h (size_y * iw / ih))
                       (size_x * ih / iw)) cs)
  end.
