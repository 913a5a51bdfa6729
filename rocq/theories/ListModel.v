(** Model of ext/list.py: lists and sublists of boxes with labels.

    The boxes are those of SlideModel.v; the text styles that item() sets (align="left") are
    not part of it. *)
From Coq Require Import List ZArith NArith QArith Bool String.
From Verif Require Import Py ShowModel LayoutModel SlideModel.
Import ListNotations.
Local Open Scope Z_scope.

(** ** Keyword arguments *)

(** Keyword arguments of box() (boxmixin.py:56-77); [KOther] is a keyword that box() does not
    have, or one that is already given ([parent], [indent] in item()). *)
Inductive kwarg :=
| Kx (a : arg) | Ky (a : arg) | Kwidth (a : arg) | Kheight (a : arg) | Kshow (s : show_arg)
| Kp_left (q : option Q) | Kp_right (q : option Q) | Kp_top (q : option Q) | Kp_bottom (q : option Q)
| Kp_x (q : option Q) | Kp_y (q : option Q) | Kpadding (q : option Q)
| Khorizontal (b : bool) | Kz_level (z : option Z) | Kprepend (b : bool)
| Kabove (n : option nat) | Kbelow (n : option nat) | Kname | KOther (name : str).
Definition key (k : kwarg) : nat :=
  match k with
  | Kx _ => 0 | Ky _ => 1 | Kwidth _ => 2 | Kheight _ => 3 | Kshow _ => 4 | Kp_left _ => 5
  | Kp_right _ => 6 | Kp_top _ => 7 | Kp_bottom _ => 8 | Kp_x _ => 9 | Kp_y _ => 10
  | Kpadding _ => 11 | Khorizontal _ => 12 | Kz_level _ => 13 | Kprepend _ => 14
  | Kabove _ => 15 | Kbelow _ => 16 | Kname => 17 | KOther _ => 18
  end%nat.
Definition has_key (n : nat) (d : list kwarg) : bool := existsb (fun k => Nat.eqb (key k) n) d.
(** [d.update(e)] on dictionaries; their order is not used. *)
Definition update (d e : list kwarg) : list kwarg :=
  filter (fun k => negb (has_key (key k) e)) d ++ e.

(** boxmixin.py:56-77, the defaults of box(). *)
Definition no_args : box_args :=
  mkBArgs (mkLArgs ANone ANone ANone ANone None None None None None None None false)
    ShowNone None false None None.
Definition set_kwarg (a : box_args) (k : kwarg) : result box_args :=
  let l := ba_layout a in
  let lay l := mkBArgs l (ba_show a) (ba_z a) (ba_prepend a) (ba_above a) (ba_below a) in
  match k with
  | Kx v => Ok (lay (mkLArgs v (a_y l) (a_width l) (a_height l) (a_left l) (a_right l) (a_top l)
                     (a_bottom l) (a_px l) (a_py l) (a_padding l) (a_horizontal l)))
  | Ky v => Ok (lay (mkLArgs (a_x l) v (a_width l) (a_height l) (a_left l) (a_right l) (a_top l)
                     (a_bottom l) (a_px l) (a_py l) (a_padding l) (a_horizontal l)))
  | Kwidth v => Ok (lay (mkLArgs (a_x l) (a_y l) v (a_height l) (a_left l) (a_right l) (a_top l)
                     (a_bottom l) (a_px l) (a_py l) (a_padding l) (a_horizontal l)))
  | Kheight v => Ok (lay (mkLArgs (a_x l) (a_y l) (a_width l) v (a_left l) (a_right l) (a_top l)
                     (a_bottom l) (a_px l) (a_py l) (a_padding l) (a_horizontal l)))
  | Kp_left v => Ok (lay (mkLArgs (a_x l) (a_y l) (a_width l) (a_height l) v (a_right l) (a_top l)
                     (a_bottom l) (a_px l) (a_py l) (a_padding l) (a_horizontal l)))
  | Kp_right v => Ok (lay (mkLArgs (a_x l) (a_y l) (a_width l) (a_height l) (a_left l) v (a_top l)
                     (a_bottom l) (a_px l) (a_py l) (a_padding l) (a_horizontal l)))
  | Kp_top v => Ok (lay (mkLArgs (a_x l) (a_y l) (a_width l) (a_height l) (a_left l) (a_right l) v
                     (a_bottom l) (a_px l) (a_py l) (a_padding l) (a_horizontal l)))
  | Kp_bottom v => Ok (lay (mkLArgs (a_x l) (a_y l) (a_width l) (a_height l) (a_left l) (a_right l) (a_top l)
                     v (a_px l) (a_py l) (a_padding l) (a_horizontal l)))
  | Kp_x v => Ok (lay (mkLArgs (a_x l) (a_y l) (a_width l) (a_height l) (a_left l) (a_right l) (a_top l)
                     (a_bottom l) v (a_py l) (a_padding l) (a_horizontal l)))
  | Kp_y v => Ok (lay (mkLArgs (a_x l) (a_y l) (a_width l) (a_height l) (a_left l) (a_right l) (a_top l)
                     (a_bottom l) (a_px l) v (a_padding l) (a_horizontal l)))
  | Kpadding v => Ok (lay (mkLArgs (a_x l) (a_y l) (a_width l) (a_height l) (a_left l) (a_right l) (a_top l)
                     (a_bottom l) (a_px l) (a_py l) v (a_horizontal l)))
  | Khorizontal v => Ok (lay (mkLArgs (a_x l) (a_y l) (a_width l) (a_height l) (a_left l) (a_right l) (a_top l)
                     (a_bottom l) (a_px l) (a_py l) (a_padding l) v))
  | Kshow v => Ok (mkBArgs l v (ba_z a) (ba_prepend a) (ba_above a) (ba_below a))
  | Kz_level v => Ok (mkBArgs l (ba_show a) v (ba_prepend a) (ba_above a) (ba_below a))
  | Kprepend v => Ok (mkBArgs l (ba_show a) (ba_z a) v (ba_above a) (ba_below a))
  | Kabove v => Ok (mkBArgs l (ba_show a) (ba_z a) (ba_prepend a) v (ba_below a))
  | Kbelow v => Ok (mkBArgs l (ba_show a) (ba_z a) (ba_prepend a) (ba_above a) v)
  | Kname => Ok a
  | KOther _ => Err EType
  end.
Fixpoint set_kwargs (a : box_args) (d : list kwarg) : result box_args :=
  match d with
  | [] => Ok a
  | k :: d' => do a' <- set_kwarg a k; set_kwargs a' d'
  end.
(** The call [f(k1, ..., **d)] where [f] takes the arguments of box(): a keyword given twice
    is an error. *)
Definition call_args (named d : list kwarg) : result box_args :=
  if existsb (fun k => has_key (key k) d) named then Err EType
  else set_kwargs no_args (named ++ d).

(** ** Lists *)

(** A label function is called with the state, the label box and the counters.  It draws
    (a sequence of calls) and may change the list object that it is given. *)
Inductive label :=
| LText (s : str)
| LFun (f : slide -> nat -> list Z -> list call * list Z)
| LBad (truthy : bool).
(** list.py:18-39, the fields of a ListBuilder. *)
Record builder := mkBuilder {
  l_parent : nat; l_label : option label; l_indent : Q; l_padding : Q;
  l_args : list kwarg; l_level : list Z; l_total : Q
}.
(** The slide and the lists made so far; [ls_shown] records for every label that is drawn
    the list and the counters given to it. *)
Record state := mkState {
  ls_slide : slide; ls_lists : list builder; ls_shown : list (nat * list Z)
}.

Definition with_slide (s : state) (x : slide) : state := mkState x (ls_lists s) (ls_shown s).
Fixpoint set_nth {A} (n : nat) (a : A) (l : list A) : list A :=
  match n, l with
  | _, [] => []
  | O, _ :: l' => a :: l'
  | S n', x :: l' => x :: set_nth n' a l'
  end.
Definition set_level (b : builder) (v : list Z) : builder :=
  mkBuilder (l_parent b) (l_label b) (l_indent b) (l_padding b) (l_args b) v (l_total b).
(** [level[-1] += 1]. *)
Fixpoint bump (l : list Z) : list Z :=
  match l with
  | [] => []
  | [n] => [n + 1]
  | x :: l' => x :: bump l'
  end.

(** The calls of a label function, up to the first that raises. *)
Fixpoint perform_all (s : slide) (cs : list call) : slide * result unit :=
  match cs with
  | [] => (s, Ok tt)
  | c :: cs' => match perform s c with
                | (s', Ok _) => perform_all s' cs'
                | (s', Err e) => (s', Err e)
                end
  end.

Definition last_plus : show_arg := ShowStr (pys "last+").
(** list.py:18-39, ListBuilder.__init__. *)
Definition new_builder (parent : nat) (lab : option label) (indent padding : Q)
  (level : option (list Z)) (start : Z) (total : Q) (args : list kwarg) : builder :=
  mkBuilder parent lab indent padding
    (if has_key (key (Kshow ShowNone)) args then args else args ++ [Kshow last_plus])
    (match level with None => [] | Some l => l end ++ [start - 1]) total.

(** A call of box() whose arguments are in [d]. *)
Definition box_with (s : state) (parent : nat) (named d : list kwarg) : state * result nat :=
  match call_args named d with
  | Err e => (s, Err e)
  | Ok a => let (x, r) := box_call (ls_slide s) parent a in (with_slide s x, r)
  end.
(** list.py:180-186, _create_box; the total indentation is returned by the callers below. *)
Definition create_box (s : state) (b : builder) (total : Q) (args : list kwarg) : state * result nat :=
  box_with s (l_parent b) [Kx (AStr (pys "[0%]")); Kp_left (Some total)] (update (l_args b) args).

Section Lists.
(** The measured width and height of a label. *)
Variable measure : str -> Q * Q.
(** [callable(x)], [label or default]. *)
Definition label_true (l : option label) : bool :=
  match l with
  | None => false
  | Some (LText []) => false
  | Some (LText _) => true
  | Some (LFun _) => true
  | Some (LBad t) => t
  end.
Definition label_or (l : option label) (d : label) : option label :=
  if label_true l then l else Some d.

(** [str(n)] of an int. *)
Fixpoint digits (fuel : nat) (n : Z) (acc : str) : str :=
  match fuel with
  | O => acc
  | S f => let acc := Z.to_N (48 + n mod 10) :: acc in
           if n / 10 =? 0 then acc else digits f (n / 10) acc
  end.
Definition str_of_int (n : Z) : str :=
  let d n := digits (S (Z.to_nat (Z.log2 n))) n [] in
  if n <? 0 then pys "-" ++ d (- n) else d n.
(** list.py:257-259, arabic_digit_render_fn. *)
Definition arabic_text (level : list Z) : str :=
  join_with (pys ".") (map str_of_int level) ++ pys ".".
Definition arabic : label := LFun (fun _ box level =>
  let (w, h) := measure (arabic_text level) in ([CItem box (TextItem w h false)], level)).
(** list.py:262, the bullet U+2022. *)
Definition bullet : label := LText [8226%N].

(** list.py:115-155, ListBuilder.item on the list number [n]. *)
Definition item (s : state) (n : nat) (lab : option label) (padding : option Q) (args : list kwarg)
  : state * result nat :=
  match nth_error (ls_lists s) n with
  | None => (s, Err EAttribute)
  | Some b0 =>
      let b := set_level b0 (bump (l_level b0)) in
      let s := mkState (ls_slide s) (set_nth n b (ls_lists s)) (ls_shown s) in
      let padding := match padding with Some p => p | None => l_padding b end in
      match create_box s b (l_total b + 0) (update args [Khorizontal true]) with
      | (s, Err e) => (s, Err e)
      | (s, Ok box) =>
          let finish (s : state) := box_with s box [Kp_left (Some padding); Kwidth (AStr (pys "fill"))] [] in
          match match lab with Some l => Some l | None => l_label b end with
          | None => finish s
          | Some l =>
              match box_with s box [Ky (AStr (pys "[0%]"))] [] with
              | (s, Err e) => (s, Err e)
              | (s, Ok label_box) =>
                  match l with
                  | LFun f =>
                      let (cs, level') := f (ls_slide s) label_box (l_level b) in
                      let (x, r) := perform_all (ls_slide s) cs in
                      let s := mkState x (set_nth n (set_level b level') (ls_lists s))
                                 (ls_shown s ++ [(n, l_level b)]) in
                      match r with Err e => (s, Err e) | Ok _ => finish s end
                  | LText t =>
                      let (w, h) := measure t in
                      let (x, r) := item_call (ls_slide s) label_box (TextItem w h false) in
                      let s := mkState x (ls_lists s) (ls_shown s ++ [(n, l_level b)]) in
                      match r with Err e => (s, Err e) | Ok _ => finish s end
                  | LBad _ => (s, Err EException)
                  end
              end
          end
      end
  end.

(** list.py:157-178, _create_sublist; ul() passes no start. *)
Definition sublist (s : state) (n : nat) (default : label) (start : option Z) (indent : option Q)
  (lab : option label) (level : option (list Z)) (args : list kwarg) : state * result nat :=
  match nth_error (ls_lists s) n with
  | None => (s, Err EAttribute)
  | Some b =>
      let start := match start with Some v => v | None => 1 end in
      if start <? 1 then (s, Err EAssertion) else
      let indent := match indent with Some i => i | None => l_indent b end in
      let level := match level with Some l => l | None => l_level b end in
      let total := (l_total b + indent)%Q in
      match create_box s b total args with
      | (s, Err e) => (s, Err e)
      | (s, Ok box) =>
          (mkState (ls_slide s)
             (ls_lists s ++ [new_builder box (label_or lab default) indent (l_padding b) (Some level)
                               start total (update (l_args b) args)])
             (ls_shown s),
           Ok (List.length (ls_lists s)))
      end
  end.
(** boxmixin.py:185-196, sbox(). *)
Definition sbox (s : state) (parent : nat) : state * result nat :=
  let horizontal := match get_box parent (sl_box (ls_slide s)) with
                    | Some (b, _) => match get_layout (b_id b) (sl_layout (ls_slide s)) with
                                     | Some l => l_horizontal (head l)
                                     | None => false
                                     end
                    | None => false
                    end in
  box_with s parent [if horizontal then Kheight (AStr (pys "fill")) else Kwidth (AStr (pys "fill"))] [].
(** list.py:189-255, unordered_list and ordered_list; further keywords of ListBuilder
    ([level], [total_indent]) can be given too. *)
Definition top_list (s : state) (parent : nat) (default : label) (indent padding : Q) (lab : option label)
  (start : Z) (level : option (list Z)) (total : Q) (args : list kwarg) : state * result nat :=
  match sbox s parent with
  | (s, Err e) => (s, Err e)
  | (s, Ok box) =>
      (mkState (ls_slide s)
         (ls_lists s ++ [new_builder box (label_or lab default) indent padding level start total args])
         (ls_shown s),
       Ok (List.length (ls_lists s)))
  end.

(** What a program does with lists and the slide. *)
Inductive op :=
| OItem (n : nat) (lab : option label) (padding : option Q) (args : list kwarg)
| OSub (n : nat) (default : label) (start : option Z) (indent : option Q) (lab : option label)
       (level : option (list Z)) (args : list kwarg)
| OTop (parent : nat) (default : label) (indent padding : Q) (lab : option label) (start : Z)
       (level : option (list Z)) (total : Q) (args : list kwarg)
| OCall (c : call).
Definition act (s : state) (o : op) : state * result nat :=
  match o with
  | OItem n lab p args => item s n lab p args
  | OSub n d st i lab lv args => sublist s n d st i lab lv args
  | OTop p d i pad lab st lv t args => top_list s p d i pad lab st lv t args
  | OCall c => let (x, r) := perform (ls_slide s) c in (with_slide s x, r)
  end.
End Lists.
