(** Model of elsie/text/textstyle.py and text/stylecontainer.py: style objects and style
    dictionaries are mutable objects in a store, so that aliasing is visible. *)
From Coq Require Import List ZArith NArith QArith Bool String.
From Verif Require Import Py.
Import ListNotations.

(** Python values that may be given as attributes of a style. *)
Inductive pyval := PNone | PStr (s : str) | PNum (q : Q) | PBool (b : bool) | POther (n : nat).

(** The attributes of a style, in the order of [__slots__] (textstyle.py:67-78). *)
Inductive attr :=
| Font | Size | Align | LineSpacing | Color | Bold | Italic | VariantNumeric | Opacity | Priority.
Definition slots : list attr :=
  [Font; Size; Align; LineSpacing; Color; Bold; Italic; VariantNumeric; Opacity; Priority].

(** textstyle.py:48-125, a TextStyle object. *)
Record style := mkStyle {
  s_font : pyval; s_size : pyval; s_align : pyval; s_line_spacing : pyval; s_color : pyval;
  s_bold : pyval; s_italic : pyval; s_variant : pyval; s_opacity : pyval; s_priority : pyval
}.

Definition get (s : style) (a : attr) : pyval :=
  match a with
  | Font => s_font s | Size => s_size s | Align => s_align s
  | LineSpacing => s_line_spacing s | Color => s_color s | Bold => s_bold s
  | Italic => s_italic s | VariantNumeric => s_variant s | Opacity => s_opacity s
  | Priority => s_priority s
  end.

(** [setattr(self, slot, value)] (textstyle.py:221): the slot itself, without the checks
    of the property setters. *)
Definition put (s : style) (a : attr) (v : pyval) : style :=
  let f (b : bool) (old : pyval) := if b then v else old in
  mkStyle
    (f (match a with Font => true | _ => false end) (s_font s))
    (f (match a with Size => true | _ => false end) (s_size s))
    (f (match a with Align => true | _ => false end) (s_align s))
    (f (match a with LineSpacing => true | _ => false end) (s_line_spacing s))
    (f (match a with Color => true | _ => false end) (s_color s))
    (f (match a with Bold => true | _ => false end) (s_bold s))
    (f (match a with Italic => true | _ => false end) (s_italic s))
    (f (match a with VariantNumeric => true | _ => false end) (s_variant s))
    (f (match a with Opacity => true | _ => false end) (s_opacity s))
    (f (match a with Priority => true | _ => false end) (s_priority s)).

(** textstyle.py:4-11, _check_string. *)
Definition check_string (v : pyval) : result pyval :=
  match v with PNone | PStr _ => Ok v | _ => Err EException end.
(** textstyle.py:14-25, _check_number; a bool is an int. *)
Definition check_number (v : pyval) : result pyval :=
  match v with PNone | PNum _ | PBool _ => Ok v | _ => Err EException end.
(** textstyle.py:28-35, _check_bool. *)
Definition check_bool (v : pyval) : result pyval :=
  match v with PNone | PBool _ => Ok v | _ => Err EException end.
(** textstyle.py:38-45, _check_choice; all choices are None or strings. *)
Definition check_choice (v : pyval) (choices : list str) : result pyval :=
  match v with
  | PNone => Ok v
  | PStr s => if existsb (str_eqb s) choices then Ok v else Err EException
  | _ => Err EException
  end.

(** textstyle.py:53-65. *)
Definition align_values : list str := map pys ["left"; "middle"; "right"]%string.
Definition variant_values : list str :=
  map pys ["normal"; "ordinal"; "slashed-zero"; "lining-nums"; "oldstyle-nums";
           "proportinal-nums"; "tabular-nums"; "diagonal-fractions";
           "stacked-fractions"]%string.

(** textstyle.py:131-209, the property setters. *)
Definition check (a : attr) (v : pyval) : result pyval :=
  match a with
  | Font | Color => check_string v
  | Size | LineSpacing | Opacity => check_number v
  | Align => check_choice v align_values
  | VariantNumeric => check_choice v variant_values
  | Bold | Italic => check_bool v
  | Priority => match v with PNone => Err EException | _ => check_number v end
  end.
Definition set_attr (s : style) (a : attr) (v : pyval) : result style :=
  do v' <- check a v; Ok (put s a v').

(** textstyle.py:80-92: the defaults of the arguments of TextStyle(). *)
Definition no_args : style :=
  mkStyle PNone PNone PNone PNone PNone PNone PNone PNone PNone (PNum 0).

(** textstyle.py:116-125, TextStyle.__init__: the setters are called one after the other. *)
Fixpoint init_from (args : style) (todo : list attr) (s : style) : result style :=
  match todo with
  | [] => Ok s
  | a :: todo' => do s' <- set_attr s a (get args a); init_from args todo' s'
  end.
Definition make_style (args : style) : result style := init_from args slots no_args.

(** textstyle.py:215-221, TextStyle.update: the new value of [self]. *)
Definition update1 (other : style) (s : style) (a : attr) : style :=
  match get other a with PNone => s | v => put s a v end.
Definition update (self other : style) : style := fold_left (update1 other) slots self.

(** textstyle.py:211-213 and 223-227, copy and compose, on values. *)
Definition compose (self other : style) : style := update self other.

(** The store: style objects, dictionaries (name to style object, first entry counts) and
    style containers (the dictionary of each box and of the deck).  Objects are numbered
    in the order of their creation. *)
Definition dict := list (str * nat).
Record world := mkWorld { w_styles : list style; w_dicts : list dict; w_conts : list nat }.

Fixpoint assoc {A} (k : str) (d : list (str * A)) : option A :=
  match d with
  | [] => None
  | (k', v) :: d' => if str_eqb k k' then Some v else assoc k d'
  end.
Fixpoint replace_nth {A} (n : nat) (x : A) (l : list A) : list A :=
  match l, n with
  | [], _ => []
  | _ :: l', O => x :: l'
  | y :: l', S n' => y :: replace_nth n' x l'
  end.

Definition alloc_style (w : world) (s : style) : world * nat :=
  (mkWorld (w_styles w ++ [s]) (w_dicts w) (w_conts w), List.length (w_styles w)).
Definition write_style (w : world) (l : nat) (s : style) : world :=
  mkWorld (replace_nth l s (w_styles w)) (w_dicts w) (w_conts w).
Definition alloc_dict (w : world) (d : dict) : world * nat :=
  (mkWorld (w_styles w) (w_dicts w ++ [d]) (w_conts w), List.length (w_dicts w)).
(** [d[name] = style]: the dictionary object itself changes. *)
Definition write_dict (w : world) (d : nat) (k : str) (l : nat) : world :=
  mkWorld (w_styles w)
    (replace_nth d ((k, l) :: nth d (w_dicts w) []) (w_dicts w)) (w_conts w).

(** The dictionary object of container [c] and its content. *)
Definition dict_of (w : world) (c : nat) : nat := nth c (w_conts w) 0%nat.
Definition entries (w : world) (c : nat) : dict := nth (dict_of w c) (w_dicts w) [].
Definition style_at (w : world) (l : nat) : style := nth l (w_styles w) no_args.

Definition default_ : str := pys "default"%string.

(** Arguments that are a name or a style object; anything else raises. *)
Inductive style_arg := ByName (s : str) | ByStyle (l : nat) | ByOther.

(** textstyle.py:211-213, copy. *)
Definition copy_style (w : world) (l : nat) : world * nat := alloc_style w (style_at w l).

(** textstyle.py:230-244, compose_style, and stylecontainer.py:47-54, get_style.  The
    result is a new object. *)
Definition get_style (w : world) (c : nat) (a : style_arg) (full : bool)
  : result (world * nat) :=
  let d := entries w c in
  let finish l :=
    if negb full then Ok (copy_style w l)
    else match assoc default_ d with
         | None => Err EKey
         | Some b => Ok (alloc_style w (compose (style_at w b) (style_at w l)))
         end in
  match a with
  | ByName n =>
      match assoc n d with
      | None => Err EException
      | Some l => if str_eqb n default_ then Ok (copy_style w l) else finish l
      end
  | ByStyle l => finish l
  | ByOther => Err EException
  end.

(** stylecontainer.py:10-12, has_style. *)
Definition has_style (w : world) (c : nat) (n : str) : bool :=
  match assoc n (entries w c) with Some _ => true | None => false end.

(** stylecontainer.py:19-20 and 43-44: [self._styles = self._styles.copy()] and
    [self._styles[style_name] = style]. *)
Definition bind_style (w : world) (c : nat) (n : str) (l : nat) : world :=
  let (w1, d) := alloc_dict w (entries w c) in
  let w2 := mkWorld (w_styles w1) (w_dicts w1) (replace_nth c d (w_conts w1)) in
  write_dict w2 (dict_of w2 c) n l.

(** stylecontainer.py:14-21, update_style. *)
Definition update_style (w : world) (c : nat) (n : str) (l : nat) : result (world * nat) :=
  do wl <- get_style w c (ByName n) false;
  let (w1, old) := wl in
  let w2 := write_style w1 old (update (style_at w1 old) (style_at w1 l)) in
  Ok (bind_style w2 c n old, old).

(** stylecontainer.py:23-45, set_style. *)
Definition set_style (w : world) (c : nat) (n : str) (l : nat) (base : str)
  : result (world * nat) :=
  if str_eqb base default_ then Ok (bind_style w c n l, l)
  else
    do wl <- get_style w c (ByName base) false;
    let (w1, b) := wl in
    let w2 := write_style w1 b (update (style_at w1 b) (style_at w1 l)) in
    Ok (bind_style w2 c n b, b).

(** boxmixin.py:159 and box.py:42: a new box uses the dictionary object of its parent. *)
Definition new_box (w : world) (c : nat) : world * nat :=
  (mkWorld (w_styles w) (w_dicts w) (w_conts w ++ [dict_of w c]), List.length (w_conts w)).
(** slidedeck.py:156: the root box of a new slide gets a copy of the dictionary. *)
Definition new_root (w : world) (c : nat) : world * nat :=
  let (w1, d) := alloc_dict w (entries w c) in
  (mkWorld (w_styles w1) (w_dicts w1) (w_conts w1 ++ [d]), List.length (w_conts w1)).

(** slidedeck.py:81-103: a new deck, container 0, given its named styles. *)
Fixpoint number_from (k : nat) (l : list (str * style)) : dict :=
  match l with [] => [] | (n, _) :: l' => (n, k) :: number_from (S k) l' end.
Definition new_deck (named : list (str * style)) : world :=
  mkWorld (map snd named) [number_from 0 named] [0%nat].

(** What the user can do.  Boxes, slides and the deck are containers; style objects can be
    created, combined and changed at any time. *)
Inductive action :=
| ANewBox (c : nat) | ANewSlide
| AStyle (args : style)                       (* TextStyle(...) *)
| AAssign (l : nat) (a : attr) (v : pyval)    (* style.attr = value *)
| AUpdate (l l' : nat)                        (* style.update(style') *)
| ACompose (l l' : nat) | ACopy (l : nat)
| AGet (c : nat) (a : style_arg) (full : bool)
| AUpdateStyle (c : nat) (n : str) (l : nat)
| ASetStyle (c : nat) (n : str) (l : nat) (base : str).

(** One action; a raised exception leaves the world unchanged, which is so because in
    every method the only steps that raise come before the first visible change.  The
    number returned is the object or container that the call returns. *)
Definition act (w : world) (a : action) : world * result nat :=
  let keep (r : result (world * nat)) : world * result nat :=
    match r with Ok (w', l) => (w', Ok l) | Err e => (w, Err e) end in
  let have l := Nat.ltb l (List.length (w_styles w)) in
  match a with
  | ANewBox c =>
      if Nat.ltb c (List.length (w_conts w)) then keep (Ok (new_box w c)) else (w, Err EAttribute)
  | ANewSlide => keep (Ok (new_root w 0))
  | AStyle args => keep (do s <- make_style args; Ok (alloc_style w s))
  | AAssign l x v =>
      if have l then keep (do s <- set_attr (style_at w l) x v; Ok (write_style w l s, l))
      else (w, Err EAttribute)
  | AUpdate l l' =>
      if have l && have l' then
        keep (Ok (write_style w l (update (style_at w l) (style_at w l')), l))
      else (w, Err EAssertion)
  | ACompose l l' =>
      if have l && have l' then
        let (w1, k) := copy_style w l in
        keep (Ok (write_style w1 k (update (style_at w1 k) (style_at w1 l')), k))
      else (w, Err EAssertion)
  | ACopy l => if have l then keep (Ok (copy_style w l)) else (w, Err EAttribute)
  | AGet c x full =>
      if Nat.ltb c (List.length (w_conts w)) &&
         match x with ByStyle l => have l | _ => true end
      then keep (get_style w c x full) else (w, Err EException)
  | AUpdateStyle c n l =>
      if Nat.ltb c (List.length (w_conts w)) && have l then keep (update_style w c n l)
      else (w, Err EAssertion)
  | ASetStyle c n l base =>
      if Nat.ltb c (List.length (w_conts w)) && have l then keep (set_style w c n l base)
      else (w, Err EAssertion)
  end.
