(** How styled texts should look, and how an SVG viewer and Pango show what is drawn. *)
From Coq Require Import List ZArith NArith QArith Bool String.
From Verif Require Import Py XmlModel XmlSpec StyleModel StyleSpec TextModel TextSpec TextBoxModel
  DrawModel.
Import ListNotations.

(** ** Effective styles *)

(** The priority of a style. *)
Definition prio (s : style) : Q :=
  match get s Priority with PNum q => q | PBool true => 1 | _ => 0 end%Q.

(** A name that starts with "#" has no effect, it only marks a place. *)
Definition dummy (name : str) : Prop := exists r, name = 35%N :: r.
Definition dummyb (name : str) : bool := match name with c :: _ => N.eqb c 35 | [] => false end.

(** The styles around a place, innermost first; None for those without effect. *)
Definition surroundings := list (option style).
Definition effective (st : surroundings) : list style :=
  flat_map (fun o : option style => match o with Some s => [s] | None => [] end) st.

(** A style takes effect if its priority is at least that of the innermost style that is in
    effect. *)
Definition effect (styles : str -> option style) (st : surroundings) (name : str) : option style :=
  if dummyb name then None
  else match styles name, effective st with
       | Some s, cur :: _ => if Qle_bool (prio cur) (prio s) then Some s else None
       | _, _ => None
       end.

(** The characters with the styles that are in effect, innermost first.  Line breaks are
    not shown. *)
Fixpoint glyphs (styles : str -> option style) (st : surroundings) (ts : list token)
  : list (char * list style) :=
  match ts with
  | [] => []
  | TText s :: ts' => map (fun c => (c, effective st)) s ++ glyphs styles st ts'
  | TNewline _ :: ts' => glyphs styles st ts'
  | TBegin n :: ts' => glyphs styles (effect styles st n :: st) ts'
  | TEnd :: ts' => glyphs styles (tl st) ts'
  end.

(** The value of an attribute: the innermost effective style that specifies it decides. *)
Fixpoint value (a : attr) (l : list style) : pyval :=
  match l with
  | [] => PNone
  | s :: l' => match get s a with PNone => value a l' | v => v end
  end.

(** The characters inside of the block that the token number [k] opens, up to the end of the
    block or of the line; [o] is the number of blocks inside of it that are open. *)
Fixpoint covered (k : option nat) (i : nat) (o : option nat) (ts : list token) : list bool :=
  match ts with
  | [] => []
  | TText t :: ts' => map (fun _ => match o with Some _ => true | None => false end) t ++ covered k (S i) o ts'
  | TNewline _ :: ts' => covered k (S i) None ts'
  | TBegin _ :: ts' =>
      covered k (S i) (match o with
                       | Some n => Some (S n)
                       | None => match k with Some j => if Nat.eqb j i then Some 0%nat else None | None => None end
                       end) ts'
  | TEnd :: ts' => covered k (S i) (match o with Some (S n) => Some n | _ => None end) ts'
  end.

(** All styles of a text are known. *)
Definition known_names (styles : str -> option style) (ts : list token) : Prop :=
  forall n, In (TBegin n) ts -> dummy n \/ styles n <> None.

(** Texts that the SVG backend can draw: no line break inside a style without effect, and
    if a style is closed directly inside a style without effect, the priority falls back
    to the same value. *)
Fixpoint regular (styles : str -> option style) (st : surroundings) (ts : list token) : Prop :=
  match ts with
  | [] => True
  | TText _ :: ts' => regular styles st ts'
  | TNewline _ :: ts' => ~ In None st /\ regular styles st ts'
  | TBegin n :: ts' => regular styles (effect styles st n :: st) ts'
  | TEnd :: ts' =>
      match st with
      | Some s :: None :: below =>
          match effective below with cur :: _ => (prio s == prio cur)%Q | [] => False end
      | _ => True
      end /\ regular styles (tl st) ts'
  end.

(** ** The SVG *)

(** The characters of a document with the attributes of the elements around them,
    innermost first. *)
Fixpoint doc_glyphs (around : list (list (str * str))) (n : node)
  : list (char * list (list (str * str))) :=
  match n with
  | NChar c => [(c, around)]
  | NElem _ al ks => flat_map (doc_glyphs (al :: around)) ks
  end.

Fixpoint lookup (p : str) (al : list (str * str)) : option str :=
  match al with
  | [] => None
  | (k, v) :: al' => if str_eqb p k then Some v else lookup p al'
  end.
(** An inherited attribute: the innermost element that has it decides. *)
Fixpoint inherited (p : str) (around : list (list (str * str))) : option str :=
  match around with
  | [] => None
  | al :: rest => match lookup p al with Some v => Some v | None => inherited p rest end
  end.
(** A property in a style attribute "name: value; name: value; ...". *)
Fixpoint declaration (p : str) (parts : list str) : option str :=
  match parts with
  | [] => None
  | d :: rest =>
      match split_first (pys ":") d with
      | Some (a, b) => if str_eqb (strip a) p then Some (strip b) else declaration p rest
      | None => declaration p rest
      end
  end.
Definition declared (p : str) (al : list (str * str)) : option str :=
  match lookup (pys "style") al with
  | Some css => declaration p (split_on 59%N css)
  | None => None
  end.
Fixpoint property (p : str) (around : list (list (str * str))) : option str :=
  match around with
  | [] => None
  | al :: rest => match declared p al with Some v => Some v | None => property p rest end
  end.

Section Shown.
Variable fmt : pyval -> str.
Definition shown (v : pyval) : option str := match v with PNone => None | _ => Some (fmt v) end.
Definition flag (v : pyval) (word : string) : option str :=
  match v with PBool true => Some (pys word) | _ => None end.

(** A character in the SVG looks as it should. *)
Definition same_look (g : char * list (list (str * str))) (h : char * list style) : Prop :=
  fst g = (if N.eqb (fst h) 32 then 160 else fst h)%N /\
  inherited (pys "font-family") (snd g) = shown (value Font (snd h)) /\
  inherited (pys "font-size") (snd g) = shown (value Size (snd h)) /\
  property (pys "fill") (snd g) = shown (value Color (snd h)) /\
  property (pys "fill-opacity") (snd g) = shown (value Opacity (snd h)) /\
  property (pys "font-weight") (snd g) = flag (value Bold (snd h)) "bold" /\
  property (pys "font-style") (snd g) = flag (value Italic (snd h)) "italic".

(** The values of a style can be written into an SVG. *)
Definition css_safe (v : str) : Prop := ~ In 59%N v /\ strip v = v.
Definition printable (s : style) : Prop :=
  (forall a, legal_value (fmt (get s a)) = true) /\
  css_safe (fmt (get s Color)) /\ css_safe (fmt (get s Opacity)).
End Shown.

(** A style that switches bold or italic off. *)
Definition switches_off (s : style) : Prop := get s Bold = PBool false \/ get s Italic = PBool false.

(** A style that can be used for a whole text. *)
Definition complete (s : style) : Prop :=
  valid_style s /\ get s Align <> PNone /\ get s Size <> PNone /\ get s LineSpacing <> PNone.

(** ** Pango *)

(** The bytes of a text with the style of the attributes for them; [None] if there are no
    attributes or different ones. *)
Definition covers (p : nat) (g : segment) : bool :=
  let '(_, a, b) := g in Nat.leb a p && Nat.ltb p b.
Definition styled_at (segs : list segment) (p : nat) (s : style) : Prop :=
  (exists g, In g segs /\ covers p g = true) /\
  (forall g, In g segs -> covers p g = true -> fst (fst g) = s).

(** The number of bytes of a character in UTF-8, and the characters that can be encoded. *)
Definition width (c : char) : nat :=
  if (c <? 128)%N then 1 else if (c <? 2048)%N then 2 else if (c <? 65536)%N then 3 else 4.
Definition encodable (t : str) : Prop := forall c, In c t -> ~ (55296 <= c <= 57343)%N.
(** The characters of the text that starts at byte [off], with their styles. *)
Fixpoint pango (segs : list segment) (off : nat) (text : str) (out : list (char * style)) : Prop :=
  match text, out with
  | [], [] => True
  | c :: text', (c', s) :: out' =>
      c' = c /\ (forall k, (k < width c)%nat -> styled_at segs (off + k) s) /\
      pango segs (off + width c) text' out'
  | _, _ => False
  end.

(** What is shown by Cairo: the characters, line breaks included, with the styles in
    effect; empty lines hold one invisible character. *)
Fixpoint cairo_glyphs (styles : str -> option style) (st : surroundings) (empty : bool)
  (ts : list token) : list (char * list style) :=
  match ts with
  | [] => []
  | TText s :: ts' =>
      map (fun c => (c, effective st)) s ++
      cairo_glyphs styles st (empty && match s with [] => true | _ => false end) ts'
  | TNewline n :: ts' =>
      (if empty then match n with O => [] | _ => [(invisible_space, effective st)] end else []) ++
      match n with
      | O => []
      | S k => (10%N, effective st) ::
               List.concat (repeat [(invisible_space, effective st); (10%N, effective st)] k)
      end ++ cairo_glyphs styles st (match n with O => empty | _ => true end) ts'
  | TBegin n :: ts' => cairo_glyphs styles (effect styles st n :: st) empty ts'
  | TEnd :: ts' => cairo_glyphs styles (tl st) empty ts'
  end.
(** A style with exactly the attributes that the effective styles specify. *)
Definition sum_of (l : list style) (s : style) : Prop := forall a, get s a = value a l.

(** Without the line breaks and the characters that fill empty lines. *)
Definition visible {A} (g : char * A) : bool :=
  negb (N.eqb (fst g) 10) && negb (N.eqb (fst g) invisible_space).
Definition no_fillers (ts : list token) : Prop :=
  forall t, In (TText t) ts -> ~ In 10%N t /\ ~ In invisible_space t.

(** A character of the SVG and one with Pango attributes look the same. *)
Definition same_in_both (fmt : pyval -> str) (g : char * list (list (str * str)))
  (h : char * style) : Prop :=
  let a := style_to_attributes (snd h) in
  fst g = (if N.eqb (fst h) 32 then 160 else fst h)%N /\
  inherited (pys "font-family") (snd g) = shown fmt (pa_family a) /\
  inherited (pys "font-size") (snd g) = shown fmt (pa_size a) /\
  property (pys "fill") (snd g) = shown fmt (pa_color a) /\
  property (pys "font-weight") (snd g) = (if pa_bold a then Some (pys "bold") else None) /\
  property (pys "font-style") (snd g) = (if pa_italic a then Some (pys "italic") else None).
