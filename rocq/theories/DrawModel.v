(** Model of the drawing of texts: draw_text of the SVG backend
    (render/backends/svg/draw.py, rcontext.py) and the text attributes of the Cairo backend
    (render/backends/cairo/text.py). *)
From Coq Require Import List ZArith NArith QArith Bool String.
From Verif Require Import Py XmlModel StyleModel TextModel TextBoxModel.
Import ListNotations.

(** A number as used in arithmetic and comparisons; a bool is an int. *)
Definition num (v : pyval) : result Q :=
  match v with
  | PNum q => Ok q
  | PBool b => Ok (if b then 1 else 0)%Q
  | _ => Err EType
  end.
(** Python's truth value; the empty string and 0 are false. *)
Definition truthy (v : pyval) : bool :=
  match v with
  | PNone => false
  | PStr s => match s with [] => false | _ => true end
  | PNum q => negb (Qeq_bool q 0)
  | PBool b => b
  | POther _ => true
  end.
Definition is_none (v : pyval) : bool := match v with PNone => true | _ => false end.

Section Draw.
(** [str(value)] of a value that is formatted into an attribute. *)
Variable fmt : pyval -> str.

(** draw.py:14-22, the style string. *)
Definition style_string (s : style) : str :=
  (if is_none (s_color s) then [] else pys "fill:" ++ fmt (s_color s) ++ pys ";") ++
  (if is_none (s_opacity s) then [] else pys "fill-opacity:" ++ fmt (s_opacity s) ++ pys ";") ++
  (if truthy (s_bold s) then pys "font-weight: bold;" else []) ++
  (if truthy (s_italic s) then pys "font-style: italic;" else []).
(** draw.py:8-24, set_font_from_style: the calls of the XML writer it makes. *)
Definition set_font (s : style) : list xcall :=
  (if is_none (s_font s) then [] else [CSet (pys "font-family") (fmt (s_font s)) true]) ++
  (if is_none (s_size s) then [] else [CSet (pys "font-size") (fmt (s_size s)) true]) ++
  match style_string s with [] => [] | css => [CSet (pys "style") css true] end.

Definition tspan : str := pys "tspan".
Definition preserve : xcall := CSet (pys "xml:space") (pys "preserve") true.

(** A run of code that calls the XML writer: the calls made, and how it ended.  What is
    done does not depend on the state of the writer, so the exception that is raised is
    the first one among those of the calls and the final one. *)
Definition trace (A : Type) := (list xcall * result A)%type.
Definition tret {A} (a : A) : trace A := ([], Ok a).
Definition traise {A} (e : exn) : trace A := ([], Err e).
Definition tbind {A B} (t : trace A) (f : A -> trace B) : trace B :=
  match snd t with
  | Ok a => let u := f a in (fst t ++ fst u, snd u)
  | Err e => (fst t, Err e)
  end.
Definition calls (cs : list xcall) : trace unit := (cs, Ok tt).
Definition lift {A} (r : result A) : trace A := ([], r).
(** The effect on a writer. *)
Definition perform (x : xml) (t : trace unit) : result xml :=
  do x' <- xrun x (fst t); do _ <- snd t; Ok x'.

(** draw.py:84-92: the styles that are active, outermost first, are opened again. *)
Fixpoint reopen (x dy : str) (j : nat) (active : list (option style)) : list xcall :=
  match active with
  | [] => []
  | None :: rest => reopen x dy (S j) rest
  | Some s :: rest =>
      [CElement tspan; preserve] ++
      (if Nat.eqb j 0 then [CSet (pys "x") x true; CSet (pys "dy") dy true] else []) ++
      set_font s ++ reopen x dy (S j) rest
  end.

(** draw.py:78-116, the loop over the tokens.  [active] is active_styles, outermost first;
    [ident] is id and id_index. *)
Section Loop.
Variables (x : str) (line_size : Q) (styles : str -> option style)
  (ident : option str) (id_index : option nat).
Fixpoint draw_loop (i : nat) (prio : Q) (active : list (option style)) (ts : list token)
  : trace (list (option style)) :=
  match ts with
  | [] => tret active
  | TText s :: ts' =>
      tbind (calls [CText s]) (fun _ => draw_loop (S i) prio active ts')
  | TNewline n :: ts' =>
      tbind (calls (map (fun _ => CClose (Some tspan)) active ++
                    reopen x (fmt (PNum (line_size * inject_Z (Z.of_nat n)))) 0 active))
        (fun _ => draw_loop (S i) prio active ts')
  | TBegin name :: ts' =>
      let is_dummy := startswith (pys "#") name in
      match styles name with
      | None =>
          if is_dummy then
            tbind (calls ([CElement tspan] ++
                          match ident with
                          | Some d => if match id_index with Some k => Nat.eqb k i | None => false end
                                      then [CSet (pys "id") d true] else []
                          | None => []
                          end ++ [preserve]))
              (fun _ => draw_loop (S i) prio (active ++ [None]) ts')
          else traise EException
      | Some s =>
          tbind (lift (num (s_priority s))) (fun p =>
          let ineffective := negb (Qle_bool prio p) in
          let s' := if ineffective then None else Some s in
          tbind (calls ([CElement tspan] ++
                        match ident with
                        | Some d => if match id_index with Some k => Nat.eqb k i | None => false end
                                    then [CSet (pys "id") d true] else []
                        | None => []
                        end ++ [preserve] ++
                        match s' with Some s => set_font s | None => [] end))
            (fun _ => draw_loop (S i) (if ineffective then prio else p) (active ++ [s']) ts'))
      end
  | TEnd :: ts' =>
      tbind (calls [CClose (Some tspan)]) (fun _ =>
      match rev active with
      | [] => traise EIndex
      | _ :: below =>
          match below with
          | Some s :: _ =>
              tbind (lift (num (s_priority s))) (fun p => draw_loop (S i) p (rev below) ts')
          | _ => draw_loop (S i) prio (rev below) ts'
          end
      end)
  end.
End Loop.

(** draw.py:63-65, the text anchor. *)
Definition anchor (v : pyval) : result str :=
  match v with
  | PStr s =>
      if str_eqb s (pys "left") then Ok (pys "start")
      else if str_eqb s (pys "middle") then Ok (pys "middle")
      else if str_eqb s (pys "right") then Ok (pys "end")
      else Err EKey
  | _ => Err EKey
  end.

(** draw.py:48-121, draw_text. *)
Definition draw_text (x y : Q) (ts : list token) (s : style) (styles : str -> option style)
  (ident : option str) (id_index : option nat) (transform : option str) : trace unit :=
  tbind (calls ([CElement (pys "text")] ++
    match ident, id_index with Some d, None => [CSet (pys "id") d true] | _, _ => [] end ++
    [CSet (pys "x") (fmt (PNum x)) true; CSet (pys "y") (fmt (PNum y)) true] ++
    match transform with Some t => [CSet (pys "transform") t true] | None => [] end))
  (fun _ => tbind (lift (anchor (s_align s)))
  (fun a => tbind (calls (CSet (pys "text-anchor") a true :: set_font s))
  (fun _ => tbind (lift (do z <- num (s_size s); do l <- num (s_line_spacing s); Ok (z * l)%Q))
  (fun line_size => tbind (calls (CElement tspan ::
    if truthy (s_variant s) then [CSet (pys "font-variant-numeric") (fmt (s_variant s)) true] else []))
  (fun _ => tbind (lift (num (s_priority s)))
  (fun p => tbind (draw_loop (fmt (PNum x)) line_size styles ident id_index 0 p [Some s] ts)
  (fun active => calls (flat_map (fun o : option style =>
       match o with Some _ => [CClose (Some tspan)] | None => [] end) active ++
       [CClose (Some (pys "text"))])))))))).

(** rcontext.py:37-70, SvgRenderingContext.draw_text. *)
Definition svg_draw_text (mid : Q * Q) (x y : Q) (ts : list token) (s : style)
  (styles : str -> option style) (rotation : pyval) (scale : option Q) : trace unit :=
  let xy := match scale with Some k => ((x / k)%Q, (y / k)%Q) | None => (x, y) end in
  let rot := if truthy rotation
             then [pys "rotate(" ++ fmt rotation ++ pys " " ++ fmt (PNum (fst mid)) ++ pys " " ++
                   fmt (PNum (snd mid)) ++ pys ")"] else [] in
  let sc := match scale with
            | Some k => if Qeq_bool k 0 then [] else [pys "scale(" ++ fmt (PNum k) ++ pys ")"]
            | None => []
            end in
  let transform := match rot ++ sc with [] => None | l => Some (join_with (pys " ") l) end in
  match scale with
  | Some k => if Qeq_bool k 0 then traise EZeroDivision
              else draw_text (fst xy) (snd xy) ts s styles None None transform
  | None => draw_text (fst xy) (snd xy) ts s styles None None transform
  end.
End Draw.

(** ** Cairo *)

(** cairo/text.py:59. *)
Definition invisible_space : char := 10240.

(** cairo/text.py:89-92, a newline token: the text it adds, given whether the line so far
    is empty. *)
Fixpoint newline_text (empty : bool) (n : nat) : str :=
  match n with
  | O => []
  | S n' => (if empty then [invisible_space] else []) ++ 10%N :: newline_text true n'
  end.

(** The styles of base_style that are not None, innermost first. *)
Definition active_style (st : list (option style)) : result style :=
  match flat_map (fun o : option style => match o with Some s => [s] | None => [] end) st with
  | s :: _ => Ok s
  | [] => Err EIndex
  end.

(** cairo/text.py:82-108, the loop.  [st] is base_style, innermost first; [line] tells
    whether the text of the current line is empty.  The attributes are given by the style
    and the byte range for which style_to_attributes is called. *)
Definition segment := (style * nat * nat)%type.
Fixpoint attr_loop (styles : str -> option style) (ts : list token) (st : list (option style))
  (start : nat) (text : str) (empty : bool) (segs : list segment)
  : result (list (option style) * nat * str * list segment) :=
  match ts with
  | [] => Ok (st, start, text, segs)
  | TText s :: ts' =>
      attr_loop styles ts' st start (text ++ s)
        (empty && match s with [] => true | _ => false end) segs
  | TNewline n :: ts' =>
      attr_loop styles ts' st start (text ++ newline_text empty n)
        (match n with O => empty | _ => true end) segs
  | TBegin name :: ts' =>
      do cur <- active_style st;
      do n <- byte_length text;
      let segs := segs ++ [(cur, start, n)] in
      if startswith (pys "#") name then attr_loop styles ts' (None :: st) n text empty segs
      else
        match styles name with
        | None => Err EAttribute
        | Some this =>
            do p <- num (s_priority cur);
            do q <- num (s_priority this);
            let o := if negb (Qle_bool p q) then None else Some (compose cur this) in
            attr_loop styles ts' (o :: st) n text empty segs
        end
  | TEnd :: ts' =>
      do cur <- active_style st;
      do n <- byte_length text;
      match st with
      | [] => Err EIndex
      | _ :: st' => attr_loop styles ts' st' n text empty (segs ++ [(cur, start, n)])
      end
  end.
(** cairo/text.py:66-114, get_text_and_attributes. *)
Definition text_and_attributes (ts : list token) (s : style) (styles : str -> option style)
  : result (str * list segment) :=
  match styles default_ with
  | None => Err EKey
  | Some d =>
      let base := compose d s in
      do r <- attr_loop styles ts [Some base] 0 [] true [];
      let '(st, start, text, segs) := r in
      do n <- byte_length text;
      (* base_style[0] is the outermost entry *)
      do segs <- match rev st with
                 | [] => if Nat.ltb start n then Err EIndex else Ok segs
                 | o :: _ =>
                     if Nat.ltb start n then
                       match o with Some b => Ok (segs ++ [(b, start, n)]) | None => Err EAttribute end
                     else Ok segs
                 end;
      match st with [Some _] => Ok (text, segs) | _ => Err EAssertion end
  end.

(** cairo/text.py:37-56, style_to_attributes: the size, the family, the colour, the weight
    and the slant.  The units and the colour are kept as given (to_pango_units and
    get_rgb_color are not modelled), the scale, the same for the whole text, is left out. *)
Record pango_attrs := mkPango { pa_size : pyval; pa_family : pyval; pa_color : pyval;
  pa_bold : bool; pa_italic : bool }.
Definition style_to_attributes (s : style) : pango_attrs :=
  mkPango (s_size s) (s_font s) (s_color s) (truthy (s_bold s)) (truthy (s_italic s)).
