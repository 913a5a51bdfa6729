(** Model of elsie/slides/slidedeck.py, of the deck side of elsie/slides/slide.py, and of
    elsie/render/render.py: the slides of a presentation, name policies, the pages that
    render() makes and several slides on a page. *)
From Coq Require Import List ZArith QArith NArith Bool String.
From Verif Require Import Py XmlModel.
Import ListNotations.

(** ** The deck *)

(** The name argument: None, a string, or a value that is not a string (only its identity
    matters). *)
Inductive name := NoName | Name (s : str) | OtherName (k : nat).

(** slide.py:15-45, a Slide: the fields that the deck uses.  [so_id] is the identity of the
    Python object. *)
Record slide_obj := mkSlide { so_id : nat; so_name : name; so_index : nat }.
(** slidedeck.py:80, an element of _slides: a Slide or an ExternPdfSlide (slide.py:70-72,
    [file] is the absolute path). *)
Inductive entry := ESlide (s : slide_obj) | EPdf (file : str).

Inductive policy := PUnique | PIgnore | PReplace.
(** [dk_made] counts the slides ever made; it only supplies fresh identities. *)
Record deck := mkDeck { dk_policy : policy; dk_slides : list entry; dk_made : nat }.

(** slidedeck.py:67-80, SlideDeck.__init__: the name policy and the empty list of slides.
    [notebook] is is_inside_notebook(). *)
Definition new_deck (policy_arg : str) (notebook : bool) : result deck :=
  do p <- (if str_eqb policy_arg (pys "auto") then Ok (if notebook then PReplace else PIgnore)
           else if str_eqb policy_arg (pys "unique") then Ok PUnique
           else if str_eqb policy_arg (pys "ignore") then Ok PIgnore
           else if str_eqb policy_arg (pys "replace") then Ok PReplace
           else Err EException);
  Ok (mkDeck p [] 0).

(** slide.name == name (slidedeck.py:120). *)
Definition name_eqb (a b : name) : bool :=
  match a, b with
  | NoName, NoName => true
  | Name s, Name t => str_eqb s t
  | OtherName i, OtherName j => Nat.eqb i j
  | _, _ => false
  end.

(** slidedeck.py:117-121, get_slide_by_name; an ExternPdfSlide has no attribute name. *)
Fixpoint get_slide_by_name (l : list entry) (n : name) : result (option slide_obj) :=
  match l with
  | [] => Ok None
  | EPdf _ :: _ => Err EAttribute
  | ESlide s :: l' => if name_eqb (so_name s) n then Ok (Some s) else get_slide_by_name l' n
  end.

(** self._slides.remove(slide) (slidedeck.py:259): the first element that is this object. *)
Fixpoint remove_slide (l : list entry) (s : slide_obj) : list entry :=
  match l with
  | [] => []
  | ESlide t :: l' => if Nat.eqb (so_id t) (so_id s) then l' else ESlide t :: remove_slide l' s
  | e :: l' => e :: remove_slide l' s
  end.

(** slidedeck.py:239-261, _apply_name_policy: the new list of slides. *)
Definition apply_name_policy (p : policy) (l : list entry) (n : name) : result (list entry) :=
  match p with
  | PIgnore => Ok l
  | _ =>
      match n with
      | NoName => match p with PUnique => Ok l | _ => Err EException end
      | OtherName _ => Err EException
      | Name _ =>
          do found <- get_slide_by_name l n;
          match found with
          | None => Ok l
          | Some s => match p with PUnique => Err EException | _ => Ok (remove_slide l s) end
          end
      end
  end.

(** The argument view_box: None, a tuple (None for an element that is not a number), or
    something else. *)
Inductive view := NoView | ViewTuple (items : list (option Q)) | ViewOther.
(** slidedeck.py:140-147. *)
Definition view_ok (v : view) : bool :=
  match v with
  | NoView => true
  | ViewTuple l =>
      Nat.eqb (List.length l) 4 && forallb (fun i => match i with Some _ => true | None => false end) l
  | ViewOther => false
  end.

(** slidedeck.py:123-171, new_slide; the boxes of the slide are in SlideModel.v.  The result
    is the deck after the call and the slide of the returned box. *)
Definition new_slide (d : deck) (n : name) (v : view) : deck * result slide_obj :=
  if view_ok v then
    match apply_name_policy (dk_policy d) (dk_slides d) n with
    | Err e => (d, Err e)
    | Ok l =>
        let s := mkSlide (dk_made d) n (List.length l) in
        (mkDeck (dk_policy d) (l ++ [ESlide s]) (S (dk_made d)), Ok s)
    end
  else (d, Err EException).

(** slidedeck.py:173-212, the decorator slide(), applied to a function named [fn_name]; [body]
    is what the call of the function does to the deck (it may make slides itself). *)
Definition slide_decorator (d : deck) (n : name) (fn_name : str) (v : view)
    (body : deck -> deck * result unit) : deck * result slide_obj :=
  let n := match n with NoName => Name fn_name | _ => n end in
  match new_slide d n v with
  | (d, Err e) => (d, Err e)
  | (d, Ok s) => match body d with (d, Ok _) => (d, Ok s) | (d, Err e) => (d, Err e) end
  end.

(** slidedeck.py:214-216, add_pdf. *)
Definition add_pdf (d : deck) (file : str) : deck :=
  mkDeck (dk_policy d) (dk_slides d ++ [EPdf file]) (dk_made d).

(** Calls that change a deck. *)
Inductive dcall := DNew (n : name) (v : view) | DPdf (file : str).
Definition dstep (d : deck) (c : dcall) : deck * result (option slide_obj) :=
  match c with
  | DNew n v => match new_slide d n v with (d, Ok s) => (d, Ok (Some s)) | (d, Err e) => (d, Err e) end
  | DPdf f => (add_pdf d f, Ok None)
  end.
(** A history; the caller may catch exceptions and go on. *)
Fixpoint drun (d : deck) (cs : list dcall) : deck :=
  match cs with [] => d | c :: cs' => drun (fst (dstep d c)) cs' end.

(** ** Rendering *)

Inductive backend := Inkscape | Cairo.

(** render.py:8-61 and cairo/backend.py:57-60: what can become a page.  A unit made by
    grouping has neither slide nor step. *)
Inductive runit :=
| USvg (of_ : option (slide_obj * Z)) (svg : str)
| UFile (file export_type : str)
| UCairo (s : slide_obj) (step : Z) (export_type : str).
(** render.py:23-24 and 49-50, get_svg. *)
Definition get_svg (u : runit) : option str :=
  match u with USvg _ svg => Some svg | _ => None end.

(** svg/utils.py:7-18, svg_begin without view box and without the Inkscape namespace. *)
Definition svg_begin (width height : str) : list xcall :=
  [CElement (pys "svg");
   CSet (pys "xmlns") (pys "http://www.w3.org/2000/svg") true;
   CSet (pys "xmlns:xlink") (pys "http://www.w3.org/1999/xlink") true;
   CSet (pys "width") width true; CSet (pys "height") height true].
(** svg/utils.py:21-22. *)
Definition svg_end : list xcall := [CClose (Some (pys "svg"))].

Section Grouping.
(** [str(number)]. *)
Variable fmt : Q -> str.
(** self.width and self.height of the deck. *)
Variables width height : Q.
(** slides_per_page[0] and slides_per_page[1]. *)
Variables count_x count_y : Z.

(** render.py:70-73, new(): the calls made on the writer of the page so far.  The calls are
    collected, and made when the page is closed. *)
Definition new_page : list xcall :=
  svg_begin (fmt (width * inject_Z count_x)) (fmt (height * inject_Z count_y)).
(** render.py:75-80, close(). *)
Definition close_page (idx : Z) (page : list xcall) (acc : list runit) : result (list runit) :=
  if (0 <? idx)%Z then
    do x <- xrun new_xml (page ++ svg_end);
    do svg <- to_string x;
    Ok (acc ++ [USvg None svg])
  else Ok acc.
(** render.py:102-108: the calls for the slide in cell [idx]. *)
Definition cell_calls (idx : Z) (svg : str) : list xcall :=
  let x := (inject_Z (idx mod count_x) * width)%Q in
  let y := (inject_Z (idx / count_x) * height)%Q in
  [CElement (pys "g");
   CSet (pys "transform") (pys "translate(" ++ fmt x ++ pys ", " ++ fmt y ++ pys ")") true;
   CRaw svg; CClose (Some (pys "g"))].
(** render.py:91-112, the loop. *)
Fixpoint group_loop (units : list runit) (idx : Z) (page : list xcall) (acc : list runit)
    : result (list runit) :=
  match units with
  | [] => close_page idx page acc
  | u :: rest =>
      match get_svg u with
      | None => group_loop rest idx page (acc ++ [u])
      | Some svg =>
          if (idx =? count_x * count_y)%Z then
            do acc <- close_page idx page acc;
            group_loop rest 1 (new_page ++ cell_calls 0 svg) acc
          else group_loop rest (idx + 1) (page ++ cell_calls idx svg) acc
      end
  end.
(** render.py:64-112, per_page_grouping. *)
Definition per_page_grouping (b : backend) (units : list runit) : result (list runit) :=
  match b with
  | Cairo => Err EAssertion
  | Inkscape =>
      if (0 <? count_x)%Z && (0 <? count_y)%Z then
        if (count_x * count_y =? 1)%Z then Ok units
        else group_loop units 0 new_page []
      else Err EAssertion
  end.
End Grouping.

(** What render() does to the outside, in order. *)
Inductive event :=
| EvPostprocess (slides : list slide_obj)  (* the user's function is called *)
| EvPruneQueries | EvSaveQueries           (* backend.prune_cache(), backend.save_cache() *)
| EvDebugFile (file : nat * Z)             (* <index>-<step>.svg is written *)
| EvExport (u : runit) (export_type : str) (* a unit is exported *)
| EvWrite (pages : list str)               (* the merger writes the output *)
| EvPruneFiles.                            (* fs_cache.remove_unused() *)
Definition tr (A : Type) := (list event * result A)%type.
Definition tret {A} (a : A) : tr A := ([], Ok a).
Definition tfail {A} (e : exn) : tr A := ([], Err e).
Definition temit (e : event) : tr unit := ([e], Ok tt).
Definition tlift {A} (r : result A) : tr A := ([], r).
Definition tseq {A B} (t : tr A) (f : A -> tr B) : tr B :=
  match snd t with
  | Ok a => let (es, r) := f a in (fst t ++ es, r)
  | Err e => (fst t, Err e)
  end.
Notation "'run' x <- t ; k" := (tseq t (fun x => k))
  (at level 200, x pattern, t at level 100, k at level 200, right associativity).

Section Render.
Variable fmt : Q -> str.
Variables width height : Q.
(** slide.prepare() (slide.py:54-56), slide.steps() (slide.py:58-61) and what the backend's
    create_render_unit draws (svg/backend.py:74-80, cairo/backend.py:19-33); see
    LayoutModel.v, SlideModel.v and DrawModel.v. *)
Variable prepare : slide_obj -> result unit.
Variable steps : slide_obj -> Z.
Variable draw : slide_obj -> Z -> result str.
(** The file that exporting writes: fs_cache.ensure(svg) (render.py:40-47), or the file
    that was reserved for a unit of Cairo (cairo/backend.py:20, 62-79). *)
Variable svg_file : str -> str -> result str.
Variable cairo_file : slide_obj -> Z -> str -> str.

(** range(1, n + 1). *)
Definition step_range (n : Z) : list Z := map (fun i => 1 + Z.of_nat i)%Z (seq 0 (Z.to_nat n)).

(** cairo/rcontext.py:56-75: the formats that Cairo knows. *)
Definition cairo_type (type : str) : bool := str_eqb type (pys "pdf") || str_eqb type (pys "png").
(** make_render_unit (slide.py:63-64 and 80-82). *)
Definition make_unit (b : backend) (e : entry) (step : Z) (type : str) : result runit :=
  match e with
  | EPdf f => if str_eqb type (pys "pdf") then Ok (UFile f (pys "pdf")) else Err EAssertion
  | ESlide s =>
      match b with
      | Inkscape => do svg <- draw s step; Ok (USvg (Some (s, step)) svg)
      | Cairo => if cairo_type type then do _ <- draw s step; Ok (UCairo s step type)
                 else Err EAssertion
      end
  end.
Fixpoint make_steps (b : backend) (e : entry) (ks : list Z) (type : str) : result (list runit) :=
  match ks with
  | [] => Ok []
  | k :: ks' => do u <- make_unit b e k type; do us <- make_steps b e ks' type; Ok (u :: us)
  end.
(** prepare() and steps() of an ExternPdfSlide: slide.py:74-78. *)
Definition entry_prepare (e : entry) : result unit :=
  match e with EPdf _ => Ok tt | ESlide s => prepare s end.
Definition entry_steps (e : entry) : Z := match e with EPdf _ => 1%Z | ESlide s => steps s end.
(** slidedeck.py:342-346. *)
Fixpoint make_units (b : backend) (l : list entry) (type : str) : result (list runit) :=
  match l with
  | [] => Ok []
  | e :: l' =>
      do _ <- entry_prepare e;
      do us <- make_steps b e (step_range (entry_steps e)) type;
      do vs <- make_units b l' type;
      Ok (us ++ vs)
  end.

(** [slide.box() for slide in select_slides] (slidedeck.py:334). *)
Fixpoint root_boxes (l : list entry) : result (list slide_obj) :=
  match l with
  | [] => Ok []
  | ESlide s :: l' => do r <- root_boxes l'; Ok (s :: r)
  | EPdf _ :: _ => Err EAttribute
  end.

(** unit.write_debug (render.py:17-18 and 33-38). *)
Definition write_debug (u : runit) : tr unit :=
  match u with
  | USvg (Some (s, k)) _ => temit (EvDebugFile (so_index s, k))
  | USvg None _ => tfail EAttribute
  | _ => tret tt
  end.
Fixpoint write_debugs (us : list runit) : tr unit :=
  match us with [] => tret tt | u :: us' => run _ <- write_debug u; write_debugs us' end.

(** unit.export (render.py:40-47, 59-61, cairo/backend.py:62-79); None if nothing is
    exported. *)
Definition export (u : runit) (type : str) : result (option str) :=
  match u with
  | USvg _ svg => do f <- svg_file svg type; Ok (Some f)
  | UFile f t => Ok (if str_eqb type t then Some f else None)
  | UCairo s k t =>
      Ok (if cairo_type type then Some (cairo_file s k t) else None)
  end.
(** slidedeck.py:370-376. *)
Fixpoint export_all (us : list runit) (type : str) : tr (list str) :=
  match us with
  | [] => tret []
  | u :: us' =>
      run o <- (run _ <- temit (EvExport u type); tlift (export u type));
      run fs <- export_all us' type;
      tret (match o with Some f => f :: fs | None => fs end)
  end.

(** The arguments of render (slidedeck.py:263-274); [output] is not modelled. *)
Record render_args := mkArgs {
  ra_return_units : bool; ra_type : str; ra_merger : option str; ra_post : bool;
  ra_prune : bool; ra_save : bool; ra_select : option (list entry);
  ra_per_page : option (list (option Z))   (* the elements; None: not an int *)
}.
(** What render returns. *)
Inductive rendered := RUnits (us : list runit) | RFiles (fs : list str) | RNone.

(** pdfmerge.py:42-47, get_pdf_merger_by_name: known mergers. *)
Definition known_merger (m : str) : bool := str_eqb m (pys "pypdf") || str_eqb m (pys "pdfunite").

(** slidedeck.py:323-331: the two counts. *)
Definition check_per_page (a : option (list (option Z))) : result (option (Z * Z)) :=
  match a with
  | None => Ok None
  | Some [Some cx; Some cy] => Ok (Some (cx, cy))
  | Some _ => Err EException
  end.
Definition when (b : bool) (t : tr unit) : tr unit := if b then t else tret tt.

(** slidedeck.py:317-386, render. *)
Definition render (b : backend) (debug : bool) (d : deck) (a : render_args) : tr rendered :=
  let l := match ra_select a with None => dk_slides d | Some l => l end in
  match l with
  | [] => tfail EException
  | _ =>
      run counts <- tlift (check_per_page (ra_per_page a));
      run _ <- when (ra_post a) (run bs <- tlift (root_boxes l); temit (EvPostprocess bs));
      run _ <- when (ra_prune a) (temit EvPruneQueries);
      run _ <- when (ra_save a) (temit EvSaveQueries);
      run us <- tlift (make_units b l (ra_type a));
      run _ <- when debug (write_debugs us);
      run us <- (match counts with
                 | Some (cx, cy) => tlift (per_page_grouping fmt width height cx cy b us)
                 | None => tret us
                 end);
      if ra_return_units a then tret (RUnits us)
      else
        let merged := match ra_merger a with
                      | Some m => if str_eqb (ra_type a) (pys "pdf") then Some m else None
                      | None => None
                      end in
        run _ <- (match merged with
                  | Some m => if known_merger m then tret tt else tfail EException
                  | None => tret tt
                  end);
        run fs <- export_all us (ra_type a);
        match merged with
        | Some _ =>
            run _ <- temit (EvWrite fs);
            run _ <- when (ra_prune a) (temit EvPruneFiles);
            tret RNone
        | None =>
            run _ <- when (ra_prune a) (temit EvPruneFiles);
            tret (RFiles fs)
        end
  end.
End Render.
