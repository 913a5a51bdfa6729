(** Model of render/pdfmerge.py, ext/export.py and of get_slide_repr_steps of
    render/jupyter.py: what becomes of the pages of render() (DeckModel.v). *)
From Coq Require Import String List ZArith QArith NArith Bool.
From Verif Require Import Py XmlModel DeckModel.
Import ListNotations.

(** ** Mergers *)

(** pdfmerge.py:4-10 and 28-35: a merger and the files appended so far. *)
Inductive merger := MExternal (command files : list str) | MPy (inner : list str).
(** pdfmerge.py:42-47, get_pdf_merger_by_name. *)
Definition get_pdf_merger_by_name (name : str) : result merger :=
  if str_eqb name (pys "pypdf") then Ok (MPy [])
  else if str_eqb name (pys "pdfunite")
  then Ok (MExternal [pys "pdfunite"; pys "INPUTS"; pys "OUTPUT"] [])
  else Err EException.
(** pdfmerge.py:9-10 and 34-35. *)
Definition append (m : merger) (file : str) : merger :=
  match m with
  | MExternal c fs => MExternal c (fs ++ [file])
  | MPy fs => MPy (fs ++ [file])
  end.
(** pdfmerge.py:13-20: the arguments of the called program. *)
Fixpoint command_args (command files : list str) (output : str) : list str :=
  match command with
  | [] => []
  | c :: cs =>
      (if str_eqb c (pys "INPUTS") then files
       else if str_eqb c (pys "OUTPUT") then [output]
       else [c]) ++ command_args cs files output
  end.
(** What write() does: a program is called, or the document of the library (the pages of its
    inputs) is written into a file. *)
Inductive wrote := WCall (args : list str) | WPy (output : str) (inputs : list str).
(** pdfmerge.py:12-25 and 37-39.  [None]: render(None); the program gets an argument that is
    no string, and open(None) fails. *)
Definition write (m : merger) (output : option str) : result wrote :=
  match output with
  | None => Err EType
  | Some o =>
      match m with
      | MExternal c fs => Ok (WCall (command_args c fs o))
      | MPy fs => Ok (WPy o fs)
      end
  end.
(** slidedeck.py:366-379: a merger is made, gets the files one after the other, and writes. *)
Definition merge (name : str) (files : list str) (output : option str) : result wrote :=
  do m <- get_pdf_merger_by_name name;
  write (fold_left append files m) output.

(** ** PowerPoint *)

(** export.py:16-17, a slide with one picture: its layout, the file, position and size. *)
Record pslide := mkPslide { ps_layout : str; ps_file : str; ps_x : Z; ps_y : Z; ps_w : Z; ps_h : Z }.
(** export.py:9-13: the first layout with the name. *)
Fixpoint blank_layout (layouts : list str) : result str :=
  match layouts with
  | [] => Err EException
  | l :: ls => if str_eqb l (pys "Blank") then Ok l else blank_layout ls
  end.
(** pptx.Presentation(): the names of its layouts, slide_width and slide_height. *)
Record template := mkTemplate { t_layouts : list str; t_width : Z; t_height : Z }.

Section Export.
(** The parameters of DeckModel.render. *)
Variable fmt : Q -> str.
Variables width height : Q.
Variable prepare : slide_obj -> result unit.
Variable steps : slide_obj -> Z.
Variable draw : slide_obj -> Z -> result str.
Variable svg_file : str -> str -> result str.
Variable cairo_file : slide_obj -> Z -> str -> str.
Notation render := (render fmt width height prepare steps draw svg_file cairo_file).

(** export.py:15-17.  A unit is no picture; None cannot be iterated. *)
Definition picture_files (r : rendered) : result (list str) :=
  match r with
  | RFiles fs => Ok fs
  | RUnits [] => Ok []
  | RUnits (_ :: _) => Err EAttribute
  | RNone => Err EType
  end.
(** export.py:4-18, export_pptx: the slides of the presentation that is saved.  [a] are the
    render_args with the defaults of render; export_type must not be among them. *)
Definition export_pptx (t : template) (b : backend) (debug : bool) (d : deck) (a : render_args)
    : tr (list pslide) :=
  tseq (tlift (blank_layout (t_layouts t))) (fun layout =>
  tseq (render b debug d (mkArgs (ra_return_units a) (pys "png") (ra_merger a) (ra_post a)
                            (ra_prune a) (ra_save a) (ra_select a) (ra_per_page a))) (fun r =>
  tseq (tlift (picture_files r)) (fun fs =>
  tret (map (fun f => mkPslide layout f 0 0 (t_width t) (t_height t)) fs)))).

(** ** Notebooks *)

(** The content of a file, and base64.encodebytes(..).decode(). *)
Variable contents : str -> result str.
Variable base64 : str -> str.

(** jupyter.py:82-83. *)
Fixpoint unit_svgs (us : list runit) : result (list str) :=
  match us with
  | [] => Ok []
  | u :: us' =>
      do svg <- (match u with USvg _ svg => Ok svg | _ => Err EAttribute end);
      do r <- unit_svgs us'; Ok (svg :: r)
  end.
(** jupyter.py:86-92. *)
Fixpoint images (files : list str) : result (list str) :=
  match files with
  | [] => Ok []
  | f :: fs =>
      do data <- contents f;
      do r <- images fs;
      Ok ((pys "<img src=""data:image/png;base64, " ++ base64 data ++ pys """ />") :: r)
  end.
(** jupyter.py:69-95, get_slide_repr_steps. *)
Definition repr_steps (b : backend) (debug : bool) (d : deck) (s : slide_obj) (format : str)
    : tr (list str) :=
  let svg := str_eqb format (pys "svg") in
  if svg || str_eqb format (pys "png") then
    tseq (render b debug d (mkArgs svg format (Some (pys "pypdf")) false false true
                              (Some [ESlide s]) None)) (fun r =>
    tlift (match r with
           | RUnits us => unit_svgs us
           | RFiles fs => images fs
           | RNone => Err EType
           end))
  else tfail EException.
End Export.
