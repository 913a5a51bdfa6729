(** Model of render/jupyter.py: the HTML of a slide in a notebook and its script.

    Only the elements that the script selects are modelled; the pictures are assumed to use
    none of the class names.  The id is uuid4().hex, here a number. *)
From Coq Require Import String List ZArith NArith Bool.
From Verif Require Import Py ListModel.
Import ListNotations.
Local Open Scope Z_scope.

(** [<div class='elsie-step step-..'>] and its style.display (true: not "none"). *)
Record fragment := mkFragment { f_class : str; f_display : bool }.
(** jupyter.py:114-118, the two buttons (disabled or not) and the text between them. *)
Record controls := mkControls { c_next : bool; c_previous : bool; c_text : str }.
Record panel := mkPanel { p_id : nat; p_fragments : list fragment; p_controls : option controls }.
(** jupyter.py:11-13, the variables of one script. *)
Record script := mkScript { s_id : nat; s_max : Z; s_active : Z }.
Record page := mkPage { g_doc : list panel; g_scripts : list script }.

Definition step_class (k : Z) : str := pys "step-" ++ str_of_int k.
Definition fragment_text (k : Z) : str := pys "Fragment: " ++ str_of_int k.

(** jupyter.py:97-121, render_slide_html for [n] pictures. *)
Definition html (id n : nat) : panel :=
  mkPanel id (map (fun index => mkFragment (step_class (Z.of_nat index + 1)) true) (seq 0 n))
    (if Nat.ltb 1 n then Some (mkControls false false (pys "Fragment: 1")) else None).

(** [document.querySelector(".id .x")] where x is in the controls: the first panel of this
    id that has them; without one it is null and the assignment raises. *)
Fixpoint with_controls (id : nat) (f : controls -> controls) (d : list panel) : option (list panel) :=
  match d with
  | [] => None
  | p :: d' =>
      match p_controls p with
      | Some c => if Nat.eqb (p_id p) id then Some (mkPanel (p_id p) (p_fragments p) (Some (f c)) :: d')
                  else option_map (cons p) (with_controls id f d')
      | None => option_map (cons p) (with_controls id f d')
      end
  end.
(** jupyter.py:28-31, all fragments of the panel. *)
Definition hide_all (id : nat) (d : list panel) : list panel :=
  map (fun p => if Nat.eqb (p_id p) id
                then mkPanel (p_id p) (map (fun f => mkFragment (f_class f) false) (p_fragments p)) (p_controls p)
                else p) d.
(** jupyter.py:32, the first fragment with this class. *)
Fixpoint show_class (k : str) (l : list fragment) : option (list fragment) :=
  match l with
  | [] => None
  | f :: l' => if str_eqb (f_class f) k then Some (mkFragment (f_class f) true :: l')
               else option_map (cons f) (show_class k l')
  end.
Fixpoint show_first (id : nat) (k : str) (d : list panel) : option (list panel) :=
  match d with
  | [] => None
  | p :: d' =>
      match (if Nat.eqb (p_id p) id then show_class k (p_fragments p) else None) with
      | Some fs => Some (mkPanel (p_id p) fs (p_controls p) :: d')
      | None => option_map (cons p) (show_first id k d')
      end
  end.
(** jupyter.py:21-33, updateState.  If an element is missing the rest is not done. *)
Definition update_state (s : script) (step : Z) (d : list panel) : list panel :=
  match with_controls (s_id s) (fun c => mkControls (step >=? s_max s) (c_previous c) (c_text c)) d with
  | None => d
  | Some d =>
  match with_controls (s_id s) (fun c => mkControls (c_next c) (step <=? 1) (c_text c)) d with
  | None => d
  | Some d =>
  match with_controls (s_id s) (fun c => mkControls (c_next c) (c_previous c) (fragment_text step)) d with
  | None => d
  | Some d =>
      let d := hide_all (s_id s) d in
      match show_first (s_id s) (step_class step) d with None => d | Some d => d end
  end end end.
(** jupyter.py:34-40, moveStep. *)
Definition move_step (offset : Z) (s : script) (d : list panel) : script * list panel :=
  let new_step := s_active s + offset in
  let s := if (new_step >=? 1) && (new_step <=? s_max s) then mkScript (s_id s) (s_max s) new_step else s in
  (s, update_state s (s_active s) d).

(** jupyter.py:41-47: the listeners belong to the elements that the script found, those of
    the panel with its id. *)
Fixpoint move_scripts (id : nat) (offset : Z) (ss : list script) (d : list panel) : list script * list panel :=
  match ss with
  | [] => ([], d)
  | s :: ss' =>
      let (s, d) := if Nat.eqb (s_id s) id then move_step offset s d else (s, d) in
      let (ss', d) := move_scripts id offset ss' d in (s :: ss', d)
  end.
Definition button_disabled (next : bool) (id : nat) (d : list panel) : bool :=
  match find (fun p => Nat.eqb (p_id p) id) d with
  | Some p => match p_controls p with Some c => if next then c_next c else c_previous c | None => true end
  | None => true
  end.

(** What happens on a notebook page: a slide of [n] fragments is displayed, or a button of
    a displayed slide is clicked.  Browsers send no click event of a disabled button. *)
Inductive event := Display (id n : nat) | Click (next : bool) (id : nat).
Definition happen (g : page) (e : event) : page :=
  match e with
  | Display id n =>
      let d := g_doc g ++ [html id n] in
      if Nat.ltb 1 n then
        let s := mkScript id (Z.of_nat n) 1 in
        mkPage (update_state s (s_active s) d) (g_scripts g ++ [s])
      else mkPage d (g_scripts g)
  | Click next id =>
      if button_disabled next id (g_doc g) then g
      else let (ss, d) := move_scripts id (if next then 1 else -1) (g_scripts g) (g_doc g) in mkPage d ss
  end.
Definition page_after (es : list event) : page := fold_left happen es (mkPage [] []).
