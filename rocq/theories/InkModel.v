(** Model of elsie/render/inkscape.py: the conversation with the Inkscape shell. *)
From Coq Require Import List ZArith QArith NArith Bool String.
From Verif Require Import Py TextModel.
Import ListNotations.

(** inkscape.py:38-49, the loop of wait_for_prompt over the characters that can be read;
    [chars] is the list of the code in reverse order.  None: no prompt among them. *)
Fixpoint read_prompt (chars : str) (s : str) : option (str * str) :=
  match s with
  | [] => None
  | c :: s' =>
      if N.eqb c 32 &&
         match chars with
         | [] => false
         | x :: older => N.eqb x 62 && match older with [] => true | y :: _ => N.eqb y 10 end
         end
      then Some (rev (skipn 2 chars), s')   (* chars[:-2] *)
      else read_prompt (c :: chars) s'
  end.

(** How a call ends. *)
Inductive outcome (A : Type) :=
| Done (a : A)
| Failed (e : exn)
| Blocked        (* waits for more output of a running process *)
| Spins.         (* the process has ended: read(1) gives "" for ever, line 39 *)
Arguments Done {A} a.
Arguments Failed {A} e.
Arguments Blocked {A}.
Arguments Spins {A}.

Section Shell.
(** The Inkscape process: its state, what it prints after a command, and whether it goes on
    running. *)
Variable S : Type.
Variable respond : S -> str -> S * str * bool.

(** The process, what it has printed and is not yet read, and the commands sent so far (newest
    first). *)
Record shell := mkShell { sh_state : S; sh_unread : str; sh_runs : bool; sh_sent : list str }.

(** inkscape.py:35-49. *)
Definition wait_for_prompt (h : shell) : shell * outcome str :=
  match read_prompt [] (sh_unread h) with
  | Some (line, rest) => (mkShell (sh_state h) rest (sh_runs h) (sh_sent h), Done line)
  | None => (mkShell (sh_state h) [] (sh_runs h) (sh_sent h), if sh_runs h then Blocked else Spins)
  end.
(** inkscape.py:86-87; writing to a process that has ended raises BrokenPipeError. *)
Definition send (h : shell) (command : str) : shell * outcome unit :=
  if sh_runs h then
    let '(s, out, runs) := respond (sh_state h) command in
    (mkShell s (sh_unread h ++ out) runs (command :: sh_sent h), Done tt)
  else (h, Failed EException).
(** inkscape.py:84-91. *)
Definition last_line (s : str) : str :=
  match strip s with [] => [] | _ => last (splitlines (strip s)) [] end.
Definition run_command (h : shell) (command : str) : shell * outcome str :=
  match send h command with
  | (h, Done _) =>
      match wait_for_prompt h with
      | (h, Done line) => (h, Done (last_line line))
      | r => r
      end
  | (h, Failed e) => (h, Failed e)
  | (h, Blocked) => (h, Blocked)
  | (h, Spins) => (h, Spins)
  end.
Definition obind {A B} (x : shell * outcome A) (f : shell -> A -> shell * outcome B) : shell * outcome B :=
  match x with
  | (h, Done a) => f h a
  | (h, Failed e) => (h, Failed e)
  | (h, Blocked) => (h, Blocked)
  | (h, Spins) => (h, Spins)
  end.
Fixpoint run_commands (h : shell) (cs : list str) : shell * outcome (list str) :=
  match cs with
  | [] => (h, Done [])
  | c :: cs' =>
      obind (run_command h c) (fun h r =>
      obind (run_commands h cs') (fun h rs => (h, Done (r :: rs))))
  end.

(** float(value): the number that a text denotes. *)
Variable parse_float : str -> option Q.
(** inkscape.py:8-15 around a body: the name of the temporary file is given.  An exception in
    the body leaves the generator at the yield (line 14). *)
Definition svg_file_input {A} (name : str) (h : shell) (body : shell -> shell * outcome A) : shell * outcome A :=
  obind (run_command h (pys "file-open:" ++ name)) (fun h _ =>
  obind (body h) (fun h a =>
  obind (run_command h (pys "file-close")) (fun h _ => (h, Done a)))).
(** inkscape.py:72-82. *)
Definition run_query (name : str) (h : shell) (query id : str) : shell * outcome Q :=
  svg_file_input name h (fun h =>
    obind (run_command h (pys "select:" ++ id)) (fun h _ =>
    obind (run_command h query) (fun h value =>
      match parse_float value with
      | Some x => (h, Done x)
      | None => (h, Failed EException)
      end))).
(** inkscape.py:51-61. *)
Definition export_commands (text_to_path : bool) (target type : str) : list str :=
  [pys "export-area-page"; pys "export-png-color-mode:RGBA_8"; pys "export-background-opacity:0";
   pys "export-type:" ++ type; pys "export-filename:" ++ target] ++
  (if text_to_path then [pys "export-text-to-path"] else []) ++ [pys "export-do"].
Definition convert_to_pdf (text_to_path : bool) (name : str) (h : shell) (target type : str) : shell * outcome (list str) :=
  svg_file_input name h (fun h => run_commands h (export_commands text_to_path target type)).
(** inkscape.py:97-102; [exists_file] tells whether the target is a file afterwards. *)
Definition export_by_inkscape (text_to_path : bool) (name : str) (h : shell) (target type : str)
    (exists_file : S -> str -> bool) : shell * outcome unit :=
  obind (convert_to_pdf text_to_path name h target type) (fun h _ =>
    if exists_file (sh_state h) target then (h, Done tt) else (h, Failed EException)).
End Shell.
Arguments mkShell {S}.
Arguments sh_state {S}.
Arguments sh_unread {S}.
Arguments sh_runs {S}.
Arguments sh_sent {S}.
