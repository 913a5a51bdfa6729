(** Model of elsie/utils/cache.py: the cache of built files, used by one thread.
    (The steps of several threads are in ConcModel.v.) *)
From Coq Require Import List ZArith NArith Bool String.
From Verif Require Import Py QueryModel.
Import ListNotations.

(** cache.py:9-11 and 22-26: what is hashed for an entry. *)
Definition hash_input (version data : str) : str := pys "elsie-" ++ version ++ pys "/" ++ data.

(** Files of the cache directory whose names start with "cache.": entries (cache.py:22-27), and
    the others, for instance those that Cairo writes (cache.py:82-86).  Simplification: an entry
    is named by version, data and type instead of the hexadecimal digest, that is, SHA-1 is
    taken to have no collisions (see C50_names on what is hashed); data given as str or as the
    bytes of its encoding have the same name. *)
Inductive fname := FEntry (version data type : str) | FForeign (n : str).
Definition fname_eqb (a b : fname) : bool :=
  match a, b with
  | FEntry v d t, FEntry v' d' t' => str_eqb v v' && (str_eqb d d' && str_eqb t t')
  | FForeign n, FForeign n' => str_eqb n n'
  | _, _ => false
  end.
Definition fmem (f : fname) (l : list fname) : bool := existsb (fname_eqb f) l.

(** The directory: names and contents, each name once. *)
Definition fdisk := list (fname * str).
Definition fread : fdisk -> fname -> option str := dict_get fname_eqb.
Definition fwrite : fdisk -> fname -> str -> fdisk := dict_set fname_eqb.
Definition fremove (k : fdisk) (f : fname) : fdisk := filter (fun e => negb (fname_eqb (fst e) f)) k.

(** cache.py:8-20, the fields of an FsCache; [fs_known] is cache_files, [fs_busy] the keys of
    in_progress.  Sets are lists. *)
Record fsession := mkFS {
  fs_version : str; fs_touched : list fname; fs_known : list fname; fs_busy : list fname }.
(** cache.py:8-20. *)
Definition fs_new (k : fdisk) (version : str) : fsession := mkFS version [] (map fst k) [].

(** How a constructor ends: it succeeds, raises, or the process is killed inside it; in the
    last two cases it may have left a file. *)
Inductive ending := Built | Raised (rest : option str) | Killed (rest : option str).
(** What a call gives. *)
Inductive response :=
| RPath (f : fname)      (* the path of a file *)
| RData (s : str)        (* the contents (get) *)
| RDone                  (* returns nothing *)
| RRaised (e : exn)
| RHangs                 (* waits for ever *)
| RDead.                 (* the process was killed *)

Section Build.
(** What the constructors make of data (render.py:40-47: Inkscape's export; boxmixin.py:567-583:
    conversion of ORA files; latex.py:18-57: LaTeX). *)
Variable build : str -> str -> str -> str.

Definition leave (k : fdisk) (f : fname) (rest : option str) : fdisk :=
  match rest with None => k | Some c => fwrite k f c end.

(** cache.py:39-60, ensure; condition.wait() waits for ever if there is no other thread. *)
Definition ensure (k : fdisk) (c : fsession) (data type : str) (wait : bool) (e : ending)
  : fdisk * option fsession * response :=
  let f := FEntry (fs_version c) data type in
  let touched := f :: fs_touched c in
  if fmem f (fs_busy c) then
    if wait then (k, None, RHangs)
    else (k, Some (mkFS (fs_version c) touched (fs_known c) (fs_busy c)), RPath f)
  else if fmem f (fs_known c) then
    (k, Some (mkFS (fs_version c) touched (fs_known c) (fs_busy c)), RPath f)
  else
    match e with
    | Built => (fwrite k f (build (fs_version c) data type),
                Some (mkFS (fs_version c) touched (f :: fs_known c) (fs_busy c)), RPath f)
    | Raised rest => (leave k f rest,
                      Some (mkFS (fs_version c) touched (fs_known c) (f :: fs_busy c)),
                      RRaised EException)
    | Killed rest => (leave k f rest, None, RDead)
    end.

(** Reading a text file translates line ends (open(..., "r"), cache.py:72). *)
Fixpoint newlines (s : str) : str :=
  match s with
  | [] => []
  | c :: s' =>
      if N.eqb c 13 then
        match s' with
        | d :: s'' => if N.eqb d 10 then 10%N :: newlines s'' else 10%N :: newlines s'
        | [] => [10%N]
        end
      else c :: newlines s'
  end.
(** cache.py:66-79, get. *)
Definition get (k : fdisk) (c : fsession) (data type : str) (e : ending)
  : fdisk * option fsession * response :=
  let f := FEntry (fs_version c) data type in
  let touched := f :: fs_touched c in
  let c' := mkFS (fs_version c) touched (fs_known c) (fs_busy c) in
  if fmem f (fs_known c) then
    match fread k f with
    | Some s => (k, Some c', RData (newlines s))
    | None => (k, Some c', RRaised EFileNotFound)
    end
  else
    match e with
    | Built => let s := build (fs_version c) data type in
               (fwrite k f s, Some (mkFS (fs_version c) touched (f :: fs_known c) (fs_busy c)), RData s)
    | Raised rest => (leave k f rest, Some c', RRaised EException)
    | Killed rest => (leave k f rest, None, RDead)
    end.

(** cache.py:62-64, remove_unused (the set difference in the order of the list). *)
Fixpoint remove_files (k : fdisk) (fs : list fname) : fdisk * response :=
  match fs with
  | [] => (k, RDone)
  | f :: fs' =>
      match fread k f with
      | None => (k, RRaised EFileNotFound)
      | Some _ => remove_files (fremove k f) fs'
      end
  end.
Definition unused (c : fsession) : list fname :=
  filter (fun f => negb (fmem f (fs_touched c))) (fs_known c).
Definition remove_unused (k : fdisk) (c : fsession) : fdisk * response := remove_files k (unused c).

(** Histories.  [FNew]: a deck is created by a (new) process; [FCairo]: Cairo writes a page
    into the directory. *)
Inductive fop :=
| FNew (version : str)
| FEnsure (data type : str) (wait : bool) (e : ending)
| FGet (data type : str) (e : ending)
| FPrune
| FCairo (n c : str).
Definition fstate := (fdisk * option fsession)%type.
Definition fstep (s : fstate) (o : fop) : fstate * response :=
  match o, snd s with
  | FNew v, _ => ((fst s, Some (fs_new (fst s) v)), RDone)
  | _, None => (s, RDead)
  | FEnsure d t w e, Some c => let '(k, c', r) := ensure (fst s) c d t w e in ((k, c'), r)
  | FGet d t e, Some c => let '(k, c', r) := get (fst s) c d t e in ((k, c'), r)
  | FPrune, Some c => let (k, r) := remove_unused (fst s) c in ((k, Some c), r)
  | FCairo n x, Some c => ((fwrite (fst s) (FForeign n) x, Some c), RDone)
  end.
Definition frun (s : fstate) (os : list fop) : fstate := fold_left (fun s o => fst (fstep s o)) os s.
End Build.
