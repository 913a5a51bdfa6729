(** Model of the query cache of elsie/render/backends/svg/backend.py and of svg/query.py:
    measurements of texts by Inkscape, kept across runs. *)
From Coq Require Import List ZArith QArith NArith Bool String.
From Verif Require Import Py XmlModel.
Import ListNotations.

(** svg/query.py:7-10, the document that Inkscape gets; svg_begin without width and height is
    svg/utils.py:8-10. *)
Definition query_doc (data : str) : result str :=
  do x <- xrun new_xml
    [CElement (pys "svg");
     CSet (pys "xmlns") (pys "http://www.w3.org/2000/svg") true;
     CSet (pys "xmlns:xlink") (pys "http://www.w3.org/1999/xlink") true;
     CRaw data; CClose (Some (pys "svg"))];
  to_string x.

(** A dict: its items in order of insertion. *)
Section Dict.
Context {K V : Type}.
Variable keq : K -> K -> bool.
Fixpoint dict_get (d : list (K * V)) (k : K) : option V :=
  match d with
  | [] => None
  | (k', v) :: d' => if keq k' k then Some v else dict_get d' k
  end.
Fixpoint dict_set (d : list (K * V)) (k : K) (v : V) : list (K * V) :=
  match d with
  | [] => [(k, v)]
  | (k', v') :: d' => if keq k' k then (k', v) :: d' else (k', v') :: dict_set d' k v
  end.
End Dict.

(** A query: method and data (svg/backend.py:105). *)
Definition qkey := (str * str)%type.
Definition qkey_eqb (a b : qkey) : bool := str_eqb (fst a) (fst b) && str_eqb (snd a) (snd b).
Definition qdict := list (qkey * Q).
Definition qget : qdict -> qkey -> option Q := dict_get qkey_eqb.
Definition qset : qdict -> qkey -> Q -> qdict := dict_set qkey_eqb.

(** The file queries3.cache: absent, as written by _save_query_cache (svg/backend.py:133-141;
    that json.load gives back what json.dump wrote is assumed), or cut off because the process
    was killed while writing (open(..., "w") empties the file first). *)
Record qfile := mkQFile { qf_version : str; qf_inkscape : str; qf_queries : qdict }.
Inductive qdisk := QAbsent | QFile (f : qfile) | QBroken.

(** svg/backend.py:33-69, the fields of an InkscapeBackend; [qb_version] is the VERSION of the
    running Elsie. *)
Record qbackend := mkQB { qb_version : str; qb_inkscape : str; qb_cache : qdict; qb_used : qdict }.

(** svg/backend.py:116-131, _load_query_cache; json.load raises a ValueError. *)
Definition load_queries (disk : qdisk) (version inkscape : str) : result qdict :=
  match disk with
  | QAbsent => Ok []
  | QBroken => Err EValue
  | QFile f =>
      if negb (str_eqb (qf_version f) version) then Ok []
      else if negb (str_eqb (qf_inkscape f) inkscape) then Ok []
      else Ok (fold_left (fun d kv => qset d (fst kv) (snd kv)) (qf_queries f) [])
  end.

Section Queries.
(** What Inkscape of a given version answers to a query about the element "target" of a
    document (inkscape.py:63-82). *)
Variable ask : str -> str -> str -> result Q.

(** svg/query.py:6-19, compute_query. *)
Definition compute_query (inkscape : str) (method data : str) : result Q :=
  do doc <- query_doc data;
  if str_eqb method (pys "inkscape-w") then ask inkscape (pys "query-width") doc
  else if str_eqb method (pys "inkscape-h") then ask inkscape (pys "query-height") doc
  else if str_eqb method (pys "inkscape-x") then ask inkscape (pys "query-x") doc
  else Err EException.

(** svg/backend.py:104-111, process_query; the flag tells whether Inkscape was asked. *)
Definition process_query (b : qbackend) (method data : str) : qbackend * result Q * bool :=
  let key := (method, data) in
  match qget (qb_cache b) key with
  | Some v => (mkQB (qb_version b) (qb_inkscape b) (qb_cache b) (qset (qb_used b) key v), Ok v, false)
  | None =>
      match compute_query (qb_inkscape b) method data with
      | Ok v => (mkQB (qb_version b) (qb_inkscape b) (qset (qb_cache b) key v) (qset (qb_used b) key v), Ok v, true)
      | Err e => (b, Err e, true)
      end
  end.
(** svg/backend.py:82-84, prune_cache. *)
Definition prune_queries (b : qbackend) : qbackend := mkQB (qb_version b) (qb_inkscape b) (qb_used b) [].
(** svg/backend.py:86-87 and 133-141, save_cache. *)
Definition save_queries (b : qbackend) : qdisk :=
  QFile (mkQFile (qb_version b) (qb_inkscape b) (qb_cache b)).

(** Histories across runs of the program.  [QStart v w]: a new process of Elsie [v] with
    Inkscape [w]; [QKilled]: the process is killed while the cache is saved. *)
Inductive qop := QQuery (method data : str) | QPrune | QSave | QStart (v w : str) | QKilled.
Record qstate := mkQS { qs_disk : qdisk; qs_backend : option qbackend }.
Definition qstep (s : qstate) (o : qop) : qstate :=
  match o, qs_backend s with
  | QStart v w, _ =>
      mkQS (qs_disk s)
        (match load_queries (qs_disk s) v w with
         | Ok d => Some (mkQB v w d [])
         | Err _ => None
         end)
  | _, None => s
  | QQuery m d, Some b => mkQS (qs_disk s) (Some (fst (fst (process_query b m d))))
  | QPrune, Some b => mkQS (qs_disk s) (Some (prune_queries b))
  | QSave, Some b => mkQS (save_queries b) (Some b)
  | QKilled, Some b => mkQS QBroken None
  end.
Definition qrun (s : qstate) (os : list qop) : qstate := fold_left qstep os s.
(** The part of render() that concerns the query cache (slidedeck.py:336-340), with the default
    arguments. *)
Definition qrender : list qop := [QPrune; QSave].
End Queries.
