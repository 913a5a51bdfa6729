(** Model of the measurement of texts with Inkscape (svg/backend.py, svg/query.py): the document
    that is measured.  What Inkscape answers is in QueryModel.v, the cache too. *)
From Coq Require Import List NArith QArith Bool String.
From Verif Require Import Py XmlModel StyleModel TextModel TextBoxModel DrawModel.
Import ListNotations.
Local Open Scope nat_scope.

Section Measure.
(** [str()] of a value. *)
Variable fmt : pyval -> str.

(** The name of the element that is measured (backend.py:100, query.py:13-17). *)
Definition target : str := pys "target".

(** svg/backend.py:98-101, _text_query up to the key of the query. *)
Definition text_data (ts : list token) (s : style) (styles : str -> option style) (id_index : option nat)
  : result str :=
  do x <- perform new_xml (draw_text fmt 0 0 ts s styles (Some target) id_index None);
  to_string x.
End Measure.

(** svg/utils.py:7-11 without sizes (query.py:8). *)
Definition query_begin : list xcall :=
  [CElement (pys "svg"); CSet (pys "xmlns") (pys "http://www.w3.org/2000/svg") true;
   CSet (pys "xmlns:xlink") (pys "http://www.w3.org/1999/xlink") true].
(** svg/query.py:6-17, the document that Inkscape gets. *)
Definition query_document (data : str) : result str :=
  do x <- xrun new_xml (query_begin ++ [CRaw data; CClose (Some (pys "svg"))]);
  to_string x.
