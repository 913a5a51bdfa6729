(** What a measurement looks at: elements by their id. *)
From Coq Require Import List NArith Bool String.
From Verif Require Import Py XmlModel XmlSpec TextModel DrawSpec.
Import ListNotations.
Local Open Scope nat_scope.

Definition is_id (d : str) (a : str * str) : bool := str_eqb (fst a) (pys "id") && str_eqb (snd a) d.
(** A character of a document, with the attributes of the elements around it, is inside of an
    element with the id [d]. *)
Definition within (d : str) (g : char * list (list (str * str))) : bool := existsb (existsb (is_id d)) (snd g).
(** All attributes in a document. *)
Fixpoint attributes (n : node) : list (str * str) :=
  match n with
  | NChar _ => []
  | NElem _ al ks => al ++ flat_map attributes ks
  end.
(** How many elements of a document have the id [d]. *)
Definition count_id (d : str) (ns : list node) : nat :=
  List.length (filter (is_id d) (flat_map attributes ns)).
(** The characters of a text. *)
Definition text_chars (ts : list token) : str :=
  flat_map (fun t => match t with TText s => s | _ => [] end) ts.
Definition no_newline (ts : list token) : Prop := forall n, ~ In (TNewline n) ts.
(** The name of the element whose width, height and x are asked for (query.py:12-17). *)
Definition asked : str := pys "target".
