(** An XML reader and what the calls of an XML writer mean, independently of the writer.

    The reader follows XML 1.0 for documents without declarations: elements, attributes in
    either kind of quotes, character data, the five predefined entities and decimal
    character references.  Everything else (comments, CDATA, processing instructions,
    doctypes, hexadecimal references) is rejected; the ban of the three characters
    "]]>" in character data is not checked. *)
From Coq Require Import List NArith Bool String.
From Verif Require Import Py XmlModel.
Import ListNotations.
Local Open Scope N_scope.

(** A document: characters and elements. *)
Inductive node :=
| NChar (c : char)
| NElem (name : str) (attrs : list (str * str)) (kids : list node).

(** Production Char of XML 1.0. *)
Definition xml_char (c : char) : bool :=
  (c =? 9) || (c =? 10) || (c =? 13) || ((32 <=? c) && (c <=? 55295)) ||
  ((57344 <=? c) && (c <=? 65533)) || ((65536 <=? c) && (c <=? 1114111)).
(** White space, and the ASCII part of the productions NameStartChar and NameChar. *)
Definition xml_space (c : char) : bool := (c =? 32) || (c =? 9) || (c =? 10) || (c =? 13).
Definition name_start (c : char) : bool :=
  ((65 <=? c) && (c <=? 90)) || ((97 <=? c) && (c <=? 122)) || (c =? 95) || (c =? 58).
Definition name_char (c : char) : bool :=
  name_start c || ((48 <=? c) && (c <=? 57)) || (c =? 45) || (c =? 46).
Definition is_name (s : str) : bool :=
  match s with [] => false | c :: s' => name_start c && forallb name_char s' end.

(** Section 2.11: line ends are normalised before anything else. *)
Fixpoint normal_lines (s : str) : str :=
  match s with
  | [] => []
  | c :: s' =>
      if c =? 13 then
        if match s' with d :: _ => d =? 10 | [] => false end then normal_lines s'
        else 10 :: normal_lines s'
      else c :: normal_lines s'
  end.

(** The value of a reference, given what is between "&" and ";". *)
Fixpoint decimal (acc : N) (s : str) : option N :=
  match s with
  | [] => Some acc
  | c :: s' => if (48 <=? c) && (c <=? 57) then decimal (10 * acc + (c - 48)) s' else None
  end.
Definition reference (s : str) : option char :=
  if str_eqb s (pys "amp") then Some 38
  else if str_eqb s (pys "lt") then Some 60
  else if str_eqb s (pys "gt") then Some 62
  else if str_eqb s (pys "apos") then Some 39
  else if str_eqb s (pys "quot") then Some 34
  else match s with
       | h :: d =>
           if h =? 35 then
             match d with
             | [] => None
             | _ => match decimal 0 d with
                    | Some c => if xml_char c then Some c else None
                    | None => None
                    end
             end
           else None
       | [] => None
       end.

(** Where the reader is.  [MContent]: in character data.  Accumulated strings and lists are
    in reverse order. *)
Inductive mode :=
| MContent
| MRef (acc : str)
| MTag                                                  (* after "<" *)
| MName (acc : str)                                     (* in the name of a start tag *)
| MSpace (name : str) (attrs : list (str * str))        (* after white space in a start tag *)
| MAttr (name : str) (attrs : list (str * str)) (acc : str)
| MEq (name : str) (attrs : list (str * str)) (a : str) (* after "=" *)
| MValue (name : str) (attrs : list (str * str)) (a : str) (q : char) (acc : str)
| MValueRef (name : str) (attrs : list (str * str)) (a : str) (q : char) (acc r : str)
| MAfter (name : str) (attrs : list (str * str))        (* after a value or a name *)
| MEmpty (name : str) (attrs : list (str * str))        (* after "/" *)
| MEnd (acc : str)                                      (* in an end tag *)
| MEndSpace (name : str).

(** The reader: its mode, what was read at the innermost level, and the open elements with
    what was read before them. *)
Record reader := mkReader {
  r_mode : mode; r_nodes : list node; r_open : list (str * list (str * str) * list node)
}.

Definition open_tag (n : str) (al : list (str * str)) (r : reader) : reader :=
  mkReader MContent [] ((n, al, r_nodes r) :: r_open r).
Definition empty_tag (n : str) (al : list (str * str)) (r : reader) : reader :=
  mkReader MContent (NElem n (rev al) [] :: r_nodes r) (r_open r).
Definition end_tag (n : str) (r : reader) : option reader :=
  match r_open r with
  | (m, al, before) :: rest =>
      if str_eqb n m then
        Some (mkReader MContent (NElem m (rev al) (rev (r_nodes r)) :: before) rest)
      else None
  | [] => None
  end.

Definition step (r : reader) (c : char) : option reader :=
  let go m := Some (mkReader m (r_nodes r) (r_open r)) in
  if negb (xml_char c) then None else
  match r_mode r with
  | MContent =>
      if c =? 60 then go MTag
      else if c =? 38 then go (MRef [])
      else Some (mkReader MContent (NChar c :: r_nodes r) (r_open r))
  | MRef acc =>
      if c =? 59 then
        match reference (rev acc) with
        | Some x => Some (mkReader MContent (NChar x :: r_nodes r) (r_open r))
        | None => None
        end
      else go (MRef (c :: acc))
  | MTag =>
      if c =? 47 then go (MEnd [])
      else if name_start c then go (MName [c])
      else None
  | MName acc =>
      if name_char c then go (MName (c :: acc))
      else if xml_space c then go (MSpace (rev acc) [])
      else if c =? 47 then go (MEmpty (rev acc) [])
      else if c =? 62 then Some (open_tag (rev acc) [] r)
      else None
  | MSpace n al =>
      if xml_space c then go (MSpace n al)
      else if name_start c then go (MAttr n al [c])
      else if c =? 47 then go (MEmpty n al)
      else if c =? 62 then Some (open_tag n al r)
      else None
  | MAttr n al acc =>
      if name_char c then go (MAttr n al (c :: acc))
      else if c =? 61 then
        (* no attribute may appear twice *)
        if existsb (fun a => str_eqb (fst a) (rev acc)) al then None
        else go (MEq n al (rev acc))
      else None
  | MEq n al a =>
      if (c =? 34) || (c =? 39) then go (MValue n al a c []) else None
  | MValue n al a q acc =>
      if c =? q then go (MAfter n ((a, rev acc) :: al))
      else if c =? 60 then None
      else if c =? 38 then go (MValueRef n al a q acc [])
      else go (MValue n al a q ((if xml_space c then 32 else c) :: acc))
  | MValueRef n al a q acc ref =>
      if c =? 59 then
        match reference (rev ref) with
        | Some x => go (MValue n al a q (x :: acc))
        | None => None
        end
      else go (MValueRef n al a q acc (c :: ref))
  | MAfter n al =>
      if xml_space c then go (MSpace n al)
      else if c =? 47 then go (MEmpty n al)
      else if c =? 62 then Some (open_tag n al r)
      else None
  | MEmpty n al => if c =? 62 then Some (empty_tag n al r) else None
  | MEnd acc =>
      match acc with
      | [] => if name_start c then go (MEnd [c]) else None
      | _ =>
          if name_char c then go (MEnd (c :: acc))
          else if xml_space c then go (MEndSpace (rev acc))
          else if c =? 62 then end_tag (rev acc) r
          else None
      end
  | MEndSpace n =>
      if xml_space c then go (MEndSpace n)
      else if c =? 62 then end_tag n r
      else None
  end.
Fixpoint steps (r : reader) (s : str) : option reader :=
  match s with
  | [] => Some r
  | c :: s' => match step r c with Some r' => steps r' s' | None => None end
  end.

(** [read s] is the content that the characters [s] stand for; None if they are not
    well-formed content. *)
Definition start_reader : reader := mkReader MContent [] [].
Definition read (s : str) : option (list node) :=
  match steps start_reader (normal_lines s) with
  | Some r =>
      match r_mode r, r_open r with
      | MContent, [] => Some (rev (r_nodes r))
      | _, _ => None
      end
  | None => None
  end.

(** Text that XML can represent and that a reader gives back as it is. *)
Definition legal_char (c : char) : bool := xml_char c && negb (c =? 13).
Definition legal (s : str) : bool := forallb legal_char s.
(** Values that can be written between single quotes and come back as they are. *)
Definition legal_value (s : str) : bool :=
  forallb (fun c => xml_char c && negb ((c =? 9) || (c =? 10) || (c =? 13) || (c =? 39))) s.
(** Spaces are shown as non breaking spaces. *)
Definition hard_spaces (s : str) : str := map (fun c => if c =? 32 then 160 else c) s.

(** Properly nested calls: the forests that calls can describe.  An element comes with its
    attributes (and the flag [escape] of each call) and with the argument of close. *)
Inductive wtree :=
| WText (t : str)
| WRaw (t : str)
| WElem (name : str) (attrs : list (str * str * bool)) (closed_as : option str)
    (kids : list wtree).
Definition set_call (a : str * str * bool) : xcall := CSet (fst (fst a)) (snd (fst a)) (snd a).
Fixpoint tree_calls (t : wtree) : list xcall :=
  match t with
  | WText s => [CText s]
  | WRaw s => [CRaw s]
  | WElem n al c ks =>
      CElement n :: map set_call al ++ flat_map tree_calls ks ++ [CClose c]
  end.
Definition forest_calls (f : list wtree) : list xcall := flat_map tree_calls f.
(** Every element is closed as itself. *)
Fixpoint closes (t : wtree) : Prop :=
  match t with
  | WElem n _ c ks =>
      (c = None \/ c = Some n) /\
      (fix all (l : list wtree) : Prop :=
         match l with [] => True | k :: l' => closes k /\ all l' end) ks
  | _ => True
  end.

(** What the calls stand for. *)
Fixpoint tree_nodes (t : wtree) : list node :=
  match t with
  | WText s => map NChar (hard_spaces s)
  | WRaw s => match read s with Some ns => ns | None => [] end
  | WElem n al _ ks => [NElem n (map fst al) (flat_map tree_nodes ks)]
  end.
Definition forest_nodes (f : list wtree) : list node := flat_map tree_nodes f.

(** Calls with proper names, texts and values that XML can represent, no attribute given
    twice, and raw text that is well-formed by itself. *)
Fixpoint lawful (t : wtree) : Prop :=
  match t with
  | WText s => legal s = true
  | WRaw s => (exists ns, read s = Some ns) /\ ~ In 13 s
  | WElem n al _ ks =>
      is_name n = true /\ NoDup (map (fun a => fst (fst a)) al) /\
      Forall (fun a => is_name (fst (fst a)) = true /\ legal_value (snd (fst a)) = true) al /\
      (fix all (l : list wtree) : Prop :=
         match l with [] => True | k :: l' => lawful k /\ all l' end) ks
  end.
