(** Base of the model: Python values and the string built-ins the code uses. *)
From Coq Require Import List ZArith NArith Bool String Ascii.
Import ListNotations.

(** Python exceptions that the modelled code can raise.  [EException] is an explicit
    [raise Exception(...)]; the messages are not modelled.  [ELoop] is not a Python
    exception: it stands for the exhausted bound of a modelled loop and is proved
    unreachable where it is used. *)
Inductive exn :=
| EException | EAssertion | EIndex | EKey | EAttribute | EValue
| EZeroDivision | EType | EFileNotFound | ELoop.

Inductive result (A : Type) :=
| Ok (a : A)
| Err (e : exn).
Arguments Ok {A} a.
Arguments Err {A} e.

Definition rbind {A B} (r : result A) (f : A -> result B) : result B :=
  match r with Ok a => f a | Err e => Err e end.

Notation "'do' x <- r ; k" := (rbind r (fun x => k))
  (at level 200, x pattern, r at level 100, k at level 200, right associativity).

Definition is_ok {A} (r : result A) : bool :=
  match r with Ok _ => true | Err _ => false end.

(** A string is a list of Unicode code points. *)
Notation char := N (only parsing).
Notation str := (list N) (only parsing).

(** ASCII literals. *)
Definition pys (s : string) : str := map N_of_ascii (list_ascii_of_string s).

Fixpoint str_eqb (a b : str) : bool :=
  match a, b with
  | [], [] => true
  | x :: a', y :: b' => N.eqb x y && str_eqb a' b'
  | _, _ => false
  end.

(** Characters with [str.isspace()] / removed by [str.strip()] in CPython 3.11. *)
Definition ws_table : list N :=
  [9; 10; 11; 12; 13; 28; 29; 30; 31; 32; 133; 160; 5760; 8192; 8193; 8194; 8195; 8196;
   8197; 8198; 8199; 8200; 8201; 8202; 8232; 8233; 8239; 8287; 12288]%N.

Definition is_space (c : char) : bool := existsb (N.eqb c) ws_table.

(** The zero digits of the Unicode decimal digit ranges (category Nd): [\d] of [re]
    and [int()] accept exactly the ten characters from each of these on. *)
Definition nd_zeros : list N :=
  [48; 1632; 1776; 1984; 2406; 2534; 2662; 2790; 2918; 3046; 3174; 3302; 3430; 3558;
   3664; 3792; 3872; 4160; 4240; 6112; 6160; 6470; 6608; 6784; 6800; 6992; 7088; 7232;
   7248; 42528; 43216; 43264; 43472; 43504; 43600; 44016; 65296; 66720; 68912; 69734;
   69872; 69942; 70096; 70384; 70736; 70864; 71248; 71360; 71472; 71904; 72016; 72784;
   73040; 73120; 92768; 92864; 93008; 120782; 120792; 120802; 120812; 120822; 123200;
   123632; 125264; 130032]%N.

(** [unicodedata.decimal(c)], [None] if [c] is not a decimal digit. *)
Fixpoint digit_in (zs : list N) (c : char) : option Z :=
  match zs with
  | [] => None
  | z :: zs' =>
      if (N.leb z c && N.leb c (z + 9))%bool then Some (Z.of_N (c - z))
      else digit_in zs' c
  end.
Definition digit_val (c : char) : option Z := digit_in nd_zeros c.
Definition is_digit (c : char) : bool :=
  match digit_val c with Some _ => true | None => false end.

(** [int(s)] for a string [s] of decimal digits. *)
Fixpoint digits_acc (acc : Z) (s : str) : Z :=
  match s with
  | [] => acc
  | c :: s' =>
      digits_acc (10 * acc + match digit_val c with Some d => d | None => 0 end)%Z s'
  end.
Definition int_of_digits (s : str) : Z := digits_acc 0 s.

(** Longest prefix satisfying [f], and the rest. *)
Fixpoint span (f : char -> bool) (s : str) : str * str :=
  match s with
  | [] => ([], [])
  | c :: s' => if f c then let (a, b) := span f s' in (c :: a, b) else ([], s)
  end.

(** [str.lstrip()], [str.rstrip()], [str.strip()]. *)
Definition lstrip (s : str) : str := snd (span is_space s).
Definition rstrip (s : str) : str := rev (lstrip (rev s)).
Definition strip (s : str) : str := rstrip (lstrip s).

(** [s.split(c)] for a one character separator. *)
Fixpoint split_on (c : char) (s : str) : list str :=
  match s with
  | [] => [[]]
  | x :: s' =>
      if N.eqb x c then [] :: split_on c s'
      else match split_on c s' with
           | [] => [[x]]
           | l :: ls => (x :: l) :: ls
           end
  end.

(** [c.join(ls)]. *)
Fixpoint join_with (sep : str) (ls : list str) : str :=
  match ls with
  | [] => []
  | [l] => l
  | l :: ls' => l ++ sep ++ join_with sep ls'
  end.

(** [s.startswith(p)] returning the rest of the string. *)
Fixpoint strip_prefix (p s : str) : option str :=
  match p, s with
  | [], _ => Some s
  | x :: p', y :: s' => if N.eqb x y then strip_prefix p' s' else None
  | _ :: _, [] => None
  end.

Definition startswith (p s : str) : bool :=
  match strip_prefix p s with Some _ => true | None => false end.

(** [sep in s] and [s.split(sep, 1)] for a non empty separator: text before the first
    occurrence and text after it. *)
Fixpoint split_first (sep s : str) : option (str * str) :=
  match strip_prefix sep s with
  | Some rest => Some ([], rest)
  | None =>
      match s with
      | [] => None
      | c :: s' =>
          match split_first sep s' with
          | Some (a, b) => Some (c :: a, b)
          | None => None
          end
      end
  end.

(** [$] of a regular expression without MULTILINE: end, or before a final newline. *)
Definition at_dollar (s : str) : bool :=
  match s with [] => true | [c] => N.eqb c 10 | _ => false end.
