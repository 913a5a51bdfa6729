(** Specification of fragment selectors, independent of the parser. *)
From Coq Require Import List ZArith NArith Bool String.
From Verif Require Import Py.
Import ListNotations.
Open Scope Z_scope.

(** [c] is the decimal digit of value [v] in one of the Unicode digit ranges. *)
Definition decimal (c : char) (v : Z) : Prop :=
  exists z, In z nd_zeros /\ 0 <= v <= 9 /\ Z.of_N c = Z.of_N z + v.

(** [numeral s n]: [s] is a decimal numeral of value [n]. *)
Inductive numeral : str -> Z -> Prop :=
| num_one : forall c v, decimal c v -> numeral [c] v
| num_snoc : forall s n c v, numeral s n -> decimal c v -> numeral (s ++ [c]) (10 * n + v).

(** What a selector starts from. *)
Inductive sel_start := AtNumber (n : Z) | AtNext | AtLast.
(** Up to where it reaches. *)
Inductive sel_extent := Single | Open | UpTo (n : Z).
Definition selector := (sel_start * sel_extent)%type.

(** [start_text f t]: the text [t] denotes the start [f]. *)
Inductive start_text : sel_start -> str -> Prop :=
| st_num : forall s n, numeral s n -> start_text (AtNumber n) s
| st_next : start_text AtNext (pys "next")
| st_last : start_text AtLast (pys "last").

Inductive extent_text : sel_extent -> str -> Prop :=
| et_single : extent_text Single []
| et_open : extent_text Open (pys "+")
| et_upto : forall s n, numeral s n -> extent_text (UpTo n) (pys "-" ++ s).

Definition blank (s : str) : Prop := Forall (fun c => In c ws_table) s.

(** A selector with white space around it. *)
Inductive selector_text : selector -> str -> Prop :=
| sel_text : forall f e sf se l r, start_text f sf -> extent_text e se -> blank l ->
    blank r -> selector_text (f, e) (l ++ (sf ++ se) ++ r).

(** A non empty comma separated list of selectors. *)
Inductive selectors_text : list selector -> str -> Prop :=
| sels_one : forall x s, selector_text x s -> selectors_text [x] s
| sels_cons : forall x s xs s', selector_text x s -> selectors_text xs s' ->
    selectors_text (x :: xs) (s ++ pys "," ++ s').

(** First fragment of a selector when the current fragment is [cur]. *)
Inductive starts_at (cur : option Z) : sel_start -> Z -> Prop :=
| sa_num : forall n, starts_at cur (AtNumber n) n
| sa_next : forall c, cur = Some c -> starts_at cur AtNext (c + 1)
| sa_last : forall c, cur = Some c -> starts_at cur AtLast c.

(** [covers cur x k]: selector [x] covers fragment [k]. *)
Definition covers (cur : option Z) (x : selector) (k : Z) : Prop :=
  exists a, starts_at cur (fst x) a /\
    match snd x with
    | Single => k = a
    | Open => a <= k
    | UpTo b => a <= k <= b
    end.

Definition is_open (x : selector) : bool :=
  match snd x with Open => true | _ => false end.

(** A selector that makes sense: its start is known and its range is not reversed. *)
Definition sensible (cur : option Z) (x : selector) : Prop :=
  exists a, starts_at cur (fst x) a /\
    match snd x with UpTo b => a <= b | _ => True end.

(** The selector lists that must be accepted. *)
Definition acceptable (cur : option Z) (xs : list selector) : Prop :=
  Forall (sensible cur) xs /\ (List.length (filter is_open xs) <= 1)%nat.

(** Fragments mentioned explicitly by a selector: its first and its last. *)
Definition mentions (cur : option Z) (x : selector) (k : Z) : Prop :=
  starts_at cur (fst x) k \/ snd x = UpTo k.

(** Decimal ASCII notation of a natural number, for examples. *)
Fixpoint dec_fuel (fuel : nat) (n : Z) (acc : str) : str :=
  match fuel with
  | O => acc
  | S f =>
      let acc' := Z.to_N (48 + n mod 10) :: acc in
      if n <? 10 then acc' else dec_fuel f (n / 10) acc'
  end.
Definition dec (n : Z) : str := dec_fuel (S (Z.to_nat (Z.log2_up n))) n [].
