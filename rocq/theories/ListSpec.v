(** What lists mean: numbers, indentation and visibility of items, told from the history of
    the calls alone. *)
From Coq Require Import String List ZArith NArith QArith Bool.
From Verif Require Import Py ShowModel ShowSpec LayoutModel SlideModel ListModel.
Import ListNotations.
Local Open Scope Z_scope.

(** The calls made so far with their results, the first call first. *)
Definition hist := list (op * result nat).
Inductive ran (measure : str -> Q * Q) (s : state) : hist -> state -> Prop :=
| ran_nil : ran measure s [] s
| ran_step : forall h s1 o s2 r, ran measure s h s1 -> act measure s1 o = (s2, r) ->
    ran measure s (h ++ [(o, r)]) s2.

(** How many times item() was called on the list [n]. *)
Fixpoint items (n : nat) (h : hist) : Z :=
  match h with
  | [] => 0
  | (OItem m _ _ _, _) :: h' => (if Nat.eqb m n then 1 else 0) + items n h'
  | _ :: h' => items n h'
  end.
Definition given {A} (o : option A) (d : A) : A := match o with Some a => a | None => d end.

(** The numbers of the list [n]: those of the enclosing list at the time when the list was
    made (or those given by the caller), and its own counter. *)
Inductive counters : hist -> nat -> list Z -> Prop :=
| co_top : forall pre p d i pad lab st lv t args n post,
    counters (pre ++ (OTop p d i pad lab st lv t args, Ok n) :: post) n
      (given lv [] ++ [st - 1 + items n post])
| co_sub : forall pre m d st i lab args n post v, counters pre m v ->
    counters (pre ++ (OSub m d st i lab None args, Ok n) :: post) n
      (v ++ [given st 1 - 1 + items n post])
| co_sub_given : forall pre m d st i lab lv args n post,
    counters (pre ++ (OSub m d st i lab (Some lv) args, Ok n) :: post) n
      (lv ++ [given st 1 - 1 + items n post]).

(** Labels that only read the numbers they are given. *)
Definition reads (l : label) : Prop :=
  match l with LFun f => forall s b v, snd (f s b v) = v | _ => True end.
Definition reads_opt (l : option label) : Prop := match l with Some l => reads l | None => True end.
Definition reading (o : op) : Prop :=
  match o with
  | OItem _ lab _ _ => reads_opt lab
  | OSub _ d _ _ lab _ _ => reads d /\ reads_opt lab
  | OTop _ d _ _ lab _ _ _ _ => reads d /\ reads_opt lab
  | OCall _ => True
  end.

(** The list [n] lies in the list [root] (made with the initial indentation [t]) below lists
    with the indentations [is], its own last; [d] is the indentation of its own sublists
    that do not ask for another. *)
Inductive nested : hist -> nat -> nat -> Q -> list Q -> Q -> Prop :=
| ne_top : forall pre p d i pad lab st lv t args n post,
    nested (pre ++ (OTop p d i pad lab st lv t args, Ok n) :: post) n n t [] i
| ne_sub : forall pre m d st i lab lv args n post root t is e, nested pre m root t is e ->
    nested (pre ++ (OSub m d st i lab lv args, Ok n) :: post) n root t (is ++ [given i e]) (given i e).

Definition total (t : Q) (is : list Q) : Q := fold_left Qplus is t.
(** The sums of all non empty beginnings of a list. *)
Fixpoint sums (t : Q) (is : list Q) : list Q :=
  match is with [] => [] | i :: is' => (t + i)%Q :: sums (t + i)%Q is' end.

(** A keyword is given at most once. *)
Definition proper (args : list kwarg) : Prop := NoDup (map key args).
Definition proper_op (o : op) : Prop :=
  match o with
  | OItem _ _ _ args | OSub _ _ _ _ _ _ args | OTop _ _ _ _ _ _ _ _ args => proper args
  | OCall _ => True
  end.
Fixpoint show_of (args : list kwarg) : option show_arg :=
  match args with [] => None | Kshow s :: _ => Some s | _ :: args' => show_of args' end.
(** The [show] arguments of a list and of the lists around it, the own first. *)
Inductive shows : hist -> nat -> list (option show_arg) -> Prop :=
| sh_top : forall pre p d i pad lab st lv t args n post,
    shows (pre ++ (OTop p d i pad lab st lv t args, Ok n) :: post) n [show_of args]
| sh_sub : forall pre m d st i lab lv args n post l, shows pre m l ->
    shows (pre ++ (OSub m d st i lab lv args, Ok n) :: post) n (show_of args :: l).
Fixpoint nearest (l : list (option show_arg)) : show_arg :=
  match l with [] => ShowStr (pys "last+"%string) | Some s :: _ => s | None :: l' => nearest l' end.

(** The text of a number, and of numbers each followed by a dot. *)
Definition int_text (n : Z) (s : str) : Prop :=
  (0 <= n /\ numeral s n) \/ (n < 0 /\ exists s', s = pys "-"%string ++ s' /\ numeral s' (- n)).
Inductive dotted : list Z -> str -> Prop :=
| do_nil : dotted [] []
| do_cons : forall n v a s, int_text n a -> dotted v s -> dotted (n :: v) (a ++ pys "."%string ++ s).
