(** Model of elsie/slides/show.py. *)
From Coq Require Import List ZArith NArith Bool String.
From Verif Require Import Py.
Import ListNotations.
Open Scope Z_scope.

(** show.py:21-32, the fields of ShowInfo. *)
Record show_info := mkShow {
  si_steps : list Z;
  si_open : option Z;
  si_min : Z
}.

(** show.py:83-84, ShowInfo.max_step; the builtin [max(steps, default=1)] is
    [max_default]. *)
Fixpoint max_default (d : Z) (l : list Z) : Z :=
  match l with
  | [] => d
  | [x] => x
  | x :: l' => Z.max x (max_default d l')
  end.
Definition max_step_of (steps : list Z) (open : option Z) : Z :=
  Z.max (max_default 1 steps)
        (match open with Some o => if o =? 0 then 1 else o | None => 1 end).

(** show.py:21-32, ShowInfo.__init__. *)
Definition mk_show_info (steps : option (list Z)) (open : option Z) (min : option Z)
  : show_info :=
  let '(st, op) :=
    match steps with
    | None => ([], match open with None => Some 1 | Some _ => open end)
    | Some l => (l, open)
    end in
  mkShow st op
    (match min with
     | Some m => if m =? 0 then max_step_of st op else m
     | None => max_step_of st op
     end).

(** show.py:19, the groups of the regular expression
    [^(?P<from>\d+|next|last)(?:(?P<open>\+)|-(?P<end>\d+))?$].
    The digits are matched greedily: a shorter match would leave a digit, which no
    continuation of the expression accepts. *)
Inductive from_group := FromDigits (s : str) | FromNext | FromLast.
Inductive tail_group := TailNone | TailOpen | TailEnd (s : str).

(** show.py:19, the part after <from>. *)
Definition match_tail (s : str) : option tail_group :=
  if at_dollar s then Some TailNone
  else match s with
       | 43%N :: s' => if at_dollar s' then Some TailOpen else None
       | 45%N :: s' =>
           let (ds, rest) := span is_digit s' in
           match ds with
           | [] => None
           | _ => if at_dollar rest then Some (TailEnd ds) else None
           end
       | _ => None
       end.

(** show.py:19, the whole expression. *)
Definition match_show (s : str) : option (from_group * tail_group) :=
  let (ds, rest) := span is_digit s in
  match ds with
  | _ :: _ => option_map (pair (FromDigits ds)) (match_tail rest)
  | [] =>
      match strip_prefix (pys "next") s with
      | Some rest => option_map (pair FromNext) (match_tail rest)
      | None =>
          match strip_prefix (pys "last") s with
          | Some rest => option_map (pair FromLast) (match_tail rest)
          | None => None
          end
      end
  end.

(** show.py:4-15 with the later int(m["from"]) of lines 67 and 70: [int(str(n))] is
    simplified to [n]. *)
Definition resolve_from (f : from_group) (cur : option Z) : result Z :=
  match f with
  | FromDigits ds => Ok (int_of_digits ds)
  | FromNext => match cur with Some c => Ok (c + 1) | None => Err EException end
  | FromLast => match cur with Some c => Ok c | None => Err EException end
  end.

(** [range(a, b + 1)] for a <= b. *)
Fixpoint zseq (a : Z) (n : nat) : list Z :=
  match n with O => [] | S n' => a :: zseq (a + 1) n' end.
Definition zrange (a b : Z) : list Z := zseq a (Z.to_nat (b + 1 - a)).

(** Insertion in a sorted list without duplicates: sets of integers are represented
    by the sorted list of their elements, so [sorted(steps)] is the identity. *)
Fixpoint zinsert (x : Z) (l : list Z) : list Z :=
  match l with
  | [] => [x]
  | y :: l' =>
      if x <? y then x :: l
      else if x =? y then l else y :: zinsert x l'
  end.
Definition set_update (s : list Z) (l : list Z) : list Z := fold_right zinsert s l.

(** show.py:54-75, the loop over the intervals. *)
Fixpoint parse_intervals (l : list str) (cur : option Z) (steps : list Z)
  (open : option Z) : result (list Z * option Z) :=
  match l with
  | [] => Ok (steps, open)
  | i :: l' =>
      match match_show i with
      | None => Err EException
      | Some (f, t) =>
          do v <- resolve_from f cur;
          match t with
          | TailOpen =>
              match open with
              | Some _ => Err EException
              | None => parse_intervals l' cur steps (Some v)
              end
          | TailNone => parse_intervals l' cur (set_update steps (zrange v v)) open
          | TailEnd ds =>
              let e := int_of_digits ds in
              if v <=? e then parse_intervals l' cur (set_update steps (zrange v e)) open
              else Err EAssertion
          end
      end
  end.

(** show.py:47-76, parsing of a string.  [obj.split(",")] is never empty, so the test
    of line 51 never succeeds. *)
Definition parse_show_str (s : str) (cur : option Z) : result show_info :=
  let intervals := map strip (split_on 44%N s) in
  match intervals with
  | [] => Err EException
  | _ => do p <- parse_intervals intervals cur [] None;
         Ok (mk_show_info (Some (fst p)) (snd p) None)
  end.

(** The [show] argument: None, int (or bool), str, or any other type. *)
Inductive show_arg := ShowNone | ShowInt (n : Z) | ShowStr (s : str) | ShowOther.

(** show.py:42-78, ShowInfo.parse. *)
Definition parse_show (a : show_arg) (cur : option Z) : result show_info :=
  match a with
  | ShowNone => Ok (mk_show_info None None None)
  | ShowInt n => Ok (mk_show_info (Some [n]) None None)
  | ShowStr s => parse_show_str s cur
  | ShowOther => Err EException
  end.

(** show.py:80-81. *)
Definition min_steps (i : show_info) : Z := si_min i.

(** show.py:83-84. *)
Definition max_step (i : show_info) : Z := max_step_of (si_steps i) (si_open i).

(** show.py:86-88, ShowInfo.ensure_steps. *)
Definition ensure_steps (i : show_info) (steps : Z) : show_info :=
  mk_show_info (Some (si_steps i)) (si_open i) (Some (Z.max (si_min i) steps)).

(** show.py:90-93, ShowInfo.is_visible. *)
Definition is_visible (i : show_info) (k : Z) : bool :=
  existsb (Z.eqb k) (si_steps i) ||
  match si_open i with Some o => o <=? k | None => false end.

(** show.py:34-39, ShowInfo.from_label; the second result says whether there was a
    "**" in the label.  [label.split("**", 2)[1]] is the text between the first and
    the second "**" (or the end). *)
Definition from_label (label : option str) : result (option show_info) :=
  match label with
  | None => Ok None
  | Some s =>
      match split_first (pys "**") s with
      | None => Ok None
      | Some (_, after) =>
          let show := match split_first (pys "**") after with
                      | Some (mid, _) => mid
                      | None => after
                      end in
          do i <- parse_show (ShowStr show) None; Ok (Some i)
      end
  end.
