(** Specification of styles: what a user sees. *)
From Coq Require Import List ZArith NArith QArith Bool String.
From Verif Require Import Py StyleModel.
Import ListNotations.
Local Open Scope nat_scope.

(** A style that takes an attribute from [b] where [b] specifies it and otherwise from
    [a]. *)
Definition combined (a b c : style) : Prop := forall x,
  (get b x <> PNone /\ get c x = get b x) \/ (get b x = PNone /\ get c x = get a x).

(** Two styles with the same attributes. *)
Definition same_style (a b : style) : Prop := forall x, get a x = get b x.

(** The style that container [c] knows under the name [n]. *)
Definition known (w : world) (c : nat) (n : str) : option style :=
  match assoc n (nth (nth c (w_conts w) 0%nat) (w_dicts w) []) with
  | Some l => nth_error (w_styles w) l
  | None => None
  end.
(** The same for a text, which keeps the dictionary object of its box (boxmixin.py:797). *)
Definition known_in_dict (w : world) (d : nat) (n : str) : option style :=
  match assoc n (nth d (w_dicts w) []) with
  | Some l => nth_error (w_styles w) l
  | None => None
  end.

Definition is_container (w : world) (c : nat) : Prop := c < List.length (w_conts w).
Definition is_object (w : world) (l : nat) : Prop := l < List.length (w_styles w).

(** A history: the actions performed on a new deck and what they returned. *)
Inductive history (named : list (str * style)) : list (action * result nat) -> world -> Prop :=
| h_start : history named [] (new_deck named)
| h_act : forall t w a w' r, history named t w -> act w a = (w', r) ->
    history named (t ++ [(a, r)]) w'.

(** Actions that change a style object in place. *)
Definition mutates (a : action) : Prop :=
  match a with AAssign _ _ _ | AUpdate _ _ => True | _ => False end.

(** Actions that are meant to change what container [c] knows under the name [n]. *)
Definition concerns (c : nat) (n : str) (a : action) : Prop :=
  match a with
  | AUpdateStyle c' n' _ | ASetStyle c' n' _ _ => c' = c /\ n' = n
  | _ => False
  end.

(** The style objects that set_style or update_style returned. *)
Definition handed_out (t : list (action * result nat)) (l : nat) : Prop := exists a,
  In (a, Ok l) t /\
  match a with AUpdateStyle _ _ _ | ASetStyle _ _ _ _ => True | _ => False end.

(** Values that are allowed for an attribute. *)
Definition is_string (v : pyval) : Prop := exists s, v = PStr s.
Definition is_number (v : pyval) : Prop := (exists q, v = PNum q) \/ (exists b, v = PBool b).
Definition one_of (v : pyval) (l : list string) : Prop := exists s, In s l /\ v = PStr (pys s).
Definition allowed (x : attr) (v : pyval) : Prop :=
  match x with
  | Font | Color => v = PNone \/ is_string v
  | Size | LineSpacing | Opacity => v = PNone \/ is_number v
  | Bold | Italic => v = PNone \/ exists b, v = PBool b
  | Align => v = PNone \/ one_of v ["left"; "middle"; "right"]%string
  | VariantNumeric => v = PNone \/
      one_of v ["normal"; "ordinal"; "slashed-zero"; "lining-nums"; "oldstyle-nums";
                "proportinal-nums"; "tabular-nums"; "diagonal-fractions";
                "stacked-fractions"]%string
  | Priority => is_number v
  end.
Definition valid_style (s : style) : Prop := forall x, allowed x (get s x).
