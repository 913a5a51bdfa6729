(** Specification of the size and position strings (documentation of box()). *)
From Coq Require Import List ZArith NArith QArith Bool String.
From Verif Require Import Py ShowSpec LayoutModel.
Import ListNotations.
Open Scope Q_scope.

(** Documented size strings and what they denote. *)
Inductive size_doc : str -> size_value -> Prop :=
| sd_pixels : forall s n, numeral s n -> size_doc s (mkSize (inject_Z n) None 0 None)
| sd_percent : forall s n, numeral s n ->
    size_doc (s ++ pys "%") (mkSize 0 (Some (inject_Z n / 100)) 0 None)
| sd_fill : size_doc (pys "fill") (mkSize 0 None 1 None)
| sd_fill_n : forall s n, numeral s n ->
    size_doc (pys "fill(" ++ s ++ pys ")") (mkSize 0 None n None).

(** Documented position strings and what they denote. *)
Inductive pos_doc : str -> pos_value -> Prop :=
| pd_pixels : forall s n, numeral s n -> pos_doc s (PosFix (inject_Z n))
| pd_percent : forall s n, numeral s n -> pos_doc (s ++ pys "%") (PosRatio (inject_Z n / 100))
| pd_align : forall s n, numeral s n ->
    pos_doc (pys "[" ++ s ++ pys "%]") (PosAlign (inject_Z n / 100)).

(** The regular expressions tolerate a final newline, and further closing parentheses
    after fill(NN). *)
Definition eol (nl : str) : Prop := nl = [] \/ nl = [10%N].
Definition size_slack (s0 ps : str) : Prop :=
  Forall (fun c => c = 41%N) ps /\ (ps = [] \/ exists t, s0 = pys "fill(" ++ t).
