(** Properties of fragment selectors: C01, C02 and the per-call part of C03. *)
From Coq Require Import List ZArith NArith Bool String Lia.
From Verif Require Import Py PyFacts ShowModel ShowSpec ShowProofs.
Import ListNotations.
Open Scope Z_scope.

(** C01: an accepted string makes fragment [k] visible iff one of its selectors
    covers [k]. *)
Theorem C01_show_visible : forall s cur i xs,
  parse_show (ShowStr s) cur = Ok i -> selectors_text xs s ->
  forall k, is_visible i k = true <-> exists x, In x xs /\ covers cur x k.
Proof. exact show_visible. Qed.
Print Assumptions C01_show_visible.

(** C01: integers and None. *)
Theorem C01_show_visible_int : forall n cur k i,
  parse_show (ShowInt n) cur = Ok i -> (is_visible i k = true <-> k = n).
Proof. exact is_visible_int. Qed.
Print Assumptions C01_show_visible_int.

Theorem C01_show_visible_none : forall cur k i,
  parse_show ShowNone cur = Ok i -> (is_visible i k = true <-> 1 <= k).
Proof. exact is_visible_none. Qed.
Print Assumptions C01_show_visible_none.

(** C01: a string has at most one reading, so "its selectors" is well defined. *)
Theorem C01_show_reading_unique : forall s xs ys,
  selectors_text xs s -> selectors_text ys s -> xs = ys.
Proof. exact selectors_text_unique. Qed.
Print Assumptions C01_show_reading_unique.

(** C01: the usual decimal notation is a numeral of the specification. *)
Theorem C01_decimal_notation : forall n, 0 <= n -> numeral (dec n) n.
Proof. exact dec_numeral. Qed.
Print Assumptions C01_decimal_notation.

(** C02: exactly the acceptable selector lists are accepted. *)
Theorem C02_show_accepts : forall s cur,
  (exists i, parse_show (ShowStr s) cur = Ok i) <->
  (exists xs, selectors_text xs s /\ acceptable cur xs).
Proof. exact show_accepts. Qed.
Print Assumptions C02_show_accepts.
(** Values that are neither None nor an integer nor a string are rejected; None and integers
    are always accepted. *)
Theorem C02_show_types : forall a cur, (forall s, a <> ShowStr s) ->
  ((exists i, parse_show a cur = Ok i) <-> a = ShowNone \/ exists n, a = ShowInt n).
Proof.
  intros a cur H. destruct a as [|n|s|]; cbn [parse_show].
  - split; eauto.
  - split; eauto.
  - exfalso. now apply (H s).
  - split; [intros [i E]; discriminate|intros [E|[n E]]; discriminate].
Qed.
Print Assumptions C02_show_types.

(** C03, one call: the number of fragments asked for is 1 or the largest number
    mentioned. *)
Theorem C03_show_min_steps : forall s cur i xs, (forall c, cur = Some c -> 0 <= c) ->
  parse_show (ShowStr s) cur = Ok i -> selectors_text xs s ->
  1 <= min_steps i /\
  (forall x k, In x xs -> mentions cur x k -> k <= min_steps i) /\
  (min_steps i = 1 \/ exists x, In x xs /\ mentions cur x (min_steps i)).
Proof. exact show_min_steps. Qed.
Print Assumptions C03_show_min_steps.

(** ** Concrete cases *)
Definition ex_show : str := pys " 1-2 ,next+, 12".

Example ex_show_parsed :
  parse_show (ShowStr ex_show) (Some 4) = Ok (mkShow [1; 2; 12] (Some 5) 12).
Proof. vm_compute. reflexivity. Qed.

Lemma ascii_decimal : forall v, 0 <= v <= 9 -> decimal (Z.to_N (48 + v)) v.
Proof. intros v H. exists 48%N. split; [now left|]. split; auto. lia. Qed.

Example ex_show_reading : selectors_text
  [(AtNumber 1, UpTo 2); (AtNext, Open); (AtNumber 12, Single)] ex_show.
Proof.
  apply (sels_cons _ (pys " 1-2 ") _ (pys "next+, 12")).
  - apply (sel_text _ _ (pys "1") (pys "-2") (pys " ") (pys " ")).
    + apply st_num. apply (num_one _ _ (ascii_decimal 1 ltac:(lia))).
    + apply (et_upto (pys "2")). apply (num_one _ _ (ascii_decimal 2 ltac:(lia))).
    + repeat constructor; simpl; tauto.
    + repeat constructor; simpl; tauto.
  - apply (sels_cons _ (pys "next+") _ (pys " 12")).
    + apply (sel_text _ _ (pys "next") (pys "+") [] []); repeat constructor.
    + apply sels_one. apply (sel_text _ _ (pys "12") [] (pys " ") []).
      * apply st_num. apply (num_snoc (pys "1") 1 50%N 2).
        -- apply (num_one _ _ (ascii_decimal 1 ltac:(lia))).
        -- apply (ascii_decimal 2). lia.
      * constructor.
      * repeat constructor; simpl; tauto.
      * constructor.
Qed.

Example ex_show_acceptable : acceptable (Some 4)
  [(AtNumber 1, UpTo 2); (AtNext, Open); (AtNumber 12, Single)].
Proof.
  split; [|simpl; lia]. repeat constructor.
  - exists 1. split; [constructor | simpl; lia].
  - exists 5. split; [apply (sa_next _ 4 eq_refl) | simpl; auto].
  - exists 12. split; [constructor | simpl; auto].
Qed.

(** Rejected: unknown current fragment, reversed range, two open selectors, junk. *)
Example ex_show_rejected :
  map (fun p => is_ok (parse_show (ShowStr (fst p)) (snd p)))
    [(pys "next", None); (pys "5-3", None); (pys "1+,2+", None); (pys "", None);
     (pys "1,", None); (pys "-3", None); (pys "1 - 2", None); (pys "nexts", Some 1)]
  = repeat false 8.
Proof. vm_compute. reflexivity. Qed.
