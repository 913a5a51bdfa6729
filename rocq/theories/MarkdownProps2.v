(** C85: which markdown documents are refused. *)
From Coq Require Import String List ZArith NArith QArith Bool Lia Arith.
From Verif Require Import Py PyFacts TextModel TextSpec TextCode TextProps ShowModel ShowSpec ShowProofs LayoutModel LayoutSpec LayoutProofs SlideModel SlideSpec SlideProofs ListModel ListSpec ListProofs ListProps2 MarkdownModel MarkdownSpec MarkdownProofs MarkdownOrder MarkdownProps.
Import ListNotations.
Local Open Scope Z_scope.

(** [part i b j p]: [p] is the block [b], that is inside ([i]) or outside of the lists, or a
    block somewhere in it; [j] tells if [p] is in an item of a list. *)
Inductive part : bool -> block -> bool -> block -> Prop :=
| part_self : forall i b, part i b i b
| part_quote : forall i bs b j p, In b bs -> part i b j p -> part i (BQuote bs) j p
| part_item : forall i o s u items bs b j p, In bs items -> In b bs -> part true b j p ->
    part i (BList o s u items) j p.

Section Refused.
Variable measure_text : str -> list token -> Q * Q.
Variable measure : str -> Q * Q.
Variable lexer_of : str -> option (str -> list (str * str)).
Variable esc : str.
Notation build := (build measure_text measure lexer_of esc).

(** What a block needs itself. *)
Definition fine (inside : bool) (b : block) : Prop :=
  match b with
  | BHeading k l => 1 <= k <= 6 /\ exists ts, text_tokens (get_raw_text esc l) esc = Ok ts
  | BParagraph l => exists ts, text_tokens (get_raw_text esc l) esc = Ok ts
  | BFenced lang _ => lang = [] \/ lexer_of lang <> None
  | BList ordered start _ _ => inside = true -> ordered = true -> 1 <= start
  | _ => True
  end.

Lemma with_box_ok : forall m r k m', with_box m r k = (m', Ok tt) ->
  exists s n, r = (s, Ok n) /\ k n (mkM s (m_texts m)) = (m', Ok tt).
Proof. intros m [s [n|e]] k m' H; [eauto|discriminate]. Qed.
Lemma draw_needs : forall m c style r m', draw measure_text m c style r = (m', Ok tt) -> exists ts, r = Ok ts.
Proof. intros m c style [ts|e] m' H; [eauto|discriminate]. Qed.
Lemma run_all_ok : forall A (f : A -> mstate -> mstate * result unit) l m m', run_all f l m = (m', Ok tt) ->
  forall x, In x l -> exists m1 m2, f x m1 = (m2, Ok tt).
Proof.
  intros A f. induction l as [|y l IH]; intros m m' H x I; [destruct I|]. cbn [run_all] in H.
  destruct (f y m) as [m1 [[]|e]] eqn:E; [|discriminate]. destruct I as [->|I]; [eauto|eauto].
Qed.
Lemma build_needs : forall i b j p, part i b j p -> forall c m m', cx_list c <> None \/ i = false ->
  build b c m = (m', Ok tt) -> fine j p.
Proof.
  intros i b j p P. induction P as [i b|i bs b j p I P IH|i o s u items bs b j p I1 I2 P IH]; intros c m m' K H.
  - destruct b as [k l|l| |bs|lang t|o s u items|]; cbn [MarkdownModel.build fine] in *; auto.
    + unfold md_heading in H. destruct ((1 <=? k) && (k <=? 6)) eqn:E; [|discriminate].
      split; [lia|]. apply with_box_ok in H as (s & n & _ & H). eapply draw_needs; eauto.
    + apply with_box_ok in H as (s & n & _ & H). eapply draw_needs; eauto.
    + apply with_box_ok in H as (s & n & _ & H). apply draw_needs in H as [ts H]. destruct lang as [|a l]; [now left|].
      right. destruct (lexer_of (a :: l)); [discriminate|discriminate H].
    + intros -> ->. destruct K as [K|K]; [|discriminate]. apply with_box_ok in H as (s1 & n1 & _ & H).
      apply with_box_ok in H as (s2 & n2 & H & _). unfold new_list in H. destruct (cx_list c) as [n|]; [|contradiction].
      unfold sublist in H. destruct (nth_error _ n); [|discriminate]. destruct (s <? 1) eqn:E; [discriminate|]. lia.
  - cbn [MarkdownModel.build] in H. apply with_box_ok in H as (s & n & _ & H).
    destruct (run_all_ok _ _ _ _ _ H _ I) as (m1 & m2 & H1). eapply (IH (mkCtx n (cx_list c))); eauto.
  - cbn [MarkdownModel.build] in H. apply with_box_ok in H as (s1 & n1 & _ & H). apply with_box_ok in H as (s2 & n2 & _ & H).
    destruct (run_all_ok _ _ _ _ _ H _ I1) as (m1 & m2 & H1). apply with_box_ok in H1 as (s3 & n3 & _ & H1).
    destruct (run_all_ok _ _ _ _ _ H1 _ I2) as (m3 & m4 & H2). eapply (IH (mkCtx n3 (Some n2))); eauto. left. discriminate.
Qed.
End Refused.

(** If markdown() returns, then all headings of the document have the levels 1 to 6, all code
    has a language that is known or none, the texts of paragraphs and headings are texts that
    text() accepts, and ordered lists in items start with 1 or more: any other document is
    refused, wherever in quotes and items the wrong block stands. *)
Theorem C85_refused : forall measure_text measure lexer_of esc root doc m m' b j p,
  markdown measure_text measure lexer_of esc root doc m = (m', Ok tt) ->
  In b doc -> part false b j p -> fine lexer_of esc j p.
Proof.
  intros measure_text measure lexer_of esc root doc m m' b j p H I P. unfold markdown in H.
  apply with_box_ok in H as (s & n & _ & H). destruct (run_all_ok _ _ _ _ _ H _ I) as (m1 & m2 & H1).
  eapply build_needs; eauto.
Qed.
Print Assumptions C85_refused.
(** And what was drawn before the wrong block stays on the slide: the call is no transaction. *)
Example ex_C85_refused : snd (md [par (pys "a"); BQuote [BFenced (pys "klingon") (pys "x")]] m0) = Err EException /\
  m_texts (fst (md [par (pys "a"); BQuote [BFenced (pys "klingon") (pys "x")]] m0)) <> [] /\
  snd (md [BQuote [BFenced (pys "python") (pys "x")]] m0) = Ok tt /\
  snd (md [BHeading 7 []] m0) = Err EAssertion /\ snd (md [BHeading 6 []] m0) = Ok tt /\
  part false (BQuote [BFenced (pys "python") (pys "x")]) false (BFenced (pys "python") (pys "x")).
Proof.
  repeat split; try (vm_compute; reflexivity); [vm_compute; discriminate|].
  eapply part_quote; [left; reflexivity|apply part_self].
Qed.
