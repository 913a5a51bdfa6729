(** Proofs about the placement of pictures: reading transformations, one picture. *)
From Coq Require Import List Reals QArith Qreals NArith Bool String Lra Lia.
From Verif Require Import Py PyFacts XmlModel ShapeModel ShapeSpec ShapeProofs ShapePaint ShapeProps2
  PicModel PicSpec.
From Verif Require LayoutModel ImageModel ImageProps.
Import ListNotations.
Local Open Scope R_scope.

(** ** Turning *)
Lemma transform_ctm : forall c rot s, exists s',
  transform c rot 1 1 s = Ok s' /\ c_saved s' = c_saved s /\ c_path s' = c_path s /\ c_ink s' = c_ink s /\
  ctm s' = mul (ctm s) (match rot with Some a => rotation_about a c | None => ident end).
Proof.
  intros c rot s. unfold transform. rewrite req_refl. cbn [negb orb rbind].
  eexists. split; [reflexivity|].
  destruct rot as [a|]; (split; [reflexivity|]; split; [reflexivity|]; split; [reflexivity|]).
  - exact (transform_rotation (ctm s) c a).
  - rewrite mul_ident. exact (transform_none (ctm s) c).
Qed.
Lemma turn_spot : forall x y k rot iw ih p,
  apply (match rot with Some a => rotation_about a (x + k * iw / 2, y + k * ih / 2) | None => ident end)
    (x + k * fst p, y + k * snd p)
  = spot (x + k * iw / 2, y + k * ih / 2) k rot iw ih p.
Proof.
  intros x y k [a|] iw ih p; unfold spot, rotation_about, ident, apply; cbn [m_xx m_xy m_yx m_yy m_x0 m_y0 fst snd].
  - apply f_equal2; field.
  - rewrite cos_0, sin_0. apply f_equal2; field.
Qed.
Lemma spot_zero : forall c k iw ih p, spot c k (Some 0) iw ih p = spot c k None iw ih p.
Proof. intros. unfold spot. replace (0 * PI / 180) with 0 by field. reflexivity. Qed.

(** ** Reading lists of transformations *)
Section Read.
Variable fmt : R -> str.
Variable num_of : str -> option R.
Variable isfloat : R -> Prop.
Hypothesis Hfmt : good_numbers fmt num_of isfloat.

Lemma fmt_char : forall x c, isfloat x -> In c (fmt x) -> numeral_char c.
Proof. intros x c H Hc. destruct (Hfmt x H) as (_ & _ & F). rewrite Forall_forall in F. auto. Qed.

(** The text of a function without its closing parenthesis, and its matrix. *)
Definition reads (w : str) (m : mat) : Prop :=
  w <> [] /\ (forall c, In c w -> N.eqb 41 c = false) /\ read_function num_of w = Some m /\
  read_function num_of (32%N :: w) = Some m.

Lemma reads_intro : forall n args l m, n <> [] -> forallb (fun c => negb (N.eqb 41 c) && negb (N.eqb 40 c) && negb (comma_space c)) n = true ->
  args <> [] ->
  (forall c, In c args -> N.eqb 41 c = false) ->
  all_numbers num_of (pieces comma_space [] args) = Some l -> function_matrix n l = Some m ->
  reads (n ++ 40%N :: args) m.
Proof.
  intros n args l m N F A P L M. rewrite forallb_forall in F.
  assert (S : split_first (pys "(") (n ++ 40%N :: args) = Some (n, args)).
  { change (pys "(") with [40%N]. clear N M.
    induction n as [|c n IH]; [reflexivity|]. cbn [app split_first strip_prefix].
    pose proof (F c (or_introl eq_refl)) as K. rewrite !andb_true_iff, !negb_true_iff in K.
    destruct K as [[_ K] _]. rewrite K. rewrite IH; [reflexivity|]. intros c' Hc. apply F. now right. }
  assert (D : drop_spaces (n ++ 40%N :: args) = n ++ 40%N :: args).
  { destruct n as [|c n]; [easy|]. cbn [app drop_spaces].
    pose proof (F c (or_introl eq_refl)) as K. rewrite !andb_true_iff, !negb_true_iff in K.
    destruct K as [_ K]. now rewrite K. }
  assert (R : read_function num_of (n ++ 40%N :: args) = Some m).
  { unfold read_function. rewrite D, S, L. exact M. }
  repeat split; [now destruct n| |exact R|].
  - intros c Hc. apply in_app_or in Hc. destruct Hc as [Hc|[<-|Hc]]; [|reflexivity|now apply P].
    specialize (F c Hc). rewrite !andb_true_iff, !negb_true_iff in F. tauto.
  - exact R.
Qed.

Lemma no_close : forall x c, isfloat x -> In c (fmt x) -> N.eqb 41 c = false.
Proof. intros x c H Hc. destruct (fmt_char x c H Hc) as (_ & _ & K & _). apply N.eqb_neq. congruence. Qed.

Lemma rotate_reads : forall a c, isfloat a -> float_pt isfloat c ->
  exists w, rotate_str fmt a c = w ++ [41%N] /\ reads w (rotation_about a c).
Proof.
  intros a c A [H1 H2].
  exists (pys "rotate" ++ 40%N :: (fmt a ++ 32%N :: fmt (fst c) ++ 32%N :: fmt (snd c))). split.
  - unfold rotate_str. change (pys "rotate(") with (pys "rotate" ++ [40%N]). change (pys " ") with [32%N].
    change (pys ")") with [41%N]. repeat (rewrite <- app_assoc; cbn [app]). reflexivity.
  - destruct (Hfmt _ A) as (Na & Ea & _). destruct (Hfmt _ H1) as (N1 & E1 & _).
    destruct (Hfmt _ H2) as (N2 & E2 & _).
    apply reads_intro with (l := [a; fst c; snd c]); [discriminate|reflexivity| | | |].
    + intros E. apply app_eq_nil in E as [E _]. contradiction.
    + intros x Hx. apply in_app_or in Hx. destruct Hx as [Hx|[<-|Hx]]; [exact (no_close _ _ A Hx)|reflexivity|].
      apply in_app_or in Hx. destruct Hx as [Hx|[<-|Hx]]; [exact (no_close _ _ H1 Hx)|reflexivity|exact (no_close _ _ H2 Hx)].
    + rewrite pieces_word; [|now apply (fmt_no_sep fmt num_of isfloat Hfmt)|exact Ea|reflexivity].
      rewrite pieces_word; [|now apply (fmt_no_sep fmt num_of isfloat Hfmt)|exact E1|reflexivity].
      rewrite pieces_end; [|now apply (fmt_no_sep fmt num_of isfloat Hfmt)|exact E2].
      cbn [all_numbers]. now rewrite Na, N1, N2.
    + cbn. now rewrite pt_eta.
Qed.
Lemma translate_reads : forall x y, isfloat x -> isfloat y ->
  exists w, translate_str fmt x y = w ++ [41%N] /\ reads w (mkMat 1 0 0 1 x y).
Proof.
  intros x y H1 H2.
  exists (pys "translate" ++ 40%N :: (fmt x ++ 44%N :: 32%N :: fmt y)). split.
  - unfold translate_str. change (pys "translate(") with (pys "translate" ++ [40%N]).
    change (pys ", ") with [44%N; 32%N]. change (pys ")") with [41%N].
    repeat (rewrite <- app_assoc; cbn [app]). reflexivity.
  - destruct (Hfmt _ H1) as (N1 & E1 & _). destruct (Hfmt _ H2) as (N2 & E2 & _).
    apply reads_intro with (l := [x; y]); [discriminate|reflexivity| | | |reflexivity].
    + intros E. apply app_eq_nil in E as [E _]. contradiction.
    + intros c Hx. apply in_app_or in Hx. destruct Hx as [Hx|[<-|[<-|Hx]]]; [exact (no_close _ _ H1 Hx)|reflexivity|reflexivity|exact (no_close _ _ H2 Hx)].
    + rewrite pieces_word; [|now apply (fmt_no_sep fmt num_of isfloat Hfmt)|exact E1|reflexivity].
      cbn [pieces]. change (comma_space 32) with true. cbv iota.
      rewrite pieces_end; [|now apply (fmt_no_sep fmt num_of isfloat Hfmt)|exact E2].
      cbn [all_numbers]. now rewrite N1, N2.
Qed.
Lemma scale_reads : forall k, isfloat k ->
  exists w, scale_str fmt k = w ++ [41%N] /\ reads w (mkMat k 0 0 k 0 0).
Proof.
  intros k H. exists (pys "scale" ++ 40%N :: fmt k). split.
  - unfold scale_str. change (pys "scale(") with (pys "scale" ++ [40%N]). change (pys ")") with [41%N].
    repeat (rewrite <- app_assoc; cbn [app]). reflexivity.
  - destruct (Hfmt _ H) as (N1 & E1 & _).
    apply reads_intro with (l := [k]); [discriminate|reflexivity|exact E1| | |reflexivity].
    + intros c Hx. exact (no_close _ _ H Hx).
    + rewrite pieces_end; [|now apply (fmt_no_sep fmt num_of isfloat Hfmt)|exact E1].
      cbn [all_numbers]. now rewrite N1.
Qed.

Definition text_reads (s : str) (m : mat) : Prop := exists w, s = w ++ [41%N] /\ reads w m.
Fixpoint product (l : list mat) : mat := match l with [] => ident | m :: l' => mul m (product l') end.
Lemma transforms_read : forall l ms, Forall2 text_reads l ms ->
  read_transforms num_of (join_with (pys " ") l) = Some (product ms).
Proof.
  intros l ms F. unfold read_transforms. change (pys " ") with [32%N].
  enough (G : forall l ms, Forall2 text_reads l ms ->
    read_functions num_of (pieces (N.eqb 41) [] (join_with [32%N] l)) = Some (product ms) /\
    (l <> [] -> read_functions num_of (pieces (N.eqb 41) [] (32%N :: join_with [32%N] l)) = Some (product ms)))
    by exact (proj1 (G l ms F)).
  clear l ms F. induction l as [|s l IH]; intros ms F; inversion F as [|? m ? ms' (w & E & W1 & W2 & W3 & W4) F']; subst.
  - split; [reflexivity|easy].
  - destruct (IH ms' F') as [IH1 IH2]. destruct l as [|s' l].
    + inversion F'; subst. cbn [join_with product]. split; [|intros _].
      * change (w ++ [41%N]) with (w ++ 41%N :: []). rewrite pieces_word by (try assumption; reflexivity).
        cbn [pieces read_functions]. now rewrite W3.
      * change (32%N :: w ++ [41%N]) with ((32%N :: w) ++ 41%N :: []).
        rewrite pieces_word; [|intros c [<-|Hc]; [reflexivity|now apply W2]|discriminate|reflexivity].
        cbn [pieces read_functions]. now rewrite W4.
    + change (join_with [32%N] ((w ++ [41%N]) :: s' :: l)) with ((w ++ [41%N]) ++ [32%N] ++ join_with [32%N] (s' :: l)).
      rewrite <- app_assoc. cbn [app]. specialize (IH2 ltac:(discriminate)). cbn [product]. split; [|intros _].
      * rewrite pieces_word by (try assumption; reflexivity). cbn [read_functions]. now rewrite W3, IH2.
      * change (32%N :: w ++ 41%N :: 32%N :: join_with [32%N] (s' :: l)) with
          ((32%N :: w) ++ 41%N :: 32%N :: join_with [32%N] (s' :: l)).
        rewrite pieces_word; [|intros c [<-|Hc]; [reflexivity|now apply W2]|discriminate|reflexivity].
        cbn [read_functions]. now rewrite W4, IH2.
Qed.

(** ** One picture *)

Definition float_args (x y w h : R) : Prop := isfloat x /\ isfloat y /\ isfloat w /\ isfloat h.
Definition float_turn (rot : option R) (c : pt) : Prop :=
  match rot with Some a => isfloat a /\ float_pt isfloat c | None => True end.

(** A picture that has the aspect ratio of its area fills the area. *)
Lemma meets_exact : forall k iw ih, 0 < k -> 0 < iw -> 0 < ih ->
  meets (iw * k) (ih * k) 0 0 iw ih k (fun p => (k * fst p, k * snd p)).
Proof.
  intros k iw ih K A B. split; [exists (0, 0); intros p; simpl; apply f_equal2; ring|].
  split; [exact K|]. split; [simpl; apply f_equal2; field|]. split; [|left; ring].
  intros x y X Y. simpl. split; split; nra.
Qed.

Lemma bitmap_svg : forall x y k iw ih rot href, 0 < k -> 0 < iw -> 0 < ih ->
  float_args x y (iw * k) (ih * k) -> float_turn rot (x + iw * k / 2, y + ih * k / 2) ->
  bitmap_shown num_of (svg_bitmap fmt x y (iw * k) (ih * k) rot href) href iw ih
    (spot (x + iw * k / 2, y + ih * k / 2) k rot iw ih).
Proof.
  intros x y k iw ih rot href K A B (F1 & F2 & F3 & F4) T.
  assert (NA : forall (n : string) z al, isfloat z -> declared (pys n) al = Some (fmt z) -> number_attr num_of n al = Some z).
  { intros n z al Z D. unfold number_attr. rewrite D. exact (proj1 (Hfmt z Z)). }
  set (c := (x + iw * k / 2, y + ih * k / 2)) in *.
  destruct (rotation_written fmt num_of isfloat Hfmt rot c T) as [[E M]|(v & E & M)];
    unfold bitmap_shown, svg_bitmap; fold c; rewrite E.
  - eexists _, x, y, (iw * k), (ih * k), ident, k, _.
    split; [reflexivity|]. split; [reflexivity|].
    split; [now apply NA|]. split; [now apply NA|]. split; [now apply NA|]. split; [now apply NA|].
    split; [reflexivity|]. split; [exact (meets_exact k iw ih K A B)|].
    intros p. cbn [fst snd]. rewrite <- M. unfold c.
    replace (x + iw * k / 2) with (x + k * iw / 2) by field.
    replace (y + ih * k / 2) with (y + k * ih / 2) by field. symmetry. exact (turn_spot x y k rot iw ih p).
  - eexists _, x, y, (iw * k), (ih * k), (match rot with Some a => rotation_about a c | None => ident end), k, _.
    split; [reflexivity|]. split; [reflexivity|].
    split; [now apply NA|]. split; [now apply NA|]. split; [now apply NA|]. split; [now apply NA|].
    split; [exact M|]. split; [exact (meets_exact k iw ih K A B)|].
    intros p. cbn [fst snd]. unfold c.
    replace (x + iw * k / 2) with (x + k * iw / 2) by field.
    replace (y + ih * k / 2) with (y + k * ih / 2) by field. symmetry. exact (turn_spot x y k rot iw ih p).
Qed.

Lemma bitmap_cairo : forall x y k iw ih rot s, 0 < k -> 0 < iw -> 0 < ih ->
  exists s' m, cairo_bitmap iw ih x y (iw * k) (ih * k) rot s = Ok (s', m) /\
    c_g s' = c_g s /\ c_saved s' = c_saved s /\ c_path s' = c_path s /\
    forall p, apply m p = apply (ctm s) (spot (x + iw * k / 2, y + ih * k / 2) k rot iw ih p).
Proof.
  intros x y k iw ih rot s K A B. unfold cairo_bitmap.
  assert (NZ : forall a, 0 < a -> req a 0 = false).
  { intros a P. destruct (req a 0) eqn:E; [apply req_true in E; lra|reflexivity]. }
  assert (A' : 0 < iw * k) by nra. assert (B' : 0 < ih * k) by nra.
  rewrite (NZ _ A'), (NZ _ B'). cbn [orb]. cbv zeta.
  destruct (transform_ctm (x + iw * k / 2, y + ih * k / 2) rot (k_save s)) as (s1 & -> & S1 & S2 & S3 & S4).
  cbn [rbind]. unfold k_restore. cbn [k_paint k_move_to c_saved]. rewrite S1. cbn [k_save c_saved rbind].
  eexists _, _. split; [reflexivity|]. split; [reflexivity|]. split; [reflexivity|]. split; [exact S2|].
  intros p. rewrite S4. change (ctm (k_save s)) with (ctm s). rewrite !apply_mul. f_equal.
  replace (x + iw * k / 2) with (x + k * iw / 2) by field.
  replace (y + ih * k / 2) with (y + k * ih / 2) by field. rewrite <- turn_spot. f_equal.
  unfold apply, mtranslate, mscale; simpl. apply f_equal2; field; lra.
Qed.

Lemma svg_group : forall svg x y k iw ih rot, 0 < k ->
  isfloat x -> isfloat y -> isfloat k -> float_turn rot (x + iw * k / 2, y + ih * k / 2) ->
  exists cs, svg_svg fmt svg x y k rot (Some (x + iw * k / 2, y + ih * k / 2)) = Ok cs /\
    group_shown num_of cs svg (spot (x + iw * k / 2, y + ih * k / 2) k rot iw ih).
Proof.
  intros svg x y k iw ih rot K F1 F2 F3 T. set (c := (x + iw * k / 2, y + ih * k / 2)) in *.
  set (rl := match rot with Some a => [rotate_str fmt a c] | None => [] end).
  set (rm := match rot with Some a => [rotation_about a c] | None => [] end).
  set (sl := if req k 1 then [] else [scale_str fmt k]).
  set (sm := if req k 1 then [] else [mkMat k 0 0 k 0 0]).
  assert (F : Forall2 text_reads (rl ++ [translate_str fmt x y] ++ sl) (rm ++ [mkMat 1 0 0 1 x y] ++ sm)).
  { apply Forall2_app; [|apply Forall2_app].
    - unfold rl, rm. destruct rot as [a|]; constructor; [|constructor]. destruct T. now apply rotate_reads.
    - constructor; [now apply translate_reads|constructor].
    - unfold sl, sm. destruct (req k 1); constructor; [now apply scale_reads|constructor]. }
  apply transforms_read in F.
  exists [CElement (pys "g"); attr "transform" (join_with (pys " ") (rl ++ [translate_str fmt x y] ++ sl)); CRaw svg; CClose (Some (pys "g"))].
  split; [unfold svg_svg, rl, sl; destruct rot; reflexivity|].
  eexists _, _, _, _. split; [reflexivity|]. split; [exact F|].
  intros p. unfold c. replace (x + iw * k / 2) with (x + k * iw / 2) by field.
  replace (y + ih * k / 2) with (y + k * ih / 2) by field. rewrite <- turn_spot.
  assert (P : apply (product ([mkMat 1 0 0 1 x y] ++ sm)) p = (x + k * fst p, y + k * snd p)).
  { unfold sm. destruct (req k 1) eqn:E; cbn [app product]; rewrite ?apply_mul; unfold apply, ident; simpl.
    - apply req_true in E. subst k. apply f_equal2; ring.
    - apply f_equal2; ring. }
  rewrite <- P. unfold rm, c.
  replace (x + iw * k / 2) with (x + k * iw / 2) by field.
  replace (y + ih * k / 2) with (y + k * ih / 2) by field.
  destruct rot; cbn [app product]; rewrite ?apply_mul; [reflexivity|].
  unfold ident, apply; simpl. apply f_equal2; ring.
Qed.

(** Without a view box, the new context of [draw_svg] has the matrix of the slide. *)
Lemma init_plain : forall f w h s dpi ls, cairo_init f w h None = Ok (s, dpi, ls) ->
  0 < dpi /\ ctm s = mscale (72 / dpi) (72 / dpi) /\ ls = 1.
Proof.
  intros f w h s dpi ls H. unfold cairo_init in H. destruct f; cbn [rbind] in H.
  - unfold k_scale in H. destruct (req _ 0) eqn:E; [discriminate|]. injection H as <- <- <-.
    split; [unfold target_dpi; lra|]. split; [|reflexivity].
    unfold ctm, with_ctm, with_g, new_context; cbn [c_g g_ctm]. unfold ctm; cbn [c_g g_ctm].
    unfold mul, ident, mscale, resolution_scale, cairo_dpi, target_dpi; simpl. f_equal; field.
  - injection H as <- <- <-. split; [unfold cairo_dpi; lra|]. split; [|reflexivity].
    unfold ctm, k_source, with_g, new_context; cbn [c_g g_ctm]. unfold ctm; cbn [c_g g_ctm].
    unfold ident, mscale, cairo_dpi. f_equal; field.
Qed.
Lemma svg_cairo : forall dpi x y k iw ih rot, 0 < dpi -> 0 < k -> 0 < iw -> 0 < ih ->
  exists m, cairo_svg dpi iw ih x y (iw * k) (ih * k) rot = Ok m /\
    forall p, apply m p = apply (mscale (72 / dpi) (72 / dpi))
                            (spot (x + iw * k / 2, y + ih * k / 2) k rot iw ih p).
Proof.
  intros dpi x y k iw ih rot D K A B. unfold cairo_svg, output_size.
  assert (NZ : forall a, 0 < a -> req a 0 = false).
  { intros a P. destruct (req a 0) eqn:E; [apply req_true in E; lra|reflexivity]. }
  assert (A' : 0 < iw * k) by nra. assert (B' : 0 < ih * k) by nra.
  assert (U : 0 < 72 / dpi) by (apply Rdiv_lt_0_compat; lra).
  rewrite (NZ _ A'), (NZ _ B'). cbn [negb andb]. rewrite (NZ _ A'), (NZ _ B'). cbn [orb].
  unfold k_scale. rewrite (NZ (72 / dpi * (72 / dpi))) by nra. cbn [rbind].
  match goal with |- context [transform ?c rot 1 1 ?s] =>
    destruct (transform_ctm c rot s) as (s1 & -> & _ & _ & _ & S4) end.
  cbn [rbind]. eexists. split; [reflexivity|]. intros p.
  unfold k_translate at 1. unfold ctm at 1. unfold with_ctm at 1, with_g at 1. cbn [c_g g_ctm].
  rewrite S4. rewrite !apply_mul.
  replace (ctm (with_ctm new_context _)) with (mscale (72 / dpi) (72 / dpi)).
  2:{ unfold ctm, with_ctm, with_g, new_context; cbn [c_g g_ctm]. unfold ctm; cbn [c_g g_ctm].
      unfold mul, ident, mscale; simpl. f_equal; ring. }
  f_equal.
  replace (x + iw * k / 2) with (x + k * iw / 2) by field.
  replace (y + ih * k / 2) with (y + k * ih / 2) by field. rewrite <- turn_spot. f_equal.
  assert (E : rmin (iw * k / iw) (ih * k / ih) = k).
  { unfold rmin. destruct (rlt _ _); field; lra. }
  unfold keep_ratio. rewrite E. unfold apply, mtranslate; simpl. apply f_equal2; field; lra.
Qed.
End Read.
