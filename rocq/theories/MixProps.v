(** Properties C80 and C92 for shapes, texts and pictures on one page. *)
From Coq Require Import List Reals QArith Qreals ZArith NArith Bool String Lia Lra.
From Verif Require Import Py PyFacts XmlModel XmlSpec XmlProofs XmlProps StyleModel StyleSpec TextModel TextSpec
  TextBoxModel DrawModel DrawSpec DrawProofs DrawLoop DrawFacts DrawProps ShapeModel ShapeSpec ShapeProofs ShapePaint
  ShapeProps PicModel PicSpec PicProofs PageModel PageSpec PageProofs PageProps MixModel.
Import ListNotations.
Local Open Scope R_scope.

(** ** A current point that was left *)

(** Contexts that differ in the current point only. *)
Definition alike (s t : ctx) : Prop :=
  c_g s = c_g t /\ c_saved s = c_saved t /\ c_path s = c_path t /\ c_ink s = c_ink t.
Definition near (x y : result ctx) : Prop :=
  match x, y with Ok a, Ok b => alike a b | Err e, Err f => e = f | _, _ => False end.
(** Drawings that begin with a move. *)
Definition restarts (cb : run) : Prop := forall s t, alike s t -> cb s = cb t.

Lemma near_refl : forall x, near x x.
Proof. intros [a|e]; cbn; [unfold alike; auto|reflexivity]. Qed.
Lemma near_bind : forall x y f, near x y -> (forall a b, alike a b -> near (f a) (f b)) ->
  near (rbind x f) (rbind y f).
Proof. intros [a|e] [b|e'] f H F; cbn in *; try contradiction; [now apply F|exact H]. Qed.
Lemma same_bind : forall x y (f : ctx -> result ctx), near x y -> (forall a b, alike a b -> f a = f b) ->
  rbind x f = rbind y f.
Proof. intros [a|e] [b|e'] f H F; cbn in *; try contradiction; [now apply F|now rewrite H]. Qed.
Ltac alike_eq := intros s t (A1 & A2 & A3 & A4); destruct s as [g sv pa cu st fr ink], t as [g' sv' pa' cu' st' fr' ink'];
  cbn in A1, A2, A3, A4; subst g' sv' pa' ink'.

Lemma alike_g : forall s t h, alike s t -> alike (with_g s h) (with_g t h).
Proof. intros s t h. revert s t. alike_eq. unfold alike. cbn. auto. Qed.
Lemma alike_ctm : forall s t, alike s t -> ctm s = ctm t.
Proof. intros s t (H & _). unfold ctm. now rewrite H. Qed.
Lemma alike_source : forall s t c, alike s t -> alike (k_source s c) (k_source t c).
Proof.
  intros s t c H. unfold k_source. rewrite (alike_ctm s t H). destruct (H) as (Hg & _). rewrite Hg. now apply alike_g.
Qed.
Lemma alike_width : forall s t c, alike s t -> alike (k_width s c) (k_width t c).
Proof.
  intros s t c H. unfold k_width. rewrite (alike_ctm s t H). destruct (H) as (Hg & _). rewrite Hg. now apply alike_g.
Qed.
Lemma alike_dash : forall s t c, alike s t -> alike (k_dash s c) (k_dash t c).
Proof.
  intros s t c H. unfold k_dash. rewrite (alike_ctm s t H). destruct (H) as (Hg & _). rewrite Hg. now apply alike_g.
Qed.
Lemma transform_near : forall c rot sx sy s t, alike s t -> near (transform c rot sx sy s) (transform c rot sx sy t).
Proof.
  intros c rot sx sy. alike_eq. unfold transform, k_scale, near, alike.
  destruct rot; cbn; destruct (negb (req sx 1) || negb (req sy 1)); cbn; try (destruct (req (sx * sy) 0)); cbn; auto.
Qed.
Lemma restore_near : forall s t, alike s t -> near (k_restore s) (k_restore t).
Proof. alike_eq. unfold k_restore. cbn. destruct sv; cbn; unfold alike; cbn; auto. Qed.
Lemma save_alike : forall s t, alike s t -> alike (k_save s) (k_save t).
Proof. alike_eq. unfold alike. cbn. auto. Qed.
Lemma scope_near : forall body s t, (forall a b, alike a b -> near (body a) (body b)) -> alike s t ->
  near (ctx_scope body s) (ctx_scope body t).
Proof.
  intros body s t B H. unfold ctx_scope. apply near_bind; [apply B, save_alike, H|]. exact restore_near.
Qed.
Lemma scope_same : forall body s t, (forall a b, alike a b -> body a = body b) -> alike s t ->
  ctx_scope body s = ctx_scope body t.
Proof. intros body s t B H. unfold ctx_scope. now rewrite (B _ _ (save_alike s t H)). Qed.

Section Same.
Variable rgb_of : str -> result rgb.
Variable to_float : str -> result R.

Lemma fill_same : forall cb b s t, restarts cb -> alike s t -> fill_shape rgb_of cb b s = fill_shape rgb_of cb b t.
Proof.
  intros cb b s t R H. unfold fill_shape. destruct (rgb_of b) as [c|]; [|reflexivity]. cbn [rbind].
  now rewrite (R _ _ (alike_source s t c H)).
Qed.
Lemma stroke_same : forall cb c w dash s t, restarts cb -> alike s t ->
  stroke_shape rgb_of to_float cb c w dash s = stroke_shape rgb_of to_float cb c w dash t.
Proof.
  intros cb c w dash s t R H. unfold stroke_shape. destruct (rgb_of c) as [x|]; [|reflexivity]. cbn [rbind]. cbv zeta.
  pose proof (alike_width _ _ (width_or_1 w) (alike_source s t x H)) as W.
  apply same_bind.
  - destruct dash as [d|]; [destruct (truthy_str (Some d))|]; try exact W.
    destruct (floats to_float (words d)); cbn; [now apply alike_dash|reflexivity].
  - intros a b A. now rewrite (R a b A).
Qed.
(** A shape is shown if it has a color or a background. *)
Definition shows (p : paint) : bool := truthy_str (p_color p) || truthy_str (p_bg p).
Lemma fill_stroke_same : forall cb p s t, restarts cb -> alike s t -> shows p = true ->
  fill_stroke_shape rgb_of to_float cb p s = fill_stroke_shape rgb_of to_float cb p t.
Proof.
  intros cb p s t R H V. unfold shows in V. unfold fill_stroke_shape.
  destruct (truthy_str (p_bg p)) eqn:B.
  - destruct (p_bg p) as [b|]; [|discriminate]. now rewrite (fill_same cb b s t R H).
  - rewrite orb_false_r in V.
    assert (Q : forall u, match p_bg p with Some b => Ok u | None => Ok u end = @Ok ctx u) by (intros u; now destruct (p_bg p)).
    rewrite !Q. cbn [rbind]. rewrite V. destruct (p_color p) as [c|]; [|discriminate]. now apply stroke_same.
Qed.
Lemma fill_stroke_hidden : forall cb p s, shows p = false -> fill_stroke_shape rgb_of to_float cb p s = Ok s.
Proof.
  intros cb p s V. unfold shows in V. apply orb_false_iff in V as [C B]. unfold fill_stroke_shape. rewrite B, C.
  destruct (p_bg p), (p_color p); reflexivity.
Qed.

Lemma lines_restart : forall p0 ps, restarts (fun s => Ok (lines_to (k_move_to s p0) ps)).
Proof. intros p0 ps. unfold restarts. alike_eq. reflexivity. Qed.
Lemma path_restarts : forall p0 cs, restarts (fun s => path_loop s None None ((PM, [p0]) :: cs)).
Proof. intros p0 cs. unfold restarts. alike_eq. reflexivity. Qed.
Lemma rect_restarts : forall x y w h, restarts (fun s => k_rectangle s x y w h).
Proof. intros x y w h. unfold restarts. alike_eq. reflexivity. Qed.
Lemma rounded_restarts : forall x y w h a b, restarts (rounded_rectangle x y w h a b).
Proof.
  intros x y w h a b s t H. assert (E : k_new_path s = k_new_path t).
  { revert s t H. alike_eq. reflexivity. }
  unfold rounded_rectangle. now rewrite E.
Qed.

Definition is_ellipse (d : shape) : bool := match d with SEllipse _ _ _ => true | _ => false end.
Variable isfloat : R -> Prop.

(** A shape that is not an ellipse does not see the current point; one that is not shown leaves
    it. *)
Lemma draw_same : forall d s t, fit isfloat d -> alike s t -> shows (paint_of d) = true -> is_ellipse d = false ->
  draw_shape rgb_of to_float d s = draw_shape rgb_of to_float d t.
Proof.
  intros d s t (_ & _ & F) H V E.
  destruct d as [r rx ry rot p|r rot p|l rot p|l color w dash|cs p]; cbn [draw_shape paint_of] in *; [|discriminate| | |].
  - unfold draw_rect. cbv zeta. apply scope_same; [|exact H]. intros a b A.
    apply same_bind; [now apply transform_near|]. intros a' b' A'. apply fill_stroke_same; auto.
    intros u v U. destruct (_ || _); [|now apply rect_restarts].
    destruct rx, ry; first [now apply rounded_restarts|reflexivity].
  - unfold draw_polygon. apply scope_same; [|exact H]. intros a b A.
    destruct (find_centroid l) as [c|]; [|reflexivity]. cbn [rbind].
    apply same_bind; [now apply transform_near|]. intros a' b' A'. apply fill_stroke_same; auto.
    destruct l as [|p0 ps]; [intros ? ? _; reflexivity|apply lines_restart].
  - unfold draw_polyline. apply scope_same; [|exact H]. intros a b A. apply stroke_same; auto.
    destruct l as [|p0 ps]; [intros ? ? _; reflexivity|apply lines_restart].
  - unfold draw_path. apply scope_same; [|exact H]. intros a b A. apply fill_stroke_same; auto.
    destruct F as (_ & (p0 & rest & ->) & _). apply path_restarts.
Qed.
Lemma draw_hidden : forall d s t, fit isfloat d -> alike s t -> shows (paint_of d) = false ->
  near (draw_shape rgb_of to_float d s) (draw_shape rgb_of to_float d t).
Proof.
  intros d s t (_ & _ & F) H V.
  destruct d as [r rx ry rot p|r rot p|l rot p|l color w dash|cs p]; cbn [draw_shape paint_of] in *.
  - unfold draw_rect. cbv zeta. apply scope_near; [|exact H]. intros a b A.
    apply near_bind; [now apply transform_near|]. intros a' b' A'. rewrite !fill_stroke_hidden by assumption. exact A'.
  - unfold shows in V. apply orb_false_iff in V as [C B]. unfold draw_ellipse. cbv zeta.
    destruct (if req _ (r_w r) then _ else _) as [sx|]; [|reflexivity]. cbn [rbind].
    destruct (if req _ (r_h r) then _ else _) as [sy|]; [|reflexivity]. cbn [rbind]. rewrite C, B.
    apply near_bind.
    + apply scope_near; [|exact H]. intros a b A. apply near_bind; [now apply transform_near|].
      intros a' b' A'. destruct (p_bg p); exact A'.
    + intros a b A. destruct (p_color p); exact A.
  - unfold draw_polygon. apply scope_near; [|exact H]. intros a b A.
    destruct (find_centroid l) as [c|]; [|reflexivity]. cbn [rbind].
    apply near_bind; [now apply transform_near|]. intros a' b' A'. rewrite !fill_stroke_hidden by assumption. exact A'.
  - exfalso. destruct F as (_ & _ & F). unfold shows in V. cbn in V. destruct color; [contradiction|discriminate].
  - unfold draw_path. apply scope_near; [|exact H]. intros a b A. rewrite !fill_stroke_hidden by assumption. exact A.
Qed.
End Same.

(** ** Sequences *)

Lemma transform_keeps : forall c rot sx sy s s1, transform c rot sx sy s = Ok s1 ->
  c_saved s1 = c_saved s /\ c_path s1 = c_path s /\ c_ink s1 = c_ink s.
Proof.
  intros c rot sx sy s s1 H. unfold transform in H. cbv zeta in H. apply bind_ok in H as (s2 & H & E). injection E as <-.
  unfold k_scale in H.
  destruct rot; destruct (negb (req sx 1) || negb (req sy 1)); try (destruct (req (sx * sy) 0));
    try discriminate; injection H as <-; auto.
Qed.
Lemma text_paints : forall mid rot at_ n s s', draw_text_at mid rot at_ n s = Ok s' ->
  c_ink s' = c_ink s ++ [MOther n] /\ c_g s' = c_g s /\ c_saved s' = c_saved s /\ c_path s' = c_path s.
Proof.
  intros mid rot at_ n s s' H. unfold draw_text_at in H. apply ctx_scope_inv in H as (s1 & H & K). apply bind_ok in H as (s2 & H2 & H).
  injection H as <-.
  assert (Q : c_saved s2 = c_g s :: c_saved s /\ c_path s2 = c_path s /\ c_ink s2 = c_ink s).
  { destruct rot as [a|]; [now apply transform_keeps in H2|]. now injection H2 as <-. }
  destruct Q as (Q1 & Q2 & Q3). rewrite K by (cbn; exact Q1). cbn. rewrite Q2, Q3. auto.
Qed.
Lemma bitmap_paints : forall x y w h rot n s s', draw_bitmap_at x y w h rot n s = Ok s' ->
  c_ink s' = c_ink s ++ [MOther n] /\ c_g s' = c_g s /\ c_saved s' = c_saved s /\ c_path s' = c_path s.
Proof.
  intros x y w h rot n s s' H. unfold draw_bitmap_at in H. apply ctx_scope_inv in H as (s1 & H & K). apply bind_ok in H as (s2 & H2 & H).
  injection H as <-. apply transform_keeps in H2 as (Q1 & Q2 & Q3).
  rewrite K by (cbn; exact Q1). cbn in Q2, Q3 |- *. rewrite Q2, Q3. auto.
Qed.

(** No ellipse is drawn between a text or a bitmap and the next shape that is shown; [left]:
    there is a current point of a text or a bitmap. *)
Fixpoint ellipses_apart (left : bool) (l : list gcall) : Prop :=
  match l with
  | [] => True
  | g :: l' =>
      match shape_of g, g with
      | Some d, _ =>
          (left = true -> is_ellipse d = false \/ shows (paint_of d) = false) /\
          ellipses_apart (left && negb (shows (paint_of d))) l'
      | None, GSvg _ _ _ _ _ _ => ellipses_apart left l'
      | None, _ => ellipses_apart true l'
      end
  end.
(** Shapes are as in C80_sequence_partial, texts and pictures are arbitrary. *)
Definition fit_call (isfloat : R -> Prop) (g : gcall) : Prop :=
  match shape_of g with
  | Some d => fit isfloat d /\ undashed_ellipse d
  | None => match g with GText _ _ _ _ _ _ _ _ | GBitmap _ _ _ _ _ _ | GSvg _ _ _ _ _ _ => True | _ => False end
  end.
(** What the [n]-th call leaves on the page. *)
Definition call_marks (rgb_of : str -> result rgb) (to_float : str -> result R) (fmt : R -> str)
    (num_of : str -> option R) (base : mat) (n : nat) (g : gcall) (ms : list mark) : Prop :=
  match shape_of g with
  | Some d => marks_of rgb_of to_float fmt num_of base d ms
  | None => ms = [MOther n]
  end.
Inductive all_marks (P : nat -> gcall -> list mark -> Prop) : nat -> list gcall -> list (list mark) -> Prop :=
| am_nil n : all_marks P n [] []
| am_cons n g l ms mss : P n g ms -> all_marks P (S n) l mss -> all_marks P n (g :: l) (ms :: mss).

Lemma shape_call : forall rgb_of to_float place n g d, shape_of g = Some d ->
  cairo_call rgb_of to_float place n g = draw_shape rgb_of to_float d.
Proof.
  intros rgb_of to_float place n g d H.
  destruct g as [| | |l [[c|] [b|] w dash]| | | |]; try discriminate; injection H as <-; reflexivity.
Qed.
Definition forget (s : ctx) : ctx := mkCtx (c_g s) (c_saved s) (c_path s) None None false (c_ink s).

(** Shapes, texts and pictures drawn one after another: each leaves its own marks, in this
    order.  Partial: ellipses have no dashes and are not drawn between a text or a bitmap and
    the next shape (C80_text_refuted). *)
Theorem C80_mixed_partial : forall rgb_of to_float place fmt num_of isfloat l n left s s',
  good_numbers fmt num_of isfloat -> css_colors rgb_of -> float_chars to_float ->
  Forall (fit_call isfloat) l -> ellipses_apart left l ->
  c_path s = [] -> g_dash (c_g s) = [] -> (left = false -> c_cur s = None) -> det (ctm s) <> 0 ->
  cairo_calls rgb_of to_float place n l s = Ok s' ->
  exists mss, c_ink s' = c_ink s ++ List.concat mss /\
    all_marks (call_marks rgb_of to_float fmt num_of (ctm s)) n l mss /\ ctm s' = ctm s.
Proof.
  intros rgb_of to_float place fmt num_of isfloat l n left s s' Hf Hc Hch F. revert n left s s'.
  induction F as [|g l F1 F IH]; intros n left s s' A P Da Cu Dt H; cbn [cairo_calls] in H.
  - injection H as <-. exists []. rewrite app_nil_r. split; [reflexivity|]. split; [constructor|reflexivity].
  - apply bind_ok in H as (s1 & H1 & H).
    assert (Step : forall left' ms, call_marks rgb_of to_float fmt num_of (ctm s) n g ms ->
        ellipses_apart left' l -> c_path s1 = [] -> g_dash (c_g s1) = [] -> (left' = false -> c_cur s1 = None) ->
        ctm s1 = ctm s -> c_ink s1 = c_ink s ++ ms ->
        exists mss, c_ink s' = c_ink s ++ List.concat mss /\
          all_marks (call_marks rgb_of to_float fmt num_of (ctm s)) n (g :: l) mss /\ ctm s' = ctm s).
    { intros left' ms M A' P' D' C' T' I'.
      destruct (IH (S n) left' s1 s' A' P' D' C') as (mss & J1 & J2 & J3); [now rewrite T'|exact H|].
      exists (ms :: mss). cbn [List.concat]. rewrite J1, I', <- app_assoc. split; [reflexivity|].
      rewrite T' in J2, J3. split; [constructor; assumption|exact J3]. }
    cbn [ellipses_apart] in A. unfold fit_call in F1. destruct (shape_of g) as [d|] eqn:Sg.
    + destruct F1 as [Fd Ud]. destruct A as [Ae A]. rewrite (shape_call _ _ _ _ _ _ Sg) in H1.
      assert (AL : alike s (forget s)) by (unfold alike; cbn; auto).
      assert (AR : alike s1 s1) by (unfold alike; auto).
      (* the same shape without the current point *)
      assert (X : exists t t1, calm t /\ c_g t = c_g s /\ c_ink t = c_ink s /\
                   draw_shape rgb_of to_float d t = Ok t1 /\ alike s1 t1 /\
                   (left && negb (shows (paint_of d)) = false -> s1 = t1)).
      { destruct left.
        - exists (forget s). cbn [andb]. destruct (shows (paint_of d)) eqn:V.
          + assert (E : is_ellipse d = false) by (destruct (Ae eq_refl); [assumption|discriminate]).
            rewrite <- (draw_same rgb_of to_float isfloat d s (forget s) Fd AL V E). exists s1.
            unfold calm. cbn. auto 10.
          + pose proof (draw_hidden rgb_of to_float isfloat d s (forget s) Fd AL V) as N. rewrite H1 in N.
            destruct (draw_shape rgb_of to_float d (forget s)) as [t1|]; [|contradiction].
            exists t1. unfold calm. cbn. repeat (split; [auto|]). discriminate.
        - exists s, s1. unfold calm. auto 10. }
      destruct X as (t & t1 & Ct & Gt & It & Ht & (N1 & N2 & N3 & N4) & Eq).
      assert (Tm : ctm t = ctm s) by (unfold ctm; now rewrite Gt).
      destruct (shape_drawn rgb_of to_float fmt num_of isfloat Hf Hc Hch d t t1 Fd Ct) as
        (calls & pic & ms & E & Pi & Ik & M & W & S1 & S2 & S3 & S4 & S5); [now rewrite Tm|exact Ht|].
      assert (D1 : g_dash (c_g t1) = []).
      { destruct Ct as (_ & _ & D0). destruct d; try (rewrite S5; exact D0). cbn [undashed_ellipse] in Ud.
        rewrite (ellipse_dash rgb_of to_float _ _ _ _ _ Ud Ht). exact D0. }
      apply (Step (left && negb (shows (paint_of d))) ms).
      * unfold call_marks. rewrite Sg. exists calls, pic. rewrite <- Tm. auto.
      * exact A.
      * now rewrite N3.
      * now rewrite N1.
      * intros Q. now rewrite (Eq Q).
      * unfold ctm in *. rewrite N1, S2. exact Tm.
      * rewrite N4, Ik, It. reflexivity.
    + assert (M : call_marks rgb_of to_float fmt num_of (ctm s) n g [MOther n]).
      { unfold call_marks. now rewrite Sg. }
      destruct g; try discriminate; try contradiction; cbn [cairo_call] in H1.
      * apply bind_ok in H1 as (a & _ & H1). apply text_paints in H1 as (I1 & G1 & _ & P1).
        apply (Step true [MOther n] M); try congruence; try discriminate. unfold ctm. now rewrite G1.
      * apply bitmap_paints in H1 as (I1 & G1 & _ & P1).
        apply (Step true [MOther n] M); try congruence; try discriminate. unfold ctm. now rewrite G1.
      * injection H1 as <-. apply (Step left [MOther n] M); auto.
Qed.
Print Assumptions C80_mixed_partial.

(** ** Pages *)

Section Page.
Variable rgb_of : str -> result rgb.
Variable to_float : str -> result R.
Variable fmt : R -> str.
Variable fmtv : pyval -> str.
Variable num_of : str -> option R.
Variable isfloat : R -> Prop.
Hypothesis Hf : good_numbers fmt num_of isfloat.
Hypothesis Hl : forall x, isfloat x -> legal_value (fmt x) = true.
Hypothesis Hv : forall q, legal_value (fmtv (PNum q)) = true.

(** The node [nd] shows what [g] asks for; for shapes, the picture that is read from it is the
    one of the elements. *)
Definition shown (g : gcall) (nd : node) : Prop :=
  drawn num_of fmtv g [nd] /\
  forall d cs pic, shape_of g = Some d -> svg_shape fmt d = Ok cs -> picture_of num_of cs = Some pic ->
    node_picture num_of nd = Some pic.
Lemma call_shown : forall g, tidy isfloat fmtv g ->
  exists f nd, svg_call fmt fmtv g = (forest_calls f, Ok tt) /\ Forall closes f /\ Forall lawful f /\
    forest_nodes f = [nd] /\ shown g nd.
Proof.
  intros g T. destruct (shape_of g) as [d|] eqn:Sg.
  - assert (T' : fit isfloat d /\ legal_paint (paint_of d) /\ match d with SPolygon l _ _ => l <> [] | _ => True end).
    { destruct g; try discriminate; destruct T as (d' & E & T); rewrite Sg in E; injection E as <-; exact T. }
    destruct T' as (F1 & LP & NE).
    destruct (shape_element fmt num_of isfloat fmtv Hf Hl g d Sg F1 LP NE) as (n & al & E1 & Nn & [LA1 LA2] & pic & Pi & Me).
    exists [WElem n al (Some n) []], (NElem n (map fst al) []). unfold forest_calls, forest_nodes. cbn [flat_map].
    rewrite !app_nil_r. split; [exact E1|]. split; [constructor; [cbn; auto|constructor]|].
    split; [constructor; [cbn; auto|constructor]|]. split; [reflexivity|]. split.
    + now apply drawn_shape with (d := d) (pic := pic).
    + intros d' cs pic' E Ec P. rewrite Sg in E. injection E as <-.
      rewrite (shape_calls fmt fmtv g d _ Sg E1) in Ec. injection Ec as <-. now apply picture_node in P.
  - destruct (call_drawn fmt num_of isfloat fmtv Hf Hl Hv g T) as (f & E & C & L & D).
    assert (N : exists nd, forest_nodes f = [nd]).
    { revert D. generalize (forest_nodes f). intros ns D. inversion D; eauto. }
    destruct N as (nd & N). exists f, nd. rewrite N in D. split; [exact E|]. split; [exact C|]. split; [exact L|].
    split; [exact N|]. split; [exact D|]. intros d cs pic E'. congruence.
Qed.
Lemma calls_shown : forall l, Forall (tidy isfloat fmtv) l ->
  exists f, svg_calls fmt fmtv l = (forest_calls f, Ok tt) /\ Forall closes f /\ Forall lawful f /\
    Forall2 shown l (forest_nodes f).
Proof.
  intros l H. induction H as [|g l Hg _ IH].
  - exists []. repeat split; constructor.
  - destruct (call_shown g Hg) as (f1 & nd & E1 & C1 & L1 & N1 & D1). destruct IH as (f2 & E2 & C2 & L2 & D2).
    exists (f1 ++ f2). unfold forest_calls, forest_nodes in *. rewrite !flat_map_app, N1. split.
    + cbn [svg_calls]. rewrite E1. unfold tbind. cbn [fst snd]. rewrite E2. reflexivity.
    + split; [now apply Forall_app|]. split; [now apply Forall_app|]. now constructor.
Qed.
Lemma items_shown : forall items, Forall (Forall (tidy isfloat fmtv)) items ->
  exists nss, Forall2 (fun it ns => exists o, alone (svg_item fmt fmtv it) = Ok o /\ ~ In 13%N o /\ read o = Some ns)
        (map (fun l => Ok l) items) nss /\ Forall2 shown (List.concat items) (List.concat nss).
Proof.
  intros items H. induction H as [|l items Hg _ (nss & A1 & A2)]; [exists []; split; constructor|].
  destruct (calls_shown l Hg) as (f & E & C & L & D). destruct (forest_alone f C) as (x & X1 & X2).
  exists (forest_nodes f :: nss). split.
  - cbn [map]. constructor; [|exact A1]. exists (flat_map show f).
    split; [|split; [now apply forest_no_cr|now apply forest_read]].
    unfold alone, svg_item, lift, perform. cbn [tbind fst snd]. rewrite E. cbn [fst snd app]. rewrite X1. exact X2.
  - cbn [List.concat]. now apply Forall2_app.
Qed.
(** The [n]-th call in both backends: its node in the SVG document and its marks in Cairo. *)
Definition same_picture (base : mat) (n : nat) (g : gcall) (nd : node) (ms : list mark) : Prop :=
  drawn num_of fmtv g [nd] /\
  match shape_of g with
  | Some d => exists pic, node_picture num_of nd = Some pic /\ meant d pic /\
                painted rgb_of to_float (same_for d) base pic ms
  | None => ms = [MOther n]
  end.
End Page.
Inductive each (P : nat -> gcall -> node -> list mark -> Prop) : nat -> list gcall -> list node -> list (list mark) -> Prop :=
| each_nil n : each P n [] [] []
| each_cons n g l nd nodes ms mss : P n g nd ms -> each P (S n) l nodes mss ->
    each P n (g :: l) (nd :: nodes) (ms :: mss).

(** A page of shapes, texts and pictures in both backends: every call has one element in the
    SVG document and one group of marks in Cairo, both in the order of the calls; those of a
    shape are the same picture.  Partial: for the calls of C91_page_partial, with the ellipses
    of C80_mixed_partial; the places of texts and pictures are C88 and C90. *)
Theorem C92_mixed_partial : forall rgb_of to_float place fmt fmtv num_of isfloat w h items s s',
  good_numbers fmt num_of isfloat -> (forall x, isfloat x -> legal_value (fmt x) = true) ->
  (forall q, legal_value (fmtv (PNum q)) = true) -> css_colors rgb_of -> float_chars to_float ->
  isfloat w -> isfloat h ->
  Forall (Forall (tidy isfloat fmtv)) items ->
  (forall g d, In g (List.concat items) -> shape_of g = Some d -> undashed_ellipse d) ->
  ellipses_apart false (List.concat items) ->
  calm s -> det (ctm s) <> 0 -> cairo_calls rgb_of to_float place 0 (List.concat items) s = Ok s' ->
  exists out nodes mss, svg_document fmt fmtv w h None (map (fun l => Ok l) items) = Ok out /\
    read out = Some [NElem (pys "svg") (root_attrs fmt w h None) nodes] /\
    c_ink s' = c_ink s ++ List.concat mss /\
    each (same_picture rgb_of to_float fmtv num_of (ctm s)) 0 (List.concat items) nodes mss.
Proof.
  intros rgb_of to_float place fmt fmtv num_of isfloat w h items s s' Hf Hl Hv Hc Hch Fw Fh T U A (P & C & Da) D E.
  assert (T' : Forall (tidy isfloat fmtv) (List.concat items)).
  { apply Forall_forall. intros g G. apply in_concat in G as (l & L & G).
    rewrite Forall_forall in T. specialize (T l L). rewrite Forall_forall in T. now apply T. }
  assert (F : Forall (fit_call isfloat) (List.concat items)).
  { apply Forall_forall. intros g G. rewrite Forall_forall in T'. specialize (T' g G). specialize (U g).
    unfold fit_call. destruct (shape_of g) as [d|] eqn:Sg.
    - split; [|now apply U]. destruct g; try discriminate; destruct T' as (d' & E' & T'); rewrite Sg in E';
        injection E' as <-; apply T'.
    - destruct g; try exact I; destruct T' as (d' & E' & _); congruence. }
  destruct (C80_mixed_partial rgb_of to_float place fmt num_of isfloat _ 0 false s s' Hf Hc Hch F A P Da
              (fun _ => C) D E) as (mss & Ink & M & _).
  destruct (items_shown fmt fmtv num_of isfloat Hf Hl Hv items T) as (nss & A1 & A2).
  destruct (C91_document fmt fmtv w h None _ nss (Hl w Fw) (Hl h Fh) I A1) as (out & Eo & R).
  exists out, (List.concat nss), mss. split; [exact Eo|]. split; [exact R|]. split; [exact Ink|].
  clear - M A2. revert M. generalize 0%nat. revert mss. induction A2 as [|g nd l nodes (Dr & Pi) A2 IH]; intros mss n M.
  - inversion M; subst. constructor.
  - inversion M as [|? ? ? ms mss' M1 M']; subst. constructor; [|now apply IH].
    split; [exact Dr|]. unfold call_marks in M1. destruct (shape_of g) as [d|]; [|exact M1].
    destruct M1 as (cs & pic & Ec & P & Me & Pa). exists pic. split; [exact (Pi d cs pic eq_refl Ec P)|]. auto.
Qed.
Print Assumptions C92_mixed_partial.

(** A page with an ellipse, then a rectangle, a bitmap, a text, an SVG and a polygon. *)
Definition items1 : list (list gcall) := [GEllipse (mkRect 1 1 2 2) None (pen None)] :: items0.
Lemma text_total : forall mid rot at_ n s, exists s', draw_text_at mid rot at_ n s = Ok s'.
Proof.
  intros mid rot at_ n s. unfold draw_text_at, ctx_scope, transform.
  destruct rot; cbn -[req]; rewrite ?req_refl; cbn; eauto.
Qed.
Lemma bitmap_total : forall x y w h rot n s, exists s', draw_bitmap_at x y w h rot n s = Ok s'.
Proof.
  intros x y w h rot n s. unfold draw_bitmap_at, ctx_scope, transform.
  destruct rot; cbn -[req]; rewrite ?req_refl; cbn; eauto.
Qed.
Example C92_mixed_ex : exists s' out nodes mss,
  cairo_calls rgb0 float0 (fun _ => (4, 4)) 0 (List.concat items1) clean = Ok s' /\
  svg_document fmt0 ex_fmt 4 3 None (map (fun l => Ok l) items1) = Ok out /\
  read out = Some [NElem (pys "svg") (root_attrs fmt0 4 3 None) nodes] /\
  c_ink s' = List.concat mss /\
  each (same_picture rgb0 float0 ex_fmt num0 ident) 0 (List.concat items1) nodes mss /\
  List.length (List.concat items1) = 6%nat.
Proof.
  assert (I3 : isfloat0 3) by (unfold isfloat0; auto 10). assert (I4 : isfloat0 4) by (unfold isfloat0; auto 10).
  destruct C80_sequence_ex as (F & U & _).
  assert (T : Forall (Forall (tidy isfloat0 ex_fmt)) items1).
  { constructor; [|exact tidy0]. constructor; [|constructor]. cbn [tidy]. eexists. split; [reflexivity|].
    inversion_clear F as [|? ? F1 F']. inversion_clear F' as [|? ? F2 F''].
    split; [exact F2|]. split; [|exact I]. destruct (black_legal None (Some 2)) as [K|[K1 K2]]; [exact K|contradiction]. }
  assert (Un : forall g d, In g (List.concat items1) -> shape_of g = Some d -> undashed_ellipse d).
  { intros g d G E. cbn in G. repeat (destruct G as [<-|G]; [try discriminate; injection E as <-; exact I || reflexivity|]).
    destruct G. }
  assert (A : ellipses_apart false (List.concat items1)) by (cbn; repeat split; auto; discriminate).
  assert (K : forall d s, drawable rgb0 float0 d -> exists s', draw_shape rgb0 float0 d s = Ok s').
  { intros d s Hd. destruct (C79_total rgb0 float0 d s Hd) as (s1 & E & _). eauto. }
  assert (KP : forall bg, bg = None \/ bg = Some black -> known_paint rgb0 float0 (mkPaint (Some black) bg (Some 2) None)).
  { intros bg Hb.
    assert (KC : forall v, v = None \/ v = Some black -> known rgb0 v).
    { intros v [-> | ->] c E; [discriminate|]. injection E as <-. exists (0, 0, 0). reflexivity. }
    split; [now apply KC|]. split; [apply KC; now right|]. intros d E. discriminate. }
  assert (R : exists s', cairo_calls rgb0 float0 (fun _ => (4, 4)) 0 (List.concat items1) clean = Ok s').
  { cbn [items1 items0 List.concat app cairo_calls].
    destruct (K (SEllipse (mkRect 1 1 2 2) None (pen None)) clean) as (s1 & E1).
    { split; [apply KP; auto|]. cbn. lra. }
    cbn [draw_shape] in E1. cbn [cairo_call]. rewrite E1. cbn [rbind].
    destruct (K (SRect box0 None None (Some 3) (mkPaint (Some black) (Some black) (Some 2) None)) s1) as (s2 & E2).
    { split; [apply KP; auto|]. exact I. }
    cbn [draw_shape] in E2. rewrite E2. cbn [rbind].
    destruct (bitmap_total 1 1 2 2 (Some 3) 2 s2) as (s3 & E3). rewrite E3. cbn [rbind rotation_num].
    match goal with |- context [draw_text_at ?m ?r ?p ?n s3] => destruct (text_total m r p n s3) as (s4 & E4) end.
    rewrite E4. cbn [rbind].
    destruct (K (SPolygon [(0, 0); (4, 0); (2, 3)] None (pen None)) (k_paint s4 4)) as (s5 & E5).
    { split; [apply KP; auto|]. cbn. discriminate. }
    cbn [draw_shape] in E5. rewrite E5. cbn [rbind]. eauto. }
  destruct R as (s' & R). exists s'.
  destruct (C92_mixed_partial rgb0 float0 (fun _ => (4, 4)) fmt0 ex_fmt num0 isfloat0 4 3 items1 clean s'
      good0 legal_fmt0 (fun _ => eq_refl) css0 chars0 I4 I3 T Un A clean_calm clean_det R)
    as (out & nodes & mss & H1 & H2 & H3 & H4).
  exists out, nodes, mss. auto 10.
Qed.
