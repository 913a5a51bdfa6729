(** Proofs about the drawing of shapes: the two backends draw the same picture. *)
From Coq Require Import List Reals NArith Bool String Lra Lia.
From Verif Require Import Py PyFacts XmlModel ShapeModel ShapeSpec ShapeProofs ShapePaint.
Import ListNotations.
Local Open Scope R_scope.

Lemma offset_apply : forall m p v, offset m (apply m p) v = apply m (fst p + fst v, snd p + snd v).
Proof. intros. unfold offset. peq. Qed.

(** What a shape leaves behind. *)
Definition settled (s s' : ctx) : Prop :=
  c_g s' = c_g s /\ c_saved s' = c_saved s /\ c_path s' = [] /\
  (c_cur s = None -> c_cur s' = None).

Lemma k_rectangle_spec : forall s s' x y w h, c_path s = [] -> k_rectangle s x y w h = Ok s' ->
  keeps s s' /\ same_outline (c_path s') (map (map_seg (ctm s)) (rect_outline x y w h)).
Proof.
  intros s s' x y w h P H. unfold k_rectangle in H.
  assert (R : forall s v p, c_cur s = Some (apply (ctm s) p) ->
    k_rel_line_to s v = Ok (k_add s (apply (ctm s) p) (GLine (apply (ctm s) p) (apply (ctm s) (fst p + fst v, snd p + snd v)))
                             (apply (ctm s) (fst p + fst v, snd p + snd v)))).
  { intros s0 v p C. unfold k_rel_line_to. now rewrite C, offset_apply. }
  set (s0 := k_move_to s (x, y)) in H.
  rewrite (R s0 _ (x, y)) in H by reflexivity. cbn [rbind fst snd] in H.
  set (s1 := k_add _ _ _ _) in H.
  rewrite (R s1 _ (x + w, y + 0)) in H by reflexivity. cbn [rbind fst snd] in H.
  set (s2 := k_add _ _ _ _) in H.
  rewrite (R s2 _ (x + w + 0, y + 0 + h)) in H by reflexivity. cbn [rbind fst snd] in H.
  set (s3 := k_add _ _ _ _) in H. injection H as <-.
  split; [now split|].
  change (c_path (k_close_path s3)) with
    ((((c_path s ++ [GMove (apply (ctm s) (x, y));
        GLine (apply (ctm s) (x, y)) (apply (ctm s) (x + w, y + 0))]) ++
        [GLine (apply (ctm s) (x + w, y + 0)) (apply (ctm s) (x + w + 0, y + 0 + h))]) ++
        [GLine (apply (ctm s) (x + w + 0, y + 0 + h)) (apply (ctm s) (x + w + 0 + - w, y + 0 + h + 0))]) ++
        [GClose (apply (ctm s) (x + w + 0 + - w, y + 0 + h + 0)) (apply (ctm s) (x, y))]).
  rewrite P. cbn [app]. unfold rect_outline. cbn [map map_seg].
  replace (x + w, y + 0) with (x + w, y) by (apply f_equal2; ring).
  replace (x + w + 0, y + 0 + h) with (x + w, y + h) by (apply f_equal2; ring).
  replace (x + w + 0 + - w, y + 0 + h + 0) with (x, y + h) by (apply f_equal2; ring).
  apply same_outline_refl.
Qed.

Section Shapes.
Variable rgb_of : str -> result rgb.
Variable to_float : str -> result R.
Hypothesis Hchars : float_chars to_float.

(** A shape drawn inside a scope. *)
Lemma scope_paint : forall same o cb p c rot s s',
  (forall s s', c_path s = [] -> cb s = Ok s' ->
     keeps s s' /\ same (c_path s') (map (map_seg (ctm s)) o)) ->
  c_path s = [] -> g_dash (c_g s) = [] -> plain_dash (p_dash p) ->
  ctx_scope (fun s => do s <- transform c rot 1 1 s; fill_stroke_shape rgb_of to_float cb p s) s = Ok s' ->
  exists a b, c_ink s' = c_ink s ++ a ++ b /\ settled s s' /\
    let o' := map (map_seg (mul (ctm s) (rotation_of rot c))) o in
    fills rgb_of same o' (l_fill (look_of p)) a /\
    strokes rgb_of to_float same (ctm s) o' (l_stroke (look_of p)) b.
Proof.
  intros same o cb p c rot s s' Hcb P D PD H.
  apply ctx_scope_inv in H as (s1 & H1 & H2). rewrite transform_spec in H1. cbn [rbind] in H1.
  set (m := mul (ctm s) (rotation_of rot c)) in *.
  change (mul (ctm (k_save s)) (rotation_of rot c)) with m in H1.
  destruct (fill_stroke_marks rgb_of to_float same (ctm s) m (map (map_seg m) o) cb
              (fun path _ => path = []) (same_pen_rotation _ _ _)) with (p := p) (s := with_ctm (k_save s) m) (s' := s1)
    as (a & b & F1 & F2 & F3 & F4 & F5 & F6); auto.
  { intros s0 s0' M P0 H0. destruct (Hcb _ _ P0 H0) as [K S]. rewrite M in S. now split. }
  specialize (H2 F4). subst s'. exists a, b. repeat split; auto.
Qed.

Lemma scope_paint_plain : forall same ol cb p s s',
  (forall s0 s', ctm s0 = ctm s -> c_path s0 = [] -> cb s0 = Ok s' ->
     keeps s0 s' /\ same (c_path s') ol) ->
  c_path s = [] -> g_dash (c_g s) = [] -> plain_dash (p_dash p) ->
  ctx_scope (fun s => fill_stroke_shape rgb_of to_float cb p s) s = Ok s' ->
  exists a b, c_ink s' = c_ink s ++ a ++ b /\ settled s s' /\
    fills rgb_of same ol (l_fill (look_of p)) a /\
    strokes rgb_of to_float same (ctm s) ol (l_stroke (look_of p)) b.
Proof.
  intros same ol cb p s s' Hcb P D PD H.
  apply ctx_scope_inv in H as (s1 & H1 & H2).
  destruct (fill_stroke_marks rgb_of to_float same (ctm s) (ctm s) ol cb
              (fun path _ => path = []) (same_pen_refl _)) with (p := p) (s := k_save s) (s' := s1)
    as (a & b & F1 & F2 & F3 & F4 & F5 & F6); auto.
  specialize (H2 F4). subst s'. exists a, b. repeat split; auto.
Qed.

Lemma draw_rect_spec : forall r rx ry rot p s s',
  truthy_num rx = false -> truthy_num ry = false ->
  c_path s = [] -> g_dash (c_g s) = [] -> plain_dash (p_dash p) ->
  draw_rect rgb_of to_float r rx ry rot p s = Ok s' ->
  exists a b, c_ink s' = c_ink s ++ a ++ b /\ settled s s' /\
    let o' := map (map_seg (mul (ctm s) (rotation_of rot (mid_point r))))
                  (rect_outline (r_x r) (r_y r) (r_w r) (r_h r)) in
    fills rgb_of same_outline o' (l_fill (look_of p)) a /\
    strokes rgb_of to_float same_outline (ctm s) o' (l_stroke (look_of p)) b.
Proof.
  intros r rx ry rot p s s' X Y P D PD H. unfold draw_rect in H.
  eapply (scope_paint same_outline) in H; eauto.
  intros s0 s0' P0 H0. cbv beta in H0.
  assert (E : truthy_num match rx with Some _ => rx | None => ry end = false)
    by (destruct rx; assumption).
  assert (E2 : truthy_num match ry with Some _ => ry | None => match rx with Some _ => rx | None => ry end end = false)
    by (destruct ry; [assumption|destruct rx; auto]).
  rewrite E, E2 in H0. cbn [orb] in H0. now apply k_rectangle_spec.
Qed.

Lemma lines_app : forall l p q, lines p (l ++ [q]) = lines p l ++ [GLine (last l p) q].
Proof.
  induction l as [|a l IH]; intros p q; [reflexivity|].
  cbn [app lines]. rewrite IH. f_equal. f_equal. f_equal. f_equal.
  destruct l as [|b l]; [reflexivity|]. cbn [last]. clear. revert b. induction l; intros; [reflexivity|].
  cbn [last] in *. apply IHl.
Qed.

Lemma draw_polygon_spec : forall l rot p s s' c,
  find_centroid l = Ok c ->
  c_path s = [] -> g_dash (c_g s) = [] -> plain_dash (p_dash p) ->
  draw_polygon rgb_of to_float l rot p s = Ok s' ->
  exists a b, c_ink s' = c_ink s ++ a ++ b /\ settled s s' /\
    let o' := map (map_seg (mul (ctm s) (rotation_of rot c))) (polygon_outline l) in
    fills rgb_of same_trace o' (l_fill (look_of p)) a /\
    strokes rgb_of to_float same_trace (ctm s) o' (l_stroke (look_of p)) b.
Proof.
  intros l rot p s s' c E P D PD H. unfold draw_polygon in H. rewrite E in H. cbn [rbind] in H.
  eapply (scope_paint same_trace) in H; eauto.
  intros s0 s0' P0 H0. cbv beta in H0. destruct l as [|p0 ps]; [discriminate|]. injection H0 as <-.
  destruct (lines_to_spec (ps ++ [p0]) (k_move_to s0 p0) p0 eq_refl) as [K L].
  split; [exact K|]. rewrite L. cbn [c_path k_move_to]. rewrite P0. cbn [app].
  unfold polygon_outline.
  replace (match ps ++ [p0] with [] => [] | _ => start (k_move_to s0 p0) (apply (ctm (k_move_to s0 p0)) p0) ++
       map (map_seg (ctm (k_move_to s0 p0))) (lines p0 (ps ++ [p0])) end)
    with (GMove (apply (ctm s0) p0) :: map (map_seg (ctm s0)) (lines p0 (ps ++ [p0])))
    by (destruct ps; reflexivity).
  rewrite lines_app. cbn [map map_seg]. rewrite !map_app.
  constructor; [reflexivity|]. apply Forall2_app.
  - induction (lines p0 ps); constructor; auto.
  - repeat constructor.
Qed.

Lemma draw_polyline_spec : forall l color w dash s s',
  (2 <= List.length l)%nat ->
  c_path s = [] -> g_dash (c_g s) = [] -> plain_dash dash ->
  draw_polyline rgb_of to_float l color w dash s = Ok s' ->
  exists b, c_ink s' = c_ink s ++ b /\ settled s s' /\
    strokes rgb_of to_float same_outline (ctm s) (map (map_seg (ctm s)) (polyline_outline l))
      (Some (color, width_or_1 w, given dash)) b.
Proof.
  intros l color w dash s s' Len P D PD H. unfold draw_polyline in H.
  apply ctx_scope_inv in H as (s1 & H1 & H2).
  destruct (stroke_marks rgb_of to_float same_outline (ctm s) (ctm s)
     (map (map_seg (ctm s)) (polyline_outline l))
     (fun s => match l with [] => Err EIndex | p0 :: ps => Ok (lines_to (k_move_to s p0) ps) end)
     (fun path _ => path = []) (same_pen_refl _)) with (c := color) (w := w) (d := dash) (s := k_save s) (s' := s1)
    as (b & F1 & F2 & F3 & F4 & F5 & F6); auto.
  { intros s0 s0' M P0 H0. destruct l as [|p0 [|q ps]]; [simpl in Len; lia|simpl in Len; lia|].
    injection H0 as <-.
    destruct (lines_to_spec (q :: ps) (k_move_to s0 p0) p0 eq_refl) as [K L].
    split; [exact K|]. cbn [lines_to] in L. rewrite L. cbn [c_path k_move_to]. rewrite P0. cbn [app].
    change (ctm (k_move_to s0 p0)) with (ctm s0). rewrite M. cbn [start c_fresh k_move_to app map polyline_outline map_seg].
    apply same_outline_refl. }
  specialize (H2 F4). subst s'. exists b. split; [exact F1|]. split; [|exact F6].
  repeat split; auto.
Qed.

Lemma draw_path_spec : forall cs p0 rest p s s',
  cs = (PM, [p0]) :: rest -> Forall exact_arity cs -> no_double_S false cs -> det (ctm s) <> 0 ->
  c_path s = [] -> g_dash (c_g s) = [] -> plain_dash (p_dash p) ->
  draw_path rgb_of to_float cs p s = Ok s' ->
  given (p_bg p) = None /\ given (p_color p) = None /\ s' = s \/
  exists o a b, svg_path_outline cs = Some o /\ c_ink s' = c_ink s ++ a ++ b /\ settled s s' /\
    let o' := map (map_seg (ctm s)) o in
    fills rgb_of same_outline o' (l_fill (look_of p)) a /\
    strokes rgb_of to_float same_outline (ctm s) o' (l_stroke (look_of p)) b.
Proof.
  intros cs p0 rest p s s' E A N D0 P D PD H.
  (* the outline exists whenever the path can be drawn once *)
  assert (X : forall s0 s0', ctm s0 = ctm s -> c_path s0 = [] -> path_loop s0 None None cs = Ok s0' ->
    exists o, svg_path_outline cs = Some o /\ keeps s0 s0' /\
      same_outline (c_path s0') (map (map_seg (ctm s)) o)).
  { intros s0 s0' M P0 H0. subst cs. apply Forall_cons_iff in A as [_ A]. destruct N as [_ N].
    cbn [path_loop path_step arg nth_error rbind] in H0.
    assert (D1 : det (ctm (k_move_to s0 p0)) <> 0) by (change (ctm (k_move_to s0 p0)) with (ctm s0); now rewrite M).
    destruct (path_loop_spec rest (k_move_to s0 p0) s0' None None None p0 false A N D1 eq_refl
                (fun _ => eq_refl) H0) as (l & o & o' & E1 & E2 & K & L & S).
    exists o. unfold svg_path_outline. cbn [expand expand1 each1]. rewrite E1. cbn [app path_outline].
    split; [exact E2|]. split; [exact K|]. rewrite L. cbn [c_path k_move_to]. rewrite P0. cbn [app].
    change (ctm (k_move_to s0 p0)) with (ctm s0) in S. now rewrite M in S. }
  destruct (svg_path_outline cs) as [o|] eqn:O.
  - right. unfold draw_path in H.
    eapply (scope_paint_plain same_outline (map (map_seg (ctm s)) o)) in H; eauto.
    + destruct H as (a & b & H). exists o, a, b. now split.
    + intros s0 s0' M P0 H0. destruct (X s0 s0' M P0 H0) as (o2 & O2 & K & S).
      injection O2 as <-. now split.
  - left. unfold draw_path in H. apply ctx_scope_inv in H as (s1 & H1 & H2).
    unfold fill_stroke_shape in H1. apply bind_ok in H1 as (s2 & H1 & H3).
    assert (NB : given (p_bg p) = None /\ s2 = k_save s).
    { destruct (p_bg p) as [[|x b]|]; cbn [truthy_str given] in *; try (now injection H1 as <-).
      exfalso. unfold fill_shape in H1. apply bind_ok in H1 as (c & _ & H1).
      apply bind_ok in H1 as (s3 & H1 & _).
      destruct (X (k_source (k_save s) c) s3 eq_refl P H1) as (o & O2 & _). discriminate. }
    destruct NB as [NB ->]. split; [exact NB|].
    assert (NC : given (p_color p) = None /\ s1 = k_save s).
    { destruct (p_color p) as [[|x b]|]; cbn [truthy_str given] in *; try (now injection H3 as <-).
      exfalso. unfold stroke_shape in H3. apply bind_ok in H3 as (c & _ & H3).
      cbv zeta in H3. apply bind_ok in H3 as (s3 & H4 & H3). apply bind_ok in H3 as (s4 & H5 & _).
      assert (C3 : ctm s3 = ctm s /\ c_path s3 = []).
      { destruct (p_dash p) as [d|]; [destruct (truthy_str (Some d))|].
        - apply bind_ok in H4 as (f & _ & H4). now injection H4 as <-.
        - now injection H4 as <-.
        - now injection H4 as <-. }
      destruct C3 as [C3 P3].
      destruct (X s3 s4 C3 P3 H5) as (o & O2 & _). discriminate. }
    destruct NC as [NC ->]. split; [exact NC|].
    specialize (H2 eq_refl). subst s'. now destruct s.
Qed.

(** *** Ellipses *)
Lemma ellipse_matrix : forall base rot c sx sy r,
  mul (mul (mul (match rot with Some a => mul (mul base (mtranslate (fst c) (snd c))) (mrotate (a * PI / 180))
                 | None => mul base (mtranslate (fst c) (snd c)) end)
            (mscale sx sy)) (mtranslate (- fst c) (- snd c)))
      (mul (mtranslate (fst c) (snd c)) (mscale r r))
  = mul (mul base (rotation_of rot c)) (mkMat (sx * r) 0 0 (sy * r) (fst c) (snd c)).
Proof.
  intros base [a|] c sx sy r; unfold mul, rotation_of, rotation_about, mtranslate, mrotate, mscale, ident;
    simpl; f_equal; ring.
Qed.

Lemma mscale_one : forall m, mul m (mscale 1 1) = m.
Proof. intros []. unfold mul; simpl. f_equal; ring. Qed.

Lemma transform_scale : forall c rot sx sy s s', transform c rot sx sy s = Ok s' ->
  s' = with_ctm s (mul (mul (match rot with Some a => mul (mul (ctm s) (mtranslate (fst c) (snd c))) (mrotate (a * PI / 180))
                 | None => mul (ctm s) (mtranslate (fst c) (snd c)) end)
            (mscale sx sy)) (mtranslate (- fst c) (- snd c))).
Proof.
  intros c rot sx sy s s' H. unfold transform in H. apply bind_ok in H as (s1 & H1 & H). injection H as <-.
  destruct (req sx 1) eqn:X; [destruct (req sy 1) eqn:Y|].
  - apply req_true in X, Y. subst. cbn [negb orb] in H1. injection H1 as <-.
    destruct rot; unfold k_translate, k_rotate, with_ctm, with_g, ctm; simpl; now rewrite mscale_one.
  - cbn [negb orb] in H1. unfold k_scale in H1. destruct (req (sx * sy) 0); [discriminate|].
    injection H1 as <-. destruct rot; reflexivity.
  - cbn [negb orb] in H1. unfold k_scale in H1. destruct (req (sx * sy) 0); [discriminate|].
    injection H1 as <-. destruct rot; reflexivity.
Qed.

Lemma draw_ellipse_spec : forall r rot p s s',
  c_path s = [] -> c_cur s = None -> g_dash (c_g s) = [] -> plain_dash (p_dash p) ->
  draw_ellipse rgb_of to_float r rot p s = Ok s' ->
  exists a b, c_ink s' = c_ink s ++ a ++ b /\ c_saved s' = c_saved s /\ ctm s' = ctm s /\
    c_path s' = [] /\ c_cur s' = None /\
    let o' := map (map_seg (mul (ctm s) (rotation_of rot (mid_point r))))
                  (ellipse_outline (mid_x r) (mid_y r) (r_w r / 2) (r_h r / 2)) in
    fills rgb_of same_outline o' (l_fill (look_of p)) a /\
    strokes rgb_of to_float same_outline (ctm s) o' (l_stroke (look_of p)) b.
Proof.
  intros r rot p s s' P C0 D PD H. unfold draw_ellipse in H. cbv zeta in H.
  set (larger := if rlt (r_w r) (r_h r) then r_h r else r_w r) in H.
  set (smaller := if rlt (r_w r) (r_h r) then r_w r else r_h r) in H.
  apply bind_ok in H as (sx & Hx & H). apply bind_ok in H as (sy & Hy & H).
  assert (SX : sx * (larger / 2) = r_w r / 2).
  { destruct (req larger (r_w r)) eqn:Q; [apply req_true in Q; injection Hx as <-; rewrite Q; field|].
    destruct (req larger 0) eqn:Z; [discriminate|]. injection Hx as <-. apply req_false in Z, Q.
    unfold larger, smaller in *. destruct (rlt (r_w r) (r_h r)); [field; exact Z|now elim Q]. }
  assert (SY : sy * (larger / 2) = r_h r / 2).
  { destruct (req larger (r_h r)) eqn:Q; [apply req_true in Q; injection Hy as <-; rewrite Q; field|].
    destruct (req larger 0) eqn:Z; [discriminate|]. injection Hy as <-. apply req_false in Z, Q.
    unfold larger, smaller in *. destruct (rlt (r_w r) (r_h r)); [now elim Q|field; exact Z]. }
  apply bind_ok in H as (s1 & H1 & H).
  apply ctx_scope_inv in H1 as (s2 & H1 & H2).
  apply bind_ok in H1 as (s3 & H3 & H1). apply transform_scale in H3.
  set (c := mid_point r) in *.
  set (m := mul _ _) in H3. set (mm := mul (ctm s) (rotation_of rot c)).
  set (o := map (map_seg mm) (ellipse_outline (mid_x r) (mid_y r) (r_w r / 2) (r_h r / 2))).
  set (draw := fun s : ctx => Ok (k_arc s (fst c) (snd c) (larger / 2))) in H1.
  assert (EM : mul m (mul (mtranslate (fst c) (snd c)) (mscale (larger / 2) (larger / 2))) =
               mul mm (mkMat (r_w r / 2) 0 0 (r_h r / 2) (fst c) (snd c))).
  { unfold m, mm. change (ctm (k_save s)) with (ctm s). rewrite ellipse_matrix, SX, SY. reflexivity. }
  assert (EP : apply m (fst c + larger / 2, snd c) = apply mm (fst c + r_w r / 2, snd c)).
  { transitivity (apply (mul m (mul (mtranslate (fst c) (snd c)) (mscale (larger / 2) (larger / 2)))) (1, 0)).
    - rewrite apply_mul. f_equal. unfold mtranslate, mscale. peq.
    - rewrite EM, apply_mul. f_equal. peq. }
  assert (DR : forall s0 s0', ctm s0 = m -> c_path s0 = [] /\ c_cur s0 = None -> draw s0 = Ok s0' ->
    keeps s0 s0' /\ same_outline (c_path s0') o).
  { intros s0 s0' M [P0 N0] H0.
    assert (s0' = k_arc s0 (fst c) (snd c) (larger / 2)) as -> by (unfold draw in H0; congruence).
    assert (CP : c_path (k_arc s0 (fst c) (snd c) (larger / 2)) = c_path s0 ++
      [GMove (apply (ctm s0) (fst c + larger / 2, snd c));
       GCircle (mul (ctm s0) (mul (mtranslate (fst c) (snd c)) (mscale (larger / 2) (larger / 2))))])
      by (unfold k_arc, k_line_to; now rewrite N0).
    split; [unfold k_arc, k_line_to; rewrite N0; now split|].
    rewrite CP, P0, M, EM, EP. unfold o, ellipse_outline. cbn [map map_seg app]. apply same_outline_refl. }
  assert (C3 : ctm s3 = m /\ c_path s3 = [] /\ c_cur s3 = None /\ c_saved s3 = c_g s :: c_saved s /\
               c_ink s3 = c_ink s /\ c_g s3 = mkG m (g_src (c_g s)) (g_lw (c_g s)) (g_dash (c_g s))).
  { subst s3. repeat split; auto. }
  destruct C3 as (M3 & P3 & N3 & V3 & I3 & G3).
  apply bind_ok in H1 as (s4 & H4 & H1).
  assert (F : exists a, c_ink s4 = c_ink s ++ a /\ c_path s4 = [] /\ c_cur s4 = None /\
    c_saved s4 = c_g s :: c_saved s /\ ctm s4 = m /\ fills rgb_of same_outline o (l_fill (look_of p)) a).
  { unfold look_of. cbn [l_fill]. destruct (p_bg p) as [[|x b]|]; cbn [truthy_str given] in *.
    - injection H4 as <-. exists []. rewrite app_nil_r. repeat split; auto. constructor.
    - destruct (fill_marks rgb_of same_outline m o draw (fun path cur => path = [] /\ cur = None) DR
                  (x :: b) s3 s4 M3 (conj P3 N3) H4) as (a & F1 & F2 & F3 & F4 & F5 & F6 & F7).
      exists a. rewrite F1, F4, I3. repeat split; auto.
    - injection H4 as <-. exists []. rewrite app_nil_r. repeat split; auto. constructor. }
  destruct F as (a & I4 & P4 & N4 & V4 & M4 & F4).
  exists a. unfold look_of at 2. cbn [l_stroke].
  destruct (p_color p) as [[|x b]|]; cbn [truthy_str given] in *.
  - injection H1 as <-. specialize (H2 V4). injection H as <-. subst s1. exists [].
    rewrite app_nil_r. cbn [c_ink c_saved ctm c_g c_path c_cur].
    repeat split; auto. constructor.
  - unfold draw in H1.
    destruct (DR s4 s2 M4 (conj P4 N4) H1) as ((K1 & K2 & K3) & S).
    rewrite K2 in H2. specialize (H2 V4).
    destruct (stroke_marks rgb_of to_float same_outline (ctm s) (ctm s) o (fun s => Ok s)
       (fun path _ => path = c_path s2) (same_pen_refl _)) with (c := x :: b) (w := p_width p) (d := p_dash p) (s := s1) (s' := s')
      as (bb & F1 & F2 & F3 & F5 & F6 & F7); auto; try (subst s1; auto; fail).
    { intros s0 s0' _ P0 H0. injection H0 as <-. split; [apply keeps_refl|]. now rewrite P0. }
    exists bb. rewrite F1. subst s1. cbn [c_ink c_saved] in *. rewrite K3, I4, app_assoc.
    repeat split; auto.
  - injection H1 as <-. specialize (H2 V4). injection H as <-. subst s1. exists [].
    rewrite app_nil_r. cbn [c_ink c_saved ctm c_g c_path c_cur].
    repeat split; auto. constructor.
Qed.
End Shapes.
