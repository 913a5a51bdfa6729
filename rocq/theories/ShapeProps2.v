(** Properties C81 and C82: view boxes and rounded rectangles. *)
From Coq Require Import List Reals NArith Bool String Lra Lia.
From Verif Require Import Py PyFacts XmlModel ShapeModel ShapeSpec ShapeProofs ShapePaint ShapeShapes
  ArrowProps ShapeProps.
Import ListNotations.
Local Open Scope R_scope.

(** ** C81: view boxes *)

(** The map of a view box into an area of the given size, as SVG defines it for
    preserveAspectRatio="xMidYMid meet" (the default): a scale by [k] and a shift; the view box
    lies in the area, fills it in one direction, and the centres coincide. *)
Definition meets (w h vx vy vw vh : R) (k : R) (f : pt -> pt) : Prop :=
  (exists d, forall p, f p = (k * fst p + fst d, k * snd p + snd d)) /\ 0 < k /\
  f (vx + vw / 2, vy + vh / 2) = (w / 2, h / 2) /\
  (forall x y, vx <= x <= vx + vw -> vy <= y <= vy + vh ->
     0 <= fst (f (x, y)) <= w /\ 0 <= snd (f (x, y)) <= h) /\
  (k * vw = w \/ k * vh = h).

(** There is only one such map. *)
Lemma meets_unique : forall w h vx vy vw vh k f k' f', 0 < vw -> 0 < vh -> 0 < w -> 0 < h ->
  meets w h vx vy vw vh k f -> meets w h vx vy vw vh k' f' -> k = k' /\ forall p, f p = f' p.
Proof.
  intros w h vx vy vw vh k f k' f' Vw Vh W H ((d & D) & K & C & B & T) ((d' & D') & K' & C' & B' & T').
  assert (X : forall kk ff dd, (forall p, ff p = (kk * fst p + fst dd, kk * snd p + snd dd)) ->
    (forall x y, vx <= x <= vx + vw -> vy <= y <= vy + vh ->
       0 <= fst (ff (x, y)) <= w /\ 0 <= snd (ff (x, y)) <= h) -> kk * vw <= w /\ kk * vh <= h).
  { intros kk ff dd DD BB.
    destruct (BB vx vy) as [[A1 A2] [A3 A4]]; [lra|lra|].
    destruct (BB (vx + vw) (vy + vh)) as [[A5 A6] [A7 A8]]; [lra|lra|].
    rewrite DD in A1, A3, A6, A8. simpl in *. lra. }
  destruct (X k f d D B) as [X1 X2]. destruct (X k' f' d' D' B') as [X3 X4].
  assert (E : k = k') by (destruct T, T'; nra).
  split; [exact E|]. subst k'. intros p. rewrite D, D'. rewrite D in C. rewrite D' in C'. simpl in *.
  injection C as C1 C2. injection C' as C3 C4. apply f_equal2; lra.
Qed.

(** [apply_viewbox] applies exactly this map before the current transformation. *)
Theorem C81_viewbox : forall w h vx vy vw vh s, 0 < w -> 0 < h -> 0 < vw -> 0 < vh ->
  exists s' k m, apply_viewbox w h vx vy vw vh s = Ok (s', k) /\
    meets w h vx vy vw vh k (apply m) /\ (forall p, apply (ctm s') p = apply (ctm s) (apply m p)) /\
    c_saved s' = c_saved s /\ c_path s' = c_path s /\ c_ink s' = c_ink s.
Proof.
  intros w h vx vy vw vh s W H Vw Vh. unfold apply_viewbox.
  assert (N : forall a, 0 < a -> req a 0 = false).
  { intros a A. destruct (req a 0) eqn:E; [apply req_true in E; lra|reflexivity]. }
  rewrite (N vw Vw), (N vh Vh). cbn [orb]. cbv zeta.
  set (k := rmin (w / vw) (h / vh)).
  assert (K : 0 < k /\ k * vw <= w /\ k * vh <= h /\ (k * vw = w \/ k * vh = h)).
  { assert (A : 0 < w / vw) by (apply Rdiv_lt_0_compat; assumption).
    assert (B : 0 < h / vh) by (apply Rdiv_lt_0_compat; assumption).
    assert (A' : w / vw * vw = w) by (field; lra). assert (B' : h / vh * vh = h) by (field; lra).
    unfold k, rmin, rlt. destruct (Rlt_dec (h / vh) (w / vw)); repeat split; try nra; auto. }
  destruct K as (K1 & K2 & K3 & K4).
  unfold k_scale. rewrite (N (k * k)) by now apply Rmult_lt_0_compat. cbn [rbind]. rewrite (N k K1).
  set (M := mkMat k 0 0 k ((w - k * vw) / 2 - k * vx) ((h - k * vh) / 2 - k * vy)).
  eexists _, k, M. split; [reflexivity|].
  assert (F : forall p, apply M p = (k * fst p + ((w - k * vw) / 2 - k * vx), k * snd p + ((h - k * vh) / 2 - k * vy))).
  { intros p. unfold apply, M; simpl. apply f_equal2; ring. }
  split; [|split; [|repeat split]].
  - split; [exists ((w - k * vw) / 2 - k * vx, (h - k * vh) / 2 - k * vy); exact F|].
    split; [exact K1|]. split; [rewrite F; simpl; apply f_equal2; field|]. split; [|exact K4].
    intros x y X Y. rewrite F. simpl. split; split; nra.
  - intros p. rewrite <- apply_mul. f_equal.
    unfold ctm, k_translate, with_ctm, with_g; cbn [c_g g_ctm]. unfold ctm; cbn [c_g g_ctm].
    unfold M, mul, mtranslate, mscale; simpl. destruct (g_ctm (c_g s)); simpl. f_equal; field; lra.
Qed.
Print Assumptions C81_viewbox.
Example C81_ex : exists s' k, apply_viewbox 100 50 0 0 10 10 clean = Ok (s', k) /\ k = 5.
Proof.
  destruct (C81_viewbox 100 50 0 0 10 10 clean) as (s' & k & m & E & ((d & D) & _ & _ & B & T) & _); try lra.
  exists s', k. split; [exact E|].
  destruct T as [T|T]; [|lra]. exfalso.
  destruct (B 0 0) as [_ [B1 _]]; [lra|lra|]. destruct (B 10 10) as [_ [_ B2]]; [lra|lra|].
  rewrite D in B1, B2. simpl in *. lra.
Qed.

(** ** C82: rounded rectangles *)

(** [g] runs from [p] to [q] through the corner of the ellipse with the centre [c] and the
    radii [a] and [b] given by the signs; [lo] and [hi] bound (X/a)^2 + (Y/b)^2, which is 1 on
    the ellipse. *)
Definition near_arc (lo hi : R) (c : pt) (a b : R) (sign : pt) (p q : pt) (g : seg) : Prop :=
  seg_at g 0 = p /\ seg_at g 1 = q /\
  forall t, 0 <= t <= 1 ->
    let x := (fst (seg_at g t) - fst c) / a in let y := (snd (seg_at g t) - snd c) / b in
    0 <= fst sign * x <= 1 /\ 0 <= snd sign * y <= 1 /\ lo <= x * x + y * y <= hi.

(** The two coordinates of the curve along the directions of its ends. *)
Definition b1 (k t : R) : R := (1 - t) * (1 - t) * (1 - t) + 3 * (1 - t) * (1 - t) * t + 3 * (1 - t) * t * t * k.
Definition b2 (k t : R) : R := t * t * t + 3 * (1 - t) * t * t + 3 * (1 - t) * (1 - t) * t * k.

Lemma b_range : forall k t, 0 <= k <= 1 -> 0 <= t <= 1 -> 0 <= b1 k t <= 1 /\ 0 <= b2 k t <= 1.
Proof.
  intros k t K T. unfold b1, b2. set (u := 1 - t). assert (U : 0 <= u) by (unfold u; lra).
  assert (E : u + t = 1) by (unfold u; ring).
  assert (A1 : 0 <= u * u * u) by (repeat apply Rmult_le_pos; lra).
  assert (A2 : 0 <= u * u * t) by (repeat apply Rmult_le_pos; lra).
  assert (A3 : 0 <= u * t * t) by (repeat apply Rmult_le_pos; lra).
  assert (A4 : 0 <= t * t * t) by (repeat apply Rmult_le_pos; lra).
  assert (S : u * u * u + 3 * (u * u * t) + 3 * (u * t * t) + t * t * t = 1).
  { transitivity ((u + t) * (u + t) * (u + t)); [ring|]. rewrite E. ring. }
  assert (K3 : 0 <= u * t * t * k <= u * t * t).
  { split; [apply Rmult_le_pos; lra|]. rewrite <- (Rmult_1_r (u * t * t)) at 2. apply Rmult_le_compat_l; lra. }
  assert (K2 : 0 <= u * u * t * k <= u * u * t).
  { split; [apply Rmult_le_pos; lra|]. rewrite <- (Rmult_1_r (u * u * t)) at 2. apply Rmult_le_compat_l; lra. }
  split; split; lra.
Qed.

(** The sum of the squares depends only on t (1 - t). *)
Lemma b_squares : forall k t, let s := t * (1 - t) in
  b1 k t * b1 k t + b2 k t * b2 k t = 1 + s * s * (9 * k * k + 6 * k - 6 + s * (24 * k - 8 - 18 * k * k)).
Proof. intros k t s. unfold s, b1, b2. ring. Qed.

Lemma b_bound : forall t, 0 <= t <= 1 ->
  1 <= b1 arc_to_bezier t * b1 arc_to_bezier t + b2 arc_to_bezier t * b2 arc_to_bezier t <= 1 + 55 / 100000.
Proof.
  intros t T. rewrite b_squares. cbv zeta. set (s := t * (1 - t)).
  assert (S : 0 <= s <= 1 / 4).
  { unfold s. split; [apply Rmult_le_pos; lra|]. pose proof (Rle_0_sqr (t - 1 / 2)). unfold Rsqr in *. lra. }
  set (k := arc_to_bezier). set (A := 9 * k * k + 6 * k - 6). set (B := 24 * k - 8 - 18 * k * k).
  assert (HA : 588 / 10000 <= A <= 589 / 10000) by (unfold A, k, arc_to_bezier; lra).
  assert (HB : - (2356 / 10000) <= B <= - (2354 / 10000)) by (unfold B, k, arc_to_bezier; lra).
  assert (HAB : 0 <= A + B / 4) by (unfold A, B, k, arc_to_bezier; lra).
  clearbody A B.
  assert (L : 0 <= A + s * B) by nra.
  split.
  - assert (0 <= s * s * (A + s * B)) by (apply Rmult_le_pos; [apply Rmult_le_pos; lra|exact L]). lra.
  - assert (U : s * s * (A + s * B) <= s * s * (589 / 10000 - 2354 / 10000 * s)).
    { apply Rmult_le_compat_l; [apply Rmult_le_pos; lra|]. nra. }
    assert (V : s * s * (589 / 10000 - 2354 / 10000 * s) <= 55 / 100000).
    { assert (P : 0 <= (s - 1668 / 10000) * (s - 1668 / 10000) * (2354 / 10000 * s + 196 / 10000)).
      { apply Rmult_le_pos; [apply Rle_0_sqr|lra]. }
      nra. }
    lra.
Qed.

Lemma rel_line_at : forall s p v, c_cur s = Some (apply (ctm s) p) ->
  let q := (fst p + fst v, snd p + snd v) in
  k_rel_line_to s v = Ok (k_add s (apply (ctm s) p) (map_seg (ctm s) (GLine p q)) (apply (ctm s) q)).
Proof. intros s p v C q. unfold k_rel_line_to. now rewrite C, offset_apply. Qed.
Lemma rel_curve_at : forall s p a b v, c_cur s = Some (apply (ctm s) p) ->
  let at_ d := (fst p + fst d, snd p + snd d) in
  k_rel_curve_to s a b v =
    Ok (k_add s (apply (ctm s) p) (map_seg (ctm s) (GCubic p (at_ a) (at_ b) (at_ v))) (apply (ctm s) (at_ v))).
Proof. intros s p a b v C at_. unfold k_rel_curve_to. now rewrite C, !offset_apply. Qed.

(** A step: state and outline so far. *)
Definition at_point (s0 s : ctx) (p : pt) (o : list seg) : Prop :=
  ctm s = ctm s0 /\ c_cur s = Some (apply (ctm s0) p) /\ c_fresh s = false /\
  c_path s = map (map_seg (ctm s0)) o /\ c_start s = option_map (apply (ctm s0)) (match o with GMove b :: _ => Some b | _ => None end).

Lemma step_line : forall s0 s p v o q, at_point s0 s p o -> q = (fst p + fst v, snd p + snd v) ->
  (exists b r, o = GMove b :: r) ->
  exists s', k_rel_line_to s v = Ok s' /\ at_point s0 s' q (o ++ [GLine p q]).
Proof.
  intros s0 s p v o q (M & C & F & P & St) -> (b & r & ->).
  rewrite <- M in C. rewrite (rel_line_at s p v C). eexists. split; [reflexivity|].
  unfold at_point, k_add, ctm in *. cbn [c_g c_cur c_fresh c_path c_start]. rewrite F, M, P, map_app. cbn [app].
  repeat split; auto.
Qed.
Lemma step_curve : forall s0 s p a b v o a' b' q, at_point s0 s p o ->
  a' = (fst p + fst a, snd p + snd a) -> b' = (fst p + fst b, snd p + snd b) -> q = (fst p + fst v, snd p + snd v) ->
  (exists b r, o = GMove b :: r) ->
  exists s', k_rel_curve_to s a b v = Ok s' /\ at_point s0 s' q (o ++ [GCubic p a' b' q]).
Proof.
  intros s0 s p a b v o a' b' q (M & C & F & P & St) -> -> -> (b0 & r & ->).
  rewrite <- M in C. rewrite (rel_curve_at s p a b v C). eexists. split; [reflexivity|].
  unfold at_point, k_add, ctm in *. cbn [c_g c_cur c_fresh c_path c_start]. rewrite F, M, P, map_app. cbn [app].
  repeat split; auto.
Qed.

(** The outline that is drawn, for radii of at most half the sides. *)
Definition rounded_outline (x y w h a b : R) : list seg :=
  let k := arc_to_bezier in
  [GMove (x + a, y);
   GLine (x + a, y) (x + w - a, y);
   GCubic (x + w - a, y) (x + w - a + k * a, y) (x + w, y + k * b) (x + w, y + b);
   GLine (x + w, y + b) (x + w, y + h - b);
   GCubic (x + w, y + h - b) (x + w, y + h - b + k * b) (x + w - a + k * a, y + h) (x + w - a, y + h);
   GLine (x + w - a, y + h) (x + a, y + h);
   GCubic (x + a, y + h) (x + a - k * a, y + h) (x, y + h - k * b) (x, y + h - b);
   GLine (x, y + h - b) (x, y + b);
   GCubic (x, y + b) (x, y + b - k * b) (x + a - k * a, y) (x + a, y);
   GClose (x + a, y) (x + a, y)].
Definition least (a b : R) : R := if Rle_dec a b then a else b.

Lemma clamp : forall r w, (if rlt (w - r) r then w / 2 else r) = least r (w / 2).
Proof.
  intros r w. unfold rlt, least. destruct (Rlt_dec (w - r) r), (Rle_dec r (w / 2)); lra.
Qed.

Lemma rounded_path : forall x y w h rx ry s, exists s',
  rounded_rectangle x y w h rx ry s = Ok s' /\
  c_path s' = map (map_seg (ctm s)) (rounded_outline x y w h (least rx (w / 2)) (least ry (h / 2))).
Proof.
  intros x y w h rx ry s. unfold rounded_rectangle. rewrite !clamp.
  set (a := least rx (w / 2)). set (b := least ry (h / 2)). cbv zeta.
  set (s0 := k_move_to (k_new_path s) (x + a, y)).
  assert (M0 : ctm s0 = ctm s) by reflexivity.
  rewrite (rel_line_at s0 (x + a, y) (w - 2 * a, 0) eq_refl). cbn [rbind fst snd].
  set (q0 := (x + a + (w - 2 * a), y + 0)).
  assert (Q0 : q0 = (x + w - a, y)) by (unfold q0; apply f_equal2; ring). rewrite Q0. clear q0 Q0.
  set (s1 := k_add _ _ _ _).
  assert (A1 : at_point s s1 (x + w - a, y) [GMove (x + a, y); GLine (x + a, y) (x + w - a, y)])
    by (repeat split).
  assert (N : forall (b0 : pt) l, exists b r, GMove b0 :: l = GMove b :: r) by eauto.
  clearbody s1.
  destruct (step_curve s s1 _ (arc_to_bezier * a, 0) (a, arc_to_bezier * b) (a, b) _
    (x + w - a + arc_to_bezier * a, y) (x + w, y + arc_to_bezier * b) (x + w, y + b) A1) as (s2 & -> & A2);
    [simpl; apply f_equal2; ring..|apply N|]. cbn [rbind app] in *.
  destruct (step_line s s2 _ (0, h - 2 * b) _ (x + w, y + h - b) A2) as (s3 & -> & A3);
    [simpl; apply f_equal2; ring..|apply N|]. cbn [rbind app] in *.
  destruct (step_curve s s3 _ (0, arc_to_bezier * b) (arc_to_bezier * a - a, b) (- a, b) _
    (x + w, y + h - b + arc_to_bezier * b) (x + w - a + arc_to_bezier * a, y + h) (x + w - a, y + h) A3) as (s4 & -> & A4);
    [simpl; apply f_equal2; ring..|apply N|]. cbn [rbind app] in *.
  destruct (step_line s s4 _ (- w + 2 * a, 0) _ (x + a, y + h) A4) as (s5 & -> & A5);
    [simpl; apply f_equal2; ring..|apply N|]. cbn [rbind app] in *.
  destruct (step_curve s s5 _ (- (arc_to_bezier * a), 0) (- a, - (arc_to_bezier * b)) (- a, - b) _
    (x + a - arc_to_bezier * a, y + h) (x, y + h - arc_to_bezier * b) (x, y + h - b) A5) as (s6 & -> & A6);
    [simpl; apply f_equal2; ring..|apply N|]. cbn [rbind app] in *.
  destruct (step_line s s6 _ (0, - h + 2 * b) _ (x, y + b) A6) as (s7 & -> & A7);
    [simpl; apply f_equal2; ring..|apply N|]. cbn [rbind app] in *.
  destruct (step_curve s s7 _ (0, - (arc_to_bezier * b)) (a - arc_to_bezier * a, - b) (a, - b) _
    (x, y + b - arc_to_bezier * b) (x + a - arc_to_bezier * a, y) (x + a, y) A7) as (s8 & -> & A8);
    [simpl; apply f_equal2; ring..|apply N|]. cbn [rbind app] in *.
  eexists. split; [reflexivity|]. destruct A8 as (M & C & F & P & St). cbn [option_map] in St.
  unfold k_close_path. rewrite C, St. cbn [c_path k_add]. rewrite P, F. unfold rounded_outline. cbn. reflexivity.
Qed.

(** Outlines of the curves at the corners. *)
Lemma corner_near : forall lo hi k1 k2 e f c a b sign p q g,
  0 < a -> 0 < b -> 0 <= k1 <= 1 -> 0 <= k2 <= 1 ->
  (* unit vectors of the two ends, along the axes *)
  (e = (fst sign, 0) /\ f = (0, snd sign) \/ e = (0, snd sign) /\ f = (fst sign, 0)) ->
  fst sign * fst sign = 1 -> snd sign * snd sign = 1 ->
  g = GCubic p (fst p + k1 * a * fst f, snd p + k1 * b * snd f) (fst q + k2 * a * fst e, snd q + k2 * b * snd e) q ->
  p = (fst c + a * fst e, snd c + b * snd e) -> q = (fst c + a * fst f, snd c + b * snd f) ->
  (forall t, 0 <= t <= 1 -> lo <= b1 k2 t * b1 k2 t + b2 k1 t * b2 k1 t <= hi) ->
  near_arc lo hi c a b sign p q g.
Proof.
  intros lo hi k1 k2 e f c a b sign p q g A B K1 K2 EF S1 S2 -> Hp Hq H. unfold near_arc.
  split; [unfold seg_at, bez3, bez2, mix, lin; simpl; apply injective_projections; simpl; ring|].
  split; [unfold seg_at, bez3, bez2, mix, lin; simpl; apply injective_projections; simpl; ring|].
  intros t T. cbv zeta.
  assert (X : fst (seg_at (GCubic p (fst p + k1 * a * fst f, snd p + k1 * b * snd f) (fst q + k2 * a * fst e, snd q + k2 * b * snd e) q) t)
              = fst c + a * (fst e * b1 k2 t + fst f * b2 k1 t)).
  { rewrite Hp, Hq. unfold seg_at, bez3, bez2, mix, lin, b1, b2; simpl. ring. }
  assert (Y : snd (seg_at (GCubic p (fst p + k1 * a * fst f, snd p + k1 * b * snd f) (fst q + k2 * a * fst e, snd q + k2 * b * snd e) q) t)
              = snd c + b * (snd e * b1 k2 t + snd f * b2 k1 t)).
  { rewrite Hp, Hq. unfold seg_at, bez3, bez2, mix, lin, b1, b2; simpl. ring. }
  rewrite X, Y.
  replace ((fst c + a * (fst e * b1 k2 t + fst f * b2 k1 t) - fst c) / a) with (fst e * b1 k2 t + fst f * b2 k1 t)
    by (field; lra).
  replace ((snd c + b * (snd e * b1 k2 t + snd f * b2 k1 t) - snd c) / b) with (snd e * b1 k2 t + snd f * b2 k1 t)
    by (field; lra).
  pose proof (proj1 (b_range k2 t K2 T)) as R1. pose proof (proj2 (b_range k1 t K1 T)) as R2.
  specialize (H t T). set (u := b1 k2 t) in *. set (v := b2 k1 t) in *. clearbody u v. clear X Y.
  destruct EF as [[-> ->]|[-> ->]]; cbn [fst snd].
  - replace (fst sign * (fst sign * u + 0 * v)) with (fst sign * fst sign * u) by ring.
    replace (snd sign * (0 * u + snd sign * v)) with (snd sign * snd sign * v) by ring.
    replace ((fst sign * u + 0 * v) * (fst sign * u + 0 * v) + (0 * u + snd sign * v) * (0 * u + snd sign * v))
      with (fst sign * fst sign * (u * u) + snd sign * snd sign * (v * v)) by ring.
    rewrite S1, S2. lra.
  - replace (fst sign * (0 * u + fst sign * v)) with (fst sign * fst sign * v) by ring.
    replace (snd sign * (snd sign * u + 0 * v)) with (snd sign * snd sign * u) by ring.
    replace ((0 * u + fst sign * v) * (0 * u + fst sign * v) + (snd sign * u + 0 * v) * (snd sign * u + 0 * v))
      with (fst sign * fst sign * (v * v) + snd sign * snd sign * (u * u)) by ring.
    rewrite S1, S2. lra.
Qed.

Lemma b_uneven : forall t, 0 <= t <= 1 ->
  0 <= b1 (1 - arc_to_bezier) t * b1 (1 - arc_to_bezier) t + b2 arc_to_bezier t * b2 arc_to_bezier t <= 1 + 55 / 100000.
Proof.
  intros t T. pose proof (b_bound t T) as B.
  assert (K : 0 <= arc_to_bezier <= 1) by (unfold arc_to_bezier; lra).
  pose proof (b_range arc_to_bezier t K T) as [R1 R2].
  assert (K' : 0 <= 1 - arc_to_bezier <= 1) by (unfold arc_to_bezier; lra).
  pose proof (b_range (1 - arc_to_bezier) t K' T) as [R3 _].
  assert (L : b1 (1 - arc_to_bezier) t <= b1 arc_to_bezier t).
  { unfold b1. assert (0 <= 3 * (1 - t) * t * t) by (repeat apply Rmult_le_pos; lra).
    assert (1 - arc_to_bezier <= arc_to_bezier) by (unfold arc_to_bezier; lra). nra. }
  set (u := b1 (1 - arc_to_bezier) t) in *. set (v := b1 arc_to_bezier t) in *. set (z := b2 arc_to_bezier t) in *.
  clearbody u v z. nra.
Qed.

(** The outline of a rounded rectangle: the radii are cut to half the sides, as in SVG; the
    straight lines are those of SVG; each corner is a curve with the ends of the elliptical
    arc of SVG that stays in the corner of the rectangle.  Two of the corners (bottom right,
    top left) follow the arc with a relative error of 0.03 percent; the other two do not. *)
Theorem C82_rounded_partial : forall x y w h rx ry s, 0 < w -> 0 < h -> 0 < rx -> 0 < ry ->
  let a := least rx (w / 2) in let b := least ry (h / 2) in
  exists s' g1 g2 g3 g4, rounded_rectangle x y w h rx ry s = Ok s' /\
    c_path s' = map (map_seg (ctm s))
      [GMove (x + a, y); GLine (x + a, y) (x + w - a, y); g1;
       GLine (x + w, y + b) (x + w, y + h - b); g2;
       GLine (x + w - a, y + h) (x + a, y + h); g3;
       GLine (x, y + h - b) (x, y + b); g4; GClose (x + a, y) (x + a, y)] /\
    near_arc 0 (1 + 55 / 100000) (x + w - a, y + b) a b (1, -1) (x + w - a, y) (x + w, y + b) g1 /\
    near_arc 1 (1 + 55 / 100000) (x + w - a, y + h - b) a b (1, 1) (x + w, y + h - b) (x + w - a, y + h) g2 /\
    near_arc 0 (1 + 55 / 100000) (x + a, y + h - b) a b (-1, 1) (x + a, y + h) (x, y + h - b) g3 /\
    near_arc 1 (1 + 55 / 100000) (x + a, y + b) a b (-1, -1) (x, y + b) (x + a, y) g4.
Proof.
  intros x y w h rx ry s W H Rx Ry a b.
  destruct (rounded_path x y w h rx ry s) as (s' & E & P). fold a b in P.
  assert (A : 0 < a) by (unfold a, least; destruct (Rle_dec rx (w / 2)); lra).
  assert (B : 0 < b) by (unfold b, least; destruct (Rle_dec ry (h / 2)); lra).
  exists s'. do 4 eexists. split; [exact E|]. split; [exact P|].
  assert (K : 0 <= arc_to_bezier <= 1) by (unfold arc_to_bezier; lra).
  assert (K' : 0 <= 1 - arc_to_bezier <= 1) by (unfold arc_to_bezier; lra).
  split; [|split; [|split]].
  - apply (corner_near _ _ arc_to_bezier (1 - arc_to_bezier) (0, -1) (1, 0)); auto; simpl; try ring;
      [f_equal; apply f_equal2; ring|apply f_equal2; ring|apply f_equal2; ring|exact b_uneven].
  - apply (corner_near _ _ arc_to_bezier arc_to_bezier (1, 0) (0, 1)); auto; simpl; try ring;
      [f_equal; apply f_equal2; ring|apply f_equal2; ring|apply f_equal2; ring|exact b_bound].
  - apply (corner_near _ _ arc_to_bezier (1 - arc_to_bezier) (0, 1) (-1, 0)); auto; simpl; try ring;
      [f_equal; apply f_equal2; ring|apply f_equal2; ring|apply f_equal2; ring|exact b_uneven].
  - apply (corner_near _ _ arc_to_bezier arc_to_bezier (-1, 0) (0, -1)); auto; simpl; try ring;
      [f_equal; apply f_equal2; ring|apply f_equal2; ring|apply f_equal2; ring|exact b_bound].
Qed.
Print Assumptions C82_rounded_partial.
Example C82_ex : exists s', rounded_rectangle 0 0 10 20 3 30 clean = Ok s' /\ List.length (c_path s') = 10%nat.
Proof.
  destruct (C82_rounded_partial 0 0 10 20 3 30 clean) as (s' & g1 & g2 & g3 & g4 & E & P & _); try lra.
  exists s'. split; [exact E|]. now rewrite P.
Qed.

(** The top right corner is cut by more than two percent of the radius: half way the curve is
    where (X/a)^2 + (Y/b)^2 is less than 0.95. *)
Theorem C82_corner_refuted : forall x y w h rx ry s, 0 < w -> 0 < h -> 0 < rx -> 0 < ry ->
  let a := least rx (w / 2) in let b := least ry (h / 2) in
  exists s' g, rounded_rectangle x y w h rx ry s = Ok s' /\
    nth_error (c_path s') 2 = Some (map_seg (ctm s) g) /\
    let X := (fst (seg_at g (1 / 2)) - (x + w - a)) / a in
    let Y := (snd (seg_at g (1 / 2)) - (y + b)) / b in X * X + Y * Y < 95 / 100.
Proof.
  intros x y w h rx ry s W H Rx Ry a b.
  destruct (rounded_path x y w h rx ry s) as (s' & E & P). fold a b in P.
  assert (A : 0 < a) by (unfold a, least; destruct (Rle_dec rx (w / 2)); lra).
  assert (B : 0 < b) by (unfold b, least; destruct (Rle_dec ry (h / 2)); lra).
  exists s'. eexists. split; [exact E|]. rewrite P. split; [reflexivity|]. cbv zeta.
  match goal with |- ?X * ?X + ?Y * ?Y < _ =>
    replace X with (1 / 2 + 3 / 8 * arc_to_bezier);
    [replace Y with (- (1 / 2 + 3 / 8 * (1 - arc_to_bezier)))|] end.
  - unfold arc_to_bezier. lra.
  - unfold seg_at, bez3, bez2, mix, lin; simpl. field. lra.
  - unfold seg_at, bez3, bez2, mix, lin; simpl. field. lra.
Qed.
Print Assumptions C82_corner_refuted.

(** The radii of a rectangle in SVG: a missing one is the other one. *)
Definition svg_radii (num_of : str -> option R) (al : list (str * str)) : option (R * R) :=
  match declared (pys "rx") al, declared (pys "ry") al with
  | None, None => Some (0, 0)
  | Some a, None => option_map (fun r => (r, r)) (num_of a)
  | None, Some b => option_map (fun r => (r, r)) (num_of b)
  | Some a, Some b => match num_of a, num_of b with Some x, Some y => Some (x, y) | _, _ => None end
  end.

Lemma rel_line_keeps : forall z v z', k_rel_line_to z v = Ok z' -> c_ink z' = c_ink z /\ c_g z' = c_g z.
Proof.
  intros z v z' H. unfold k_rel_line_to in H. destruct (c_cur z); [|discriminate].
  injection H as <-. split; reflexivity.
Qed.
Lemma rel_curve_keeps : forall z a b v z', k_rel_curve_to z a b v = Ok z' -> c_ink z' = c_ink z /\ c_g z' = c_g z.
Proof.
  intros z a b v z' H. unfold k_rel_curve_to in H. destruct (c_cur z); [|discriminate].
  injection H as <-. split; reflexivity.
Qed.
Lemma close_keeps : forall z z', Ok (k_close_path z) = Ok z' -> c_ink z' = c_ink z /\ c_g z' = c_g z.
Proof.
  intros z z' H. injection H as <-. unfold k_close_path.
  destruct (c_cur z); [|split; reflexivity]. destruct (c_start z); split; reflexivity.
Qed.
Definition keeps (z z' : ctx) : Prop := c_ink z' = c_ink z /\ c_g z' = c_g z.
Lemma keeps_trans : forall a b c, keeps a b -> keeps b c -> keeps a c.
Proof. unfold keeps. intros a b c [A B] [C D]. split; congruence. Qed.
Lemma keeps_bind : forall s (r : result ctx) (k : ctx -> result ctx),
  (forall z, r = Ok z -> keeps s z) -> (forall z z', k z = Ok z' -> keeps z z') ->
  forall s', rbind r k = Ok s' -> keeps s s'.
Proof.
  intros s r k R K s' H. apply bind_ok in H as (z & Z & H). eapply keeps_trans; [exact (R _ Z)|exact (K _ _ H)].
Qed.
Lemma rounded_keeps : forall x y w h rx ry s s', rounded_rectangle x y w h rx ry s = Ok s' ->
  c_ink s' = c_ink s /\ c_g s' = c_g s.
Proof.
  intros x y w h rx ry s. unfold rounded_rectangle. rewrite !clamp.
  generalize (least rx (w / 2)) (least ry (h / 2)). intros a b. cbv zeta.
  assert (T : keeps s (k_move_to (k_new_path s) (x + a, y))) by (split; reflexivity).
  intros s' D. apply (keeps_trans _ _ _ T). clear T. revert s' D.
  repeat (apply keeps_bind; [first [exact (rel_line_keeps _ _) | exact (rel_curve_keeps _ _ _ _)]|intro]).
  exact (close_keeps _).
Qed.

(** A filled rectangle with two radii that are not both zero. *)
Lemma rounded_fill : forall rgb_of to_float r rx ry a b p s s' c x,
  match rx with None => ry | _ => rx end = Some a -> match ry with None => rx | _ => ry end = Some b ->
  a <> 0 \/ b <> 0 ->
  rgb_of c = Ok x -> c <> [] -> p_bg p = Some c -> p_color p = None ->
  draw_rect rgb_of to_float r rx ry None p s = Ok s' ->
  c_ink s' = c_ink s ++ [MFill (map (map_seg (ctm s)) (rounded_outline (r_x r) (r_y r) (r_w r) (r_h r)
             (least a (r_w r / 2)) (least b (r_h r / 2)))) x].
Proof.
  intros rgb_of to_float r rx ry a0 b0 p s s' c x A0 B0 N Ec Nc B C H.
  unfold draw_rect in H. apply ctx_scope_inv in H as (s1 & H1 & H2).
  unfold transform in H1. rewrite !req_refl in H1. cbn [negb orb rbind] in H1.
  unfold fill_stroke_shape in H1. rewrite B, C in H1. destruct c as [|ch c]; [now elim Nc|]. cbn [truthy_str] in H1.
  unfold fill_shape in H1. rewrite Ec in H1. cbn [rbind] in H1.
  set (s2 := k_source _ x) in H1.
  assert (DD : exists s3, rounded_rectangle (r_x r) (r_y r) (r_w r) (r_h r) a0 b0 s2 = Ok s3 /\ s1 = k_fill s3).
  { apply bind_ok in H1 as (s4 & H1 & H3). injection H3 as <-.
    apply bind_ok in H1 as (s3 & H1 & H3). exists s3. split; [|now injection H3 as <-].
    revert H1. assert (B1 : match ry with None => match rx with None => ry | _ => rx end | _ => ry end = Some b0).
    { destruct rx, ry; auto. }
    rewrite B1, A0. cbn [truthy_num].
    destruct (req a0 0) eqn:E1, (req b0 0) eqn:E2; cbn [negb orb]; auto.
    apply req_true in E1, E2. destruct N as [N|N]; now elim N. }
  destruct DD as (s3 & D1 & ->).
  destruct (rounded_path (r_x r) (r_y r) (r_w r) (r_h r) a0 b0 s2) as (s3' & D2 & D3).
  assert (s3' = s3) as -> by congruence.
  destruct (rounded_runs (r_x r) (r_y r) (r_w r) (r_h r) a0 b0 s2) as (s3' & D4 & D5).
  assert (s3' = s3) as -> by congruence.
  destruct (rounded_keeps _ _ _ _ _ _ _ _ D1) as [I1 I2].
  rewrite H2 by (cbn; now rewrite D5). cbn [c_ink k_fill k_new_path]. rewrite I1, I2, D3.
  assert (M : ctm s2 = ctm s).
  { unfold s2, k_source, k_translate, with_ctm, with_g, k_save, ctm. cbn [c_g g_ctm].
    exact (transform_none (g_ctm (c_g s)) (mid_point r)). }
  rewrite M. reflexivity.
Qed.

(** The radii given by one or two positive numbers are written for SVG, and Cairo uses the
    same ones. *)
Theorem C82_radii_partial : forall rgb_of to_float fmt num_of isfloat r rx ry p s s' c x,
  good_numbers fmt num_of isfloat ->
  (forall v, rx = Some v -> 0 < v /\ isfloat v) -> (forall v, ry = Some v -> 0 < v /\ isfloat v) ->
  rx <> None \/ ry <> None ->
  rgb_of c = Ok x -> c <> [] -> p_bg p = Some c -> p_color p = None ->
  draw_rect rgb_of to_float r rx ry None p s = Ok s' ->
  exists al a b path, element_of (svg_rect fmt r rx ry None p) = Some (pys "rect", al) /\
    svg_radii num_of al = Some (a, b) /\ 0 < a /\ 0 < b /\
    c_ink s' = c_ink s ++ [MFill path x] /\
    path = map (map_seg (ctm s)) (rounded_outline (r_x r) (r_y r) (r_w r) (r_h r)
             (least a (r_w r / 2)) (least b (r_h r / 2))).
Proof.
  intros rgb_of to_float fmt num_of isfloat r rx ry p s s' c x Hf Fx Fy N Ec Nc B C H.
  set (a0 := match rx with Some v => v | None => match ry with Some v => v | None => 0 end end).
  set (b0 := match ry with Some v => v | None => match rx with Some v => v | None => 0 end end).
  assert (P : 0 < a0 /\ 0 < b0).
  { unfold a0, b0. destruct rx as [u|], ry as [v|]; try (destruct (Fx u eq_refl)); try (destruct (Fy v eq_refl)); auto.
    destruct N as [N|N]; now elim N. }
  assert (OA : forall n v, 0 < v -> opt_attr fmt n (Some v) = [attr n (fmt v)]).
  { intros n v V. unfold opt_attr. destruct (req v 0) eqn:E; [apply req_true in E; lra|reflexivity]. }
  assert (NU : forall v, isfloat v -> num_of (fmt v) = Some v) by (intros; now apply Hf).
  assert (AL : exists al, element_of (svg_rect fmt r rx ry None p) = Some (pys "rect", al) /\
               svg_radii num_of al = Some (a0, b0)).
  { unfold svg_rect, a0, b0. destruct rx as [u|], ry as [v|].
    - destruct (Fx u eq_refl), (Fy v eq_refl). rewrite !OA by assumption. eexists. split; [reflexivity|].
      cbn. now rewrite !NU by assumption.
    - destruct (Fx u eq_refl). rewrite !OA by assumption. eexists. split; [reflexivity|].
      cbn. now rewrite !NU by assumption.
    - destruct (Fy v eq_refl). rewrite !OA by assumption. eexists. split; [reflexivity|].
      cbn. now rewrite !NU by assumption.
    - destruct N as [N|N]; now elim N. }
  destruct AL as (al & A1 & A2). exists al, a0, b0. eexists. split; [exact A1|]. split; [exact A2|].
  split; [apply P|]. split; [apply P|]. split; [|reflexivity].
  apply (rounded_fill rgb_of to_float r rx ry a0 b0 p s s' c x); auto.
  - unfold a0. destruct rx, ry; auto. destruct N as [N|N]; now elim N.
  - unfold b0. destruct rx, ry; auto. destruct N as [N|N]; now elim N.
  - left. lra.
Qed.
Print Assumptions C82_radii_partial.

(** With a radius of zero the backends differ: SVG gets only the other radius and uses it
    for both; in Cairo the corners are not rounded at all. *)
Theorem C82_zero_radius_refuted : exists r p s' al path,
  element_of (svg_rect fmt0 r (Some 0) (Some 2) None p) = Some (pys "rect", al) /\
  svg_radii num0 al = Some (2, 2) /\
  draw_rect rgb0 float0 r (Some 0) (Some 2) None p clean = Ok s' /\
  c_ink s' = [MFill path (0, 0, 0)] /\ In (GMove (r_x r, r_y r)) path.
Proof.
  set (p := mkPaint None (Some black) None None).
  exists (mkRect 1 1 4 4), p.
  destruct (C79_total rgb0 float0 (SRect (mkRect 1 1 4 4) (Some 0) (Some 2) None p) clean) as (s' & E & _).
  { split; [|exact I]. split; [|split]; intros c Q; try discriminate. injection Q as <-. exists (0, 0, 0). reflexivity. }
  cbn [draw_shape] in E.
  eexists s', _, _. split; [|split; [|split; [exact E|]]].
  - unfold svg_rect, opt_attr. rewrite req_refl, (reqF 2 0) by lra. reflexivity.
  - cbn. rewrite (proj1 (good0 2 ltac:(unfold isfloat0; auto))). reflexivity.
  - apply (rounded_fill rgb0 float0 _ (Some 0) (Some 2) 0 2 p clean s' black (0, 0, 0)) in E;
      [|reflexivity|reflexivity|right; lra|reflexivity|discriminate|reflexivity|reflexivity].
    rewrite E. split; [reflexivity|]. 
    apply in_map_iff. exists (GMove (1 + least 0 (4 / 2), 1)). split; [|left; reflexivity].
    unfold least. destruct (Rle_dec 0 (4 / 2)); [|lra].
    unfold map_seg, apply; cbn. f_equal. apply f_equal2; ring.
Qed.
Print Assumptions C82_zero_radius_refuted.

Example C82_radii_ex : exists r p s',
  draw_rect rgb0 float0 r (Some 2) None None p clean = Ok s' /\
  svg_radii num0 [(pys "rx", fmt0 2)] = Some (2, 2) /\ p_bg p = Some black /\ p_color p = None /\ isfloat0 2.
Proof.
  set (p := mkPaint None (Some black) None None).
  destruct (C79_total rgb0 float0 (SRect (mkRect 1 1 4 4) (Some 2) None None p) clean) as (s' & E & _).
  { split; [|exact I]. split; [|split]; intros c Q; try discriminate. injection Q as <-. exists (0, 0, 0). reflexivity. }
  exists (mkRect 1 1 4 4), p, s'. split; [exact E|]. split.
  - cbn. rewrite (proj1 (good0 2 ltac:(unfold isfloat0; auto))). reflexivity.
  - split; [reflexivity|]. split; [reflexivity|]. unfold isfloat0; auto.
Qed.
