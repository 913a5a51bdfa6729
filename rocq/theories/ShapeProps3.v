(** Paths that do not start with M: C60. *)
From Coq Require Import List ZArith QArith Reals Bool String Lra.
From Verif Require Import Py PyFacts XmlModel ShapeModel ShapeSpec ShapeProofs ShapeProps.
Import ListNotations.
Open Scope R_scope.

(** A path that starts with a curve is no path of SVG, and nothing is drawn there; Cairo takes
    the origin for its start, and draws the curve from two thirds of the control point. *)
Theorem C60_no_start_refuted : forall cp q, exists s' a b e,
  draw_path rgb0 float0 [(PQ, [cp; q])] (pen None) clean = Ok s' /\
  c_ink s' = [MStroke [GMove a; GCubic a a b e] (0, 0, 0) 2 [] ident] /\
  a = (2 / 3 * fst cp, 2 / 3 * snd cp) /\
  b = ((2 * fst cp + fst q) / 3, (2 * snd cp + snd q) / 3) /\ e = q /\
  svg_path_outline [(PQ, [cp; q])] = None.
Proof.
  intros [x y] [u v].
  unfold draw_path, ctx_scope, fill_stroke_shape, stroke_shape.
  cbn -[req unapply apply width_or_1 draw_quadratic_bezier].
  unfold draw_quadratic_bezier, quad_controls, k_curve_to. cbn -[req apply width_or_1].
  assert (W : width_or_1 (Some 2) = 2) by (cbn; now rewrite reqF by lra).
  eexists _, _, _, _. split; [reflexivity|]. rewrite W. split; [reflexivity|].
  unfold apply, ident. cbn.
  split; [f_equal; field|]. split; [f_equal; field|]. split; [f_equal; field|]. reflexivity.
Qed.
Print Assumptions C60_no_start_refuted.
