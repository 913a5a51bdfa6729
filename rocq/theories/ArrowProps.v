(** Properties C61 and C83: arrows. *)
From Coq Require Import List Reals NArith Bool String Lra Lia.
From Verif Require Import Py PyFacts XmlModel ShapeModel ShapeSpec ShapeProofs.
Import ListNotations.
Local Open Scope R_scope.

(** ** Specification *)

Definition vec (p q : pt) : pt := (fst q - fst p, snd q - snd p).
Definition dot (u v : pt) : R := fst u * fst v + snd u * snd v.
Definition cross (u v : pt) : R := fst u * snd v - snd u * fst v.
Definition dist (p q : pt) : R := sqrt (dot (vec p q) (vec p q)).
Definition times (k : R) (v : pt) : pt := (k * fst v, k * snd v).
Definition plus (u v : pt) : pt := (fst u + fst v, snd u + snd v).
Definition midpoint (p q : pt) : pt := times (1 / 2) (plus p q).
(** On the line through two points. *)
Definition on_line (p q x : pt) : Prop := cross (vec p q) (vec p x) = 0.
(** Mirror images with respect to the line through two points. *)
Definition mirrored (p q x y : pt) : Prop :=
  on_line p q (midpoint x y) /\ dot (vec p q) (vec x y) = 0.

(** ** Proofs *)

Lemma dot_pos : forall p q, 0 <= dot (vec p q) (vec p q).
Proof.
  intros. unfold dot. pose proof (Rle_0_sqr (fst (vec p q))). pose proof (Rle_0_sqr (snd (vec p q))).
  unfold Rsqr in *. lra.
Qed.
Lemma dist_pos : forall p q, p <> q -> 0 < dist p q.
Proof.
  intros [x1 y1] [x2 y2] N. unfold dist. apply sqrt_lt_R0. unfold dot, vec; simpl.
  destruct (Req_dec x1 x2) as [->|X]; [destruct (Req_dec y1 y2) as [->|Y]|].
  - now elim N.
  - assert (0 < (y2 - y1) * (y2 - y1)); [|nra]. destruct (Rtotal_order y1 y2) as [H|[H|H]]; nra.
  - assert (0 < (x2 - x1) * (x2 - x1)).
    { destruct (Rtotal_order x1 x2) as [H|[H|H]]; nra. }
    pose proof (Rle_0_sqr (y2 - y1)) as S. unfold Rsqr in S. lra.
Qed.
Lemma dist_sqr : forall p q, dist p q * dist p q = dot (vec p q) (vec p q).
Proof. intros. unfold dist. apply sqrt_def. apply dot_pos. Qed.
Lemma dist_eq : forall p q d, 0 <= d -> dot (vec p q) (vec p q) = d * d -> dist p q = d.
Proof. intros p q d H E. unfold dist. rewrite E. now apply sqrt_square. Qed.
Lemma segment_len_dist : forall p q, segment_len p q = dist p q.
Proof. reflexivity. Qed.

Lemma resize_form : forall p1 p2 d, p1 <> p2 ->
  segment_resize p1 p2 d = Ok (plus p1 (times (1 + d / dist p1 p2) (vec p1 p2))).
Proof.
  intros p1 p2 d N. pose proof (dist_pos p1 p2 N) as P.
  unfold segment_resize. cbn [segment_delta]. rewrite segment_len_dist.
  destruct (req (dist p1 p2) 0) eqn:E; [apply req_true in E; lra|].
  f_equal. unfold plus, times, vec; simpl. apply f_equal2; ring.
Qed.

(** [atan2] gives the direction. *)
Lemma atan2_spec : forall y x r, 0 < r -> r * r = x * x + y * y ->
  r * sin (atan2 y x) = y /\ r * cos (atan2 y x) = x.
Proof.
  intros y x r Hr E. unfold atan2.
  assert (K : x <> 0 -> sqrt (1 + (y / x)²) = r / Rabs x).
  { intros X. replace (1 + (y / x)²) with ((r / x)²); [|unfold Rsqr; field_simplify_eq; [lra|exact X]].
    rewrite sqrt_Rsqr_abs. unfold Rdiv. rewrite Rabs_mult, Rabs_inv. f_equal. apply Rabs_pos_eq. lra. }
  assert (C : x <> 0 -> r * cos (atan (y / x)) = Rabs x /\ r * sin (atan (y / x)) = y / x * Rabs x).
  { intros X. rewrite cos_atan, sin_atan, (K X).
    assert (Rabs x <> 0) by now apply Rabs_no_R0. split; field; repeat split; auto; lra. }
  destruct (Rlt_dec 0 x) as [H|H].
  - destruct (C ltac:(lra)) as [C1 C2]. rewrite C1, C2, Rabs_pos_eq by lra. split; [field; lra|reflexivity].
  - destruct (Rlt_dec x 0) as [H'|H'].
    + destruct (C ltac:(lra)) as [C1 C2]. rewrite (Rabs_left x H') in *.
      destruct (Rle_dec 0 y).
      * rewrite neg_sin, neg_cos. split; [|lra].
        replace (r * - sin (atan (y / x))) with (- (r * sin (atan (y / x)))) by ring. rewrite C2. field. lra.
      * replace (atan (y / x) - PI) with (- (PI - atan (y / x))) by ring.
        rewrite sin_neg, cos_neg, sin_PI_x. rewrite Rtrigo_facts.cos_pi_minus. split; [|lra].
        replace (r * - sin (atan (y / x))) with (- (r * sin (atan (y / x)))) by ring. rewrite C2. field. lra.
    + assert (x = 0) by lra. subst x.
      destruct (Rlt_dec 0 y) as [Y|Y].
      * rewrite sin_PI2, cos_PI2. assert (r = y) by nra. lra.
      * destruct (Rlt_dec y 0) as [Z|Z].
        -- rewrite sin_neg, cos_neg, sin_PI2, cos_PI2. assert (r = - y) by nra. lra.
        -- assert (y = 0) by lra. subst. nra.
Qed.

(** The wings in terms of the direction of the line: [u] along the line, [n] across. *)
Definition unit_vec (p1 p2 : pt) : pt := times (1 / dist p1 p2) (vec p1 p2).
Definition normal (u : pt) : pt := (snd u, - fst u).
Definition wing (a : arrow) (p1 p2 : pt) (side : R) : pt :=
  plus p2 (plus (times (- a_size a * cos (a_angle a)) (unit_vec p1 p2))
                (times (side * a_size a * sin (a_angle a)) (normal (unit_vec p1 p2)))).

Lemma arrow_points_form : forall a p1 p2 pts, p1 <> p2 -> arrow_points a p1 p2 = Ok pts ->
  exists rest, pts = wing a p1 p2 1 :: p2 :: wing a p1 p2 (-1) :: rest /\
   (rest = [] \/
    exists i, a_inner a = Some i /\ i <> 0 /\ truthy_num (a_stroke a) = false /\
      rest = [plus p2 (times (- i * a_size a * cos (a_angle a)) (unit_vec p1 p2))]).
Proof.
  intros a p1 p2 pts N H. pose proof (dist_pos p1 p2 N) as P.
  unfold arrow_points in H. cbn [segment_delta] in H. destruct p2 as [px py].
  destruct (atan2_spec (fst (px, py) - fst p1) (snd (px, py) - snd p1) (dist p1 (px, py)) P) as [S C].
  { rewrite dist_sqr. unfold dot, vec; simpl. ring. }
  set (d := atan2 _ _) in *. set (r := dist p1 (px, py)) in *.
  assert (Sd : sin d = fst (unit_vec p1 (px, py))).
  { unfold unit_vec, times, vec; simpl. fold r. simpl in S. rewrite <- S. field. lra. }
  assert (Cd : cos d = snd (unit_vec p1 (px, py))).
  { unfold unit_vec, times, vec; simpl. fold r. simpl in C. rewrite <- C. field. lra. }
  assert (W1 : (px + a_size a * sin (d + PI - a_angle a), py + a_size a * cos (d + PI - a_angle a)) =
    wing a p1 (px, py) 1).
  { replace (d + PI - a_angle a) with (d - a_angle a + PI) by ring.
    rewrite neg_sin, neg_cos, sin_minus, cos_minus, Sd, Cd.
    unfold wing, plus, times, normal; simpl. apply f_equal2; ring. }
  assert (W2 : (px + a_size a * sin (d + PI + a_angle a), py + a_size a * cos (d + PI + a_angle a)) =
    wing a p1 (px, py) (-1)).
  { replace (d + PI + a_angle a) with (d + a_angle a + PI) by ring.
    rewrite neg_sin, neg_cos, sin_plus, cos_plus, Sd, Cd.
    unfold wing, plus, times, normal; simpl. apply f_equal2; ring. }
  cbn [segment_delta] in H. unfold d in *. cbn [fst snd] in *.
  rewrite W1, W2 in H.
  destruct (truthy_num (a_inner a) && negb (truthy_num (a_stroke a))) eqn:T.
  - apply andb_true_iff in T as [T1 T2]. apply negb_true_iff in T2.
    destruct (a_inner a) as [i|] eqn:Ei; [|discriminate].
    rewrite resize_form in H by exact N. cbn [rbind] in H. injection H as <-.
    eexists. split; [reflexivity|]. right. exists i.
    split; [reflexivity|]. cbn [truthy_num] in T1. apply negb_true_iff, req_false in T1.
    split; [exact T1|]. split; [exact T2|]. f_equal. fold r.
    unfold unit_vec, plus, times, vec; simpl. fold r. apply f_equal2; field; lra.
  - injection H as <-. eexists. split; [reflexivity|]. now left.
Qed.

Lemma unit_dot : forall p1 p2, p1 <> p2 -> dot (unit_vec p1 p2) (unit_vec p1 p2) = 1.
Proof.
  intros p1 p2 N. pose proof (dist_pos p1 p2 N) as P.
  pose proof (dist_sqr p1 p2) as E. unfold unit_vec. generalize dependent (dist p1 p2). intros r P E.
  generalize dependent (vec p1 p2). intros [x y] E. unfold dot, times in *; simpl in *.
  transitivity ((x * x + y * y) / (r * r)); [field; lra|]. rewrite <- E. field. lra.
Qed.
Lemma vec_unit : forall p1 p2, p1 <> p2 -> vec p1 p2 = times (dist p1 p2) (unit_vec p1 p2).
Proof.
  intros p1 p2 N. pose proof (dist_pos p1 p2 N) as P.
  unfold unit_vec, times; simpl. apply injective_projections; simpl; field; lra.
Qed.

(** ** C61: arrow geometry *)

(** A resized segment starts where it started, keeps its direction and its length changes
    by the given amount, as long as the new length is not negative. *)
Theorem C61_resize_partial : forall p1 p2 d, p1 <> p2 -> 0 <= dist p1 p2 + d ->
  exists q k, segment_resize p1 p2 d = Ok q /\ 0 <= k /\ q = plus p1 (times k (vec p1 p2)) /\
    dist p1 q = dist p1 p2 + d.
Proof.
  intros p1 p2 d N H. pose proof (dist_pos p1 p2 N) as P.
  exists (plus p1 (times (1 + d / dist p1 p2) (vec p1 p2))), (1 + d / dist p1 p2).
  rewrite resize_form by exact N. split; [reflexivity|]. split; [|split; [reflexivity|]].
  - replace (1 + d / dist p1 p2) with ((dist p1 p2 + d) / dist p1 p2) by (field; lra).
    apply Rmult_le_pos; [lra|]. left. now apply Rinv_0_lt_compat.
  - apply dist_eq; [exact H|].
    set (r := dist p1 p2) in *.
    assert (E : r * r = dot (vec p1 p2) (vec p1 p2)) by apply dist_sqr.
    unfold dot, vec, plus, times in *; simpl in *.
    replace (fst p1 + (1 + d / r) * (fst p2 - fst p1) - fst p1)
      with ((1 + d / r) * (fst p2 - fst p1)) by ring.
    replace (snd p1 + (1 + d / r) * (snd p2 - snd p1) - snd p1)
      with ((1 + d / r) * (snd p2 - snd p1)) by ring.
    replace ((1 + d / r) * (fst p2 - fst p1) * ((1 + d / r) * (fst p2 - fst p1)) +
             (1 + d / r) * (snd p2 - snd p1) * ((1 + d / r) * (snd p2 - snd p1)))
      with ((1 + d / r) * (1 + d / r) *
            ((fst p2 - fst p1) * (fst p2 - fst p1) + (snd p2 - snd p1) * (snd p2 - snd p1))) by ring.
    rewrite <- E. field. lra.
Qed.
Print Assumptions C61_resize_partial.
Example C61_resize_ex : exists q k, segment_resize (0, 0) (3, 4) (-1) = Ok q /\ 0 <= k /\
  q = plus (0, 0) (times k (vec (0, 0) (3, 4))) /\ dist (0, 0) q = dist (0, 0) (3, 4) + -1.
Proof.
  apply C61_resize_partial; [intros E; injection E; lra|].
  rewrite (dist_eq (0, 0) (3, 4) 5); [lra|lra|]. unfold dot, vec; simpl. ring.
Qed.

(** A segment without length cannot be resized; one that is shortened by more than its
    length turns around. *)
Theorem C61_resize_refuted :
  (forall p d, segment_resize p p d = Err EZeroDivision) /\
  exists p1 p2 d q, p1 <> p2 /\ segment_resize p1 p2 d = Ok q /\
    dot (vec p1 p2) (vec p1 q) < 0 /\ dist p1 q <> dist p1 p2 + d.
Proof.
  split.
  - intros p d. unfold segment_resize. cbn [segment_delta]. rewrite segment_len_dist.
    replace (dist p p) with 0; [now rewrite req_refl|].
    symmetry. apply dist_eq; [lra|]. unfold dot, vec; simpl. ring.
  - assert (D : dist (0, 0) (1, 0) = 1) by (apply dist_eq; [lra|unfold dot, vec; simpl; ring]).
    exists (0, 0), (1, 0), (-2), (-1, 0). assert (N : (0, 0) <> (1, 0)) by (intros E; injection E; lra).
    split; [exact N|]. rewrite resize_form by exact N. rewrite D.
    split; [f_equal; unfold plus, times, vec; simpl; apply f_equal2; field|].
    split; [unfold dot, vec; simpl; lra|].
    pose proof (sqrt_pos (dot (vec (0, 0) (-1, 0)) (vec (0, 0) (-1, 0)))) as S. unfold dist at 1. lra.
Qed.
Print Assumptions C61_resize_refuted.

(** The head of an arrow from [p1] to [p2]: two wings and the tip.  The wings are as long
    as the size, form the given angle with the line, one on each side, and are mirror
    images. *)
Theorem C61_wings : forall a p1 p2 pts, p1 <> p2 -> 0 <= a_size a ->
  arrow_points a p1 p2 = Ok pts ->
  exists w1 w2 rest, pts = w1 :: p2 :: w2 :: rest /\
    dist p2 w1 = a_size a /\ dist p2 w2 = a_size a /\ mirrored p1 p2 w1 w2 /\
    dot (vec p2 w1) (vec p2 p1) = a_size a * dist p1 p2 * cos (a_angle a) /\
    cross (vec p2 w1) (vec p2 p1) = - (a_size a * dist p1 p2 * sin (a_angle a)) /\
    cross (vec p2 w2) (vec p2 p1) = a_size a * dist p1 p2 * sin (a_angle a).
Proof.
  intros a p1 p2 pts N S H.
  destruct (arrow_points_form a p1 p2 pts N H) as (rest & -> & _).
  exists (wing a p1 p2 1), (wing a p1 p2 (-1)), rest. split; [reflexivity|].
  pose proof (unit_dot p1 p2 N) as U. pose proof (vec_unit p1 p2 N) as V.
  assert (V' : vec p2 p1 = times (- dist p1 p2) (unit_vec p1 p2)).
  { transitivity (times (-1) (vec p1 p2)).
    - unfold vec, times; simpl. apply f_equal2; ring.
    - rewrite V. unfold times; simpl. apply f_equal2; ring. }
  set (u := unit_vec p1 p2) in *. set (r := dist p1 p2) in *. set (z := a_size a) in *.
  pose proof (sin2_cos2 (a_angle a)) as T. unfold Rsqr in T.
  set (c := cos (a_angle a)) in *. set (n := sin (a_angle a)) in *.
  assert (W : forall side, vec p2 (wing a p1 p2 side) =
            (- z * c * fst u + side * z * n * snd u, - z * c * snd u - side * z * n * fst u)).
  { intros side. unfold wing. fold u z c n. unfold vec, plus, times, normal; simpl.
    apply f_equal2; ring. }
  clearbody u r z c n.
  unfold dot in U.
  assert (U1 : fst u * fst u = 1 - snd u * snd u) by lra.
  assert (T1 : c * c = 1 - n * n) by lra.
  assert (DD : forall side, side * side = 1 -> dot (vec p2 (wing a p1 p2 side)) (vec p2 (wing a p1 p2 side)) = z * z).
  { intros side Q. rewrite W. unfold dot; simpl.
    transitivity (z * z * (c * c + side * side * (n * n)) * (fst u * fst u + snd u * snd u)); [ring|].
    rewrite Q, U. replace (c * c + 1 * (n * n)) with 1 by lra. ring. }
  split; [apply dist_eq; [exact S|apply DD; ring]|].
  split; [apply dist_eq; [exact S|apply DD; ring]|].
  split.
  { split.
    - unfold on_line. rewrite V.
      replace (vec p1 (midpoint (wing a p1 p2 1) (wing a p1 p2 (-1))))
        with (times (r - z * c) u).
      + unfold cross, times; simpl. ring.
      + transitivity (plus (vec p1 p2) (times (1 / 2) (plus (vec p2 (wing a p1 p2 1)) (vec p2 (wing a p1 p2 (-1)))))).
        * rewrite !W, V. unfold plus, times; simpl. apply f_equal2; field.
        * generalize (wing a p1 p2 1), (wing a p1 p2 (-1)). intros [? ?] [? ?]. 
          unfold midpoint, vec, plus, times; simpl. apply f_equal2; field.
    - rewrite V. replace (vec (wing a p1 p2 1) (wing a p1 p2 (-1))) with (times (-2 * z * n) (normal u)).
      + unfold dot, times, normal; simpl. ring.
      + transitivity (plus (times (-1) (vec p2 (wing a p1 p2 1))) (vec p2 (wing a p1 p2 (-1)))).
        * rewrite !W. unfold plus, times, normal; simpl. apply f_equal2; ring.
        * generalize (wing a p1 p2 1), (wing a p1 p2 (-1)). intros [? ?] [? ?]. 
          unfold vec, plus, times; simpl. apply f_equal2; ring. }
  rewrite V', !W. unfold dot, cross, times; simpl.
  split; [|split].
  - transitivity (z * r * c * (fst u * fst u + snd u * snd u)); [ring|]. rewrite U. ring.
  - transitivity (- (z * r * n * (fst u * fst u + snd u * snd u))); [ring|]. rewrite U. ring.
  - transitivity (z * r * n * (fst u * fst u + snd u * snd u)); [ring|]. rewrite U. ring.
Qed.
Print Assumptions C61_wings.
Example C61_wings_ex : exists w1 w2 rest,
  arrow_points (new_arrow 10 40 None None) (1, 2) (4, 6) = Ok (w1 :: (4, 6) :: w2 :: rest) /\
  dist (4, 6) w1 = 10 /\ mirrored (1, 2) (4, 6) w1 w2.
Proof.
  assert (N : (1, 2) <> (4, 6)) by (intros E; injection E; lra).
  destruct (C61_wings (new_arrow 10 40 None None) (1, 2) (4, 6) _ N ltac:(simpl; lra) eq_refl)
    as (w1 & w2 & rest & E & D1 & D2 & M & _).
  exists w1, w2, rest. split; [exact (f_equal Ok E)|]. split; [exact D1|exact M].
Qed.

(** The angle is given in degrees: a full turn has 360.  So with 60 degrees the wings reach back
    by half of their length, with 90 degrees they are at right angles to the line. *)
Theorem C61_degrees : forall size deg stroke inner p1 p2 pts, p1 <> p2 -> 0 <= size ->
  arrow_points (new_arrow size deg stroke inner) p1 p2 = Ok pts ->
  exists w1 w2 rest, pts = w1 :: p2 :: w2 :: rest /\
    dist p2 w1 = size /\ dist p2 w2 = size /\
    dot (vec p2 w1) (vec p2 p1) = size * dist p1 p2 * cos (2 * PI * (deg / 360)) /\
    dot (vec p2 w2) (vec p2 p1) = size * dist p1 p2 * cos (2 * PI * (deg / 360)) /\
    cross (vec p2 w1) (vec p2 p1) = - (size * dist p1 p2 * sin (2 * PI * (deg / 360))) /\
    cross (vec p2 w2) (vec p2 p1) = size * dist p1 p2 * sin (2 * PI * (deg / 360)) /\
    (deg = 60 -> dot (vec p2 w1) (vec p2 p1) = size * dist p1 p2 / 2) /\
    (deg = 90 -> dot (vec p2 w1) (vec p2 p1) = 0).
Proof.
  intros size deg stroke inner p1 p2 pts N Z H.
  destruct (C61_wings (new_arrow size deg stroke inner) p1 p2 pts N Z H) as (w1 & w2 & rest & E & D1 & D2 & (_ & Mi) & A & B & C).
  cbn [new_arrow a_size a_angle] in *.
  replace (2 * PI * (deg / 360)) with (deg * PI / 180) by field.
  exists w1, w2, rest. repeat (split; [assumption|]). split.
  { rewrite <- A. unfold dot, vec in *. cbn [fst snd] in *. lra. }
  split; [exact B|]. split; [exact C|]. split; intros ->; rewrite A.
  - replace (60 * PI / 180) with (PI / 3) by field. rewrite cos_PI3. field.
  - replace (90 * PI / 180) with (PI / 2) by field. rewrite cos_PI2. ring.
Qed.
Print Assumptions C61_degrees.
Example C61_degrees_ex : exists w1 w2 rest,
  arrow_points (new_arrow 10 90 None None) (1, 2) (4, 6) = Ok (w1 :: (4, 6) :: w2 :: rest) /\
  dist (4, 6) w1 = 10 /\ dot (vec (4, 6) w1) (vec (4, 6) (1, 2)) = 0.
Proof.
  assert (N : (1, 2) <> (4, 6)) by (intros E; injection E; lra).
  destruct (C61_degrees 10 90 None None (1, 2) (4, 6) _ N ltac:(lra) eq_refl)
    as (w1 & w2 & rest & E & D1 & D2 & _ & _ & _ & _ & _ & D).
  exists w1, w2, rest. split; [exact (f_equal Ok E)|]. auto.
Qed.

(** With [inner] there is a fourth point on the line, behind the tip; for 1 it is the middle
    of the wings. *)
Theorem C61_inner : forall a p1 p2 i, p1 <> p2 -> a_inner a = Some i -> i <> 0 ->
  truthy_num (a_stroke a) = false ->
  exists w1 w2 q, arrow_points a p1 p2 = Ok [w1; p2; w2; q] /\
    vec p2 q = times i (vec p2 (midpoint w1 w2)) /\ on_line p1 p2 q.
Proof.
  intros a p1 p2 i N Ei Ni Ts.
  assert (X : exists pts, arrow_points a p1 p2 = Ok pts /\ List.length pts = 4%nat).
  { unfold arrow_points. destruct (segment_delta p1 p2) as [dx dy]. destruct p2 as [px py].
    rewrite Ei, Ts. cbn [truthy_num]. destruct (req i 0) eqn:E; [now apply req_true in E|].
    cbn [negb andb]. rewrite resize_form by exact N. cbn [rbind]. eexists. split; reflexivity. }
  destruct X as (pts & E & L).
  destruct (arrow_points_form a p1 p2 pts N E) as (rest & -> & [->|(j & J1 & _ & _ & ->)]);
    [discriminate L|].
  assert (j = i) as -> by congruence.
  exists (wing a p1 p2 1), (wing a p1 p2 (-1)). eexists. split; [exact E|].
  split.
  - unfold wing. generalize (unit_vec p1 p2). intros [ux uy].
    unfold midpoint, vec, plus, times, normal; simpl. apply f_equal2; field.
  - unfold on_line. pose proof (vec_unit p1 p2 N) as V.
    set (q := plus p2 _).
    replace (vec p1 q) with (times (dist p1 p2 - i * a_size a * cos (a_angle a)) (unit_vec p1 p2)).
    + rewrite V. unfold cross, times; simpl. ring.
    + transitivity (plus (vec p1 p2) (vec p2 q)).
      * rewrite V. unfold q, vec, plus, times; simpl. apply f_equal2; ring.
      * unfold vec, plus; simpl. apply f_equal2; ring.
Qed.
Print Assumptions C61_inner.
Example C61_inner_ex : exists w1 w2 q,
  arrow_points (new_arrow 10 40 None (Some 1)) (0, 0) (5, 0) = Ok [w1; (5, 0); w2; q] /\
  q = midpoint w1 w2.
Proof.
  destruct (C61_inner (new_arrow 10 40 None (Some 1)) (0, 0) (5, 0) 1) as (w1 & w2 & q & E & V & _);
    try reflexivity; [intros H; injection H; lra|lra|].
  exists w1, w2, q. split; [exact E|].
  unfold vec, times in V; simpl in V. injection V as V1 V2.
  destruct q as [qx qy]. simpl in *. apply injective_projections; simpl; lra.
Qed.

(** The end of a line under an arrow head: on the line, half way between the tip and the
    middle of the wings; for an outlined head, half the width of its stroke behind the tip. *)
Theorem C61_end_point : forall a p1 p2, p1 <> p2 -> exists q,
  move_end_point a p1 p2 = Ok q /\
  (truthy_num (a_stroke a) = false ->
   exists w1 w2 rest, arrow_points a p1 p2 = Ok (w1 :: p2 :: w2 :: rest) /\
     q = midpoint p2 (midpoint w1 w2)) /\
  (forall w, a_stroke a = Some w -> w <> 0 -> vec p2 q = times (- (w / 2) / dist p1 p2) (vec p1 p2)).
Proof.
  intros a p1 p2 N. pose proof (dist_pos p1 p2 N) as P. unfold move_end_point. cbv zeta.
  rewrite resize_form by exact N. eexists. split; [reflexivity|]. split.
  - intros T. rewrite T. cbn [negb].
    assert (X : exists pts, arrow_points a p1 p2 = Ok pts).
    { unfold arrow_points. destruct (segment_delta p1 p2) as [dx dy]. destruct p2 as [px py].
      destruct (_ && _); [|eauto]. destruct (a_inner a); [|eauto].
      rewrite resize_form by exact N. cbn [rbind]. eauto. }
    destruct X as (pts & E). destruct (arrow_points_form a p1 p2 pts N E) as (rest & -> & _).
    exists (wing a p1 p2 1), (wing a p1 p2 (-1)), rest. split; [exact E|].
    unfold wing, midpoint, unit_vec, vec, plus, times, normal; simpl.
    apply f_equal2; field; lra.
  - intros w Ew W. rewrite Ew. cbn [truthy_num].
    destruct (req w 0) eqn:Z; [now apply req_true in Z|]. cbn [negb].
    unfold vec, plus, times; simpl. apply f_equal2; field; lra.
Qed.
Print Assumptions C61_end_point.
Example C61_end_point_ex : exists q w1 w2 rest,
  move_end_point (new_arrow 10 40 None None) (0, 0) (50, 20) = Ok q /\
  arrow_points (new_arrow 10 40 None None) (0, 0) (50, 20) = Ok (w1 :: (50, 20) :: w2 :: rest) /\
  q = midpoint (50, 20) (midpoint w1 w2).
Proof.
  destruct (C61_end_point (new_arrow 10 40 None None) (0, 0) (50, 20)) as (q & E & H & _);
    [intros H; injection H; lra|].
  destruct (H eq_refl) as (w1 & w2 & rest & E2 & Q). exists q, w1, w2, rest. auto.
Qed.

(** A line with arrows: only its ends move, each along its own end segment. *)
Theorem C61_line : forall p0 p1 l y z sa ea q,
  (exists k, (p0 :: p1 :: l) = k ++ [y; z]) ->
  shorten_line (p0 :: p1 :: l) sa ea = Ok q ->
  exists b e, List.length q = List.length (p0 :: p1 :: l) /\
    nth_error q 0 = Some b /\ last_opt q = Some e /\
    (forall n, (0 < n < S (List.length l))%nat -> nth_error q n = nth_error (p0 :: p1 :: l) n) /\
    match sa with None => b = p0 | Some a => move_end_point a p1 p0 = Ok b end /\
    match ea with None => e = z | Some a => move_end_point a y z = Ok e end.
Proof.
  intros p0 p1 l y z sa ea q (k & K) H. unfold shorten_line in H.
  apply bind_ok in H as (q1 & H1 & H).
  assert (L2 : forall A (m : list A) u v, last_opt (m ++ [u; v]) = Some v /\
                 removelast (m ++ [u; v]) = m ++ [u] /\ last_opt (m ++ [u]) = Some u).
  { intros A m u v. assert (LO : forall w (x : A), last_opt (w ++ [x]) = Some x).
    { induction w as [|c [|c' w] IH]; intros x; [reflexivity|reflexivity|]. exact (IH x). }
    split; [|split; [|apply LO]].
    - change [u; v] with ([u] ++ [v]). rewrite app_assoc. apply LO.
    - change [u; v] with ([u] ++ [v]). rewrite app_assoc, removelast_last. reflexivity. }
  assert (Q1 : exists b, q1 = b :: p1 :: l /\ match sa with None => b = p0 | Some a => move_end_point a p1 p0 = Ok b end).
  { destruct sa as [a|].
    - apply bind_ok in H1 as (m & M & H1). injection H1 as <-. eauto.
    - injection H1 as <-. eauto. }
  destruct Q1 as (b & -> & B).
  assert (SL : forall (e : pt) m x, exists m' x', x :: m = m' ++ [x'] /\ set_last (x :: m) e = m' ++ [e]).
  { intros e m. induction m as [|c m IH]; intros x.
    - exists [], x. now split.
    - destruct (IH c) as (m' & x' & E1 & E2). exists (x :: m'), x'. split; [now rewrite E1|].
      change (set_last (x :: c :: m) e) with (x :: set_last (c :: m) e). now rewrite E2. }
  destruct ea as [a|].
  - rewrite K in H. destruct (L2 pt k y z) as (A1 & A2 & A3).
    unfold last_or in H. rewrite A1, A2, A3 in H. cbn [rbind] in H.
    apply bind_ok in H as (e & E & H).
    destruct (SL e l p1) as (m' & x' & E1 & E2).
    assert (E3 : set_last (b :: p1 :: l) e = b :: m' ++ [e]).
    { change (set_last (b :: p1 :: l) e) with (b :: set_last (p1 :: l) e). now rewrite E2. }
    rewrite E3 in H. assert (q = b :: m' ++ [e]) as -> by congruence.
    assert (Lm : List.length m' = List.length l).
    { apply (f_equal (@List.length pt)) in E1. rewrite app_length in E1. simpl in E1. lia. }
    exists b, e. split; [simpl; rewrite app_length, Lm; simpl; lia|].
    split; [reflexivity|]. split.
    { destruct (L2 pt (b :: m') e e) as (_ & _ & X). exact X. }
    split; [|split; [exact B|exact E]].
    intros n [N1 N2]. destruct n as [|n]; [lia|]. cbn [nth_error]. rewrite E1.
    rewrite !nth_error_app1 by lia. reflexivity.
  - injection H as <-. exists b, z.
    split; [reflexivity|]. split; [reflexivity|]. split.
    { destruct k as [|k0 k]; [injection K as -> -> ->; reflexivity|]. injection K as -> K.
      destruct (L2 pt (b :: k) y z) as (X & _). cbn [app] in X. rewrite K. exact X. }
    split; [|split; [exact B|reflexivity]].
    intros n [N1 N2]. destruct n as [|n]; [lia|]. reflexivity.
Qed.
Print Assumptions C61_line.
Example C61_line_ex : exists b e,
  shorten_line [(0, 0); (50, 20); (90, 20)] (Some (new_arrow 10 40 None None)) (Some (new_arrow 8 40 None None))
    = Ok [b; (50, 20); e] /\
  move_end_point (new_arrow 10 40 None None) (50, 20) (0, 0) = Ok b /\
  move_end_point (new_arrow 8 40 None None) (50, 20) (90, 20) = Ok e.
Proof.
  destruct (C61_end_point (new_arrow 10 40 None None) (50, 20) (0, 0)) as (b & B & _);
    [intros H; injection H; lra|].
  destruct (C61_end_point (new_arrow 8 40 None None) (50, 20) (90, 20)) as (e & E & _);
    [intros H; injection H; lra|].
  exists b, e. split; [|split; [exact B|exact E]].
  unfold shorten_line. rewrite B. cbn [rbind]. simpl. rewrite E. reflexivity.
Qed.

(** ** C83: the arrow at the end of a path *)

(** The direction in which a piece of an outline ends: its derivative at the end. *)
Definition end_direction (g : seg) (v : pt) : Prop :=
  derivable_pt_lim (fun t => fst (seg_at g t)) 1 (fst v) /\
  derivable_pt_lim (fun t => snd (seg_at g t)) 1 (snd v).

Lemma lin_der : forall (f g : R -> R) a b, derivable_pt_lim f 1 a -> derivable_pt_lim g 1 b ->
  derivable_pt_lim (fun t => lin (f t) (g t) t) 1 (g 1 - f 1 + b).
Proof.
  intros f g a b F G. unfold lin.
  replace (g 1 - f 1 + b) with ((0 - 1) * f 1 + (1 - 1) * a + (1 * g 1 + 1 * b)) by ring.
  apply derivable_pt_lim_plus.
  - apply (derivable_pt_lim_mult (fun t => 1 - t) f); [|exact F].
    apply (derivable_pt_lim_minus (fct_cte 1) id); [apply derivable_pt_lim_const|apply derivable_pt_lim_id].
  - apply (derivable_pt_lim_mult id g); [apply derivable_pt_lim_id|exact G].
Qed.
Lemma end_cubic : forall p a b q, end_direction (GCubic p a b q) (times 3 (vec b q)).
Proof.
  assert (K : forall x, derivable_pt_lim (fun _ => x) 1 0) by (intros; apply derivable_pt_lim_const).
  assert (L : forall x y, derivable_pt_lim (lin x y) 1 (y - x)).
  { intros x y. replace (y - x) with (y - x + 0) by ring. apply (lin_der (fun _ => x) (fun _ => y) 0 0); apply K. }
  assert (E1 : forall x y, lin x y 1 = y) by (intros; unfold lin; ring).
  assert (Q : forall x c y, derivable_pt_lim (fun t => lin (lin x c t) (lin c y t) t) 1 (2 * (y - c))).
  { intros x c y. replace (2 * (y - c)) with (lin c y 1 - lin x c 1 + (y - c)) by (rewrite !E1; ring).
    apply (lin_der (lin x c) (lin c y) (c - x) (y - c)); apply L. }
  intros p a b q. split; simpl.
  - replace (3 * (fst q - fst b)) with
      (lin (lin (fst a) (fst b) 1) (lin (fst b) (fst q) 1) 1 -
       lin (lin (fst p) (fst a) 1) (lin (fst a) (fst b) 1) 1 + 2 * (fst q - fst b)) by (rewrite !E1; ring).
    apply (lin_der (fun t => lin (lin (fst p) (fst a) t) (lin (fst a) (fst b) t) t)
                   (fun t => lin (lin (fst a) (fst b) t) (lin (fst b) (fst q) t) t) (2 * (fst b - fst a)) (2 * (fst q - fst b)));
      apply Q.
  - replace (3 * (snd q - snd b)) with
      (lin (lin (snd a) (snd b) 1) (lin (snd b) (snd q) 1) 1 -
       lin (lin (snd p) (snd a) 1) (lin (snd a) (snd b) 1) 1 + 2 * (snd q - snd b)) by (rewrite !E1; ring).
    apply (lin_der (fun t => lin (lin (snd p) (snd a) t) (lin (snd a) (snd b) t) t)
                   (fun t => lin (lin (snd a) (snd b) t) (lin (snd b) (snd q) t) t) (2 * (snd b - snd a)) (2 * (snd q - snd b)));
      apply Q.
Qed.
Lemma end_quad : forall p c q, end_direction (GQuad p c q) (times 2 (vec c q)).
Proof.
  assert (K : forall x, derivable_pt_lim (fun _ => x) 1 0) by (intros; apply derivable_pt_lim_const).
  assert (L : forall x y, derivable_pt_lim (lin x y) 1 (y - x)).
  { intros x y. replace (y - x) with (y - x + 0) by ring. apply (lin_der (fun _ => x) (fun _ => y) 0 0); apply K. }
  assert (E1 : forall x y, lin x y 1 = y) by (intros; unfold lin; ring).
  assert (Q : forall x c y, derivable_pt_lim (fun t => lin (lin x c t) (lin c y t) t) 1 (2 * (y - c))).
  { intros x c y. replace (2 * (y - c)) with (lin c y 1 - lin x c 1 + (y - c)) by (rewrite !E1; ring).
    apply (lin_der (lin x c) (lin c y) (c - x) (y - c)); apply L. }
  intros p c q. split; simpl; apply Q.
Qed.

(** The last piece of an outline. *)
Definition ends_with (c : simple) (g : seg) : Prop :=
  match c with
  | ToM _ => False
  | ToL p => exists q, g = GLine q p
  | ToC a b p => exists q, g = GCubic q a b p
  | ToS b p => exists q a, g = GCubic q a b p
  | ToQ k p => exists q, g = GQuad q k p
  | ToT p => exists q k, g = GQuad q k p
  end.
Lemma outline_last : forall l c cur fresh cub quad,
  (forall p, c <> ToM p) -> (cur <> None \/ exists p l', l = ToM p :: l') ->
  exists o g, path_outline cur fresh cub quad (l ++ [c]) = Some (o ++ [g]) /\ ends_with c g.
Proof.
  induction l as [|d l IH]; intros c cur fresh cub quad N H.
  - destruct cur as [q|]; [|destruct H as [H|(p & l' & H)]; [now elim H|discriminate]].
    cbn [app path_outline]. destruct c; [elim (N p); reflexivity|..]; cbn [option_map ends_with];
      eexists _, _; (split; [reflexivity|]); eauto.
  - assert (M : forall p, exists o g, path_outline (Some p) true None None (l ++ [c]) = Some (o ++ [g]) /\ ends_with c g).
    { intros p. apply IH; [exact N|left; discriminate]. }
    destruct cur as [q|].
    + cbn [app path_outline]. destruct d; [apply M|..];
        match goal with |- exists o g, option_map ?f (path_outline (Some ?u) ?v ?w ?x _) = _ /\ _ =>
          assert (Nu : Some u <> None) by discriminate;
          destruct (IH c (Some u) v w x N (or_introl Nu)) as (o & g & Eo & E); rewrite Eo end;
        cbn [option_map];
        match goal with |- exists _ _, Some (?st ++ ?gx :: _) = _ /\ _ => exists (st ++ gx :: o), g end;
        (split; [|exact E]); rewrite <- app_assoc; reflexivity.
    + destruct H as [H|(p & l' & H)]; [now elim H|]. injection H as -> ->.
      cbn [app path_outline]. apply M.
Qed.

Lemma expand_app : forall a b la lb, expand a = Some la -> expand b = Some lb ->
  expand (a ++ b) = Some (la ++ lb).
Proof.
  induction a as [|c a IH]; intros b la lb A B.
  - injection A as <-. exact B.
  - cbn [app expand] in *. destruct (expand1 c); [|discriminate].
    destruct (expand a) as [l'|]; [|discriminate]. injection A as <-.
    rewrite (IH b l' lb eq_refl B). now rewrite app_assoc.
Qed.
Lemma expand_total : forall cs, Forall exact_arity cs -> exists l, expand cs = Some l.
Proof.
  induction 1 as [|[n ps] cs H F [l E]]; [now exists []|].
  unfold exact_arity in H. cbn [fst snd] in H. cbn [expand]. rewrite E.
  destruct n; cbn [nargs] in H; destruct ps as [|x1 [|x2 [|x3 [|x4 ps]]]]; try discriminate; cbn; eauto.
Qed.

(** How far the drawn line ends before the tip. *)
Definition depth (a : arrow) : R :=
  if truthy_num (a_stroke a) then match a_stroke a with Some w => w / 2 | None => 0 end
  else a_size a * cos (a_angle a) / 2.

Lemma last_or_app : forall A (l : list A) x, last_or (l ++ [x]) = Ok x.
Proof.
  intros A l x. unfold last_or. replace (last_opt (l ++ [x])) with (Some x); [reflexivity|].
  induction l as [|a [|b l] IH]; [reflexivity|reflexivity|]. exact IH.
Qed.

(** A path that ends with a curve with its own control point (C, S or Q): the tip of the
    arrow is the end of the path; the path is shortened along its end direction, and then
    ends in the direction in which the arrow points. *)
Theorem C83_direction_partial : forall p0 rest n ps a cs' p1 p2,
  Forall exact_arity ((PM, [p0]) :: rest ++ [(n, ps)]) -> n = PC \/ n = PS \/ n = PQ ->
  shorten_path ((PM, [p0]) :: rest ++ [(n, ps)]) a = Ok (cs', (p1, p2)) -> p1 <> p2 ->
  exists ps0 q o g k, ps = ps0 ++ [p2] /\ cs' = (PM, [p0]) :: rest ++ [(n, ps0 ++ [q])] /\
    vec p2 q = times (- (depth a / dist p1 p2)) (vec p1 p2) /\
    svg_path_outline cs' = Some (o ++ [g]) /\ seg_at g 1 = q /\
    end_direction g (times k (vec p1 p2)) /\ (depth a < dist p1 p2 -> 0 < k).
Proof.
  intros p0 rest n ps a cs' p1 p2 A Hn H N. pose proof (dist_pos p1 p2 N) as P.
  assert (R : forall X (x : X) l y, removelast (x :: l ++ [y]) = x :: l).
  { intros X x l y. change (x :: l ++ [y]) with ((x :: l) ++ [y]). apply removelast_last. }
  assert (An : exact_arity (n, ps)).
  { rewrite Forall_forall in A. apply A. right. apply in_or_app. right. now left. }
  assert (Ar : Forall exact_arity ((PM, [p0]) :: rest)).
  { apply Forall_forall. intros c Hc. rewrite Forall_forall in A. apply A.
    destruct Hc as [<-|Hc]; [now left|right; apply in_or_app; now left]. }
  unfold exact_arity in An. cbn [fst snd] in An.
  assert (L : forall x, last_or ((PM, [p0]) :: rest ++ [x]) = Ok x).
  { intros x. change ((PM, [p0]) :: rest ++ [x]) with (((PM, [p0]) :: rest) ++ [x]). apply last_or_app. }
  (* the points of the end of the path *)
  assert (PP : exists pre, ps = pre ++ [p1; p2] /\ exists m, move_end_point a p1 p2 = Ok m /\
             cs' = (PM, [p0]) :: rest ++ [(n, (pre ++ [p1]) ++ [m])]).
  { unfold shorten_path, path_points_for_end_arrow in H. rewrite L in H. cbn [rbind] in H.
    assert (XX : exists pre u v, ps = pre ++ [u; v]).
    { destruct Hn as [->|[->| ->]]; cbn [nargs] in An.
      - destruct ps as [|x [|y [|z [|? ?]]]]; try discriminate. now exists [x], y, z.
      - destruct ps as [|y [|z [|? ?]]]; try discriminate. now exists [], y, z.
      - destruct ps as [|y [|z [|? ?]]]; try discriminate. now exists [], y, z. }
    destruct XX as (pre & u & v & ->). exists pre.
    assert (E1 : removelast (pre ++ [u; v]) = pre ++ [u]).
    { change [u; v] with ([u] ++ [v]). now rewrite app_assoc, removelast_last. }
    assert (E2 : last_or (pre ++ [u; v]) = Ok v).
    { change [u; v] with ([u] ++ [v]). rewrite app_assoc. apply last_or_app. }
    assert (E3 : match n with PM | PL => true | _ => false end = false)
      by (destruct Hn as [->|[->| ->]]; reflexivity).
    rewrite E3 in H.
    assert (E4 : Nat.leb 2 (List.length (pre ++ [u; v])) = true).
    { apply Nat.leb_le. rewrite app_length. simpl. lia. }
    rewrite E4, E1, last_or_app, E2 in H. cbn [rbind fst snd] in H.
    apply bind_ok in H as (m & M & H). unfold path_update_end_point in H. rewrite L in H.
    cbn [rbind] in H. apply bind_ok in H as (cs2 & H2 & H). injection H as -> -> ->.
    split; [reflexivity|]. exists m. split; [exact M|].
    assert (G : forall (X : result (list cmd)) (w : list pt), w <> [] ->
              match w with [] => Err EIndex | _ :: _ => X end = X) by (intros X [|]; [intros Q; now elim Q|reflexivity]).
    rewrite G in H2 by (now destruct pre). rewrite E1, R in H2. injection H2 as <-. reflexivity. }
  destruct PP as (pre & -> & m & M & ->).
  exists (pre ++ [p1]), m.
  assert (Mq : m = plus p1 (times (1 - depth a / dist p1 p2) (vec p1 p2))).
  { unfold move_end_point in M. cbv zeta in M. rewrite resize_form in M by exact N.
    injection M as <-. unfold depth. destruct (truthy_num (a_stroke a)); cbn [negb];
      unfold plus, times; apply f_equal2; simpl; field; lra. }
  assert (V1 : vec p1 m = times (1 - depth a / dist p1 p2) (vec p1 p2)).
  { rewrite Mq. unfold vec, plus, times; simpl. apply f_equal2; ring. }
  assert (V2 : vec p2 m = times (- (depth a / dist p1 p2)) (vec p1 p2)).
  { rewrite Mq. unfold vec, plus, times; simpl. apply f_equal2; ring. }
  assert (Hk : forall z, 0 < z -> depth a < dist p1 p2 -> 0 < z * (1 - depth a / dist p1 p2)).
  { intros z Z D. apply Rmult_lt_0_compat; [exact Z|].
    replace (1 - depth a / dist p1 p2) with ((dist p1 p2 - depth a) / dist p1 p2) by (field; lra).
    apply Rmult_lt_0_compat; [lra|now apply Rinv_0_lt_compat]. }
  assert (TT : forall z, times z (vec p1 m) = times (z * (1 - depth a / dist p1 p2)) (vec p1 p2)).
  { intros z. rewrite V1. unfold times; simpl. apply f_equal2; ring. }
  (* the outline *)
  assert (S1 : exists c, expand [(n, (pre ++ [p1]) ++ [m])] = Some [c] /\ (forall p, c <> ToM p) /\
    (forall g, ends_with c g -> exists k, seg_at g 1 = m /\ end_direction g (times k (vec p1 p2)) /\
         (depth a < dist p1 p2 -> 0 < k))).
  { assert (B3 : forall q x, bez3 q x p1 m 1 = m).
    { intros q x. unfold bez3, bez2, mix, lin; simpl. apply injective_projections; simpl; ring. }
    assert (B2 : forall q, bez2 q p1 m 1 = m).
    { intros q. unfold bez2, mix, lin; simpl. apply injective_projections; simpl; ring. }
    destruct Hn as [->|[->| ->]]; cbn [nargs] in An.
    - destruct pre as [|x [|? pre]]; [discriminate| |exfalso; rewrite app_length in An; simpl in An; lia].
      exists (ToC x p1 m). split; [reflexivity|]. split; [discriminate|].
      intros g (q & ->). exists (3 * (1 - depth a / dist p1 p2)).
      split; [apply B3|]. split; [|apply Hk; lra]. rewrite <- TT. apply end_cubic.
    - destruct pre as [|x pre]; [|exfalso; rewrite app_length in An; simpl in An; lia].
      exists (ToS p1 m). split; [reflexivity|]. split; [discriminate|].
      intros g (q & y & ->). exists (3 * (1 - depth a / dist p1 p2)).
      split; [apply B3|]. split; [|apply Hk; lra]. rewrite <- TT. apply end_cubic.
    - destruct pre as [|x pre]; [|exfalso; rewrite app_length in An; simpl in An; lia].
      exists (ToQ p1 m). split; [reflexivity|]. split; [discriminate|].
      intros g (q & ->). exists (2 * (1 - depth a / dist p1 p2)).
      split; [apply B2|]. split; [|apply Hk; lra]. rewrite <- TT. apply end_quad. }
  destruct S1 as (c & Ec & Nc & Gc).
  destruct (expand_total _ Ar) as (la & Ea).
  assert (Hd : exists l', la = ToM p0 :: l').
  { cbn [expand expand1 each1] in Ea. destruct (expand rest); [|discriminate]. injection Ea as <-. now eexists. }
  destruct Hd as (l' & ->).
  destruct (outline_last (ToM p0 :: l') c None true None None Nc) as (o & g & O & G);
    [right; eauto|].
  destruct (Gc g G) as (k & K1 & K2 & K3).
  exists o, g, k. split; [now rewrite <- app_assoc|]. split; [reflexivity|]. split; [exact V2|].
  split; [|split; [exact K1|split; [exact K2|exact K3]]].
  unfold svg_path_outline.
  pose proof (expand_app _ _ _ _ Ea Ec) as X.
  match goal with |- match ?e with _ => _ end = _ => replace e with (Some ((ToM p0 :: l') ++ [c])) by (symmetry; exact X) end.
  exact O.
Qed.
Print Assumptions C83_direction_partial.
Example C83_direction_ex : exists cs', shorten_path [(PM, [(0, 0)]); (PQ, [(1, 1); (4, 5)])]
   (new_arrow 2 90 None None) = Ok (cs', ((1, 1), (4, 5))) /\ (1, 1) <> (4, 5).
Proof.
  assert (N : (1, 1) <> (4, 5)) by (intros E; injection E; lra).
  unfold shorten_path, path_points_for_end_arrow. simpl. unfold move_end_point. cbv zeta.
  rewrite resize_form by exact N. cbn [rbind]. eexists. split; [reflexivity|exact N].
Qed.

(** A path that ends with T: the arrow points from the previous end point to the end, but
    the curve ends in another direction. *)
Theorem C83_direction_T_refuted : exists cs a cs' p1 p2 o g v,
  Forall exact_arity cs /\ shorten_path cs a = Ok (cs', (p1, p2)) /\ p1 <> p2 /\
  depth a < dist p1 p2 /\
  svg_path_outline cs' = Some (o ++ [g]) /\ end_direction g v /\ cross v (vec p1 p2) <> 0.
Proof.
  set (a := mkArrow 1 0 None None).
  assert (N : (2, 0) <> (4, 0)) by (intros E; injection E; lra).
  assert (D : dist (2, 0) (4, 0) = 2) by (apply dist_eq; [lra|unfold dot, vec; simpl; ring]).
  assert (M : move_end_point a (2, 0) (4, 0) = Ok (7 / 2, 0)).
  { unfold move_end_point. cbv zeta. rewrite resize_form by exact N. rewrite D. simpl. rewrite cos_0.
    f_equal. unfold plus, times, vec; simpl. apply f_equal2; field. }
  exists [(PM, [(0, 0)]); (PQ, [(1, 1); (2, 0)]); (PT, [(4, 0)])], a.
  eexists _, (2, 0), (4, 0), [GMove (0, 0); GQuad (0, 0) (1, 1) (2, 0)], _, _.
  split; [repeat constructor|]. split.
  { unfold shorten_path. simpl. rewrite M. reflexivity. }
  split; [exact N|]. split; [rewrite D; unfold depth; simpl; rewrite cos_0; lra|].
  split; [reflexivity|]. split; [apply end_quad|].
  unfold cross, times, vec, opposite; simpl. lra.
Qed.
Print Assumptions C83_direction_T_refuted.

(** Paths that end with a line cannot carry an arrow at all. *)
Theorem C83_line_end_rejected : forall cs p a,
  shorten_path (cs ++ [(PL, p)]) a = Err EException.
Proof.
  intros. unfold shorten_path, path_points_for_end_arrow. now rewrite last_or_app.
Qed.
Print Assumptions C83_line_end_rejected.
