(** Property C95: lines and paths with arrows. *)
From Coq Require Import List Reals QArith ZArith NArith Bool String Lia Lra.
From Verif Require Import Py PyFacts XmlModel StyleModel TextModel TextBoxModel DrawModel ShapeModel ShapeSpec ShapeProofs
  ShapeProps ArrowProps PageModel PageSpec PageProofs PageProps.
Import ListNotations.
Local Open Scope R_scope.

(** *** Specification *)

(** The shape [d] is the head of an arrow with its tip in [tip] that comes from [from], and the
    line under it ends in [e]: the wings are as long as the size and lie on both sides of the
    line at the angle of the arrow; a filled head has the colour of the line, an outlined one
    is a line of this colour. *)
Definition head_shape (a : arrow) (from tip : pt) (color : str) (e : pt) (d : shape) : Prop :=
  exists w1 w2 rest,
    d = match a_stroke a with
        | None => SPolygon (w1 :: tip :: w2 :: rest) None (mkPaint None (Some color) None None)
        | Some w => SPolyline (w1 :: tip :: w2 :: rest) color (Some w) None
        end /\
    dist tip w1 = a_size a /\ dist tip w2 = a_size a /\ ArrowProps.mirrored from tip w1 w2 /\
    dot (vec tip w1) (vec tip from) = a_size a * dist from tip * cos (a_angle a) /\
    (truthy_num (a_stroke a) = false -> e = midpoint tip (midpoint w1 w2)) /\
    (forall w, a_stroke a = Some w -> w <> 0 -> vec tip e = times (- (w / 2) / dist from tip) (vec from tip)).

(** The call [g] asks for the shape [d]. *)
Definition asks (g : gcall) (d : shape) : Prop := shape_of g = Some d.
(** One end of a line: without arrow it stays. *)
Definition end_shape (oa : option arrow) (from tip : pt) (color : str) (e : pt) (hs : list shape) : Prop :=
  match oa with
  | None => e = tip /\ hs = []
  | Some a => exists d, hs = [d] /\ head_shape a from tip color e d
  end.

(** *** Proofs *)
Lemma arrow_head : forall a from tip color e l, from <> tip -> 0 <= a_size a ->
  move_end_point a from tip = Ok e -> arrow_item a from tip (Some color) = Ok l ->
  exists d, Forall2 asks l [d] /\ head_shape a from tip color e d.
Proof.
  intros a p1 p2 color e l N S M H. unfold arrow_item in H.
  destruct (arrow_points a p1 p2) as [pts|] eqn:EP; cbn [rbind] in H; [|discriminate]. injection H as <-.
  destruct (C61_wings a p1 p2 pts N S EP) as (w1 & w2 & rest & E1 & D1 & D2 & Mi & Do & _).
  destruct (C61_end_point a p1 p2 N) as (q & Q1 & Q2 & Q3). rewrite M in Q1. injection Q1 as <-.
  exists (match a_stroke a with
        | None => SPolygon (w1 :: p2 :: w2 :: rest) None (mkPaint None (Some color) None None)
        | Some w => SPolyline (w1 :: p2 :: w2 :: rest) color (Some w) None
        end).
  split.
  - constructor; [|constructor]. rewrite E1. now destruct (a_stroke a).
  - exists w1, w2, rest. repeat (split; [solve [auto]|]). split; [|exact Q3].
    intros T. destruct (Q2 T) as (v1 & v2 & rest' & E2 & Q). rewrite EP, E1 in E2. injection E2 as -> -> ->. exact Q.
Qed.

Lemma arrow_runs : forall rgb_of to_float a from tip color l ds s, arrow_item a from tip (Some color) = Ok l ->
  Forall2 asks l ds -> render_arrow rgb_of to_float a from tip (Some color) s = draw_all rgb_of to_float ds s.
Proof.
  intros rgb_of to_float a from tip color l ds s H F. unfold arrow_item in H. unfold render_arrow.
  destruct (arrow_points a from tip) as [pts|]; cbn [rbind] in *; [|discriminate]. injection H as <-.
  inversion F as [|? d ? ds' A F']; subst. inversion F'; subst. unfold asks in A.
  destruct (a_stroke a) as [w|]; cbn [shape_of] in A; injection A as <-; cbn [draw_all draw_shape];
    match goal with |- ?x = _ => destruct x end; reflexivity.
Qed.
Lemma last_two : forall A (m : list A) u v, last_or (m ++ [u; v]) = Ok v /\ last_or (removelast (m ++ [u; v])) = Ok u.
Proof.
  intros A m u v. assert (LO : forall w (x : A), last_or (w ++ [x]) = Ok x) by (intros; apply last_or_app).
  change [u; v] with ([u] ++ [v]). rewrite app_assoc. rewrite removelast_last. split; apply LO.
Qed.
Lemma draw_all_app : forall rgb_of to_float a b s, draw_all rgb_of to_float (a ++ b) s =
  (do s' <- draw_all rgb_of to_float a s; draw_all rgb_of to_float b s').
Proof.
  intros rgb_of to_float a. induction a as [|d a IH]; intros b s; cbn [app draw_all rbind]; [reflexivity|].
  destruct (draw_shape rgb_of to_float d s); cbn [rbind]; [apply IH|reflexivity].
Qed.

(** *** C95 *)
(** A line with arrows is drawn as the line and, after it, the heads: the start arrow at the
    first point pointing away from the second one, the end arrow at the last point pointing
    away from the one before.  All points of the line stay except the ends under a head. *)
Theorem C95_line : forall p0 p1 l k y z color w dash sa ea calls,
  p0 :: p1 :: l = k ++ [y; z] -> (forall a, sa = Some a -> p1 <> p0 /\ 0 <= a_size a) ->
  (forall a, ea = Some a -> y <> z /\ 0 <= a_size a) ->
  line_item (p0 :: p1 :: l) color w dash sa ea = Ok calls ->
  exists q b e h1 h2, Forall2 asks calls (SPolyline q color w dash :: h1 ++ h2) /\
    List.length q = List.length (p0 :: p1 :: l) /\
    (forall n, (0 < n < S (List.length l))%nat -> nth_error q n = nth_error (p0 :: p1 :: l) n) /\
    nth_error q 0 = Some b /\ last_opt q = Some e /\
    end_shape sa p1 p0 color b h1 /\ end_shape ea y z color e h2.
Proof.
  intros p0 p1 l k y z color w dash sa ea calls K HA HE H. unfold line_item in H.
  destruct (shorten_line (p0 :: p1 :: l) sa ea) as [q|] eqn:ES; cbn [rbind] in H; [|discriminate].
  destruct (C61_line p0 p1 l y z sa ea q (ex_intro _ k K) ES) as (b & e & L & B & E & MID & BA & EA).
  match type of H with (do a1 <- ?x; _) = _ => destruct x as [a1|] eqn:X1; cbn [rbind] in H; [|discriminate] end.
  match type of H with (do a2 <- ?x; _) = _ => destruct x as [a2|] eqn:X2; cbn [rbind] in H; [|discriminate] end.
  injection H as <-.
  assert (Y1 : exists h1, Forall2 asks a1 h1 /\ end_shape sa p1 p0 color b h1).
  { destruct sa as [a|]; [|injection X1 as <-; exists []; split; [constructor|now split]].
    cbn in X1. destruct (HA a eq_refl) as [N S].
    destruct (arrow_head a p1 p0 color b a1 N S BA X1) as (d & D1 & D2). exists [d].
    split; [exact D1|]. exists d. auto. }
  destruct Y1 as (h1 & F1 & S1).
  assert (Y2 : exists h2, Forall2 asks a2 h2 /\ end_shape ea y z color e h2).
  { destruct ea as [a|]; [|injection X2 as <-; exists []; split; [constructor|now split]].
    rewrite K in X2. destruct (last_two pt k y z) as [L1 L2]. rewrite L1 in X2. cbn [rbind] in X2. rewrite L2 in X2. cbn [rbind] in X2.
    destruct (HE a eq_refl) as [N S].
    destruct (arrow_head a y z color e a2 N S EA X2) as (d & D1 & D2). exists [d].
    split; [exact D1|]. exists d. auto. }
  destruct Y2 as (h2 & F2 & S2).
  exists q, b, e, h1, h2. split; [constructor; [reflexivity|now apply Forall2_app]|]. auto 10.
Qed.
Print Assumptions C95_line.

(** On the Cairo backend these shapes are drawn one after the other, so C92 holds for lines
    with arrows. *)
Theorem C95_line_cairo : forall rgb_of to_float p color w dash sa ea calls ds s,
  line_item p color w dash sa ea = Ok calls -> Forall2 asks calls ds ->
  draw_line rgb_of to_float p color w dash sa ea s = draw_all rgb_of to_float ds s.
Proof.
  intros rgb_of to_float p color w dash sa ea calls ds s H F. unfold line_item in H. unfold draw_line.
  destruct (shorten_line p sa ea) as [q|]; cbn [rbind] in *; [|discriminate].
  match type of H with (do a1 <- ?x; _) = _ => destruct x as [a1|] eqn:E1; cbn [rbind] in H; [|discriminate] end.
  match type of H with (do a2 <- ?x; _) = _ => destruct x as [a2|] eqn:E2; cbn [rbind] in H; [|discriminate] end.
  injection H as <-. inversion F as [|? d ? ds' A F']; subst. apply Forall2_app_inv_l in F' as (d1 & d2 & F1 & F2 & ->).
  unfold asks in A. cbn [shape_of] in A. injection A as <-. cbn [draw_all draw_shape].
  destruct (draw_polyline rgb_of to_float q color w dash s) as [s1|]; cbn [rbind]; [|reflexivity].
  rewrite draw_all_app. destruct sa as [a|].
  - destruct (arg p 0); cbn [rbind] in *; [|discriminate]. destruct (arg p 1); cbn [rbind] in *; [|discriminate].
    rewrite (arrow_runs rgb_of to_float a _ _ color a1 d1 s1 E1 F1).
    destruct (draw_all rgb_of to_float d1 s1) as [s2|]; cbn [rbind]; [|reflexivity]. destruct ea as [e|].
    + destruct (last_or p); cbn [rbind] in *; [|discriminate]. destruct (last_or (removelast p)); cbn [rbind] in *; [|discriminate].
      exact (arrow_runs rgb_of to_float e _ _ color a2 d2 s2 E2 F2).
    + injection E2 as <-. inversion F2; subst. reflexivity.
  - injection E1 as <-. inversion F1; subst. cbn [rbind draw_all]. destruct ea as [e|].
    + destruct (last_or p); cbn [rbind] in *; [|discriminate]. destruct (last_or (removelast p)); cbn [rbind] in *; [|discriminate].
      exact (arrow_runs rgb_of to_float e _ _ color a2 d2 s1 E2 F2).
    + injection E2 as <-. inversion F2; subst. reflexivity.
Qed.
Print Assumptions C95_line_cairo.

(** A path that ends with a curve, with an arrow: the path with its end moved under the head,
    then the head at the end of the path, which points in the direction of the end of the
    curve that was asked for (C83). *)
Theorem C95_path_partial : forall p0 rest n ps pa color a calls,
  Forall exact_arity ((PM, [p0]) :: rest ++ [(n, ps)]) -> n = PC \/ n = PS \/ n = PQ ->
  p_color pa = Some color -> 0 <= a_size a ->
  path_item ((PM, [p0]) :: rest ++ [(n, ps)]) pa (Some a) = Ok calls ->
  exists ps0 from tip e, ps = ps0 ++ [from; tip] /\
    (from <> tip -> exists d, head_shape a from tip color e d /\
     Forall2 asks calls [SPath ((PM, [p0]) :: rest ++ [(n, ps0 ++ [from; e])]) pa; d]).
Proof.
  intros p0 rest n ps pa color a calls A Hn C S H.
  assert (An : exact_arity (n, ps)).
  { rewrite Forall_forall in A. apply A. right. apply in_or_app. right. now left. }
  unfold exact_arity in An. cbn [fst snd] in An.
  assert (P : exists ps0 from tip, ps = ps0 ++ [from; tip]).
  { destruct Hn as [->|[->| ->]]; cbn [nargs] in An;
      destruct ps as [|x [|y [|z [|? ?]]]]; try discriminate; [exists [x], y, z|exists [], x, y|exists [], x, y]; reflexivity. }
  destruct P as (ps0 & from & tip & ->). cbn [path_item] in H.
  assert (L : @last_or cmd ((PM, [p0]) :: rest ++ [(n, ps0 ++ [from; tip])]) = Ok (n, ps0 ++ [from; tip])).
  { change ((PM, [p0]) :: rest ++ [(n, ps0 ++ [from; tip])]) with (((PM, [p0]) :: rest) ++ [(n, ps0 ++ [from; tip])]). apply last_or_app. }
  assert (R : @removelast cmd ((PM, [p0]) :: rest ++ [(n, ps0 ++ [from; tip])]) = (PM, [p0]) :: rest).
  { change ((PM, [p0]) :: rest ++ [(n, ps0 ++ [from; tip])]) with (((PM, [p0]) :: rest) ++ [(n, ps0 ++ [from; tip])]). apply removelast_last. }
  destruct (last_two pt ps0 from tip) as [L1 L2].
  assert (PE : path_points_for_end_arrow ((PM, [p0]) :: rest ++ [(n, ps0 ++ [from; tip])]) = Ok (from, tip)).
  { unfold path_points_for_end_arrow. rewrite L. cbn [rbind].
    replace (match n with PM | PL => true | _ => false end) with false by (destruct Hn as [->|[->| ->]]; reflexivity).
    rewrite L1, L2. rewrite app_length. cbn [List.length rbind].
    replace (Nat.leb 2 (List.length ps0 + 2)) with true by (symmetry; apply Nat.leb_le; lia). reflexivity. }
  unfold shorten_path in H. rewrite PE in H. cbn [rbind fst snd] in H.
  destruct (move_end_point a from tip) as [e|] eqn:ME; cbn [rbind] in H; [|discriminate].
  assert (PU : path_update_end_point ((PM, [p0]) :: rest ++ [(n, ps0 ++ [from; tip])]) e =
      Ok ((PM, [p0]) :: rest ++ [(n, ps0 ++ [from; e])])).
  { unfold path_update_end_point. rewrite L. cbn [rbind]. rewrite R.
    assert (Rm : removelast (ps0 ++ [from; tip]) = ps0 ++ [from]).
    { change [from; tip] with ([from] ++ [tip]). rewrite app_assoc. apply removelast_last. }
    rewrite Rm, <- app_assoc. destruct ps0; reflexivity. }
  rewrite PU in H. cbn [rbind fst snd] in H. rewrite C in H.
  destruct (arrow_item a from tip (Some color)) as [l|] eqn:EI; cbn [rbind] in H; [|discriminate]. injection H as <-.
  exists ps0, from, tip, e. split; [reflexivity|]. intros N.
  destruct (arrow_head a from tip color e l N S ME EI) as (d & D1 & D2). exists d. split; [exact D2|].
  constructor; [reflexivity|exact D1].
Qed.
Print Assumptions C95_path_partial.
Theorem C95_path_cairo : forall rgb_of to_float cs p a color calls ds s, p_color p = Some color ->
  path_item cs p (Some a) = Ok calls -> Forall2 asks calls ds ->
  draw_path_arrow rgb_of to_float cs p (Some a) s = draw_all rgb_of to_float ds s.
Proof.
  intros rgb_of to_float cs p a color calls ds s C H F. cbn [path_item] in H. unfold draw_path_arrow.
  destruct (shorten_path cs a) as [[cs' e]|]; cbn [rbind] in *; [|discriminate]. rewrite C in *.
  destruct (arrow_item a (fst e) (snd e) (Some color)) as [l|] eqn:EI; cbn [rbind] in H; [|discriminate]. injection H as <-.
  inversion F as [|? d ? ds' A F']; subst. unfold asks in A. cbn [shape_of] in A. injection A as <-.
  cbn [draw_all draw_shape]. destruct (draw_path rgb_of to_float cs' p s) as [s1|]; cbn [rbind]; [|reflexivity].
  exact (arrow_runs rgb_of to_float a _ _ color l ds' s1 EI F').
Qed.
Print Assumptions C95_path_cairo.

(** A line with two arrows and a path with one. *)
Example C95_ex : exists calls q b e d1 d2 calls' e' d',
  line_item [(0, 0); (50, 20); (90, 20)] (pys "red") (Some 2) None
    (Some (new_arrow 10 40 None None)) (Some (new_arrow 8 40 (Some 3) None)) = Ok calls /\
  Forall2 asks calls [SPolyline q (pys "red") (Some 2) None; d1; d2] /\ q = [b; (50, 20); e] /\
  head_shape (new_arrow 10 40 None None) (50, 20) (0, 0) (pys "red") b d1 /\
  head_shape (new_arrow 8 40 (Some 3) None) (50, 20) (90, 20) (pys "red") e d2 /\
  path_item [(PM, [(0, 0)]); (PQ, [(1, 1); (4, 5)])] (pen None) (Some (new_arrow 2 30 None None)) = Ok calls' /\
  Forall2 asks calls' [SPath [(PM, [(0, 0)]); (PQ, [(1, 1); e'])] (pen None); d'].
Proof.
  set (A := new_arrow 10 40 None None). set (B := new_arrow 8 40 (Some 3) None). set (C := new_arrow 2 30 None None).
  assert (N1 : (50, 20) <> (0, 0)) by (intros E; injection E; lra).
  assert (N2 : (50, 20) <> (90, 20)) by (intros E; injection E; lra).
  assert (N3 : (1, 1) <> (4, 5)) by (intros E; injection E; lra).
  destruct (C61_end_point A (50, 20) (0, 0) N1) as (b & Eb & _).
  destruct (C61_end_point B (50, 20) (90, 20) N2) as (e & Ee & _).
  destruct (C61_end_point C (1, 1) (4, 5) N3) as (e' & Ee' & _).
  assert (L : exists calls, line_item [(0, 0); (50, 20); (90, 20)] (pys "red") (Some 2) None (Some A) (Some B) = Ok calls).
  { unfold line_item, shorten_line. rewrite Eb. cbn [rbind]. cbn [last_or removelast rbind]. simpl. rewrite Ee. eexists. reflexivity. }
  destruct L as (calls & L).
  destruct (C95_line (0, 0) (50, 20) [(90, 20)] [(0, 0)] (50, 20) (90, 20) (pys "red") (Some 2) None (Some A) (Some B) calls eq_refl)
    as (q & b' & e'' & h1 & h2 & F & LQ & MID & Q0 & QL & (d1 & -> & H1) & (d2 & -> & H2)); auto.
  { intros a K. injection K as <-. split; [exact N1|]. unfold A; simpl; lra. }
  { intros a K. injection K as <-. split; [exact N2|]. unfold B; simpl; lra. }
  assert (P : exists calls', path_item [(PM, [(0, 0)]); (PQ, [(1, 1); (4, 5)])] (pen None) (Some C) = Ok calls').
  { cbn [path_item]. unfold shorten_path. simpl. rewrite Ee'. eexists. reflexivity. }
  destruct P as (calls' & P).
  destruct (C95_path_partial (0, 0) [] PQ [(1, 1); (4, 5)] (pen None) black C calls') as (ps0 & from & tip & e3 & E3 & G); auto.
  { repeat constructor. } { unfold C; simpl; lra. }
  destruct ps0 as [|? ps0]; [|apply (f_equal (@List.length pt)) in E3; cbn [List.length app] in E3; rewrite app_length in E3;
    cbn [List.length] in E3; lia]. injection E3 as <- <-. destruct (G N3) as (d' & _ & F').
  destruct q as [|q0 [|q1 [|q2 [|? ?]]]]; try discriminate. injection Q0 as ->. injection QL as ->.
  assert (Q1 := MID 1%nat ltac:(cbn; lia)). injection Q1 as ->.
  exists calls, [b'; (50, 20); e''], b', e'', d1, d2, calls', e3, d'.
  split; [exact L|]. split; [exact F|]. split; [reflexivity|]. split; [exact H1|]. split; [exact H2|]. split; [exact P|exact F'].
Qed.
