(** Proofs about the drawing of shapes: affine maps, the Cairo context, paths. *)
From Coq Require Import List Reals NArith Bool String Lra Lia.
From Verif Require Import Py PyFacts XmlModel ShapeModel ShapeSpec.
Import ListNotations.
Local Open Scope R_scope.

Ltac peq := unfold apply, mul, mix, lin; simpl; apply f_equal2; ring.

(** ** Affine maps *)

Lemma pt_eta : forall p : pt, (fst p, snd p) = p.
Proof. now intros []. Qed.

Lemma mix_apply : forall m p q t, mix (apply m p) (apply m q) t = apply m (mix p q t).
Proof. intros. peq. Qed.
Lemma bez2_apply : forall m p c q t, bez2 (apply m p) (apply m c) (apply m q) t = apply m (bez2 p c q t).
Proof. intros. unfold bez2. now rewrite !mix_apply. Qed.
Lemma bez3_apply : forall m p a b q t,
  bez3 (apply m p) (apply m a) (apply m b) (apply m q) t = apply m (bez3 p a b q t).
Proof. intros. unfold bez3. now rewrite !bez2_apply, mix_apply. Qed.
Lemma apply_mul : forall m n p, apply (mul m n) p = apply m (apply n p).
Proof. intros. peq. Qed.
Lemma seg_at_map : forall m g t, seg_at (map_seg m g) t = apply m (seg_at g t).
Proof.
  intros m g t. destruct g; simpl seg_at;
    auto using mix_apply, bez2_apply, bez3_apply, apply_mul.
Qed.
Lemma kind_map : forall m g, kind_of (map_seg m g) = kind_of g.
Proof. now destruct g. Qed.
Lemma map_seg_mul : forall m n g, same_seg (map_seg (mul m n) g) (map_seg m (map_seg n g)).
Proof.
  intros. split; [now rewrite !kind_map|]. intros t. now rewrite !seg_at_map, apply_mul.
Qed.
Lemma mul_assoc : forall a b c, mul (mul a b) c = mul a (mul b c).
Proof. intros. unfold mul; simpl. f_equal; ring. Qed.
Lemma mul_ident : forall a, mul a ident = a.
Proof. intros []. unfold mul; simpl. f_equal; ring. Qed.

Lemma same_seg_refl : forall g, same_seg g g.
Proof. now split. Qed.
Lemma same_seg_trans : forall a b c, same_seg a b -> same_seg b c -> same_seg a c.
Proof. intros a b c [H1 H2] [H3 H4]. split; [congruence|]. intros t. now rewrite H2. Qed.
Lemma same_outline_refl : forall l, same_outline l l.
Proof. induction l; constructor; auto using same_seg_refl. Qed.
Lemma same_outline_app : forall a b c d, same_outline a b -> same_outline c d ->
  same_outline (a ++ c) (b ++ d).
Proof. intros. now apply Forall2_app. Qed.
Lemma same_outline_trans : forall a b c, same_outline a b -> same_outline b c -> same_outline a c.
Proof.
  intros a b c H. revert c. induction H; intros c' K; inversion K; subst; constructor;
    eauto using same_seg_trans. now apply IHForall2.
Qed.

Lemma unapply_apply : forall m p, det m <> 0 -> unapply m (apply m p) = p.
Proof.
  intros m [x y] D. unfold unapply, apply, det in *; simpl in *.
  apply f_equal2; field; exact D.
Qed.

(** The matrix of [transform] is the matrix of [rotate] of SVG. *)
Lemma transform_rotation : forall m c a,
  mul (mul (mul m (mtranslate (fst c) (snd c))) (mrotate (a * PI / 180))) (mtranslate (- fst c) (- snd c))
  = mul m (rotation_about a c).
Proof. intros. unfold mul, rotation_about, mtranslate, mrotate; simpl. f_equal; ring. Qed.
Lemma transform_none : forall m c,
  mul (mul m (mtranslate (fst c) (snd c))) (mtranslate (- fst c) (- snd c)) = m.
Proof. intros [] c. unfold mul, mtranslate; simpl. f_equal; ring. Qed.

Lemma req_refl : forall x, req x x = true.
Proof. intros. unfold req. destruct (Req_EM_T x x); [reflexivity|now elim n]. Qed.
Lemma req_true : forall x y, req x y = true -> x = y.
Proof. intros x y. unfold req. now destruct (Req_EM_T x y). Qed.
Lemma req_false : forall x y, req x y = false -> x <> y.
Proof. intros x y. unfold req. now destruct (Req_EM_T x y). Qed.
Lemma rlt_true : forall x y, rlt x y = true -> x < y.
Proof. intros x y. unfold rlt. now destruct (Rlt_dec x y). Qed.
Lemma rlt_false : forall x y, rlt x y = false -> y <= x.
Proof. intros x y. unfold rlt. destruct (Rlt_dec x y); [discriminate|intros; lra]. Qed.

(** ** The Cairo context *)

Lemma bind_ok : forall A B (r : result A) (f : A -> result B) b, rbind r f = Ok b ->
  exists a, r = Ok a /\ f a = Ok b.
Proof. intros A B [a|e] f b H; [eauto|discriminate]. Qed.

(** What drawing pieces does not change. *)
Definition keeps (s s' : ctx) : Prop :=
  c_g s' = c_g s /\ c_saved s' = c_saved s /\ c_ink s' = c_ink s.
Lemma keeps_refl : forall s, keeps s s.
Proof. now split. Qed.
Lemma keeps_trans : forall a b c, keeps a b -> keeps b c -> keeps a c.
Proof. intros a b c (H1 & H2 & H3) (H4 & H5 & H6). repeat split; congruence. Qed.
Lemma keeps_ctm : forall a b, keeps a b -> ctm b = ctm a.
Proof. intros a b (H & _). unfold ctm. now rewrite H. Qed.

Definition start (s : ctx) (p : pt) : list seg := if c_fresh s then [GMove p] else [].

(** ** Lines *)
Lemma lines_to_spec : forall ps s p, c_cur s = Some (apply (ctm s) p) ->
  let s' := lines_to s ps in
  keeps s s' /\
  c_path s' = c_path s ++
    match ps with [] => [] | _ => start s (apply (ctm s) p) ++ map (map_seg (ctm s)) (lines p ps) end.
Proof.
  induction ps as [|q ps IH]; intros s p Hc; cbn [lines_to].
  - split; [apply keeps_refl|now rewrite app_nil_r].
  - unfold k_line_to. rewrite Hc. set (s1 := k_add _ _ _ _).
    assert (K : keeps s s1) by now split.
    assert (M : ctm s1 = ctm s) by reflexivity.
    destruct (IH s1 q) as (K2 & P2); [reflexivity|].
    split; [exact (keeps_trans _ _ _ K K2)|].
    rewrite P2, M. unfold s1, k_add, start; simpl c_path; simpl c_fresh.
    rewrite <- !app_assoc. f_equal. f_equal. simpl. f_equal.
    destruct ps; simpl; reflexivity.
Qed.

(** ** Paths *)
Definition exact_arity (c : cmd) : Prop := List.length (snd c) = nargs (fst c).
Definition is_S (c : cmd) : bool := match fst c with PS => true | _ => false end.
(** No S directly after an S. *)
Fixpoint no_double_S (prev : bool) (cs : list cmd) : Prop :=
  match cs with
  | [] => True
  | c :: cs' => (prev = true -> is_S c = false) /\ no_double_S (is_S c) cs'
  end.

Lemma reflect_opposite : forall c p, reflect c p = opposite c p.
Proof. intros. unfold reflect, opposite; simpl. apply f_equal2; ring. Qed.
Lemma reflect_assumed : forall o p, reflect (or_else o p) p = assumed o p.
Proof.
  intros [c|] [x y]; unfold or_else, assumed; [apply reflect_opposite|].
  unfold reflect; simpl. apply f_equal2; ring.
Qed.

Lemma quad_exact : forall p1 p2 cp t, let (a, b) := quad_controls p1 p2 cp in
  bez3 p1 a b p2 t = bez2 p1 cp p2 t.
Proof.
  intros [x1 y1] [x2 y2] [cx cy] t. unfold quad_controls, bez3, bez2, mix, lin; simpl.
  apply f_equal2; field.
Qed.

Lemma path_loop_spec : forall cs s s' cub cub' quad q prev,
  Forall exact_arity cs -> no_double_S prev cs -> det (ctm s) <> 0 ->
  c_cur s = Some (apply (ctm s) q) -> (prev = false -> cub' = cub) ->
  path_loop s cub' quad cs = Ok s' ->
  exists l o o', expand cs = Some l /\
    path_outline (Some q) (c_fresh s) cub quad l = Some o /\
    keeps s s' /\ c_path s' = c_path s ++ o' /\ same_outline o' (map (map_seg (ctm s)) o).
Proof.
  induction cs as [|[n args] cs IH]; intros s s' cub cub' quad q prev A N D C E H.
  - injection H as <-. exists [], [], []. repeat split; try reflexivity; [now rewrite app_nil_r|constructor].
  - apply Forall_cons_iff in A as [A1 A2]. destruct N as [N1 N2].
    cbn [path_loop] in H. apply bind_ok in H as ([[s1 cub1] quad1] & H1 & H).
    assert (L : k_current_point s = q).
    { unfold k_current_point. rewrite C. now apply unapply_apply. }
    unfold exact_arity in A1. cbn [fst snd] in A1.
    assert (G : forall g d, same_seg g (map_seg (ctm s) d) ->
      same_outline ((if c_fresh s then [GMove (apply (ctm s) q)] else []) ++ [g])
        (map (map_seg (ctm s)) ((if c_fresh s then [GMove q] else []) ++ [d]))).
    { intros g d S. rewrite map_app. apply same_outline_app.
      - destruct (c_fresh s); [repeat constructor|constructor].
      - now constructor. }
    assert (Step : forall p g d cubn,
      s1 = k_add s (apply (ctm s) q) g (apply (ctm s) p) ->
      same_seg g (map_seg (ctm s) d) ->
      (is_S (n, args) = false -> cub1 = cubn) ->
      exists l o o', expand cs = Some l /\ path_outline (Some p) false cubn quad1 l = Some o /\
        keeps s s' /\
        c_path s' = c_path s ++ o' /\
        same_outline o' (map (map_seg (ctm s)) ((if c_fresh s then [GMove q] else []) ++ d :: o))).
    { intros p g d cubn -> S1 S2.
      destruct (IH (k_add s (apply (ctm s) q) g (apply (ctm s) p)) s' cubn cub1 quad1 p (is_S (n, args)) A2 N2 D eq_refl S2 H)
        as (l & o & o' & E1 & E2 & K & P & S).
      exists l, o, (((if c_fresh s then [GMove (apply (ctm s) q)] else []) ++ [g]) ++ o').
      refine (conj _ (conj _ (conj _ (conj _ _)))); [exact E1|exact E2| | |].
      - destruct K as (K1 & K2 & K3). repeat split; assumption.
      - rewrite P. unfold k_add; simpl c_path. now rewrite <- app_assoc.
      - change ((if c_fresh s then [GMove q] else []) ++ d :: o)
          with ((if c_fresh s then [GMove q] else []) ++ [d] ++ o).
        rewrite app_assoc, map_app. apply same_outline_app; [now apply G|exact S]. }
    cbn [path_step] in H1. rewrite L in H1.
    destruct n.
    + destruct args as [|p [|? ?]]; try discriminate. simpl in H1. injection H1 as <- <- <-.
      destruct (IH (k_move_to s p) s' None None None p false) as (l & o & o' & E1 & E2 & K & P & S);
        try assumption; try reflexivity.
      exists (ToM p :: l), o, o'. cbn [expand expand1 each1]. rewrite E1.
      refine (conj _ (conj _ (conj _ (conj _ _)))); [reflexivity|exact E2| | |exact S].
      * destruct K as (K1 & K2 & K3). repeat split; assumption.
      * exact P.
    + destruct args as [|p [|? ?]]; try discriminate. simpl in H1. injection H1 as <- <- <-.
      destruct (Step p (GLine (apply (ctm s) q) (apply (ctm s) p)) (GLine q p) None)
        as (l & o & o' & E1 & E2 & K & P & S).
      { unfold k_line_to. now rewrite C. }
      { apply same_seg_refl. }
      { reflexivity. }
      exists (ToL p :: l). eexists. exists o'. cbn [expand expand1 each1]. rewrite E1.
      cbn [path_outline app]. rewrite E2.
      refine (conj _ (conj _ (conj _ (conj _ _)))); [reflexivity|reflexivity|exact K|exact P|exact S].
    + destruct args as [|a [|b [|p [|? ?]]]]; try discriminate. simpl in H1. injection H1 as <- <- <-.
      destruct (Step p (GCubic (apply (ctm s) q) (apply (ctm s) a) (apply (ctm s) b) (apply (ctm s) p))
                  (GCubic q a b p) (Some b)) as (l & o & o' & E1 & E2 & K & P & S).
      { unfold k_curve_to. rewrite C. now rewrite C. }
      { apply same_seg_refl. }
      { reflexivity. }
      exists (ToC a b p :: l). eexists. exists o'. cbn [expand expand1 each3 option_map]. rewrite E1.
      cbn [path_outline app]. rewrite E2.
      refine (conj _ (conj _ (conj _ (conj _ _)))); [reflexivity|reflexivity|exact K|exact P|exact S].
    + destruct args as [|b [|p [|? ?]]]; try discriminate. simpl in H1. injection H1 as <- <- <-.
      assert (prev = false) as -> by (destruct prev; [now discriminate (N1 eq_refl)|reflexivity]).
      rewrite (E eq_refl) in *.
      destruct (Step p (GCubic (apply (ctm s) q) (apply (ctm s) (reflect (or_else cub q) q))
                          (apply (ctm s) b) (apply (ctm s) p))
                  (GCubic q (assumed cub q) b p) (Some b)) as (l & o & o' & E1 & E2 & K & P & S).
      { unfold k_curve_to. rewrite C. now rewrite C. }
      { rewrite reflect_assumed. apply same_seg_refl. }
      { discriminate. }
      exists (ToS b p :: l). eexists. exists o'. cbn [expand expand1 each2 option_map]. rewrite E1.
      cbn [path_outline app]. rewrite E2.
      refine (conj _ (conj _ (conj _ (conj _ _)))); [reflexivity|reflexivity|exact K|exact P|exact S].
    + destruct args as [|k [|p [|? ?]]]; try discriminate. simpl in H1. injection H1 as <- <- <-.
      destruct (Step p (GCubic (apply (ctm s) q) (apply (ctm s) (fst (quad_controls q p k)))
                          (apply (ctm s) (snd (quad_controls q p k))) (apply (ctm s) p))
                  (GQuad q k p) None) as (l & o & o' & E1 & E2 & K & P & S).
      { unfold draw_quadratic_bezier, quad_controls, k_curve_to. rewrite C. now rewrite C. }
      { split; [reflexivity|]. intros t. rewrite seg_at_map. simpl seg_at.
        rewrite bez3_apply. f_equal. exact (quad_exact q p k t). }
      { reflexivity. }
      exists (ToQ k p :: l). eexists. exists o'. cbn [expand expand1 each2 option_map]. rewrite E1.
      cbn [path_outline app]. rewrite E2.
      refine (conj _ (conj _ (conj _ (conj _ _)))); [reflexivity|reflexivity|exact K|exact P|exact S].
    + destruct args as [|p [|? ?]]; try discriminate. simpl in H1. injection H1 as <- <- <-.
      assert (R : reflect (or_else quad q) q = assumed quad q) by apply reflect_assumed.
      rewrite R in *.
      destruct (Step p (GCubic (apply (ctm s) q) (apply (ctm s) (fst (quad_controls q p (assumed quad q))))
                          (apply (ctm s) (snd (quad_controls q p (assumed quad q)))) (apply (ctm s) p))
                  (GQuad q (assumed quad q) p) None) as (l & o & o' & E1 & E2 & K & P & S).
      { unfold draw_quadratic_bezier, quad_controls, k_curve_to. rewrite C. now rewrite C. }
      { split; [reflexivity|]. intros t. rewrite seg_at_map. simpl seg_at.
        rewrite bez3_apply. f_equal. exact (quad_exact q p (assumed quad q) t). }
      { reflexivity. }
      exists (ToT p :: l). eexists. exists o'. cbn [expand expand1 each1 option_map]. rewrite E1.
      cbn [path_outline app]. rewrite E2.
      refine (conj _ (conj _ (conj _ (conj _ _)))); [reflexivity|reflexivity|exact K|exact P|exact S].
Qed.
