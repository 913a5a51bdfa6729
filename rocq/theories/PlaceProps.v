(** Properties of the places of shapes (C101): points of boxes stand for places of the boxes
    in the final layout, and shapes are drawn at the boxes and points they were given. *)
From Coq Require Import List ZArith NArith QArith Bool String Reals Qreals Lia Lqa.
From Verif Require Import Py PyFacts ShowModel ShowSpec LayoutModel ValueSpec LayoutSpec LayoutProofs LayoutProofs2
  LayoutProps LayoutProps2 SlideModel SlideSpec SlideProofs RoomProofs RoomProps PlaceModel.
From Verif Require ShapeModel PageModel.
Import ListNotations.
Open Scope Q_scope.

(** ** Specification *)

(** Reachable by any calls, including rejected ones. *)
Inductive creach (c : canvas) : canvas -> Prop :=
| cr_nil : creach c c
| cr_cons : forall c1 k c2 r, creach c c1 -> cperform c1 k = (c2, r) -> creach c c2.

(** What a number or a string says about a coordinate (C09). *)
Definition means (a : arg) (p : pos_value) : Prop :=
  match a with
  | ANum q => p = PosFix q
  | AStr s => exists s0 nl, pos_doc s0 p /\ eol nl /\ s = (s0 ++ nl)%list
  | _ => False
  end.
(** A place along an axis: relative to a box, as a number or string, and moved. *)
Inductive spot := mkSpot (x : axis) (box : nat) (a : arg) (moved : Q).
Definition sits (S : store) (sp : spot) (v : Q) : Prop :=
  match sp with
  | mkSpot x b a d => exists R p u, st_rect S b = Some R /\ means a p /\ point_at x p R u /\ v == u + d
  end.
(** A value that is a number or a string. *)
Definition plain (v : value) (a : arg) : Prop :=
  (exists s, v = ShapeModel.RStr s /\ a = AStr s) \/
  (exists q, v = ShapeModel.RVal (ANum q) /\ a = ANum q).
Definition along (x : axis) : slide -> nat -> value -> result lazy :=
  match x with X => box_x | Y => box_y end.

(** The lazy values that exist on a slide: x() and y() of an object, at any time, of a number,
    a string or another lazy value; add(). *)
Inductive marks (s0 s : slide) : lazy -> spot -> Prop :=
| ma_box : forall x s1 r b cs v a l, reachable s0 s1 -> reachable s1 s ->
    get_box r (sl_box s1) = Some (b, cs) -> plain v a -> along x s1 r v = Ok l ->
    marks s0 s l (mkSpot x (b_id b) a 0)
| ma_again : forall x s1 r l l' sp, reachable s0 s1 -> reachable s1 s -> marks s0 s l sp ->
    along x s1 r (ShapeModel.RVal (ALazy l)) = Ok l' -> marks s0 s l' sp
| ma_add : forall x b a d l q, marks s0 s l (mkSpot x b a d) ->
    marks s0 s (lazy_add q l) (mkSpot x b a (d + q)).
Definition point_marks (s0 s : slide) (p : lazy_point) (sp : spot * spot) : Prop :=
  marks s0 s (fst p) (fst sp) /\ marks s0 s (snd p) (snd sp).
Definition point_sits (S : store) (sp : spot * spot) (q : ShapeModel.pt) : Prop :=
  exists x y, q = (Q2R x, Q2R y) /\ sits S (fst sp) x /\ sits S (snd sp) y.

(** What a coordinate and a point given to a shape on the box [b] refer to: numbers and
    strings are relative to this box. *)
Inductive part (s0 s : slide) (b : nat) (x : axis) : value -> spot -> Prop :=
| pa_plain : forall v a, plain v a -> part s0 s b x v (mkSpot x b a 0)
| pa_lazy : forall l sp, marks s0 s l sp -> part s0 s b x (ShapeModel.RVal (ALazy l)) sp.
Inductive names (s0 s : slide) (b : nat) : value -> spot * spot -> Prop :=
| nm_point : forall p sp, point_marks s0 s p sp -> names s0 s b (ShapeModel.RLazy p) sp
| nm_pair : forall k v w sv sw, part s0 s b X v sv -> part s0 s b Y w sw ->
    names s0 s b (ShapeModel.RSeq k [v; w]) (sv, sw).
(** Commands of paths. *)
Inductive letter : str -> ShapeModel.pname -> nat -> Prop :=
| le_m : letter (pys "M") ShapeModel.PM 1
| le_l : letter (pys "L") ShapeModel.PL 1
| le_c : letter (pys "C") ShapeModel.PC 3
| le_s : letter (pys "S") ShapeModel.PS 2
| le_q : letter (pys "Q") ShapeModel.PQ 2
| le_t : letter (pys "T") ShapeModel.PT 1.
Inductive names_command (s0 s : slide) (b : nat) : value -> ShapeModel.pname * list (spot * spot) -> Prop :=
| nm_command : forall k t n m args sps, letter t n m -> Forall2 (names s0 s b) args sps ->
    names_command s0 s b (ShapeModel.RSeq k (ShapeModel.RStr t :: args)) (n, sps).
Definition command_sits (S : store) (sp : ShapeModel.pname * list (spot * spot)) (c : ShapeModel.cmd) : Prop :=
  fst c = fst sp /\ Forall2 (point_sits S) (snd sp) (snd c).

(** ** Boxes have rectangles *)
Lemma within_lfill : forall C n, within n (lfill C n).
Proof.
  induction C as [|[[d p] q] C IH]; intros n; [constructor|]. simpl.
  assert (G : forall a b c, within a b -> within b c -> within a c).
  { intros a b c A B. induction B; auto. econstructor; eauto. }
  eapply G; [|apply IH]. econstructor; [apply in_elt|constructor].
Qed.
Lemma box_rect : forall w0 h0 s0 s s2 r b cs w h st S, new_slide w0 h0 = Ok s0 -> reachable s0 s ->
  get_box r (sl_box s) = Some (b, cs) -> reachable s s2 -> prepare (sl_layout s2) w h st = Ok S ->
  exists R, st_rect S (b_id b) = Some R.
Proof.
  intros w0 h0 s0 s s2 r b cs w h st S H0 HR Hg HL HP. assert (W0 := new_slide_wf _ _ _ H0).
  assert (W : wf s) by (eapply reachable_wf; eauto). assert (W' : wf s2) by (eapply reachable_wf; eauto).
  destruct (get_box_found _ _ _ _ Hg) as [C [Et _]].
  assert (Hb : In (b_id b) (ids (sl_layout s))) by (apply (wf_boxes s W); rewrite Et; apply root_box_in).
  destruct (layout_found _ _ Hb) as (LC & h1 & ls & Es & Eh).
  assert (Wn : within (Node h1 ls) (sl_layout s)) by (rewrite Es; apply within_lfill).
  destruct (proj2 (reachable_grows s s2 W HL) _ Wn) as (c & Wc & G).
  assert (HLd : laid any S (sl_layout s2) (mkRect 0 0 w h)).
  { eapply set_rect_laid_any; eauto. apply (wf_lnodup s2 W'). }
  destruct (laid_within _ _ _ _ _ Wc HLd) as [o Lc].
  destruct (laid_outer _ _ _ _ Lc) as (o' & (R & AR & _) & _).
  exists R. unfold area in AR. rewrite (gr_id _ _ G) in AR. cbn [head] in AR. now rewrite Eh in AR.
Qed.

Lemma reachable_trans : forall a b c, reachable a b -> reachable b c -> reachable a c.
Proof. intros a b c A B. induction B; auto. econstructor; eauto. Qed.

(** ** Points *)
Lemma parse_means : forall v a p, plain v a -> parse_pos (coord v) = Ok p -> means a p.
Proof.
  intros v a p [(s & -> & ->)|(q & -> & ->)] H; cbn [coord] in H.
  - cbn [means]. now apply C09_pos_grammar_partial.
  - cbn in H. injection H as <-. reflexivity.
Qed.
Lemma means_simple : forall a p, means a p ->
  match p with PosFix _ | PosRatio _ | PosAlign _ => True | _ => False end.
Proof.
  intros [|q|s|l|o] p H; try contradiction.
  - cbn in H. subst p. exact I.
  - destruct H as (s0 & nl & D & _). destruct D; exact I.
Qed.
Lemma along_inv : forall x s r v l, along x s r v = Ok l -> exists b cs p,
  get_box r (sl_box s) = Some (b, cs) /\ parse_pos (coord v) = Ok p /\ l = layout_point x (b_id b) p.
Proof.
  intros [] s r v l H; cbn [along] in H; unfold box_x, box_y in H;
    destruct (get_box r (sl_box s)) as [[b cs]|]; try discriminate; unfold at_x, at_y in H;
    destruct (parse_pos (coord v)) as [p|]; try discriminate; cbn [rbind] in H; injection H as <-;
    exists b, cs, p; auto.
Qed.
Lemma point_value : forall x b p S R, st_rect S b = Some R ->
  match p with PosFix _ | PosRatio _ | PosAlign _ => True | _ => False end ->
  exists v, layout_point x b p S = Ok v /\ point_at x p R v.
Proof.
  intros x b p S R HR Hp.
  destruct x, p; try contradiction; cbn [layout_point]; unfold layout_x, layout_y; rewrite HR;
    cbn [pos_compute point_at start extent]; eexists; (split; [reflexivity|]); ring.
Qed.

(** A lazy value, made at any time and used at any later time, is where it says in the final
    layout. *)
Theorem C101_value : forall w0 h0 s0 s s2 l sp w h st S, new_slide w0 h0 = Ok s0 -> marks s0 s l sp ->
  reachable s s2 -> prepare (sl_layout s2) w h st = Ok S -> exists v, l S = Ok v /\ sits S sp v.
Proof.
  intros w0 h0 s0 s s2 l sp w h st S H0 HM HL HP.
  induction HM as [x s1 r b cs v a l R1 R2 Hg Pv Ha|x s1 r l l' sp R1 R2 HM IH Ha|x b a d l q HM IH].
  - destruct (along_inv _ _ _ _ _ Ha) as (b' & cs' & p & Hg' & Hp & ->). rewrite Hg in Hg'. injection Hg' as <- <-.
    assert (Mp := parse_means _ _ _ Pv Hp).
    destruct (box_rect w0 h0 s0 s1 s2 r b cs w h st S H0 R1 Hg (reachable_trans _ _ _ R2 HL) HP) as [R ER].
    destruct (point_value x _ p S R ER (means_simple _ _ Mp)) as (u & E & A).
    exists u. split; [exact E|]. exists R, p, u. repeat split; auto. ring.
  - destruct IH as (v & E & Hs). exists v. split; [|exact Hs].
    destruct (along_inv _ _ _ _ _ Ha) as (b & cs & p & Hg & Hp & ->). cbn in Hp. injection Hp as <-.
    destruct (box_rect w0 h0 s0 s1 s2 r b cs w h st S H0 R1 Hg (reachable_trans _ _ _ R2 HL) HP) as [R ER].
    destruct x; cbn [layout_point]; unfold layout_x, layout_y; rewrite ER; exact E.
  - destruct IH as (v & E & R & p & u & ER & Mp & A & Ev). exists (v + q). split.
    + unfold lazy_add, lazy_map. now rewrite E.
    + exists R, p, u. repeat split; auto. rewrite Ev. ring.
Qed.
Print Assumptions C101_value.

(** The points that exist on a slide: p() of an object, add(). *)
Theorem C101_points : forall s0 s1 s r b cs v w a c p, reachable s0 s1 -> reachable s1 s ->
  get_box r (sl_box s1) = Some (b, cs) -> plain v a -> plain w c -> box_p s1 r v w = Ok p ->
  point_marks s0 s p (mkSpot X (b_id b) a 0, mkSpot Y (b_id b) c 0).
Proof.
  intros s0 s1 s r b cs v w a c p R1 R2 Hg Pv Pw H. unfold box_p in H. rewrite Hg in H. unfold at_xy in H.
  destruct (at_x (b_id b) v) as [x|] eqn:Ex; [|discriminate]. cbn [rbind] in H.
  destruct (at_y (b_id b) w) as [y|] eqn:Ey; [|discriminate]. cbn [rbind] in H. injection H as <-.
  split; cbn [fst snd].
  - apply (ma_box s0 s X s1 r b cs v a x); auto. cbn [along]. unfold box_x. now rewrite Hg.
  - apply (ma_box s0 s Y s1 r b cs w c y); auto. cbn [along]. unfold box_y. now rewrite Hg.
Qed.
Print Assumptions C101_points.
Theorem C101_add : forall s0 s p x bx ax dx y b' a' dy u v,
  point_marks s0 s p (mkSpot x bx ax dx, mkSpot y b' a' dy) ->
  point_marks s0 s (point_add u v p) (mkSpot x bx ax (dx + u), mkSpot y b' a' (dy + v)).
Proof. intros s0 s p x bx ax dx y b' a' dy u v [A B]. split; apply ma_add; assumption. Qed.
Print Assumptions C101_add.
(** mid_point() is the centre of the content area of the box. *)
Theorem C101_mid_point : forall w0 h0 s0 s s2 r p w h st S, new_slide w0 h0 = Ok s0 -> reachable s0 s ->
  mid_point s r = Ok p -> reachable s s2 -> prepare (sl_layout s2) w h st = Ok S ->
  exists b cs R x y, get_box r (sl_box s) = Some (b, cs) /\ st_rect S (b_id b) = Some R /\
    point_eval S p = Ok (x, y) /\
    x - start X R == stop X R - x /\ y - start Y R == stop Y R - y.
Proof.
  intros w0 h0 s0 s s2 r p w h st S H0 HR H HL HP. unfold mid_point, box_p in H.
  destruct (get_box r (sl_box s)) as [[b cs]|] eqn:Hg; [|discriminate].
  destruct (box_rect w0 h0 s0 s s2 r b cs w h st S H0 HR Hg HL HP) as [R ER].
  vm_compute (parse_pos _) in H. unfold at_xy, at_x, at_y in H.
  assert (E : parse_pos (coord (ShapeModel.RStr (pys "50%"))) = Ok (PosRatio (50 / 100))) by reflexivity.
  rewrite E in H. cbn [rbind] in H. injection H as <-.
  exists b, cs, R. do 2 eexists. split; [reflexivity|]. split; [exact ER|]. split.
  - unfold point_eval. cbn [fst snd]. unfold layout_x, layout_y. rewrite ER. cbn [pos_compute rbind]. reflexivity.
  - unfold stop. cbn [start extent]. split; field.
Qed.
Print Assumptions C101_mid_point.

(** ** Shapes *)
Lemma cperform_slide : forall c k c' res, cperform c k = (c', res) ->
  cv_slide c' = cv_slide c /\ cv_draws c' = cv_draws c \/
  (exists q res', perform (cv_slide c) q = (cv_slide c', res')) /\
  (cv_draws c' = cv_draws c \/ exists d, cv_draws c' = (sl_next (cv_slide c), d) :: cv_draws c).
Proof.
  intros c [r sh|q] c' res H; cbn [cperform] in H.
  - unfold shape_call in H. destruct (get_box r (sl_box (cv_slide c))) as [[b cs]|] eqn:Hg.
    2: { injection H as <- <-. auto. }
    destruct (shape_drawing (b_id b) sh) as [[d|]|e]; try (injection H as <- <-; now auto).
    destruct (item_call (cv_slide c) r Shape) as [s' [i|e]] eqn:E; injection H as <- <-; right; cbn [cv_slide cv_draws].
    + split; [exists (CItem r Shape), (Ok i); exact E|]. right. exists d. unfold item_call in E. rewrite Hg in E.
      injection E as _ <-. reflexivity.
    + split; [exists (CItem r Shape), (Err e); exact E|]. auto.
  - destruct (perform (cv_slide c) q) as [s' res'] eqn:E. injection H as <- <-. right. cbn. eauto.
Qed.
Lemma creach_slides : forall c c', creach c c' -> reachable (cv_slide c) (cv_slide c').
Proof.
  intros c c' H. induction H as [|c1 k c2 r H IH P]; [constructor|].
  apply cperform_slide in P as [[-> _]|[(q & res & E) _]]; [exact IH|]. econstructor; eauto.
Qed.
Lemma creach_lookup : forall c c' i, wf (cv_slide c) -> creach c c' -> (i < sl_next (cv_slide c))%nat ->
  lookup i (cv_draws c') = lookup i (cv_draws c) /\ (sl_next (cv_slide c) <= sl_next (cv_slide c'))%nat.
Proof.
  intros c c' i W H Hi. induction H as [|c1 k c2 r H [IH IN] P]; [auto|].
  assert (W1 : wf (cv_slide c1)) by (eapply reachable_wf; [exact W|apply creach_slides, H]).
  apply cperform_slide in P as [[-> ->]|[(q & res & E) D]]; [auto|].
  destruct (perform_texts _ _ _ _ W1 E) as (N & _). split; [|lia].
  destruct D as [->|[d ->]]; [exact IH|]. cbn [lookup]. destruct (Nat.eqb_spec i (sl_next (cv_slide c1))); [lia|exact IH].
Qed.

Lemma new_canvas_slide : forall w h c, new_canvas w h = Ok c -> new_slide w h = Ok (cv_slide c).
Proof.
  intros w h c H. unfold new_canvas in H. destruct (new_slide w h) as [s|]; [|discriminate].
  cbn [rbind] in H. now injection H as <-.
Qed.

(** What a successful call leaves behind. *)
Lemma shape_called : forall w0 h0 c0 c r sh c1 i c2 w h st S, new_canvas w0 h0 = Ok c0 -> creach c0 c ->
  shape_call c r sh = (c1, Ok i) -> creach c1 c2 -> prepare (sl_layout (cv_slide c2)) w h st = Ok S ->
  exists b cs R, get_box r (sl_box (cv_slide c)) = Some (b, cs) /\ st_rect S (b_id b) = Some R /\
    reachable (cv_slide c) (cv_slide c2) /\
    (shape_drawing (b_id b) sh = Ok None /\ c1 = c /\ i = r \/
     exists d, shape_drawing (b_id b) sh = Ok (Some d) /\ lookup i (cv_draws c2) = Some d).
Proof.
  intros w0 h0 c0 c r sh c1 i c2 w h st S H0 HC H HL HP. apply new_canvas_slide in H0.
  assert (RC := creach_slides _ _ HC).
  assert (W : wf (cv_slide c)) by (eapply reachable_wf; [eapply new_slide_wf; exact H0|exact RC]).
  assert (R1 : creach c c1) by (eapply (cr_cons c c (KShape r sh)); [constructor|exact H]).
  assert (R2 : reachable (cv_slide c) (cv_slide c2)).
  { eapply reachable_trans; [apply creach_slides, R1|apply creach_slides, HL]. }
  assert (W1 : wf (cv_slide c1)) by (eapply reachable_wf; [exact W|apply creach_slides, R1]).
  unfold shape_call in H. destruct (get_box r (sl_box (cv_slide c))) as [[b cs]|] eqn:Hg; [|discriminate].
  destruct (box_rect _ _ _ _ _ _ _ _ _ _ _ _ H0 RC Hg R2 HP) as [R ER].
  exists b, cs, R. split; [reflexivity|]. split; [exact ER|]. split; [exact R2|].
  destruct (shape_drawing (b_id b) sh) as [[d|]|e]; try discriminate.
  - right. exists d. split; [reflexivity|].
    destruct (item_call (cv_slide c) r Shape) as [s' [j|e]] eqn:E; [|discriminate]. injection H as <- <-.
    unfold item_call in E. rewrite Hg in E. injection E as <- <-.
    destruct (creach_lookup _ c2 (sl_next (cv_slide c)) W1 HL) as [-> _]; [cbn; lia|].
    cbn [cv_draws lookup]. now rewrite Nat.eqb_refl.
  - left. injection H as <- <-. auto.
Qed.

(** rect() and ellipse() draw exactly the content area that their box has in the end. *)
Theorem C101_rect : forall w0 h0 c0 c r rx ry rot p c1 i c2 w h st S, new_canvas w0 h0 = Ok c0 -> creach c0 c ->
  shape_call c r (ShRect rx ry rot p) = (c1, Ok i) -> creach c1 c2 ->
  prepare (sl_layout (cv_slide c2)) w h st = Ok S ->
  exists b cs R, get_box r (sl_box (cv_slide c)) = Some (b, cs) /\ st_rect S (b_id b) = Some R /\
    forall other, item_drawing c2 other i S = Ok [PageModel.GRect
      (ShapeModel.mkRect (Q2R (start X R)) (Q2R (start Y R)) (Q2R (extent X R)) (Q2R (extent Y R))) rx ry rot p].
Proof.
  intros w0 h0 c0 c r rx0 ry0 rot p c1 i c2 w h st S H0 HC H HL HP.
  destruct (shape_called _ _ _ _ _ _ _ _ _ _ _ _ _ H0 HC H HL HP) as (b & cs & R & Hg & ER & _ & D).
  exists b, cs, R. split; [exact Hg|]. split; [exact ER|]. intros other.
  cbn [shape_drawing] in D. destruct D as [[D _]|(d & D & L)]; [discriminate|]. injection D as <-.
  unfold item_drawing. rewrite L, ER. reflexivity.
Qed.
Print Assumptions C101_rect.
Theorem C101_ellipse : forall w0 h0 c0 c r rot p c1 i c2 w h st S, new_canvas w0 h0 = Ok c0 -> creach c0 c ->
  shape_call c r (ShEllipse rot p) = (c1, Ok i) -> creach c1 c2 ->
  prepare (sl_layout (cv_slide c2)) w h st = Ok S ->
  exists b cs R, get_box r (sl_box (cv_slide c)) = Some (b, cs) /\ st_rect S (b_id b) = Some R /\
    forall other, item_drawing c2 other i S = Ok [PageModel.GEllipse
      (ShapeModel.mkRect (Q2R (start X R)) (Q2R (start Y R)) (Q2R (extent X R)) (Q2R (extent Y R))) rot p].
Proof.
  intros w0 h0 c0 c r rot p c1 i c2 w h st S H0 HC H HL HP.
  destruct (shape_called _ _ _ _ _ _ _ _ _ _ _ _ _ H0 HC H HL HP) as (b & cs & R & Hg & ER & _ & D).
  exists b, cs, R. split; [exact Hg|]. split; [exact ER|]. intros other.
  cbn [shape_drawing] in D. destruct D as [[D _]|(d & D & L)]; [discriminate|]. injection D as <-.
  unfold item_drawing. rewrite L, ER. reflexivity.
Qed.
Print Assumptions C101_ellipse.

Section Points.
Variables (w0 h0 w h : Q) (s0 s s2 : slide) (r b : nat) (R : rect) (st S : store).
Hypothesis H0 : new_slide w0 h0 = Ok s0.
Hypothesis HL : reachable s s2.
Hypothesis HP : prepare (sl_layout s2) w h st = Ok S.
Hypothesis ER : st_rect S b = Some R.

Lemma part_value : forall x v sp p, part s0 s b x v sp -> parse_pos (coord v) = Ok p ->
  exists u, layout_point x b p S = Ok u /\ sits S sp u.
Proof.
  intros x v sp p HPa Hp. destruct HPa as [v a Pv|l sp HM].
  - assert (Mp := parse_means _ _ _ Pv Hp).
    destruct (point_value x b p S R ER (means_simple _ _ Mp)) as (u & E & A).
    exists u. split; [exact E|]. exists R, p, u. repeat split; auto. ring.
  - cbn in Hp. injection Hp as <-.
    destruct (C101_value w0 h0 s0 s s2 l sp w h st S H0 HM HL HP) as (u & E & Hs).
    exists u. split; [|exact Hs]. destruct x; cbn [layout_point]; unfold layout_x, layout_y; rewrite ER; exact E.
Qed.
Lemma names_value : forall v sp p, names s0 s b v sp -> ShapeModel.unpack_point _ _ (at_xy b) v = Ok p ->
  exists q, real_eval S p = Ok q /\ point_sits S sp q.
Proof.
  intros v sp p HN Hp. destruct HN as [p' sp [M1 M2]|k v1 v2 sv sw P1 P2]; cbn [ShapeModel.unpack_point] in Hp.
  - injection Hp as ->.
    destruct (C101_value _ _ _ _ _ _ _ _ _ _ _ H0 M1 HL HP) as (x & E1 & S1).
    destruct (C101_value _ _ _ _ _ _ _ _ _ _ _ H0 M2 HL HP) as (y & E2 & S2).
    exists (Q2R x, Q2R y). split; [unfold real_eval, point_eval; rewrite E1; cbn [rbind]; rewrite E2; reflexivity|].
    exists x, y. auto.
  - unfold at_xy, at_x, at_y in Hp.
    destruct (parse_pos (coord v1)) as [p1|] eqn:E1; [|discriminate]. cbn [rbind] in Hp.
    destruct (parse_pos (coord v2)) as [p2|] eqn:E2; [|discriminate]. cbn [rbind] in Hp. injection Hp as <-.
    destruct (part_value _ _ _ _ P1 E1) as (x & F1 & S1). destruct (part_value _ _ _ _ P2 E2) as (y & F2 & S2).
    cbn [layout_point] in F1, F2.
    exists (Q2R x, Q2R y). split; [unfold real_eval, point_eval; cbn [fst snd]; rewrite F1; cbn [rbind]; rewrite F2; reflexivity|].
    exists x, y. auto.
Qed.
Lemma names_values : forall vs sps ps, Forall2 (names s0 s b) vs sps ->
  ShapeModel.unpack_points _ _ (at_xy b) vs = Ok ps ->
  exists qs, ShapeModel.eval_points _ (real_eval S) ps = Ok qs /\ Forall2 (point_sits S) sps qs.
Proof.
  intros vs sps ps F. revert ps. induction F as [|v sp vs sps Hv F IH]; intros ps Hp; cbn [ShapeModel.unpack_points] in Hp.
  - injection Hp as <-. exists []. split; [reflexivity|constructor].
  - destruct (ShapeModel.unpack_point _ _ (at_xy b) v) as [p|] eqn:E; [|discriminate]. cbn [rbind] in Hp.
    destruct (ShapeModel.unpack_points _ _ (at_xy b) vs) as [ps'|]; [|discriminate]. cbn [rbind] in Hp. injection Hp as <-.
    destruct (names_value _ _ _ Hv E) as (q & Eq & Sq). destruct (IH ps' eq_refl) as (qs & Es & Fs).
    exists (q :: qs). split; [cbn [ShapeModel.eval_points]; rewrite Eq; cbn [rbind]; rewrite Es; reflexivity|]. now constructor.
Qed.
Lemma names_commands : forall vs sps cs, Forall2 (names_command s0 s b) vs sps ->
  ShapeModel.check_path _ _ (at_xy b) vs = Ok cs ->
  exists ds, ShapeModel.eval_path _ (real_eval S) cs = Ok ds /\ Forall2 (command_sits S) sps ds.
Proof.
  intros vs sps cs F. revert cs. induction F as [|v sp vs sps Hv F IH]; intros cs Hp; cbn [ShapeModel.check_path] in Hp.
  - injection Hp as <-. exists []. split; [reflexivity|constructor].
  - destruct (ShapeModel.check_command _ _ (at_xy b) v) as [[n ps]|] eqn:E; [|discriminate]. cbn [rbind] in Hp.
    destruct (ShapeModel.check_path _ _ (at_xy b) vs) as [cs'|]; [|discriminate]. cbn [rbind] in Hp. injection Hp as <-.
    destruct Hv as [k t n' m args sps' Lt Fa]. cbn [ShapeModel.check_command ShapeModel.command_name] in E.
    assert (En : ShapeModel.pname_of t = Some n') by (destruct Lt; reflexivity). rewrite En in E. cbn [rbind] in E.
    destruct (negb _); [discriminate|].
    destruct (ShapeModel.unpack_points _ _ (at_xy b) args) as [ps'|] eqn:Eu; [|discriminate]. cbn [rbind] in E. injection E as -> ->.
    destruct (names_values _ _ _ Fa Eu) as (qs & Eq & Fq). destruct (IH cs' eq_refl) as (ds & Es & Fs).
    exists ((n, qs) :: ds). split; [cbn [ShapeModel.eval_path]; rewrite Eq; cbn [rbind]; rewrite Es; reflexivity|].
    constructor; [|exact Fs]. split; [reflexivity|exact Fq].
Qed.
End Points.

(** Polygons, lines and paths go through the places that their points refer to, in the same
    order; arrows are drawn for these places (C59, C60). *)
Theorem C101_polygon : forall w0 h0 c0 c r vs rot p sps b cs c1 i c2 w h st S,
  new_canvas w0 h0 = Ok c0 -> creach c0 c -> shape_call c r (ShPolygon vs rot p) = (c1, Ok i) ->
  get_box r (sl_box (cv_slide c)) = Some (b, cs) ->
  Forall2 (names (cv_slide c0) (cv_slide c) (b_id b)) vs sps -> creach c1 c2 ->
  prepare (sl_layout (cv_slide c2)) w h st = Ok S ->
  exists qs, Forall2 (point_sits S) sps qs /\
    forall other, item_drawing c2 other i S = Ok [PageModel.GPolygon qs rot p].
Proof.
  intros w0 h0 c0 c r vs rot p sps b cs c1 i c2 w h st S H0 HC H Hg F HL HP.
  destruct (shape_called _ _ _ _ _ _ _ _ _ _ _ _ _ H0 HC H HL HP) as (b' & cs' & R & Hg' & ER & R2 & D).
  rewrite Hg in Hg'. injection Hg' as <- <-. cbn [shape_drawing] in D.
  destruct (ShapeModel.unpack_points _ _ (at_xy (b_id b)) vs) as [ps|] eqn:E; [|destruct D as [[D _]|(d & D & _)]; discriminate].
  cbn [rbind] in D. destruct D as [[D _]|(d & D & L)]; [discriminate|]. injection D as <-.
  destruct (names_values _ _ _ _ _ _ _ _ _ _ _ (new_canvas_slide _ _ _ H0) R2 HP ER _ _ _ F E) as (qs & Eq & Fq).
  exists qs. split; [exact Fq|]. intros other. unfold item_drawing. rewrite L, Eq. reflexivity.
Qed.
Print Assumptions C101_polygon.
Theorem C101_line : forall w0 h0 c0 c r vs color width dash a1 a2 sps b cs c1 i c2 w h st S,
  new_canvas w0 h0 = Ok c0 -> creach c0 c -> shape_call c r (ShLine vs color width dash a1 a2) = (c1, Ok i) ->
  get_box r (sl_box (cv_slide c)) = Some (b, cs) ->
  Forall2 (names (cv_slide c0) (cv_slide c) (b_id b)) vs sps -> creach c1 c2 ->
  prepare (sl_layout (cv_slide c2)) w h st = Ok S ->
  (2 <= List.length vs)%nat /\ exists qs, Forall2 (point_sits S) sps qs /\
    (forall other, item_drawing c2 other i S = PageModel.line_item qs color width dash a1 a2) /\
    (a1 = None -> a2 = None -> forall other, item_drawing c2 other i S =
       Ok [PageModel.GPolyline qs (ShapeModel.mkPaint (Some color) None width dash)]).
Proof.
  intros w0 h0 c0 c r vs color width dash a1 a2 sps b cs c1 i c2 w h st S H0 HC H Hg F HL HP.
  destruct (shape_called _ _ _ _ _ _ _ _ _ _ _ _ _ H0 HC H HL HP) as (b' & cs' & R & Hg' & ER & R2 & D).
  rewrite Hg in Hg'. injection Hg' as <- <-. cbn [shape_drawing] in D.
  destruct (Nat.leb 2 (List.length vs)) eqn:Hn; cbn [negb] in D; [|destruct D as [[D _]|(d & D & _)]; discriminate].
  split; [now apply Nat.leb_le|].
  destruct (ShapeModel.unpack_points _ _ (at_xy (b_id b)) vs) as [ps|] eqn:E; [|destruct D as [[D _]|(d & D & _)]; discriminate].
  cbn [rbind] in D. destruct D as [[D _]|(d & D & L)]; [discriminate|]. injection D as <-.
  destruct (names_values _ _ _ _ _ _ _ _ _ _ _ (new_canvas_slide _ _ _ H0) R2 HP ER _ _ _ F E) as (qs & Eq & Fq).
  exists qs. split; [exact Fq|].
  assert (G : forall other, item_drawing c2 other i S = PageModel.line_item qs color width dash a1 a2).
  { intros other. unfold item_drawing. rewrite L, Eq. reflexivity. }
  split; [exact G|]. intros -> -> other. rewrite G. reflexivity.
Qed.
Print Assumptions C101_line.
Theorem C101_path : forall w0 h0 c0 c r vs p arrow sps b cs c1 i c2 w h st S,
  new_canvas w0 h0 = Ok c0 -> creach c0 c -> shape_call c r (ShPath vs p arrow) = (c1, Ok i) -> vs <> [] ->
  get_box r (sl_box (cv_slide c)) = Some (b, cs) ->
  Forall2 (names_command (cv_slide c0) (cv_slide c) (b_id b)) vs sps -> creach c1 c2 ->
  prepare (sl_layout (cv_slide c2)) w h st = Ok S ->
  exists ds, Forall2 (command_sits S) sps ds /\
    (forall other, item_drawing c2 other i S = PageModel.path_item ds p arrow) /\
    (arrow = None -> forall other, item_drawing c2 other i S = Ok [PageModel.GPath ds p]).
Proof.
  intros w0 h0 c0 c r vs p arrow sps b cs c1 i c2 w h st S H0 HC H Hv Hg F HL HP.
  destruct (shape_called _ _ _ _ _ _ _ _ _ _ _ _ _ H0 HC H HL HP) as (b' & cs' & R & Hg' & ER & R2 & D).
  rewrite Hg in Hg'. injection Hg' as <- <-. cbn [shape_drawing] in D.
  destruct (ShapeModel.check_path _ _ (at_xy (b_id b)) vs) as [ks|] eqn:E; [|destruct D as [[D _]|(d & D & _)]; discriminate].
  cbn [rbind] in D.
  destruct (names_commands _ _ _ _ _ _ _ _ _ _ _ (new_canvas_slide _ _ _ H0) R2 HP ER _ _ _ F E) as (ds & Eq & Fq).
  destruct ks as [|k ks].
  { exfalso. destruct vs as [|v vs]; [congruence|]. cbn [ShapeModel.check_path] in E.
    destruct (ShapeModel.check_command _ _ _ v); [|discriminate]. cbn [rbind] in E.
    destruct (ShapeModel.check_path _ _ _ vs); discriminate. }
  destruct D as [[D _]|(d & D & L)]; [discriminate|]. injection D as <-.
  exists ds. split; [exact Fq|].
  assert (G : forall other, item_drawing c2 other i S = PageModel.path_item ds p arrow).
  { intros other.
    transitivity (rbind (ShapeModel.eval_path _ (real_eval S) (k :: ks)) (fun ds => PageModel.path_item ds p arrow)).
    - unfold item_drawing. rewrite L. reflexivity.
    - rewrite Eq. reflexivity. }
  split; [exact G|]. intros -> other. rewrite G. reflexivity.
Qed.
Print Assumptions C101_path.

(** ** Which calls are accepted *)
Definition good_coord (v : value) : Prop :=
  match v with
  | ShapeModel.RStr s | ShapeModel.RVal (AStr s) =>
      exists p s0 nl, pos_doc s0 p /\ eol nl /\ s = (s0 ++ nl)%list
  | ShapeModel.RVal (ANum _) | ShapeModel.RVal ANone | ShapeModel.RVal (ALazy _) => True
  | _ => False
  end.
Definition good_point (v : value) : Prop :=
  (exists p, v = ShapeModel.RLazy p) \/
  exists k a b, v = ShapeModel.RSeq k [a; b] /\ good_coord a /\ good_coord b.
Definition good_command (v : value) : Prop :=
  exists k t n m args, v = ShapeModel.RSeq k (ShapeModel.RStr t :: args) /\ letter t n m /\
    (exists j, List.length args = (j * m)%nat) /\ Forall good_point args.

Lemma coord_ok : forall v, (exists p, parse_pos (coord v) = Ok p) <-> good_coord v.
Proof.
  intros [s|k l|p|a|]; cbn [coord good_coord].
  - split; [intros [p H]|intros (p & H)]; exists p; now apply C09_pos_grammar_partial.
  - split; [intros [p H]; discriminate|contradiction].
  - split; [intros [q H]; discriminate|contradiction].
  - destruct a as [|q|s|l|o]; try (split; [intros _; exact I|intros _; eexists; reflexivity]).
    + split; [intros [p H]|intros (p & H)]; exists p; now apply C09_pos_grammar_partial.
    + split; [intros [p H]; discriminate|contradiction].
  - split; [intros [q H]; discriminate|contradiction].
Qed.
Lemma point_ok : forall b v, (exists p, ShapeModel.unpack_point _ _ (at_xy b) v = Ok p) <-> good_point v.
Proof.
  intros b v. split.
  - intros [p H]. destruct v as [s|k [|x [|y [|z l]]]|q|a|]; try discriminate; [|left; eauto].
    right. exists k, x, y. split; [reflexivity|]. cbn in H. unfold at_xy, at_x, at_y in H.
    destruct (parse_pos (coord x)) as [p1|] eqn:E1; [|discriminate]. cbn [rbind] in H.
    destruct (parse_pos (coord y)) as [p2|] eqn:E2; [|discriminate].
    split; apply coord_ok; eauto.
  - intros [[p ->]|(k & x & y & -> & Hx & Hy)]; [exists p; reflexivity|].
    apply coord_ok in Hx as [p1 E1]. apply coord_ok in Hy as [p2 E2].
    cbn. unfold at_xy, at_x, at_y. rewrite E1, E2. eexists. reflexivity.
Qed.
Lemma points_ok : forall b vs, (exists ps, ShapeModel.unpack_points _ _ (at_xy b) vs = Ok ps) <-> Forall good_point vs.
Proof.
  intros b vs. induction vs as [|v vs IH]; cbn [ShapeModel.unpack_points].
  - split; [constructor|exists []; reflexivity].
  - split.
    + intros [ps H]. destruct (ShapeModel.unpack_point _ _ (at_xy b) v) as [p|] eqn:E; [|discriminate]. cbn [rbind] in H.
      destruct (ShapeModel.unpack_points _ _ (at_xy b) vs) as [ps'|]; [|discriminate].
      constructor; [apply (point_ok b); eauto|apply IH; eauto].
    + intros F. inversion F as [|? ? Fv Fr]; subst. apply (point_ok b) in Fv as [p E]. apply IH in Fr as [ps Es].
      rewrite E. cbn [rbind]. rewrite Es. eexists. reflexivity.
Qed.
Lemma pname_letter : forall t n, ShapeModel.pname_of t = Some n <-> exists m, letter t n m.
Proof.
  intros t n. split.
  - unfold ShapeModel.pname_of. intros H.
    repeat match goal with
    | H : (if str_eqb ?a ?b then _ else _) = _ |- _ =>
        let E := fresh in destruct (str_eqb a b) eqn:E;
        [apply str_eqb_eq in E; subst; injection H as <-; eexists; constructor|]
    end. discriminate.
  - intros [m L]. destruct L; reflexivity.
Qed.
Lemma letter_nargs : forall t n m, letter t n m -> ShapeModel.nargs n = m /\ m <> 0%nat.
Proof. intros t n m []; cbn; auto. Qed.
Lemma command_ok : forall b v, (exists c, ShapeModel.check_command _ _ (at_xy b) v = Ok c) <-> good_command v.
Proof.
  intros b v. split.
  - intros [c H]. destruct v as [s|k [|x args]|q|a|]; try discriminate. cbn [ShapeModel.check_command] in H.
    destruct x as [t|l xs|q|a|]; cbn [ShapeModel.command_name] in H; try discriminate; [|destruct l; discriminate].
    destruct (ShapeModel.pname_of t) as [n|] eqn:En; [|discriminate]. cbn [rbind] in H.
    apply pname_letter in En as [m L]. destruct (letter_nargs _ _ _ L) as [Em Hm]. rewrite Em in H.
    destruct (Nat.eqb_spec (Nat.modulo (List.length args) m) 0) as [E0|E0]; cbn [negb] in H; [|discriminate].
    destruct (ShapeModel.unpack_points _ _ (at_xy b) args) as [ps|] eqn:E; [|discriminate].
    exists k, t, n, m, args. split; [reflexivity|]. split; [exact L|]. split; [|apply (points_ok b); eauto].
    apply Nat.mod_divides in E0 as [j E0]; [|exact Hm]. exists j. lia.
  - intros (k & t & n & m & args & -> & L & [j Hj] & F). cbn [ShapeModel.check_command ShapeModel.command_name].
    assert (En : ShapeModel.pname_of t = Some n) by (apply pname_letter; eauto). rewrite En. cbn [rbind].
    destruct (letter_nargs _ _ _ L) as [Em Hm]. rewrite Em, Hj, Nat.mod_mul by exact Hm. cbn [Nat.eqb negb].
    apply (points_ok b) in F as [ps E]. rewrite E. eexists. reflexivity.
Qed.
Lemma path_ok : forall b vs, (exists cs, ShapeModel.check_path _ _ (at_xy b) vs = Ok cs) <-> Forall good_command vs.
Proof.
  intros b vs. induction vs as [|v vs IH]; cbn [ShapeModel.check_path].
  - split; [constructor|exists []; reflexivity].
  - split.
    + intros [cs H]. destruct (ShapeModel.check_command _ _ (at_xy b) v) as [c|] eqn:E; [|discriminate]. cbn [rbind] in H.
      destruct (ShapeModel.check_path _ _ (at_xy b) vs) as [cs'|]; [|discriminate].
      constructor; [apply (command_ok b); eauto|apply IH; eauto].
    + intros F. inversion F as [|? ? Fv Fr]; subst. apply (command_ok b) in Fv as [c E]. apply IH in Fr as [cs Es].
      rewrite E. cbn [rbind]. rewrite Es. eexists. reflexivity.
Qed.

(** A shape is accepted iff its points are LazyPoints or pairs of coordinates, its commands
    have known letters and as many points as these take, and a line has two points. *)
Definition good_shape (sh : shape) : Prop :=
  match sh with
  | ShRect _ _ _ _ | ShEllipse _ _ => True
  | ShPolygon vs _ _ => Forall good_point vs
  | ShPath vs _ _ => Forall good_command vs
  | ShLine vs _ _ _ _ _ => (2 <= List.length vs)%nat /\ Forall good_point vs
  end.
Theorem C101_accepted : forall c r sh, (exists x, get_box r (sl_box (cv_slide c)) = Some x) ->
  ((exists c' i, shape_call c r sh = (c', Ok i)) <-> good_shape sh).
Proof.
  intros c r sh [[b cs] Hg].
  assert (A : (exists c' i, shape_call c r sh = (c', Ok i)) <-> exists d, shape_drawing (b_id b) sh = Ok d).
  { unfold shape_call. rewrite Hg. destruct (shape_drawing (b_id b) sh) as [[d|]|e].
    - split; [eauto|]. intros _. unfold item_call. rewrite Hg. eauto.
    - split; eauto.
    - split; [intros (c' & i & H)|intros [d H]]; discriminate. }
  rewrite A. clear A. destruct sh as [rx0 ry0 rot p|rot p|vs rot p|vs p a|vs color width dash a1 a2];
    cbn [shape_drawing good_shape].
  - split; [intros _; exact I|intros _; eauto].
  - split; [intros _; exact I|intros _; eauto].
  - rewrite <- (points_ok (b_id b)). destruct (ShapeModel.unpack_points _ _ _ vs) as [ps|e]; cbn [rbind].
    + split; eauto.
    + split; intros [x H]; discriminate.
  - rewrite <- (path_ok (b_id b)). destruct (ShapeModel.check_path _ _ _ vs) as [ps|e]; cbn [rbind].
    + split; [eauto|]. intros _. destruct ps; eauto.
    + split; intros [x H]; discriminate.
  - rewrite <- (points_ok (b_id b)). destruct (Nat.leb_spec 2 (List.length vs)) as [Hn|Hn]; cbn [negb].
    + destruct (ShapeModel.unpack_points _ _ _ vs) as [ps|e]; cbn [rbind].
      * split; eauto.
      * split; [intros [x H]; discriminate|intros [_ [x H]]; discriminate].
    + split; [intros [x H]; discriminate|intros [H _]; lia].
Qed.
Print Assumptions C101_accepted.
(** A rejected call changes nothing, and a path without commands adds nothing. *)
Theorem C101_rejected : forall c r sh c' e, shape_call c r sh = (c', Err e) -> c' = c.
Proof.
  intros c r sh c' e H. unfold shape_call in H.
  destruct (get_box r (sl_box (cv_slide c))) as [[b cs]|] eqn:Hg; [|now injection H].
  destruct (shape_drawing (b_id b) sh) as [[d|]|e']; [|discriminate|now injection H].
  unfold item_call in H. rewrite Hg in H. discriminate.
Qed.
Print Assumptions C101_rejected.
Theorem C101_empty_path : forall c r p a x, get_box r (sl_box (cv_slide c)) = Some x ->
  shape_call c r (ShPath [] p a) = (c, Ok r).
Proof. intros c r p a [b cs] H. unfold shape_call. rewrite H. reflexivity. Qed.
Print Assumptions C101_empty_path.

(** ** A concrete slide: two boxes one below the other, a line through points 5 above their
    middles and a point of the second box; then a third box is added, which moves the first
    two. *)
Definition side (w h : Q) : call :=
  CBox 0 (mkBArgs (mkLArgs ANone ANone (ANum w) (ANum h) None None None None None None None false)
    ShowNone None false None None).
Definition blank : slide := mkSlide (NItem 0 0) (Node (LayoutProps.hd 0 None None (LayoutProps.px 0) (LayoutProps.px 0) false) [])
  0 0 LayoutProps.empty_store.
Definition canvas0 : canvas := mkCanvas (match new_slide 200 100 with Ok s => s | Err _ => blank end) [].
Fixpoint crun (c : canvas) (l : list ccall) : canvas :=
  match l with [] => c | k :: l' => crun (fst (cperform c k)) l' end.
Lemma crun_reach : forall l c, creach c (crun c l).
Proof.
  assert (T : forall a b c, creach a b -> creach b c -> creach a c).
  { intros a b c A B. induction B; auto. econstructor; eauto. }
  induction l as [|k l IH]; intros c; [constructor|]. cbn [crun].
  eapply T; [|apply IH]. destruct (cperform c k) as [c1 res] eqn:E. cbn [fst].
  econstructor; [constructor|exact E].
Qed.
Definition two_boxes : canvas := crun canvas0 [KOther (side 40 20); KOther (side 60 30)].
Definition above_mid (r : nat) : lazy_point :=
  match mid_point (cv_slide two_boxes) r with
  | Ok p => point_add 0 (-5) p
  | Err _ => (fun _ => Err EException, fun _ => Err EException)
  end.
Definition corner : value := ShapeModel.RSeq false [ShapeModel.RVal (ANum 7); ShapeModel.RStr (pys "[100%]")].
Definition the_points : list value := [ShapeModel.RLazy (above_mid 1); ShapeModel.RLazy (above_mid 2); corner].
Definition the_line : shape := ShLine the_points (pys "black") (Some 1%R) None None None.
Definition lined : canvas := fst (shape_call two_boxes 2 the_line).
Definition three_boxes : canvas := crun lined [KOther (side 10 40)].
Definition fifty : arg := AStr (pys "50%").
Definition the_spots : list (spot * spot) :=
  [(mkSpot X 1 fifty (0 + 0), mkSpot Y 1 fifty (0 + -5)); (mkSpot X 2 fifty (0 + 0), mkSpot Y 2 fifty (0 + -5));
   (mkSpot X 2 (ANum 7) 0, mkSpot Y 2 (AStr (pys "[100%]")) 0)].
Lemma above_mid_marks : forall r b cs, get_box r (sl_box (cv_slide two_boxes)) = Some (b, cs) ->
  point_marks (cv_slide canvas0) (cv_slide two_boxes) (above_mid r)
    (mkSpot X (b_id b) fifty (0 + 0), mkSpot Y (b_id b) fifty (0 + -5)).
Proof.
  intros r b cs H. unfold above_mid. destruct (mid_point (cv_slide two_boxes) r) as [p|] eqn:E.
  - apply C101_add. apply (C101_points _ (cv_slide two_boxes) _ r b cs (ShapeModel.RStr (pys "50%")) (ShapeModel.RStr (pys "50%")) fifty fifty p);
      [apply (creach_slides canvas0), crun_reach|constructor|exact H|left; eauto|left; eauto|exact E].
  - exfalso. unfold mid_point, box_p in E. rewrite H in E. vm_compute in E. discriminate.
Qed.
Example ex_C101 : new_canvas 200 100 = Ok canvas0 /\ creach canvas0 two_boxes /\
  shape_call two_boxes 2 the_line = (lined, Ok 3%nat) /\ creach lined three_boxes /\
  (exists b cs, get_box 2 (sl_box (cv_slide two_boxes)) = Some (b, cs) /\
     Forall2 (names (cv_slide canvas0) (cv_slide two_boxes) (b_id b)) the_points the_spots) /\
  exists S, prepare (sl_layout (cv_slide three_boxes)) 200 100 empty_store = Ok S /\
    sits S (mkSpot X 1 fifty (0 + 0)) 100 /\ sits S (mkSpot Y 1 fifty (0 + -5)) 10 /\
    sits S (mkSpot X 2 fifty (0 + 0)) 100 /\ sits S (mkSpot Y 2 fifty (0 + -5)) 35 /\
    sits S (mkSpot X 2 (ANum 7) 0) 77 /\ sits S (mkSpot Y 2 (AStr (pys "[100%]")) 0) 55.
Proof.
  split; [reflexivity|]. split; [apply crun_reach|]. split; [reflexivity|]. split; [apply crun_reach|]. split.
  - do 2 eexists. split; [vm_compute; reflexivity|]. unfold the_points, the_spots.
    constructor; [|constructor; [|constructor; [|constructor]]].
    + apply nm_point. refine (above_mid_marks 1 (mkBox 1 _ _) _ _). vm_compute. reflexivity.
    + apply nm_point. refine (above_mid_marks 2 (mkBox 2 _ _) _ _). vm_compute. reflexivity.
    + apply nm_pair; apply pa_plain; [right|left]; eauto.
  - assert (D1 : numeral (pys "50") 50).
    { apply (num_snoc (pys "5") 5 48%N 0).
      - apply (num_one 53%N 5). exists 48%N. split; [now left|]. simpl. lia.
      - exists 48%N. split; [now left|]. simpl. lia. }
    assert (D2 : numeral (pys "100") 100).
    { apply (num_snoc (pys "10") 10 48%N 0).
      - apply (num_snoc (pys "1") 1 48%N 0).
        + apply (num_one 49%N 1). exists 48%N. split; [now left|]. simpl. lia.
        + exists 48%N. split; [now left|]. simpl. lia.
      - exists 48%N. split; [now left|]. simpl. lia. }
    assert (M1 : means fifty (PosRatio (50 / 100))).
    { exists (pys "50%"), []. split; [apply (pd_percent (pys "50") 50 D1)|]. split; [now left|reflexivity]. }
    assert (M2 : means (AStr (pys "[100%]")) (PosAlign (100 / 100))).
    { exists (pys "[100%]"), []. split; [apply (pd_align (pys "100") 100 D2)|]. split; [now left|reflexivity]. }
    eexists. split; [vm_compute; reflexivity|].
    repeat split; do 2 eexists; (eexists; split; [vm_compute; reflexivity|]);
      (split; [first [exact M1|exact M2|reflexivity]|]); (split; [cbn [point_at]; reflexivity|vm_compute; reflexivity]).
Qed.

(** ** What is not so *)

(** A coordinate None is accepted, though the shape cannot be drawn then. *)
Theorem C101_none_refuted : exists c1 i, 
  shape_call two_boxes 1 (ShPolygon [ShapeModel.RSeq false [ShapeModel.RVal ANone; ShapeModel.RVal (ANum 0)]] None
    (ShapeModel.mkPaint None None None None)) = (c1, Ok i) /\
  forall c2 w h st S other, creach c1 c2 -> prepare (sl_layout (cv_slide c2)) w h st = Ok S ->
    exists e, item_drawing c2 other i S = Err e.
Proof.
  do 2 eexists. split; [reflexivity|]. intros c2 w h st S other HL HP.
  match type of HL with creach ?c _ => set (c1 := c) in * end.
  assert (H : shape_call two_boxes 1 (ShPolygon [ShapeModel.RSeq false [ShapeModel.RVal ANone; ShapeModel.RVal (ANum 0)]] None
    (ShapeModel.mkPaint None None None None)) = (c1, Ok 3%nat)) by reflexivity.
  destruct (shape_called 200 100 canvas0 two_boxes 1 _ c1 3 c2 w h st S eq_refl (crun_reach _ _) H HL HP)
    as (b & cs & R & Hg & ER & _ & [[D _]|(d & D & L)]); [discriminate|].
  cbn [shape_drawing ShapeModel.unpack_points ShapeModel.unpack_point] in D. cbn [at_xy] in D.
  injection D as <-. unfold item_drawing.
  match goal with |- context [lookup ?i _] => change i with 3%nat end. rewrite L.
  cbn [ShapeModel.eval_points]. unfold real_eval, point_eval. cbn [fst snd]. unfold layout_x. rewrite ER.
  cbn [pos_compute rbind]. eauto.
Qed.
Print Assumptions C101_none_refuted.

(** rect() draws "a rectangle around the box", but with a padding it is inside of the box: the
    rectangle of a box 40 wide with the padding 5 is 30 wide. *)
Definition padded : call :=
  CBox 0 (mkBArgs (mkLArgs ANone ANone (ANum 40) (ANum 20) None None None None (Some 5) None None false)
    ShowNone None false None None).
Theorem C101_around_refuted : exists c c1 i S o l, c = crun canvas0 [KOther padded] /\
  shape_call c 1 (ShRect None None None (ShapeModel.mkPaint None None None None)) = (c1, Ok i) /\
  prepare (sl_layout (cv_slide c1)) 200 100 empty_store = Ok S /\
  get_layout 1 (sl_layout (cv_slide c1)) = Some l /\ outer l S o /\ extent X o == 40 /\
  exists x y w h p, item_drawing c1 (fun _ _ => Err EException) i S =
    Ok [PageModel.GRect (ShapeModel.mkRect x y (Q2R w) h) None None None p] /\ w == 30.
Proof.
  do 6 eexists. split; [reflexivity|]. split; [reflexivity|]. split; [vm_compute; reflexivity|].
  split; [reflexivity|]. split; [eexists; split; [vm_compute; reflexivity|reflexivity]|].
  split; [vm_compute; reflexivity|]. do 5 eexists. split; [reflexivity|]. vm_compute. reflexivity.
Qed.
Print Assumptions C101_around_refuted.
