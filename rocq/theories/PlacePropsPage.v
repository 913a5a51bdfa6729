(** C101 on pages: the document of a page has the shapes at the places they refer to. *)
From Coq Require Import List Reals QArith Qreals ZArith NArith Bool String Sorted.
From Verif Require Import Py XmlModel XmlSpec ShowModel SlideModel SlideSpec SlideProofs LayoutModel LayoutSpec PlaceModel PlaceProps.
From Verif Require StyleModel ShapeModel ShapeSpec ShapePaint ShapeProps PicSpec DrawSpec PageModel PageSpec PageProps.
Import ListNotations.

Section Page.
Variables (fmt : R -> str) (fmtv : StyleModel.pyval -> str) (num_of : str -> option R) (isfloat : R -> Prop).
Variables (w h : R) (v : option (R * R * R * R)).
Hypothesis Hf : ShapePaint.good_numbers fmt num_of isfloat.
Hypothesis Hl : forall x, isfloat x -> legal_value (fmt x) = true.
Hypothesis Hv : forall q, legal_value (fmtv (StyleModel.PNum q)) = true.
Hypothesis Fw : isfloat w.
Hypothesis Fh : isfloat h.
Hypothesis Fv : match v with Some (a, b, c, d) => Forall isfloat [a; b; c; d] | None => True end.

(** The page of a fragment, from the drawings of its items. *)
Definition page_items (c : canvas) (other : nat -> drawing) (S : store) (k : Z) :=
  map (fun p => match p with PItem i _ => item_drawing c other i S | PFrame _ _ => Err EException end)
    (page false (cv_slide c) k).

(** Every item in visible boxes only is shown as it is drawn in the final layout. *)
Theorem C101_page_partial : forall sw sh c0 c S other k, new_canvas sw sh = Ok c0 -> creach c0 c ->
  (forall j z bs, under bs j z (sl_box (cv_slide c)) ->
     exists l, item_drawing c other j S = Ok l /\ Forall (PageSpec.tidy isfloat fmtv) l) ->
  exists out nss, PageModel.svg_document fmt fmtv w h v (page_items c other S k) = Ok out /\
    read out = Some [NElem (pys "svg") (PageProps.root_attrs fmt w h v) (List.concat nss)] /\
    forall i z bs l, under bs i z (sl_box (cv_slide c)) ->
      Forall (fun b => is_visible (b_show b) k = true) bs -> item_drawing c other i S = Ok l ->
      exists ns, In ns nss /\ PageSpec.drawn_all num_of fmtv l ns.
Proof.
  intros sw sh c0 c S other k H0 HC T. apply new_canvas_slide in H0.
  assert (HR := creach_slides _ _ HC).
  set (draw := fun i => match item_drawing c other i S with Ok l => l | Err _ => [] end).
  destruct (PageProps.C91_order_partial fmt fmtv num_of isfloat draw w h v sw sh _ _ k Hf Hl Hv Fw Fh Fv H0 HR)
    as (out & shown & nss & E & Rd & F & Sh & _ & _).
  { intros i z bs U. destruct (T i z bs U) as (l & El & Tl). unfold draw. now rewrite El. }
  exists out, nss. split; [|split; [exact Rd|]].
  - rewrite <- E. f_equal. unfold page_items. apply map_ext_in. intros p Hp. destruct p as [i z|i z]; [|reflexivity].
    assert (Hq : In (PItem i z) (get_painters false k (sl_box (cv_slide c)))).
    { revert Hp. apply Permutation.Permutation_in. apply SlideProofs.sort_painters_perm. }
    assert (U : exists bs, under bs i z (sl_box (cv_slide c))).
    { revert Hq. generalize (sl_box (cv_slide c)). clear. fix IH 1. intros [j y|b cs] Hp; cbn [get_painters] in Hp.
      - destruct Hp as [Hp|[]]. injection Hp as -> ->. exists []. constructor.
      - destruct (is_visible (b_show b) k); [|destruct Hp]. rewrite app_nil_r in Hp.
        assert (G : exists d bs, In d cs /\ under bs i z d).
        { induction cs as [|d cs IHc]; cbn [flat_map] in Hp; [destruct Hp|].
          apply in_app_or in Hp as [Hp|Hp].
          - destruct (IH d Hp) as [bs U]. exists d, bs. split; [now left|exact U].
          - destruct (IHc Hp) as (e & bs & He & U). exists e, bs. split; [now right|exact U]. }
        destruct G as (d & bs & Hd & U). exists (b :: bs). econstructor; eauto. }
    destruct U as [bs U]. destruct (T i z bs U) as (l & El & _). unfold draw. now rewrite El.
  - intros i z bs l U Vs El.
    assert (Hi : In (i, z) shown) by (apply Sh; eauto).
    clear - F Hi El. induction F as [|iz ns shown nss D F IH]; [destruct Hi|].
    destruct Hi as [->|Hi].
    + exists ns. split; [now left|]. cbn [fst] in D. unfold draw in D. now rewrite El in D.
    + destruct (IH Hi) as (ns' & A & B). exists ns'. split; [now right|exact B].
Qed.

(** A rectangle, after any further calls: on a page where it is visible there is an element
    whose outline is the content area of its box, in the looks that were asked for. *)
Theorem C101_rect_page_partial : forall sw sh c0 c r rx ry rot p c1 i c2 st S other k,
  new_canvas sw sh = Ok c0 -> creach c0 c -> shape_call c r (ShRect rx ry rot p) = (c1, Ok i) ->
  creach c1 c2 -> prepare (sl_layout (cv_slide c2)) sw sh st = Ok S ->
  (forall j z bs, under bs j z (sl_box (cv_slide c2)) ->
     exists l, item_drawing c2 other j S = Ok l /\ Forall (PageSpec.tidy isfloat fmtv) l) ->
  exists b cs R out nss, get_box r (sl_box (cv_slide c)) = Some (b, cs) /\ st_rect S (b_id b) = Some R /\
    PageModel.svg_document fmt fmtv w h v (page_items c2 other S k) = Ok out /\
    read out = Some [NElem (pys "svg") (PageProps.root_attrs fmt w h v) (List.concat nss)] /\
    forall z bs, under bs i z (sl_box (cv_slide c2)) -> Forall (fun b => is_visible (b_show b) k = true) bs ->
      exists n pic, In [n] nss /\ PageSpec.node_picture num_of n = Some pic /\
        ShapeSpec.pic_look pic = ShapePaint.look_of p /\
        ShapeSpec.pic_outline pic = ShapeSpec.rect_outline (Q2R (start X R)) (Q2R (start Y R)) (Q2R (extent X R)) (Q2R (extent Y R)) /\
        ShapeSpec.pic_matrix pic = ShapePaint.rotation_of rot
          (Q2R (start X R) + Q2R (extent X R) / 2, Q2R (start Y R) + Q2R (extent Y R) / 2)%R.
Proof.
  intros sw sh c0 c r rx ry rot p c1 i c2 st S other k H0 HC H HL HP T.
  assert (T1 : creach c0 c2).
  { assert (Tr : forall a b d, creach a b -> creach b d -> creach a d).
    { intros a b d A B. induction B; auto. econstructor; eauto. }
    eapply Tr; [exact HC|]. eapply Tr; [|exact HL]. apply (cr_cons c c (KShape r (ShRect rx ry rot p)) c1 (Ok i)); [constructor|exact H]. }
  destruct (C101_rect _ _ _ _ _ _ _ _ _ _ _ _ _ _ _ _ H0 HC H HL HP) as (b & cs & R & Hg & ER & D).
  destruct (C101_page_partial sw sh c0 c2 S other k H0 T1 T) as (out & nss & E & Rd & G).
  exists b, cs, R, out, nss. repeat split; auto. intros z bs U Vs.
  destruct (G i z bs _ U Vs (D other)) as (ns & Hn & Da).
  inversion Da as [|g l a b' Dg Dl]; subst. inversion Dl; subst. rewrite app_nil_r in *.
  inversion Dg as [g d n pic Hs Hp Hm| | |]; subst. cbn in Hs. injection Hs as <-.
  destruct Hm as (M1 & M2 & M3). cbn [ShapeModel.r_x ShapeModel.r_y ShapeModel.r_w ShapeModel.r_h] in *.
  exists n, pic. repeat split; auto.
Qed.
End Page.
Print Assumptions C101_page_partial.
Print Assumptions C101_rect_page_partial.

(** A slide of 4 x 3 with a box of 2 x 1 in its middle and the rectangle of this box. *)
Definition canvas1 : canvas := mkCanvas (match new_slide 4 3 with Ok s => s | Err _ => blank end) [].
Definition with_box : canvas := crun canvas1 [KOther (side 2 1)].
Definition black_pen : ShapeModel.paint := ShapeProps.pen None.
Definition with_rect : canvas := fst (shape_call with_box 1 (ShRect None None None black_pen)).
Definition final : canvas := crun with_rect [KOther (side 0 0)].
Definition final_store : store :=
  match prepare (sl_layout (cv_slide final)) 4 3 LayoutProps.empty_store with Ok st => st | Err _ => LayoutProps.empty_store end.
Definition final_rect : rect := match st_rect final_store 1 with Some R => R | None => mkRect 0 0 0 0 end.
Example ex_C101_page : new_canvas 4 3 = Ok canvas1 /\ creach canvas1 with_box /\
  shape_call with_box 1 (ShRect None None None black_pen) = (with_rect, Ok 2%nat) /\ creach with_rect final /\
  (exists bs z, under bs 2 z (sl_box (cv_slide final)) /\ Forall (fun b => is_visible (b_show b) 1 = true) bs) /\
  prepare (sl_layout (cv_slide final)) 4 3 LayoutProps.empty_store = Ok final_store /\
  st_rect final_store 1 = Some final_rect /\ req final_rect (mkRect 1 1 2 1) /\
  forall j z bs, under bs j z (sl_box (cv_slide final)) ->
    exists l, item_drawing final (fun _ _ => Err EException) j final_store = Ok l /\
      Forall (PageSpec.tidy ShapeProps.isfloat0 DrawProps.ex_fmt) l.
Proof.
  split; [reflexivity|]. split; [apply crun_reach|]. split; [reflexivity|]. split; [apply crun_reach|]. split.
  { let t := eval vm_compute in (sl_box (cv_slide final)) in change (sl_box (cv_slide final)) with t.
    do 2 eexists. split.
    - eapply un_box; [left; reflexivity|]. eapply un_box; [left; reflexivity|]. constructor.
    - repeat constructor. }
  split; [vm_compute; reflexivity|]. split; [vm_compute; reflexivity|].
  assert (Eq : req final_rect (mkRect 1 1 2 1)) by (repeat split; vm_compute; reflexivity).
  split; [exact Eq|]. intros j z bs U.
  assert (j = 2%nat) as ->.
  { revert U. let t := eval vm_compute in (sl_box (cv_slide final)) in change (sl_box (cv_slide final)) with t. intros U.
    inversion U as [|bs1 ? ? b1 cs1 d1 H1 U1]; subst. destruct H1 as [<-|[<-|[]]].
    - inversion U1 as [|bs2 ? ? b2 cs2 d2 H2 U2]; subst. destruct H2 as [<-|[]]. inversion U2; reflexivity.
    - inversion U1 as [|bs2 ? ? b2 cs2 d2 H2 U2]; subst. destruct H2. }
  exists [PageModel.GRect (real_rect final_rect) None None None black_pen].
  split; [reflexivity|]. constructor; [|constructor].
  assert (I1 : ShapeProps.isfloat0 1) by (unfold ShapeProps.isfloat0; auto 10).
  assert (I2 : ShapeProps.isfloat0 2) by (unfold ShapeProps.isfloat0; auto 10).
  assert (E1 : Q2R 1 = 1%R) by (unfold Q2R; cbn; field). assert (E2 : Q2R 2 = 2%R) by (unfold Q2R; cbn; field).
  destruct Eq as (Q1 & Q2 & Q3 & Q4). apply Qeq_eqR in Q1, Q2, Q3, Q4. cbn [rx ry rw rh] in Q1, Q2, Q3, Q4.
  rewrite E1 in Q1, Q2, Q4. rewrite E2 in Q3.
  eexists. split; [reflexivity|]. split; [|split; [|exact I]].
  - unfold ShapeProps.fit. cbn [ShapeProps.paint_of black_pen ShapeProps.pen ShapeModel.p_width ShapeModel.p_dash].
    split; [cbn; destruct (ShapeModel.req 2 0); [exact I1|exact I2]|]. split; [intros ? ? K; discriminate|]. split; [reflexivity|]. split; [reflexivity|]. split; [|exact I].
    unfold real_rect. rewrite Q1, Q2, Q3, Q4. repeat split; assumption.
  - destruct (PageProps.black_legal None (Some 2%R)) as [K|[K _]]; [exact K|congruence].
Qed.
