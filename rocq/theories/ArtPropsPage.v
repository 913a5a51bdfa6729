(** C102 on pages: the document of a page shows every shape, text and image of the visible
    boxes, as drawn in the final layout; both backends. *)
From Coq Require Import List Reals QArith Qreals ZArith NArith Bool String.
From Verif Require Import Py XmlModel XmlSpec ShowModel SlideModel SlideSpec SlideProofs LayoutModel LayoutSpec
  TextModel StyleModel ImageModel PlaceModel PlaceProps PlacePropsPage ArtModel ArtProps.
From Verif Require ShapeModel ShapeSpec ShapePaint ShapeProps PicSpec DrawSpec PageModel PageSpec PageProps MixModel MixProps.
Import ListNotations.

(** What the items of a page draw (svg/backend.py:74-80, cairo/backend.py:19-33). *)
Definition art_page (c : art_slide) (S : store) (k : Z) : list (result (list PageModel.gcall)) :=
  map (fun p => match p with PItem i _ => art_drawing c k i S | PFrame _ _ => Err EException end)
    (page false (ar_slide c) k).

Lemma plain_reach : forall s s', reachable s s' -> creach (mkCanvas s []) (mkCanvas s' []).
Proof.
  intros s s' H. induction H as [|s1 q s2 r H IH P]; [constructor|].
  eapply (cr_cons _ _ (KOther q)); [exact IH|]. cbn [cperform cv_slide cv_draws]. rewrite P. reflexivity.
Qed.
Lemma plain_new : forall w h c, new_art w h = Ok c -> new_canvas w h = Ok (mkCanvas (ar_slide c) []).
Proof.
  intros w h c H. unfold new_art, new_canvas in *. destruct (new_slide w h) as [s|]; [|discriminate].
  cbn [rbind] in *. now injection H as <-.
Qed.

Section Page.
Variable measure : list token -> style -> (str -> option style) -> Q.
Variable serialize : xnode -> str.
Variable isalpha : char -> bool.
Variable to_float : str -> option Q.
Variables (fmt : R -> str) (fmtv : StyleModel.pyval -> str) (num_of : str -> option R) (isfloat : R -> Prop).
Variables (w h : R) (v : option (R * R * R * R)).
Hypothesis Hf : ShapePaint.good_numbers fmt num_of isfloat.
Hypothesis Hl : forall x, isfloat x -> legal_value (fmt x) = true.
Hypothesis Hv : forall q, legal_value (fmtv (StyleModel.PNum q)) = true.
Hypothesis Fw : isfloat w.
Hypothesis Fh : isfloat h.
Hypothesis Fv : match v with Some (a, b, c, d) => Forall isfloat [a; b; c; d] | None => True end.

(** Every item in visible boxes only is shown as it is drawn in the final layout. *)
Theorem C102_page_partial : forall sw sh c0 c S k, new_art sw sh = Ok c0 ->
  areach measure serialize isalpha to_float c0 c ->
  (forall j z bs, under bs j z (sl_box (ar_slide c)) ->
     exists l, art_drawing c k j S = Ok l /\ Forall (PageSpec.tidy isfloat fmtv) l) ->
  exists out nss, PageModel.svg_document fmt fmtv w h v (art_page c S k) = Ok out /\
    read out = Some [NElem (pys "svg") (PageProps.root_attrs fmt w h v) (List.concat nss)] /\
    forall i z bs l, under bs i z (sl_box (ar_slide c)) ->
      Forall (fun b => is_visible (b_show b) k = true) bs -> art_drawing c k i S = Ok l ->
      exists ns, In ns nss /\ PageSpec.drawn_all num_of fmtv l ns.
Proof.
  intros sw sh c0 c S k H0 HC T.
  exact (C101_page_partial fmt fmtv num_of isfloat w h v Hf Hl Hv Fw Fh Fv sw sh _ (mkCanvas (ar_slide c) []) S
    (fun i => art_drawing c k i) k (plain_new _ _ _ H0) (plain_reach _ _ (areach_slides _ _ _ _ _ _ HC)) T).
Qed.
End Page.
Print Assumptions C102_page_partial.

(** A page of a slide in both backends (C92): the calls of its items are, in the order of the
    page, one element of the SVG document and one group of marks in Cairo each; those of a shape
    are the same picture. *)
Theorem C102_both_partial : forall rgb_of to_float place fmt fmtv num_of isfloat
  w h c S k items s s',
  ShapePaint.good_numbers fmt num_of isfloat -> (forall x, isfloat x -> legal_value (fmt x) = true) ->
  (forall q, legal_value (fmtv (PNum q)) = true) -> ShapePaint.css_colors rgb_of -> ShapePaint.float_chars to_float ->
  isfloat w -> isfloat h ->
  Forall2 (fun p l => exists i z, p = PItem i z /\ art_drawing c k i S = Ok l) (page false (ar_slide c) k) items ->
  Forall (Forall (PageSpec.tidy isfloat fmtv)) items ->
  (forall g d, In g (List.concat items) -> PageSpec.shape_of g = Some d -> ShapeProps.undashed_ellipse d) ->
  MixProps.ellipses_apart false (List.concat items) ->
  ShapeProps.calm s -> (ShapeModel.det (ShapeModel.ctm s) <> 0)%R ->
  MixModel.cairo_calls rgb_of to_float place 0 (List.concat items) s = Ok s' ->
  exists out nodes mss, PageModel.svg_document fmt fmtv w h None (art_page c S k) = Ok out /\
    read out = Some [NElem (pys "svg") (PageProps.root_attrs fmt w h None) nodes] /\
    ShapeModel.c_ink s' = ShapeModel.c_ink s ++ List.concat mss /\
    MixProps.each (MixProps.same_picture rgb_of to_float fmtv num_of (ShapeModel.ctm s)) 0 (List.concat items) nodes mss.
Proof.
  intros rgb_of to_float place fmt fmtv num_of isfloat
    w h c S k items s s' Hf Hl Hv Hc Hch Fw Fh HI T U A C D E.
  assert (Ep : art_page c S k = map (fun l => Ok l) items).
  { unfold art_page. clear - HI. induction HI as [|p l ps items (i & z & -> & El) HI IH]; cbn [map]; [reflexivity|].
    now rewrite El, IH. }
  rewrite Ep. eapply MixProps.C92_mixed_partial; eauto.
Qed.
Print Assumptions C102_both_partial.

(** A slide of 4 x 3 with a box of 2 x 1 in its middle and a bitmap of 2 x 1 in the box, as large
    as the box. *)
Definition page0 : art_slide := mkArt (match new_slide 4 3 with Ok s => s | Err _ => blank end) [].
Definition page1 : art_slide := arun page0 [abox0 2 1; ADraw 1 (AtBitmap 2 1 None None (pys "x"))].
Definition page_store : store :=
  match prepare (sl_layout (ar_slide page1)) 4 3 (sl_store (ar_slide page1)) with Ok st => st | Err _ => LayoutProps.empty_store end.
Definition page_rect : rect := match st_rect page_store 1 with Some R => R | None => mkRect 0 0 0 0 end.
Example ex_C102_page : new_art 4 3 = Ok page0 /\ areach measure0 serialize0 isalpha0 to_float0 page0 page1 /\
  (exists bs z, under bs 2 z (sl_box (ar_slide page1)) /\ Forall (fun b => is_visible (b_show b) 1 = true) bs) /\
  prepare (sl_layout (ar_slide page1)) 4 3 (sl_store (ar_slide page1)) = Ok page_store /\
  (forall j z bs, under bs j z (sl_box (ar_slide page1)) ->
    exists l, art_drawing page1 1 j page_store = Ok l /\
      Forall (PageSpec.tidy ShapeProps.isfloat0 DrawProps.ex_fmt) l) /\
  exists l, Forall2 (fun p l => exists i z, p = PItem i z /\ art_drawing page1 1 i page_store = Ok l)
    (page false (ar_slide page1) 1) [l].
Proof.
  split; [reflexivity|]. split; [apply arun_reach|]. split.
  { let t := eval vm_compute in (sl_box (ar_slide page1)) in change (sl_box (ar_slide page1)) with t.
    do 2 eexists. split.
    - eapply un_box; [left; reflexivity|]. eapply un_box; [left; reflexivity|]. constructor.
    - repeat constructor. }
  split; [vm_compute; reflexivity|].
  assert (D : draw_of 2 (ar_draws page1) = Some (fun _ => bitmap_drawing 1 2 1 None None (pys "x"))) by (vm_compute; reflexivity).
  assert (E : st_rect page_store 1 = Some page_rect) by (vm_compute; reflexivity).
  assert (P : exists p, place page_rect None 2 1 = Ok p /\ (p_x p == 1 /\ p_y p == 1 /\ p_w p == 2 /\ p_h p == 1)%Q).
  { eexists. split; [vm_compute; reflexivity|]. repeat split. }
  destruct P as (p & Ep & P1 & P2 & P3 & P4).
  assert (A : art_drawing page1 1 2 page_store =
    Ok [PageModel.GBitmap (Q2R (p_x p)) (Q2R (p_y p)) (Q2R (p_w p)) (Q2R (p_h p)) None (pys "x")]).
  { unfold art_drawing. rewrite D. unfold bitmap_drawing. rewrite E, Ep. reflexivity. }
  split.
  - intros j z bs U.
    assert (j = 2%nat) as ->.
    { revert U. let t := eval vm_compute in (sl_box (ar_slide page1)) in change (sl_box (ar_slide page1)) with t. intros U.
      inversion U as [|bs1 ? ? b1 cs1 d1 H1 U1]; subst. destruct H1 as [<-|[]].
      inversion U1 as [|bs2 ? ? b2 cs2 d2 H2 U2]; subst. destruct H2 as [<-|[]]. inversion U2; reflexivity. }
    eexists. split; [exact A|]. constructor; [|constructor].
    assert (I1 : ShapeProps.isfloat0 1) by (unfold ShapeProps.isfloat0; auto 10).
    assert (I2 : ShapeProps.isfloat0 2) by (unfold ShapeProps.isfloat0; auto 10).
    assert (E1 : Q2R 1 = 1%R) by (unfold Q2R; cbn; field). assert (E2 : Q2R 2 = 2%R) by (unfold Q2R; cbn; field).
    apply Qeq_eqR in P1, P2, P3, P4. rewrite P1, P2, P3, P4, E1, E2. cbn [PageSpec.tidy].
    repeat (split; [assumption|]). split; [exact I|reflexivity].
  - exists [PageModel.GBitmap (Q2R (p_x p)) (Q2R (p_y p)) (Q2R (p_w p)) (Q2R (p_h p)) None (pys "x")].
    let t := eval vm_compute in (page false (ar_slide page1) 1) in
      replace (page false (ar_slide page1) 1) with t by (vm_compute; reflexivity).
    constructor; [|constructor]. do 2 eexists. split; [reflexivity|exact A].
Qed.
