(** Properties of whole SVG pages: C91, C92. *)
From Coq Require Import List Reals QArith Qreals ZArith NArith Bool String Sorted Lia Lra.
From Verif Require Import Py PyFacts XmlModel XmlSpec XmlProofs XmlProps StyleModel StyleSpec TextModel TextSpec
  TextBoxModel DrawModel DrawSpec DrawProofs DrawLoop DrawFacts DrawProps ShapeModel ShapeSpec ShapeProofs ShapePaint
  ShapeProps PicModel PicSpec PicProofs PageModel PageSpec PageProofs.
From Verif Require ShowModel SlideModel SlideSpec SlideProofs SlideProps.
Import ListNotations.
Local Open Scope R_scope.

(** ** C91 *)

Lemma alone_forest : forall t o, alone t = Ok o ->
  exists f, t = (forest_calls f, Ok tt) /\ Forall closes f /\ o = flat_map show f.
Proof.
  intros [cs r] o H. unfold alone, perform in H. cbn [fst snd] in H.
  destruct (xrun new_xml cs) as [x|] eqn:E; [|discriminate]. cbn [rbind] in H.
  destruct r as [[]|]; [|discriminate]. cbn [rbind] in H.
  destruct (proj1 (C43_nested cs)) as (f & C & ->); [now exists x, o|].
  exists f. split; [reflexivity|]. split; [exact C|]. destruct (forest_alone f C) as (x' & E' & S). congruence.
Qed.
Lemma items_forests : forall fmt fmtv items nss,
  Forall2 (fun it ns => exists o, alone (svg_item fmt fmtv it) = Ok o /\ ~ In 13%N o /\ read o = Some ns) items nss ->
  exists fs, svg_items fmt fmtv items = (forest_calls (List.concat fs), Ok tt) /\ Forall (Forall closes) fs /\
    Forall2 (fun f ns => ~ In 13%N (flat_map show f) /\ read (flat_map show f) = Some ns) fs nss.
Proof.
  intros fmt fmtv items nss H. induction H as [|it ns items nss (o & A & NC & R) _ (fs & E & C & F)].
  - exists []. repeat split; constructor.
  - apply alone_forest in A as (f & Ef & Cf & ->). exists (f :: fs). split.
    + cbn [svg_items]. rewrite Ef. unfold tbind. cbn [fst snd]. rewrite E. unfold forest_calls.
      cbn [List.concat]. now rewrite flat_map_app.
    + split; constructor; auto.
Qed.

(** The attributes of the root of a page. *)
Definition root_attrs (fmt : R -> str) (w h : R) (view_box : option (R * R * R * R)) : list (str * str) :=
  [(pys "xmlns", pys "http://www.w3.org/2000/svg"); (pys "xmlns:xlink", pys "http://www.w3.org/1999/xlink");
   (pys "width", fmt w); (pys "height", fmt h)] ++
  match view_box with
  | Some (a, b, c, d) => [(pys "viewBox", fmt a ++ [32%N] ++ fmt b ++ [32%N] ++ fmt c ++ [32%N] ++ fmt d)]
  | None => []
  end.
Definition legal_box (fmt : R -> str) (v : option (R * R * R * R)) : Prop :=
  match v with
  | Some (a, b, c, d) => Forall (fun x => legal_value (fmt x) = true) [a; b; c; d]
  | None => True
  end.

(** A page is the sum of its items: if what each item draws is readable when it is alone in a
    document, the page is readable too, and its root has the nodes of all items, in the
    order of the painters. *)
Theorem C91_document : forall fmt fmtv w h v items nss,
  legal_value (fmt w) = true -> legal_value (fmt h) = true -> legal_box fmt v ->
  Forall2 (fun it ns => exists o, alone (svg_item fmt fmtv it) = Ok o /\ ~ In 13%N o /\ read o = Some ns) items nss ->
  exists out, svg_document fmt fmtv w h v items = Ok out /\
    read out = Some [NElem (pys "svg") (root_attrs fmt w h v) (List.concat nss)].
Proof.
  intros fmt fmtv w h v items nss Lw Lh Lv H.
  destruct (items_forests fmt fmtv items nss H) as (fs & E & C & F).
  set (al := map (fun a : str * str => (fst a, snd a, true)) (root_attrs fmt w h v)).
  assert (Ea : map fst al = root_attrs fmt w h v).
  { unfold al. rewrite map_map. cbn [fst]. rewrite <- (map_id (root_attrs fmt w h v)) at 2. apply map_ext.
    now intros []. }
  set (t := WElem (pys "svg") al (Some (pys "svg")) (List.concat fs)).
  assert (Ct : Forall closes [t]) by (constructor; [apply kids_show; auto|constructor]).
  assert (Et : svg_page fmt fmtv w h v items = (forest_calls [t], Ok tt)).
  { unfold svg_page, calls, tbind. cbn [fst snd]. rewrite E. cbn [fst snd].
    unfold forest_calls, t. cbn [flat_map tree_calls]. rewrite app_nil_r. unfold svg_end.
    unfold svg_begin, al, root_attrs, attr. unfold calls.
    destruct v as [[[[a b] c] d]|]; cbn [map app fst snd]; rewrite <- ?app_assoc; reflexivity. }
  destruct (forest_alone [t] Ct) as (x & X1 & X2). exists (flat_map show [t]).
  split.
  - unfold svg_document, perform. rewrite Et. cbn [fst snd]. rewrite X1. cbn [rbind]. exact X2.
  - cbn [flat_map]. rewrite app_nil_r, <- Ea. unfold t. apply read_around; [reflexivity| | |exact F].
    + unfold al. rewrite map_map. cbn [fst].
      destruct v as [[[[a b] c] d]|]; cbn [root_attrs map app fst];
        repeat (apply NoDup_cons; [cbn [In]; intuition discriminate|]); apply NoDup_nil.
    + apply Forall_forall. intros a Ia. unfold al in Ia. apply in_map_iff in Ia as ((n & z) & <- & Ia). cbn [fst snd].
      unfold root_attrs in Ia. apply in_app_or in Ia as [Ia|Ia].
      * cbn [In] in Ia. repeat (destruct Ia as [Ia|Ia]; [injection Ia as <- <-; split; [reflexivity|first [reflexivity|assumption]]|]).
        destruct Ia.
      * destruct v as [[[[x1 x2] x3] x4]|]; [|destruct Ia]. destruct Ia as [Ia|[]]. injection Ia as <- <-.
        split; [reflexivity|]. cbn [legal_box] in Lv.
        inversion_clear Lv as [|? ? L1 Lv1]. inversion_clear Lv1 as [|? ? L2 Lv2].
        inversion_clear Lv2 as [|? ? L3 Lv3]. inversion_clear Lv3 as [|? ? L4 _].
        assert (LC : forall l, legal_value (32%N :: l) = legal_value l) by reflexivity.
        now repeat (rewrite ?legal_app, ?LC, ?L1, ?L2, ?L3, ?L4; cbn [andb]).
Qed.
Print Assumptions C91_document.

(** The calls of tidy items are readable and show what is asked for. *)
Lemma tidy_item : forall fmt fmtv num_of isfloat l, good_numbers fmt num_of isfloat ->
  (forall x, isfloat x -> legal_value (fmt x) = true) -> (forall q, legal_value (fmtv (PNum q)) = true) ->
  Forall (tidy isfloat fmtv) l ->
  exists o ns, alone (svg_item fmt fmtv (Ok l)) = Ok o /\ ~ In 13%N o /\ read o = Some ns /\ drawn_all num_of fmtv l ns.
Proof.
  intros fmt fmtv num_of isfloat l Hf Hl Hv T.
  destruct (calls_drawn fmt num_of isfloat fmtv Hf Hl Hv l T) as (f & E & C & L & D).
  destruct (forest_alone f C) as (x & X1 & X2).
  exists (flat_map show f), (forest_nodes f). split; [|split; [now apply forest_no_cr|split; [now apply forest_read|exact D]]].
  unfold alone, svg_item, lift, perform. cbn [tbind fst snd]. rewrite E. cbn [fst snd app]. rewrite X1. exact X2.
Qed.

(** The document of a page shows what its items ask for and nothing else, in their order.
    Partial: for items whose texts and values XML can represent and whose texts fulfil the
    conditions of C39_partial; the rotation and scale of texts is C90. *)
Theorem C91_page_partial : forall fmt fmtv num_of isfloat w h v items, good_numbers fmt num_of isfloat ->
  (forall x, isfloat x -> legal_value (fmt x) = true) -> (forall q, legal_value (fmtv (PNum q)) = true) ->
  isfloat w -> isfloat h ->
  match v with Some (a, b, c, d) => Forall isfloat [a; b; c; d] | None => True end ->
  Forall (Forall (tidy isfloat fmtv)) items ->
  exists out nss, svg_document fmt fmtv w h v (map (fun l => Ok l) items) = Ok out /\
    read out = Some [NElem (pys "svg") (root_attrs fmt w h v) (List.concat nss)] /\
    Forall2 (drawn_all num_of fmtv) items nss.
Proof.
  intros fmt fmtv num_of isfloat w h v items Hf Hl Hv Fw Fh Fv T.
  assert (A : exists nss, Forall2 (fun it ns => exists o, alone (svg_item fmt fmtv it) = Ok o /\ ~ In 13%N o /\ read o = Some ns)
      (map (fun l => Ok l) items) nss /\ Forall2 (drawn_all num_of fmtv) items nss).
  { induction T as [|l items Tl _ (nss & A1 & A2)]; [exists []; split; constructor|].
    destruct (tidy_item fmt fmtv num_of isfloat l Hf Hl Hv Tl) as (o & ns & E & N & R & D).
    exists (ns :: nss). split; constructor; eauto. }
  destruct A as (nss & A1 & A2).
  assert (LV : legal_box fmt v).
  { destruct v as [[[[a b] c] d]|]; [|exact I]. cbn [legal_box]. eapply Forall_impl; [|exact Fv]. exact Hl. }
  destruct (C91_document fmt fmtv w h v _ nss (Hl w Fw) (Hl h Fh) LV A1) as (out & E & R).
  exists out, nss. auto.
Qed.
Print Assumptions C91_page_partial.

(** *** A concrete page *)
Definition svg0 : str := pys "<a/>".
Definition items0 : list (list gcall) :=
  [[GRect box0 None None (Some 3) (mkPaint (Some black) (Some black) (Some 2) None);
    GBitmap 1 1 2 2 (Some 3) (pys "data:image/png;base64,AA==")];
   [];
   [GText (0, 0)%Q 1 2 ex_ts ex_base ex_styles (PNum 3) (Some (1 # 2))];
   [GSvg svg0 1 2 3 (Some 4) (Some (2, 2)); GPolygon [(0, 0); (4, 0); (2, 3)] None (pen None)]].
Lemma black_legal : forall bg w, legal_paint (mkPaint (Some black) bg w None) \/ bg <> None /\ bg <> Some black.
Proof.
  intros bg w. destruct bg as [b|]; [destruct (str_eqb b black) eqn:E|].
  - apply str_eqb_eq in E. subst b. left. unfold legal_paint, legal_option, no_semicolon. cbn.
    repeat split; try discriminate; intros ? K; injection K as <-;
      try reflexivity; intros K; repeat (destruct K as [K|K]; [discriminate|]); destruct K.
  - right. split; [discriminate|]. intros K. injection K as ->. now rewrite str_eqb_refl in E.
  - left. unfold legal_paint, legal_option, no_semicolon. cbn.
    repeat split; try discriminate; intros ? K; injection K as <-;
      try reflexivity; intros K; repeat (destruct K as [K|K]; [discriminate|]); destruct K.
Qed.
Lemma legal_fmt0 : forall x, isfloat0 x -> legal_value (fmt0 x) = true.
Proof.
  intros x H. unfold fmt0. destruct H as [-> | [-> | [-> | [-> | ->]]]];
    repeat (first [rewrite req_refl | rewrite reqF by lra]); reflexivity.
Qed.
Lemma tidy0 : Forall (Forall (tidy isfloat0 ex_fmt)) items0.
Proof.
  assert (I0 : isfloat0 0) by (unfold isfloat0; auto 10). assert (I1 : isfloat0 1) by (unfold isfloat0; auto 10).
  assert (I2 : isfloat0 2) by (unfold isfloat0; auto 10). assert (I3 : isfloat0 3) by (unfold isfloat0; auto 10).
  assert (I4 : isfloat0 4) by (unfold isfloat0; auto 10).
  assert (M : 1 + 2 / 2 = 2) by field. destruct C80_sequence_ex as (F & _).
  inversion_clear F as [|? ? F1 F']. inversion_clear F' as [|? ? _ F'']. inversion_clear F'' as [|? ? _ F3].
  inversion_clear F3 as [|? ? _ F4]. inversion_clear F4 as [|? ? F5 _].
  assert (LP : forall bg, bg = None \/ bg = Some black -> legal_paint (mkPaint (Some black) bg (Some 2) None)).
  { intros bg Hb. destruct (black_legal bg (Some 2)) as [K|[K1 K2]]; [exact K|]. destruct Hb as [-> | ->]; contradiction. }
  unfold items0. repeat (apply Forall_cons || apply Forall_nil).
  - eexists. split; [reflexivity|]. split; [exact F1|]. split; [apply LP; auto|exact I].
  - cbn [tidy]. unfold float_rotation, float_pt. cbn [fst snd]. rewrite M. repeat split; auto.
  - destruct ex_C39 as (E1 & E2 & E3 & E4 & E5 & E6 & (E7 & E8 & _) & E9 & _). cbn [tidy].
    repeat (split; [assumption|]). split; [reflexivity|]. intros k K. injection K as <-. discriminate.
  - cbn [tidy]. unfold float_pt. cbn [fst snd]. split; [auto|]. split; [auto|]. split; [auto|]. split; [auto|].
    split; [intros K; cbn in K; repeat (destruct K as [K|K]; [discriminate|]); destruct K|].
    eexists. vm_compute. reflexivity.
  - eexists. split; [reflexivity|]. split; [exact F5|]. split; [apply LP; auto|discriminate].
Qed.
Example C91_page_ex : exists out nss,
  svg_document fmt0 ex_fmt 4 3 (Some (0, 0, 4, 3)) (map (fun l => Ok l) items0) = Ok out /\
  read out = Some [NElem (pys "svg") (root_attrs fmt0 4 3 (Some (0, 0, 4, 3))) (List.concat nss)] /\
  Forall2 (drawn_all num0 ex_fmt) items0 nss.
Proof.
  assert (I0 : isfloat0 0) by (unfold isfloat0; auto 10). assert (I3 : isfloat0 3) by (unfold isfloat0; auto 10).
  assert (I4 : isfloat0 4) by (unfold isfloat0; auto 10).
  apply (C91_page_partial fmt0 ex_fmt num0 isfloat0); auto using good0, legal_fmt0, tidy0.
Qed.

(** A text turned by 3 degrees about (2, 0) and enlarged twice, with numbers that can be read
    back: its element has the transformation of C91, and the looks of its characters. *)
Definition fmtv1 (v : pyval) : str :=
  match v with
  | PNum q => if Qeq_bool q 0 then pys "0" else if Qeq_bool q 2 then pys "2"
              else if Qeq_bool q 3 then pys "3" else pys "1"
  | _ => ex_fmt v
  end.
Example C91_text_ex :
  let g := GText (2, 0)%Q 1 2 ex_ts ex_base ex_styles (PNum 3) (Some 2%Q) in
  tidy isfloat0 fmtv1 g /\ Forall (readable num0 fmtv1) [2; 0; 3; 2]%Q /\
  (forall n s, In (TBegin n) ex_ts -> ex_styles n = Some s -> ~ switches_off s) /\
  exists out al ks m, svg_document fmt0 fmtv1 4 3 None [Ok [g]] = Ok out /\
    read out = Some [NElem (pys "svg") (root_attrs fmt0 4 3 None) [NElem (pys "text") al ks]] /\
    match declared (pys "transform") al with Some t => read_transforms num0 t | None => Some ident end = Some m /\
    apply m (1, 0) = (2, 0).
Proof.
  cbv zeta.
  assert (I3 : isfloat0 3) by (unfold isfloat0; auto 10). assert (I4 : isfloat0 4) by (unfold isfloat0; auto 10).
  assert (P : forall n s, ex_styles n = Some s -> printable fmtv1 s).
  { intros n s H. unfold ex_styles in H.
    destruct (str_eqb n (pys "default")); [|destruct (str_eqb n (pys "b")); [|destruct (str_eqb n (pys "r")); [|discriminate]]];
    injection H as <-; (split; [intros []; reflexivity|]);
    split; (split; [vm_compute; intuition discriminate|reflexivity]). }
  assert (L : forall q, legal_value (fmtv1 (PNum q)) = true).
  { intros q. unfold fmtv1. destruct (Qeq_bool q 0), (Qeq_bool q 2), (Qeq_bool q 3); reflexivity. }
  assert (T : tidy isfloat0 fmtv1 (GText (2, 0)%Q 1 2 ex_ts ex_base ex_styles (PNum 3) (Some 2%Q))).
  { destruct ex_C39 as (E1 & E2 & E3 & E4 & E5 & E6 & _ & E9 & _). cbn [tidy].
    repeat (split; [assumption|]). split; [now apply (P (pys "default"))|]. split; [exact P|]. split; [exact E9|].
    split; [reflexivity|]. intros k K. injection K as <-. discriminate. }
  assert (Rd : Forall (readable num0 fmtv1) [2; 0; 3; 2]%Q).
  { repeat constructor; unfold readable, num0, fmtv1, digit_of, Q2R, numeral_char; cbn; try discriminate; f_equal; field. }
  split; [exact T|]. split; [exact Rd|]. split.
  - intros n s X H. unfold ex_styles in H.
    destruct (str_eqb n (pys "default")) eqn:E.
    + apply str_eqb_eq in E. subst. exfalso. revert X. vm_compute. intuition discriminate.
    + destruct (str_eqb n (pys "b")); [|destruct (str_eqb n (pys "r")); [|discriminate]];
      injection H as <-; intros [Y|Y]; discriminate.
  - destruct (C91_page_partial fmt0 fmtv1 num0 isfloat0 4 3 None
        [[GText (2, 0)%Q 1 2 ex_ts ex_base ex_styles (PNum 3) (Some 2%Q)]]) as (out & nss & E & R & D);
      auto using good0, legal_fmt0.
    inversion D as [|? ns ? ? D1 D2]; subst. inversion D2; subst. inversion D1 as [|? ? a b Da Db]; subst.
    inversion Db; subst. inversion Da as [? d ? ? Hs| | |mid x y ts s styles rot scale al ks k G XY LK AN PL]; subst.
    + discriminate.
    + destruct (PL (Some 3%Q) eq_refl) as (m & M1 & M2).
      { exact Rd. }
      exists out, al, ks, m. split; [exact E|]. split; [exact R|]. split; [exact M1|].
      rewrite M2. cbn [fst snd]. replace (Q2R 2) with 2 by (unfold Q2R; cbn; field).
      replace (Q2R 0) with 0 by (unfold Q2R; cbn; field).
      unfold apply, rotation_about. cbn [m_xx m_xy m_yx m_yy m_x0 m_y0 fst snd]. apply f_equal2; field.
Qed.

(** A text with a character that XML does not have (a form feed): the whole page is not
    readable, though each of the two items is an ordinary drawing. *)
Theorem C91_refuted : exists ts out, TextSpec.balanced ts /\ letters ts = [97; 12]%N /\
  let text := GText (0, 0)%Q 0 0 ts ex_base ex_styles PNone None in
  let rest := GText (0, 0)%Q 0 0 ex_ts ex_base ex_styles PNone None in
  svg_document (fun _ => pys "1") ex_fmt 1 1 None [Ok [text]; Ok [rest]] = Ok out /\ read out = None /\
  exists out', svg_document (fun _ => pys "1") ex_fmt 1 1 None [Ok [rest]] = Ok out' /\ read out' <> None.
Proof.
  exists [TText [97; 12]%N]. eexists. split; [reflexivity|]. split; [reflexivity|]. cbv zeta.
  split; [vm_compute; reflexivity|]. split; [vm_compute; reflexivity|].
  eexists. split; [vm_compute; reflexivity|]. vm_compute. discriminate.
Qed.
Print Assumptions C91_refuted.

(** ** C92 *)

Lemma shape_calls : forall fmt fmtv g d cs, shape_of g = Some d -> svg_call fmt fmtv g = (cs, Ok tt) ->
  svg_shape fmt d = Ok cs.
Proof.
  intros fmt fmtv g d cs Hs H.
  destruct g as [r rx ry rot p|r rot p|l rot p|l [[c|] [b|] w dash]|k p| | |]; try discriminate;
    injection Hs as <-; cbn [svg_call svg_shape] in *; unfold calls in H; try (now injection H as <-).
  unfold lift, tbind in H. destruct (svg_polygon fmt l rot p); cbn in H; [|discriminate]. now injection H as <-.
Qed.
(** Calls that draw shapes, with the shapes. *)
Definition draws (g : gcall) (d : shape) : Prop :=
  shape_of g = Some d /\ legal_paint (paint_of d) /\ match d with SPolygon l _ _ => l <> [] | _ => True end.
Lemma shapes_forest : forall fmt fmtv num_of isfloat, good_numbers fmt num_of isfloat ->
  (forall x, isfloat x -> legal_value (fmt x) = true) -> (forall q, legal_value (fmtv (PNum q)) = true) ->
  forall gs ds, Forall2 draws gs ds -> Forall (fit isfloat) ds ->
  exists f, svg_calls fmt fmtv gs = (forest_calls f, Ok tt) /\ Forall closes f /\ Forall lawful f /\
    Forall2 (fun d n => forall cs pic, svg_shape fmt d = Ok cs -> picture_of num_of cs = Some pic ->
                          node_picture num_of n = Some pic) ds (forest_nodes f).
Proof.
  intros fmt fmtv num_of isfloat Hf Hl Hv gs ds H. induction H as [|g d gs ds (Hs & LP & NE) _ IH]; intros F.
  - exists []. repeat split; constructor.
  - inversion_clear F as [|? ? F1 F2]. destruct (IH F2) as (f & E & C & L & N).
    destruct (shape_element fmt num_of isfloat fmtv Hf Hl g d Hs F1 LP NE) as (n & al & E1 & Nn & [LA1 LA2] & _).
    exists (WElem n al (Some n) [] :: f). split.
    + cbn [svg_calls]. rewrite E1. unfold tbind. cbn [fst snd]. rewrite E. reflexivity.
    + split; [constructor; [cbn; auto|exact C]|]. split; [constructor; [cbn; auto|exact L]|].
      change (forest_nodes (WElem n al (Some n) [] :: f)) with (NElem n (map fst al) [] :: forest_nodes f).
      constructor; [|exact N]. intros cs pic Ec P.
      rewrite (shape_calls fmt fmtv g d _ Hs E1) in Ec. injection Ec as <-. now apply picture_node in P.
Qed.

(** A page of shapes in both backends: the i-th element of the SVG document has the picture
    whose marks Cairo leaves i-th.  Partial: shapes only, the shapes of C80_sequence_partial;
    see C80_text_refuted for texts between them. *)
Theorem C92_backends_partial : forall rgb_of to_float fmt fmtv num_of isfloat w h items ds s s',
  good_numbers fmt num_of isfloat -> (forall x, isfloat x -> legal_value (fmt x) = true) ->
  (forall q, legal_value (fmtv (PNum q)) = true) -> css_colors rgb_of -> float_chars to_float ->
  isfloat w -> isfloat h ->
  Forall2 draws (List.concat items) ds -> Forall (fit isfloat) ds -> Forall undashed_ellipse ds ->
  calm s -> det (ctm s) <> 0 -> draw_all rgb_of to_float ds s = Ok s' ->
  exists out nodes mss, svg_document fmt fmtv w h None (map (fun l => Ok l) items) = Ok out /\
    read out = Some [NElem (pys "svg") (root_attrs fmt w h None) nodes] /\
    c_ink s' = c_ink s ++ List.concat mss /\ List.length nodes = List.length ds /\
    Forall2 (fun dn ms => exists pic, node_picture num_of (snd dn) = Some pic /\ meant (fst dn) pic /\
               painted rgb_of to_float (same_for (fst dn)) (ctm s) pic ms) (combine ds nodes) mss.
Proof.
  intros rgb_of to_float fmt fmtv num_of isfloat w h items ds s s' Hf Hl Hv Hc Hch Fw Fh HD F U C D E.
  destruct (C80_sequence_partial rgb_of to_float fmt num_of isfloat ds s s' Hf Hc Hch F U C D E)
    as (mss & Ink & M & _).
  assert (A : exists nss,
      Forall2 (fun it ns => exists o, alone (svg_item fmt fmtv it) = Ok o /\ ~ In 13%N o /\ read o = Some ns)
        (map (fun l => Ok l) items) nss /\
      Forall2 (fun d n => forall cs pic, svg_shape fmt d = Ok cs -> picture_of num_of cs = Some pic ->
                          node_picture num_of n = Some pic) ds (List.concat nss)).
  { clear M E U. revert ds HD F. induction items as [|l items IH]; intros ds HD F; cbn [List.concat] in HD.
    - inversion HD; subst. exists []. split; constructor.
    - apply Forall2_app_inv_l in HD as (d1 & d2 & H1 & H2 & ->). apply Forall_app in F as [F1 F2].
      destruct (IH d2 H2 F2) as (nss & A1 & A2).
      destruct (shapes_forest fmt fmtv num_of isfloat Hf Hl Hv l d1 H1 F1) as (f & E & Cf & L & N).
      destruct (forest_alone f Cf) as (x & X1 & X2).
      exists (forest_nodes f :: nss). split.
      + cbn [map]. constructor; [|exact A1]. exists (flat_map show f).
        split; [|split; [now apply forest_no_cr|now apply forest_read]].
        unfold alone, svg_item, lift, perform. cbn [tbind fst snd]. rewrite E. cbn [fst snd app]. rewrite X1. exact X2.
      + cbn [List.concat]. now apply Forall2_app. }
  destruct A as (nss & A1 & A2).
  destruct (C91_document fmt fmtv w h None _ nss (Hl w Fw) (Hl h Fh) I A1) as (out & Eo & R).
  exists out, (List.concat nss), mss. split; [exact Eo|]. split; [exact R|]. split; [exact Ink|].
  clear - M A2. revert mss M.
  induction A2 as [|d n ds nodes Hn A2 IH]; intros mss M.
  - inversion M; subst. split; [reflexivity|constructor].
  - inversion M as [|? ms ? mss' (cs & pic & E & P & Me & Pa) M']; subst.
    destruct (IH mss' M') as [IH1 IH2]. cbn [List.length combine]. split; [now rewrite IH1|].
    constructor; [|exact IH2]. cbn [fst snd]. exists pic. split; [exact (Hn cs pic E P)|]. auto.
Qed.
Print Assumptions C92_backends_partial.

Definition page0 : list (list gcall) :=
  [[GRect box0 None None (Some 3) (mkPaint (Some black) (Some black) (Some 2) None)];
   [GEllipse (mkRect 1 1 2 2) None (pen None); GPolyline [(0, 1); (2, 3); (4, 4)] (mkPaint (Some black) None None (Some (pys "3 1")))];
   [GPath [(PM, [(0, 1)]); (PC, [(0, 2); (3, 3); (4, 4)]); (PS, [(1, 2); (0, 0)]); (PT, [(1, 4)])] (pen None);
    GPolygon [(0, 0); (4, 0); (2, 3)] None (pen None)]].
Example C92_backends_ex : exists s' out nodes mss, draw_all rgb0 float0 drawing0 clean = Ok s' /\
  svg_document fmt0 ex_fmt 4 3 None (map (fun l => Ok l) page0) = Ok out /\
  read out = Some [NElem (pys "svg") (root_attrs fmt0 4 3 None) nodes] /\
  c_ink s' = List.concat mss /\ List.length nodes = 5%nat /\
  Forall2 (fun dn ms => exists pic, node_picture num0 (snd dn) = Some pic /\ meant (fst dn) pic /\
             painted rgb0 float0 (same_for (fst dn)) ident pic ms) (combine drawing0 nodes) mss.
Proof.
  destruct C80_sequence_ex as (F & U & s' & E). exists s'.
  assert (I3 : isfloat0 3) by (unfold isfloat0; auto 10). assert (I4 : isfloat0 4) by (unfold isfloat0; auto 10).
  assert (HD : Forall2 draws (List.concat page0) drawing0).
  { assert (LP : forall bg w, bg = None \/ bg = Some black -> legal_paint (mkPaint (Some black) bg w None)).
    { intros bg w Hb. destruct (black_legal bg w) as [K|[K1 K2]]; [exact K|]. destruct Hb as [-> | ->]; contradiction. }
    cbn [List.concat page0 app]. unfold drawing0.
    repeat (apply Forall2_cons || apply Forall2_nil); (split; [reflexivity|]); (split; [|first [exact I|discriminate]]);
      try (apply LP; auto).
    cbn [paint_of]. unfold legal_paint, legal_option, no_semicolon. cbn.
    repeat split; try discriminate; intros ? K; injection K as <-;
      try reflexivity; intros K; repeat (destruct K as [K|K]; [discriminate|]); destruct K. }
  destruct (C92_backends_partial rgb0 float0 fmt0 ex_fmt num0 isfloat0 4 3 page0 drawing0 clean s'
      good0 legal_fmt0 (fun _ => eq_refl) css0 chars0 I4 I3 HD F U clean_calm clean_det E)
    as (out & nodes & mss & H1 & H2 & H3 & H4 & H5).
  exists out, nodes, mss. auto 10.
Qed.

(** ** C91 for slides *)

Import ShowModel SlideModel SlideSpec SlideProofs SlideProps.
Local Open Scope Z_scope.

(** The page of a step: the document has the drawings of exactly the items that are in visible
    boxes only, once each, those of lower levels first, and nothing else. *)
Theorem C91_order_partial : forall fmt fmtv num_of isfloat draw w h v sw sh s0 s k, good_numbers fmt num_of isfloat ->
  (forall x, isfloat x -> legal_value (fmt x) = true) -> (forall q, legal_value (fmtv (PNum q)) = true) ->
  isfloat w -> isfloat h ->
  match v with Some (a, b, c, d) => Forall isfloat [a; b; c; d] | None => True end ->
  new_slide sw sh = Ok s0 -> reachable s0 s ->
  (forall i z bs, under bs i z (sl_box s) -> Forall (tidy isfloat fmtv) (draw i)) ->
  exists out shown nss,
    svg_document fmt fmtv w h v
      (map (fun p => match p with PItem i _ => Ok (draw i) | PFrame _ _ => Err EException end) (page false s k)) = Ok out /\
    read out = Some [NElem (pys "svg") (root_attrs fmt w h v) (List.concat nss)] /\
    Forall2 (fun iz ns => drawn_all num_of fmtv (draw (fst iz)) ns) shown nss /\
    (forall i z, In (i, z) shown <->
       exists bs, under bs i z (sl_box s) /\ Forall (fun b => is_visible (b_show b) k = true) bs) /\
    NoDup shown /\ StronglySorted (fun a b => snd a <= snd b) shown.
Proof.
  intros fmt fmtv num_of isfloat draw w h v sw sh s0 s k Hf Hl Hv Fw Fh Fv H0 HR T.
  set (of_p := fun p => match p with PItem i z => [(i, z)] | PFrame _ _ => [] end).
  assert (NF : forall p, In p (page false s k) -> exists i z, p = PItem i z).
  { intros p Hp. unfold page in Hp.
    assert (Hq : In p (get_painters false k (sl_box s)))
      by (revert Hp; apply Permutation.Permutation_in; apply sort_painters_perm).
    clear Hp. revert p Hq. generalize (sl_box s). clear. fix IH 1. intros [i z|b cs] p Hp; cbn [get_painters] in Hp.
    - destruct Hp as [<-|[]]. eauto.
    - destruct (is_visible (b_show b) k); [|destruct Hp]. rewrite app_nil_r in Hp.
      induction cs as [|c cs IHc]; cbn [flat_map] in Hp; [destruct Hp|].
      apply in_app_or in Hp as [Hp|Hp]; [exact (IH c p Hp)|exact (IHc Hp)]. }
  assert (MP : exists shown, page false s k = map (fun iz => PItem (fst iz) (snd iz)) shown).
  { revert NF. generalize (page false s k). induction l as [|p l IH]; intros NF; [now exists []|].
    destruct (NF p (or_introl eq_refl)) as (i & z & ->).
    destruct IH as (sh' & ->); [intros q Hq; apply NF; now right|]. now exists ((i, z) :: sh'). }
  destruct MP as (shown & MP). rewrite MP, map_map. cbn [fst snd].
  assert (IN : forall i z, In (i, z) shown <->
       exists bs, under bs i z (sl_box s) /\ Forall (fun b => is_visible (b_show b) k = true) bs).
  { intros i z. rewrite <- (C04_hierarchical_visibility sw sh s0 s H0 HR false k i z), MP, in_map_iff. split.
    - intros Hi. now exists (i, z).
    - intros ((i' & z') & E & Hi). injection E as -> ->. exact Hi. }
  assert (TI : Forall (Forall (tidy isfloat fmtv)) (map (fun iz => draw (fst iz)) shown)).
  { apply Forall_forall. intros l Hl'. apply in_map_iff in Hl' as ((i & z) & <- & Hi). apply IN in Hi as (bs & U & _).
    exact (T i z bs U). }
  destruct (C91_page_partial fmt fmtv num_of isfloat w h v _ Hf Hl Hv Fw Fh Fv TI) as (out & nss & E & R & D).
  exists out, shown, nss. rewrite map_map in E. split; [exact E|]. split; [exact R|]. split.
  { clear - D. remember (map (fun iz => draw (fst iz)) shown) as items eqn:Ei. revert shown Ei.
    induction D as [|l ns items nss D1 D IH]; intros [|iz shown] Ei; try discriminate; constructor.
    - injection Ei as -> _. exact D1.
    - apply IH. now injection Ei as _ ->. }
  split; [exact IN|]. split.
  - apply (NoDup_map_inv (fun iz : nat * Z => PItem (fst iz) (snd iz))). rewrite <- MP.
    exact (C04_painted_once sw sh s0 s H0 HR false k).
  - assert (SS := C05_sorted false s k). rewrite MP in SS. clear - SS. induction shown as [|a l IH]; [constructor|].
    cbn [map] in SS. inversion_clear SS as [|? ? S1 S2]. constructor; [now apply IH|].
    apply Forall_forall. intros b Hb. rewrite Forall_forall in S2.
    exact (S2 _ (in_map (fun iz : nat * Z => PItem (fst iz) (snd iz)) l b Hb)).
Qed.
Print Assumptions C91_order_partial.

Example C91_order_ex : exists out shown nss,
  svg_document fmt0 ex_fmt 4 3 None
    (map (fun p => match p with PItem i _ => Ok (nth i items0 []) | PFrame _ _ => Err EException end)
       (page false (run blank_slide calls1) 2)) = Ok out /\
  read out = Some [NElem (pys "svg") (root_attrs fmt0 4 3 None) (List.concat nss)] /\
  Forall2 (fun iz ns => drawn_all num0 ex_fmt (nth (fst iz) items0 []) ns) shown nss /\
  NoDup shown /\ In (2%nat, 0) shown /\ In (5%nat, -1) shown.
Proof.
  assert (I3 : isfloat0 3) by (unfold isfloat0; auto 10). assert (I4 : isfloat0 4) by (unfold isfloat0; auto 10).
  destruct (all_ok_history calls1 blank_slide blank_slide [] (hi_nil _)) as [hs [H1 _]]; [vm_compute; reflexivity|].
  assert (HR := history_reachable _ _ _ H1).
  destruct (C91_order_partial fmt0 ex_fmt num0 isfloat0 (fun i => nth i items0 []) 4 3 None 200 100 blank_slide
      (run blank_slide calls1) 2 good0 legal_fmt0 (fun _ => eq_refl) I4 I3 I eq_refl HR)
    as (out & shown & nss & E & R & D & V & N & S).
  { intros i z bs _. destruct (nth_in_or_default i items0 []) as [K|K]; [|rewrite K; constructor].
    exact (proj1 (Forall_forall _ _) tidy0 _ K). }
  exists out, shown, nss. split; [exact E|]. split; [exact R|]. split; [exact D|]. split; [exact N|].
  assert (P : page false (run blank_slide calls1) 2 = [PItem 4 (-1); PItem 5 (-1); PItem 2 0]) by (vm_compute; reflexivity).
  assert (C := C04_hierarchical_visibility 200 100 blank_slide _ eq_refl HR false 2). rewrite P in C. cbn [In] in C.
  split; apply V, C; auto 6.
Qed.
