(** Lemmas about the document of a page. *)
From Coq Require Import List Reals QArith Qreals NArith Bool String Lia Lra.
From Verif Require Import Py PyFacts XmlModel XmlSpec XmlProofs XmlProps StyleModel StyleSpec TextModel TextSpec
  TextBoxModel DrawModel DrawSpec DrawProofs DrawLoop DrawFacts ShapeModel ShapeSpec ShapeProofs ShapePaint ShapeProps
  PicModel PicSpec PicProofs PageModel PageSpec.
Import ListNotations.
Local Open Scope R_scope.

(** ** Writing and reading *)

(** A forest written by a fresh writer. *)
Lemma forest_alone : forall f, Forall closes f ->
  exists x, xrun new_xml (forest_calls f) = Ok x /\ to_string x = Ok (flat_map show f).
Proof.
  intros f Hc. destruct (forest_run f Hc new_xml) as (x & E & S & W). exists x. split; [exact E|].
  unfold to_string. rewrite S. cbn [new_xml x_stack]. unfold written in W. rewrite W.
  replace (flush new_xml f) with (@nil N) by (now destruct f). reflexivity.
Qed.
Lemma forest_no_cr : forall f, Forall lawful f -> ~ In 13%N (flat_map show f).
Proof.
  intros f H X. apply in_flat_map in X as (t & X1 & X2). rewrite Forall_forall in H.
  exact (show_no_cr t (H t X1) X2).
Qed.

(** What is written does not depend on the writer: inside an element, calls that are a
    document by themselves write the text of that document. *)
Lemma kids_show : forall name al c fs, Forall (Forall closes) fs -> (c = None \/ c = Some name) ->
  closes (WElem name al c (List.concat fs)).
Proof.
  intros name al c fs H Hc. cbn [closes]. split; [exact Hc|].
  apply Forall_concat in H. induction H as [|t f Ht _ IH]; [exact I|]. now split.
Qed.
Definition pack (f : list wtree) : list wtree := match f with [] => [] | _ => [WRaw (flat_map show f)] end.
Lemma show_pack : forall name al c fs,
  show (WElem name al c (List.concat fs)) = show (WElem name al c (flat_map pack fs)).
Proof.
  intros name al c fs. cbn [show]. apply f_equal. apply f_equal. apply f_equal.
  assert (E : flat_map show (List.concat fs) = flat_map show (flat_map pack fs)).
  { induction fs as [|f fs IH]; [reflexivity|]. cbn [List.concat flat_map]. rewrite !flat_map_app, IH. f_equal.
    destruct f; [reflexivity|]. unfold pack. cbn [flat_map show]. now rewrite app_nil_r. }
  assert (N : List.concat fs = [] <-> flat_map pack fs = []).
  { clear E. induction fs as [|f fs IH]; [easy|]. cbn [List.concat flat_map].
    destruct f; [exact IH|]. split; discriminate. }
  destruct N as [N1 N2].
  destruct (List.concat fs) eqn:E1; destruct (flat_map pack fs) eqn:E2; [reflexivity| | |now rewrite E].
  - now discriminate (N1 eq_refl).
  - now discriminate (N2 eq_refl).
Qed.
Lemma read_around : forall name al c fs nss, is_name name = true ->
  NoDup (map (fun a => fst (fst a)) al) ->
  Forall (fun a => is_name (fst (fst a)) = true /\ legal_value (snd (fst a)) = true) al ->
  Forall2 (fun f ns => ~ In 13%N (flat_map show f) /\ read (flat_map show f) = Some ns) fs nss ->
  read (show (WElem name al c (List.concat fs))) = Some [NElem name (map fst al) (List.concat nss)].
Proof.
  intros name al c fs nss Hn Hd Hl F. rewrite show_pack.
  assert (L : Forall lawful (flat_map pack fs)).
  { clear - F. induction F as [|f ns fs nss [F1 F2] F IH]; [constructor|]. cbn [flat_map].
    apply Forall_app. split; [|exact IH]. destruct f; [constructor|]. constructor; [|constructor].
    cbn [lawful]. split; [now exists ns|exact F1]. }
  assert (K : flat_map tree_nodes (flat_map pack fs) = List.concat nss).
  { clear - F. induction F as [|f ns fs nss [F1 F2] F IH]; [reflexivity|]. cbn [flat_map List.concat].
    rewrite flat_map_app, IH. f_equal. destruct f.
    - cbn in F2. now injection F2 as <-.
    - unfold pack. cbn [flat_map tree_nodes]. rewrite app_nil_r.
      match goal with |- match ?r with _ => _ end = _ => replace r with (Some ns) by (symmetry; exact F2) end.
      reflexivity. }
  assert (LE : lawful (WElem name al c (flat_map pack fs))).
  { cbn [lawful]. split; [exact Hn|]. split; [exact Hd|]. split; [exact Hl|].
    clear K. induction L as [|t f Ht _ IH]; [exact I|]. now split. }
  assert (R := forest_read [WElem name al c (flat_map pack fs)] (Forall_cons _ LE (Forall_nil _))).
  cbn [flat_map] in R. rewrite app_nil_r in R. rewrite R. unfold forest_nodes.
  cbn [flat_map tree_nodes]. now rewrite app_nil_r, K.
Qed.

(** ** Elements *)
Lemma element_of_tree : forall n al c, element_of (tree_calls (WElem n al c [])) = Some (n, map fst al).
Proof.
  intros n al c. cbn [tree_calls element_of flat_map app].
  assert (E : attributes (map set_call al ++ [CClose c]) = Some (map fst al)).
  { induction al as [|[[k v] e] al IH]; [reflexivity|]. cbn [map app attributes set_call fst snd].
    rewrite IH. reflexivity. }
  now rewrite E.
Qed.
Lemma picture_node : forall num_of n al c pic,
  picture_of num_of (tree_calls (WElem n al c [])) = Some pic ->
  node_picture num_of (NElem n (map fst al) []) = Some pic.
Proof. intros num_of n al c pic H. unfold picture_of in H. rewrite element_of_tree in H. exact H. Qed.

Lemma legal_app : forall a b, legal_value (a ++ b) = legal_value a && legal_value b.
Proof. intros a b. unfold legal_value. apply forallb_app. Qed.
Lemma legal_join : forall sep l, legal_value sep = true -> Forall (fun s => legal_value s = true) l ->
  legal_value (join_with sep l) = true.
Proof.
  intros sep l Hs H. induction H as [|a l Ha Hl IH]; [reflexivity|]. cbn [join_with].
  destruct l; [exact Ha|]. now rewrite !legal_app, Ha, Hs, IH.
Qed.

Section Drawn.
Variable fmt : R -> str.
Variable num_of : str -> option R.
Variable isfloat : R -> Prop.
Variable fmtv : pyval -> str.
Hypothesis Hfmt : good_numbers fmt num_of isfloat.
Hypothesis Hleg : forall x, isfloat x -> legal_value (fmt x) = true.
Hypothesis Hlegv : forall q, legal_value (fmtv (PNum q)) = true.

Definition legal_attrs (al : list (str * str * bool)) : Prop :=
  NoDup (map (fun a => fst (fst a)) al) /\
  Forall (fun a => is_name (fst (fst a)) = true /\ legal_value (snd (fst a)) = true) al.

Lemma legal_points : forall l, Forall (float_pt isfloat) l -> legal_value (points_str fmt l) = true.
Proof.
  intros l H. unfold points_str. apply legal_join; [reflexivity|].
  induction H as [|p l [A B] _ IH]; constructor; [|exact IH]. unfold pair_str.
  now rewrite !legal_app, !Hleg.
Qed.
Lemma legal_style : forall p, legal_paint p -> isfloat (width_or_1 (p_width p)) ->
  legal_value (paint_style fmt p) = true.
Proof.
  intros p (B & C & D & _) W. unfold paint_style. apply legal_join; [reflexivity|]. apply Forall_app. split.
  - destruct (p_bg p) as [b|]; [destruct (truthy_str _)|]; constructor; try constructor; try reflexivity.
    rewrite legal_app, (B b eq_refl). reflexivity.
  - destruct (p_color p) as [c|]; [destruct (truthy_str _)|]; try (constructor; [reflexivity|constructor]).
    apply Forall_app. split.
    + constructor; [rewrite legal_app, (C c eq_refl); reflexivity|].
      constructor; [rewrite legal_app, Hleg by assumption; reflexivity|constructor].
    + destruct (p_dash p) as [d|]; [destruct (truthy_str _)|]; constructor; try constructor.
      rewrite legal_app, (D d eq_refl). reflexivity.
Qed.
Lemma legal_rotation : forall rot c, float_rotation isfloat rot c ->
  exists al, rotation_calls fmt rot c = map set_call al /\
    (al = [] \/ exists v, al = [(pys "transform", v, true)] /\ legal_value v = true).
Proof.
  intros [a|] c H; [|exists []; auto]. cbn [rotation_calls float_rotation] in *. destruct H as (A & B & C).
  destruct (req a 0); [exists []; auto|]. eexists [(_, _, _)]. split; [reflexivity|]. right. eexists. split; [reflexivity|].
  match goal with |- legal_value ?v = true => change (legal_value (pys "rotate(" ++ fmt a ++ pys " " ++ fmt (fst c) ++ pys " " ++
              fmt (snd c) ++ pys ")") = true) end.
  now rewrite !legal_app, !Hleg.
Qed.
Lemma style_read : forall p, legal_paint p -> isfloat (width_or_1 (p_width p)) ->
  read_style num_of (paint_style fmt p) = Some (look_of p).
Proof.
  intros p (_ & _ & _ & B & C & D & NB & NC) W. apply read_style_written with (isfloat := isfloat); auto.
  - intros c E. split; [now apply B|]. intros ->. now apply NB.
  - intros c E. split; [now apply C|]. intros ->. now apply NC.
Qed.

Ltac legal_list := split;
  [cbn [map app fst snd]; repeat (apply NoDup_cons; [cbn [In]; intuition discriminate|]); apply NoDup_nil
  |cbn [map app fst snd]; repeat (apply Forall_cons; [split; [reflexivity|cbn [fst snd]; auto]|]); apply Forall_nil].

(** A shape is one element whose picture is the one that is meant. *)
Lemma shape_element : forall g d, shape_of g = Some d -> fit isfloat d -> legal_paint (paint_of d) ->
  match d with SPolygon l _ _ => l <> [] | _ => True end ->
  exists n al, svg_call fmt fmtv g = (tree_calls (WElem n al (Some n) []), Ok tt) /\
    is_name n = true /\ legal_attrs al /\
    exists pic, node_picture num_of (NElem n (map fst al) []) = Some pic /\ meant d pic.
Proof.
  intros g d Hs (W & PD & F) LP NE.
  assert (LS := legal_style (paint_of d) LP W). assert (RS := style_read (paint_of d) LP W).
  assert (PIC : forall cs n al o m, element_of cs = Some (n, al) -> outline_of num_of n al = Some o ->
    matrix_of num_of al = Some m -> declared (pys "style") al = Some (paint_style fmt (paint_of d)) ->
    picture_of num_of cs = Some (mkPicture o m (look_of (paint_of d)))).
  { intros cs n al o m E1 E2 E3 E4. unfold picture_of. rewrite E1, E2, E3, E4, RS. reflexivity. }
  destruct g as [r rx ry rot p|r rot p|l rot p|l p|cs p| | |]; cbn [shape_of] in Hs; try discriminate.
  - injection Hs as <-. cbn [paint_of] in *. destruct F as (X & Y & (F1 & F2 & F3 & F4) & FR).
    assert (OX : forall n v, truthy_num v = false -> opt_attr fmt n v = []).
    { intros n [v|] H; [|reflexivity]. cbn in *. destruct (req v 0); [reflexivity|discriminate]. }
    destruct (rect_elem fmt num_of isfloat Hfmt r rx ry rot p X Y (conj F1 (conj F2 (conj F3 F4))) FR) as (al' & E1 & E2 & E3 & E4).
    destruct (legal_rotation rot (mid_point r) FR) as (ra & Er & La).
    exists (pys "rect"), ([(pys "x", fmt (r_x r), true); (pys "y", fmt (r_y r), true);
      (pys "width", fmt (r_w r), true); (pys "height", fmt (r_h r), true)] ++ ra ++ [(pys "style", paint_style fmt p, true)]).
    assert (EC : svg_rect fmt r rx ry rot p = tree_calls (WElem (pys "rect") ([(pys "x", fmt (r_x r), true); (pys "y", fmt (r_y r), true);
      (pys "width", fmt (r_w r), true); (pys "height", fmt (r_h r), true)] ++ ra ++ [(pys "style", paint_style fmt p, true)]) (Some (pys "rect")) [])).
    { unfold svg_rect. rewrite (OX _ _ X), (OX _ _ Y), Er. cbn [tree_calls flat_map app]. cbn [map app]. rewrite !map_app. cbn [map app].
      rewrite <- app_assoc. reflexivity. }
    split; [cbn [svg_call]; unfold calls; now rewrite EC|]. split; [reflexivity|]. split.
    { destruct La as [->|(v & -> & Lv)]; legal_list. }
    rewrite EC in E1. eexists. split; [apply (picture_node num_of _ _ (Some (pys "rect"))); exact (PIC _ _ _ _ _ E1 E2 E3 E4)|].
    split; [reflexivity|]. split; reflexivity.
  - injection Hs as <-. cbn [paint_of] in *. destruct F as (FF & FR).
    destruct (ellipse_elem fmt num_of isfloat Hfmt r rot p FF FR) as (al' & E1 & E2 & E3 & E4).
    destruct (legal_rotation rot (mid_point r) FR) as (ra & Er & La). destruct FF as (F1 & F2 & F3 & F4). cbn in F1, F2, F3, F4.
    assert (EC : svg_ellipse fmt r rot p = tree_calls (WElem (pys "ellipse") ([(pys "cx", fmt (mid_x r), true); (pys "cy", fmt (mid_y r), true);
      (pys "rx", fmt (r_w r / 2), true); (pys "ry", fmt (r_h r / 2), true)] ++ ra ++ [(pys "style", paint_style fmt p, true)]) (Some (pys "ellipse")) [])).
    { unfold svg_ellipse. rewrite Er. cbn [tree_calls flat_map app]. cbn [map app]. rewrite !map_app. cbn [map app].
      rewrite <- app_assoc. reflexivity. }
    eexists _, _. split; [cbn [svg_call]; unfold calls; rewrite EC; reflexivity|]. split; [reflexivity|]. split.
    { destruct La as [->|(v & -> & Lv)]; legal_list. }
    rewrite EC in E1. eexists. split; [apply (picture_node num_of _ _ (Some (pys "ellipse"))); exact (PIC _ _ _ _ _ E1 E2 E3 E4)|].
    split; [reflexivity|]. split; reflexivity.
  - injection Hs as <-. cbn [paint_of] in *. destruct F as (FF & FR).
    assert (CE : exists c, find_centroid l = Ok c) by (destruct l; [now elim NE|eexists; reflexivity]).
    destruct CE as (c & Ec). specialize (FR c Ec).
    destruct (polygon_elem fmt num_of isfloat Hfmt l rot p c Ec FF FR) as (cs & al' & E0 & E1 & E2 & E3 & E4).
    destruct (legal_rotation rot c FR) as (ra & Er & La).
    assert (EC : svg_polygon fmt l rot p = Ok (tree_calls (WElem (pys "polygon") ([(pys "points", points_str fmt l, true)] ++ ra ++
       [(pys "style", paint_style fmt p, true)]) (Some (pys "polygon")) []))).
    { unfold svg_polygon.
      assert (RR : (match rot with
            | Some a => if req a 0 then Ok [] else do c <- find_centroid l; Ok (rotation_calls fmt rot c)
            | None => Ok [] end) = Ok (rotation_calls fmt rot c)).
      { destruct rot as [a|]; [|reflexivity]. cbn [rotation_calls]. destruct (req a 0); [reflexivity|].
        now rewrite Ec. }
      rewrite RR. cbn [rbind]. rewrite Er. cbn [tree_calls flat_map app]. cbn [map app]. rewrite !map_app. cbn [map app].
      rewrite <- app_assoc. reflexivity. }
    eexists _, _. split; [cbn [svg_call]; rewrite EC; reflexivity|]. split; [reflexivity|]. split.
    { assert (LP' := legal_points l FF). destruct La as [->|(v & -> & Lv)]; legal_list. }
    rewrite EC in E0. injection E0 as <-.
    eexists. split; [apply (picture_node num_of _ _ (Some (pys "polygon"))); exact (PIC _ _ _ _ _ E1 E2 E3 E4)|].
    split; [reflexivity|]. split; [reflexivity|]. exists c. split; [now apply centroid_balanced|reflexivity].
  - destruct p as [[c|] [b|] w dash]; try discriminate. injection Hs as <-. cbn [paint_of] in *.
    destruct F as (Len & FF & Nc). set (p := mkPaint (Some c) None w dash) in *.
    eexists (pys "polyline"), [(pys "points", points_str fmt l, true); (pys "style", paint_style fmt p, true)].
    split; [reflexivity|]. split; [reflexivity|]. split.
    { assert (LP' := legal_points l FF). legal_list. }
    exists (mkPicture (polyline_outline l) ident (look_of p)). split.
    + apply (picture_node num_of _ _ (Some (pys "polyline"))).
      apply (PIC _ (pys "polyline") [(pys "points", points_str fmt l); (pys "style", paint_style fmt p)]);
        [reflexivity| |reflexivity|reflexivity].
      cbn. now rewrite (points_read fmt num_of isfloat Hfmt l FF).
    + split; [reflexivity|]. split; reflexivity.
  - injection Hs as <-. cbn [paint_of] in *. destruct F as (FF & (p0 & rest & Ecs) & A & NS).
    destruct (path_total p0 rest) as (o & O); [subst cs; now apply Forall_cons_iff in A|].
    eexists (pys "path"), [(pys "d", path_str fmt cs, true); (pys "style", paint_style fmt p, true)].
    split; [reflexivity|]. split; [reflexivity|]. split.
    { assert (LD : legal_value (path_str fmt cs) = true).
      { unfold path_str. apply legal_join; [reflexivity|]. clear -FF Hleg.
        induction FF as [|[n ps] cs F _ IH]; constructor; [|exact IH]. unfold command_to_str. cbn [fst snd] in *.
        rewrite legal_app, legal_points by assumption. now destruct n. }
      legal_list. }
    exists (mkPicture o ident (look_of p)). split.
    + apply (picture_node num_of _ _ (Some (pys "path"))).
      apply (PIC _ (pys "path") [(pys "d", path_str fmt cs); (pys "style", paint_style fmt p)]);
        [reflexivity| |reflexivity|reflexivity].
      cbn. rewrite (read_path_written fmt num_of isfloat Hfmt cs FF). now rewrite Ecs.
    + split; [reflexivity|]. cbn [pic_outline pic_matrix]. rewrite Ecs. split; [exact O|reflexivity].
Qed.

(** ** Pictures *)
Lemma bitmap_element : forall x y w h rot href, tidy isfloat fmtv (GBitmap x y w h rot href) ->
  exists al, svg_bitmap fmt x y w h rot href = tree_calls (WElem (pys "image") al (Some (pys "image")) []) /\
    legal_attrs al /\ drawn num_of fmtv (GBitmap x y w h rot href) [NElem (pys "image") (map fst al) []].
Proof.
  intros x y w h rot href (F1 & F2 & F3 & F4 & FR & L).
  destruct (legal_rotation rot (x + w / 2, y + h / 2) FR) as (ra & Er & La).
  assert (NA : forall (n : string) z al, isfloat z -> declared (pys n) al = Some (fmt z) -> number_attr num_of n al = Some z).
  { intros n z al Z D. unfold number_attr. rewrite D. exact (proj1 (Hfmt z Z)). }
  exists ([(pys "x", fmt x, true); (pys "y", fmt y, true); (pys "width", fmt w, true); (pys "height", fmt h, true)] ++
     ra ++ [(pys "xlink:href", href, false)]).
  split.
  { unfold svg_bitmap. rewrite Er. cbn [tree_calls flat_map app]. cbn [map app]. rewrite !map_app. cbn [map app].
    rewrite <- app_assoc. reflexivity. }
  split.
  { destruct La as [->|(v & -> & Lv)]; legal_list. }
  destruct (rotation_written fmt num_of isfloat Hfmt rot (x + w / 2, y + h / 2) FR) as [[E M]|(v & E & M)];
    rewrite E in Er; destruct La as [->|(v' & -> & Lv)]; try discriminate.
  - apply drawn_bitmap; try (apply NA; [assumption|]); try reflexivity. now rewrite M.
  - injection Er as Er. subst v'. apply drawn_bitmap; try (apply NA; [assumption|]); try reflexivity. exact M.
Qed.

Lemma legal_rotate : forall a c, isfloat a -> float_pt isfloat c -> legal_value (rotate_str fmt a c) = true.
Proof. intros a c A [B C]. unfold rotate_str. now rewrite !legal_app, !Hleg. Qed.
Lemma svg_element : forall svg x y k rot c, tidy isfloat fmtv (GSvg svg x y k rot c) ->
  exists t ks, svg_svg fmt svg x y k rot c =
      Ok (tree_calls (WElem (pys "g") [(pys "transform", t, true)] (Some (pys "g")) [WRaw svg])) /\
    legal_value t = true /\ ~ In 13%N svg /\ read svg = Some ks /\
    drawn num_of fmtv (GSvg svg x y k rot c) [NElem (pys "g") [(pys "transform", t)] ks].
Proof.
  intros svg x y k rot c (F1 & F2 & F3 & FR & NC & ks & R).
  set (rl := match rot, c with Some a, Some q => [rotate_str fmt a q] | _, _ => [] end).
  set (rm := match rot, c with Some a, Some q => [rotation_about a q] | _, _ => [] end).
  set (sl := if req k 1 then [] else [scale_str fmt k]).
  set (sm := if req k 1 then [] else [mkMat k 0 0 k 0 0]).
  set (l := rl ++ [translate_str fmt x y] ++ sl).
  assert (F : Forall2 (text_reads num_of) l (rm ++ [mkMat 1 0 0 1 x y] ++ sm)).
  { apply Forall2_app; [|apply Forall2_app].
    - unfold rl, rm. destruct rot as [a|]; [|constructor]. destruct c as [q|]; constructor; [|constructor].
      destruct FR. now apply (rotate_reads fmt num_of isfloat Hfmt).
    - constructor; [now apply (translate_reads fmt num_of isfloat Hfmt)|constructor].
    - unfold sl, sm. destruct (req k 1); constructor; [now apply (scale_reads fmt num_of isfloat Hfmt)|constructor]. }
  apply transforms_read in F.
  exists (join_with (pys " ") l), ks. split.
  { unfold svg_svg, l, rl, sl. destruct rot as [a|]; [destruct c; [|contradiction]|]; reflexivity. }
  split.
  { apply legal_join; [reflexivity|]. unfold l. apply Forall_app. split; [|apply Forall_app; split].
    - unfold rl. destruct rot as [a|]; [|constructor]. destruct c as [q|]; constructor; [|constructor].
      destruct FR. now apply legal_rotate.
    - constructor; [|constructor]. unfold translate_str. now rewrite !legal_app, !Hleg.
    - unfold sl. destruct (req k 1); constructor; [|constructor]. unfold scale_str. now rewrite !legal_app, !Hleg. }
  split; [exact NC|]. split; [exact R|].
  apply drawn_svg with (m := product (rm ++ [mkMat 1 0 0 1 x y] ++ sm)); [exact R|exact F|].
  intros p.
  assert (P : apply (product ([mkMat 1 0 0 1 x y] ++ sm)) p = (x + k * fst p, y + k * snd p)).
  { unfold sm. destruct (req k 1) eqn:E; cbn [app product]; rewrite ?apply_mul; unfold apply, ident; simpl.
    - apply req_true in E. subst k. apply f_equal2; ring.
    - apply f_equal2; ring. }
  rewrite <- P. unfold rm. destruct rot as [a|]; [destruct c as [q|]|]; cbn [app product]; rewrite ?apply_mul; try reflexivity.
  all: unfold ident, apply; simpl; apply f_equal2; ring.
Qed.

(** ** Texts *)
Lemma text_structure : forall x y styles transform base ts,
  TextSpec.balanced ts -> known_names styles ts -> complete base ->
  (forall n s, styles n = Some s -> valid_style s) -> (forall n, dummyb n = true -> styles n = None) ->
  regular styles [Some base] ts ->
  exists a inner, draw_text fmtv x y ts base styles None None transform =
      (CElement (pys "text") :: map set_call (text_attrs fmtv x y None None transform a ++ font_attrs fmtv base) ++
       inner ++ [CClose (Some (pys "text"))], Ok tt) /\
    In (s_align base, a) anchors /\
    forall st, moves st inner st.
Proof.
  intros x y styles transform base ts Hb Hk Hc Vs Hh Hr.
  destruct (anchor_ok base Hc) as [a [Ea La]]. pose proof Hc as [V [_ [Nz Nl]]].
  destruct (number_ok Size _ (or_introl eq_refl) (V Size) Nz) as [z Ez].
  destruct (number_ok LineSpacing _ (or_intror eq_refl) (V LineSpacing) Nl) as [l El].
  cbn [get] in Ez, El.
  destruct (loop_facts fmtv (fmtv (PNum x)) (z * l) styles None None base V Vs Hh ts 0 (prio base) [] Hk)
    as [cs [E [M _]]]; auto.
  { cbn. reflexivity. }
  { intros s []. }
  destruct (open_block fmtv tspan (variant_attrs fmtv base) None eq_refl (variant_extra fmtv styles base)) as [M2 _].
  cbv zeta in *.
  exists a, ((CElement tspan :: map set_call (variant_attrs fmtv base) ++ []) ++ cs ++ [CClose (Some tspan)]).
  split.
  - match goal with |- ?d = (?c, _) => assert (D : exists c', d = (c', Ok tt) /\ c' = c) end.
    { eexists. split.
      - unfold draw_text, calls, lift. apply tb. rewrite Ea. apply tb. apply tb. rewrite Ez, El. cbn [rbind].
        apply tb. apply tb. rewrite (num_prio base V). apply tb. cbn [rev app] in E. rewrite E. apply tb.
        reflexivity.
      - rewrite map_app, text_calls, <- set_font_attrs. unfold variant_attrs. rewrite !app_nil_r. cbn [app flat_map].
        rewrite <- ?app_assoc. cbn [app]. rewrite <- ?app_assoc.
        destruct (truthy (s_variant base)); reflexivity. }
    destruct D as [c' [D ->]]. exact D.
  - split.
    + clear -Ea. destruct (s_align base); try discriminate. match type of Ea with anchor (PStr ?v) = _ => rename v into w end.
      unfold anchor in Ea. unfold anchors. cbn [In].
      destruct (str_eqb w (pys "left")) eqn:E1; [|destruct (str_eqb w (pys "middle")) eqn:E2; [|destruct (str_eqb w (pys "right")) eqn:E3; [|discriminate]]].
      * apply str_eqb_eq in E1. injection Ea as <-. subst. auto.
      * apply str_eqb_eq in E2. injection Ea as <-. subst. auto.
      * apply str_eqb_eq in E3. injection Ea as <-. subst. auto.
    + intros st. eapply moves_app; [apply M2|]. eapply moves_app; [apply (M st)|]. apply moves_close.
Qed.

(** Only the styles that a text names matter. *)
Definition used (styles : str -> option style) (ts : list token) (n : str) : option style :=
  if existsb (fun t => match t with TBegin m => str_eqb n m | _ => false end) ts then styles n else None.
Lemma used_here : forall styles ts n, In (TBegin n) ts -> used styles ts n = styles n.
Proof.
  intros styles ts n H. unfold used.
  assert (E : existsb (fun t => match t with TBegin m => str_eqb n m | _ => false end) ts = true).
  { apply existsb_exists. exists (TBegin n). split; [exact H|apply str_eqb_refl]. }
  now rewrite E.
Qed.
Lemma used_some : forall styles ts n s, used styles ts n = Some s -> In (TBegin n) ts /\ styles n = Some s.
Proof.
  intros styles ts n s H. unfold used in H.
  destruct (existsb (fun t => match t with TBegin m => str_eqb n m | _ => false end) ts) eqn:E; [|discriminate].
  apply existsb_exists in E as (t & I & K). destruct t; try discriminate. apply str_eqb_eq in K. subst. auto.
Qed.
Section Agree.
Variables styles styles' : str -> option style.
Definition agree (us : list token) : Prop := forall n, In (TBegin n) us -> styles' n = styles n.
Lemma agree_tail : forall u us, agree (u :: us) -> agree us.
Proof. intros u us H n X. apply H. now right. Qed.
Lemma agree_effect : forall n us st, agree (TBegin n :: us) -> effect styles' st n = effect styles st n.
Proof. intros n us st H. unfold effect. now rewrite H by now left. Qed.
Lemma agree_glyphs : forall us st, agree us -> glyphs styles' st us = glyphs styles st us.
Proof.
  induction us as [|u us IH]; intros st H; auto. assert (H' := agree_tail _ _ H).
  destruct u; cbn [glyphs]; rewrite ?IH; auto. now rewrite (agree_effect _ _ _ H).
Qed.
Lemma agree_regular : forall us st, agree us -> regular styles st us -> regular styles' st us.
Proof.
  induction us as [|u us IH]; intros st H R; auto. assert (H' := agree_tail _ _ H).
  destruct u; cbn [regular] in *; try (rewrite (agree_effect _ _ _ H)); intuition.
Qed.
Lemma agree_loop : forall xs l us i p active, agree us ->
  draw_loop fmtv xs l styles' None None i p active us = draw_loop fmtv xs l styles None None i p active us.
Proof.
  intros xs l. induction us as [|u us IH]; intros i p active H; auto. assert (H' := agree_tail _ _ H).
  destruct u as [t|k|nm|]; cbn [draw_loop]; unfold tbind; cbn [fst snd calls lift].
  - now rewrite IH.
  - now rewrite IH.
  - rewrite (H nm) by now left. destruct (styles nm) as [s0|].
    + destruct (num (s_priority s0)); auto. now rewrite IH.
    + destruct (startswith (pys "#") nm); auto. now rewrite IH.
  - destruct (rev active) as [|o [|[s|] below]]; auto; try now rewrite IH.
    destruct (num (s_priority s)); auto. now rewrite IH.
Qed.
Lemma agree_draw : forall x y ts base transform, agree ts ->
  draw_text fmtv x y ts base styles' None None transform = draw_text fmtv x y ts base styles None None transform.
Proof.
  intros x y ts base transform H. unfold draw_text, tbind. cbn [fst snd calls lift].
  destruct (anchor (s_align base)); auto.
  destruct (num (s_size base)); auto. cbn [rbind]. destruct (num (s_line_spacing base)); auto. cbn [rbind].
  destruct (num (s_priority base)); auto. now rewrite agree_loop.
Qed.
End Agree.
Lemma letters_glyphs : forall styles ts st, map fst (glyphs styles st ts) = letters ts.
Proof.
  intros styles ts. induction ts as [|[s|n|n|] ts IH]; intros st; try (cbn; apply IH); [reflexivity|].
  cbn [glyphs letters flat_map]. rewrite map_app, IH. f_equal. rewrite map_map. cbn. apply map_id.
Qed.
Lemma text_element : forall x y ts base styles transform,
  TextSpec.balanced ts -> known_names styles ts -> complete base ->
  (forall n s, styles n = Some s -> valid_style s) -> (forall n, dummyb n = true -> styles n = None) ->
  regular styles [Some base] ts ->
  printable fmtv base -> (forall n s', styles n = Some s' -> printable fmtv s') ->
  legal_texts ts -> (forall t, transform = Some t -> legal_value t = true) ->
  exists al kids, let t := WElem (pys "text") al (Some (pys "text")) kids in
    draw_text fmtv x y ts base styles None None transform = (tree_calls t, Ok tt) /\
    closes t /\ lawful t /\
    declared (pys "x") (map fst al) = Some (fmtv (PNum x)) /\
    declared (pys "y") (map fst al) = Some (fmtv (PNum y)) /\
    declared (pys "transform") (map fst al) = transform /\
    (exists a, declared (pys "text-anchor") (map fst al) = Some a /\ In (s_align base, a) anchors) /\
    ((forall n s', In (TBegin n) ts -> styles n = Some s' -> ~ switches_off s') ->
     Forall2 (same_look fmtv) (flat_map (doc_glyphs []) (tree_nodes t)) (glyphs styles [Some base] ts)) /\
    map fst (flat_map (doc_glyphs []) (tree_nodes t)) = hard_spaces (letters ts).
Proof.
  intros x y ts base styles transform Hb Hk Hc Vs Hh Hr Pb Ps Lt Tr.
  destruct (text_structure x y styles transform base ts Hb Hk Hc Vs Hh Hr) as (a & inner & E & An & M).
  destruct (draw_facts fmtv x y styles None None transform base ts Hb Hk Hc Vs Hh Hr) as (cs & E' & _ & L & R).
  assert (Ec : cs = CElement (pys "text") :: map set_call (text_attrs fmtv x y None None transform a ++ font_attrs fmtv base) ++
       inner ++ [CClose (Some (pys "text"))]) by congruence.
  destruct (M [] new_xml eq_refl) as (w & W1 & W2).
  destruct (proj1 (C43_nested inner)) as (f & Fc & Fi).
  { exists w, (List.concat (x_chunks w)). split; [exact W1|]. unfold to_string. now rewrite W2. }
  exists (text_attrs fmtv x y None None transform a ++ font_attrs fmtv base), f. cbv zeta.
  set (t := WElem _ _ _ f).
  assert (Et : cs = tree_calls t) by (rewrite Ec, Fi; reflexivity).
  assert (Ct : closes t).
  { unfold t. cbn [closes]. split; [now right|]. clear -Fc. induction Fc; [exact I|]. now split. }
  assert (Lw : lawful t).
  { assert (Q : Forall lawful [t]); [|now inversion Q].
    apply lawful_forest. unfold forest_calls. cbn [flat_map]. rewrite app_nil_r, <- Et. apply L; auto.
    split; [exact Pb|]. split; [exact Ps|]. split; [apply Hlegv|]. split; [exact Hlegv|]. intros d; discriminate. }
  split; [now rewrite <- Et|]. split; [exact Ct|]. split; [exact Lw|].
  split; [unfold text_attrs; destruct transform; reflexivity|].
  split; [unfold text_attrs; destruct transform; reflexivity|].
  split.
  { unfold text_attrs. destruct transform; [reflexivity|].
    unfold font_attrs. destruct (is_none (s_font base)), (is_none (s_size base)), (style_string fmtv base); reflexivity. }
  split; [exists a; split; [unfold text_attrs; destruct transform; reflexivity|exact An]|].
  assert (G := call_glyphs_forest [t] []). unfold forest_calls, forest_nodes in G. cbn [flat_map] in G.
  rewrite !app_nil_r in G. rewrite <- G, <- Et. split.
  { intros Off. set (us := used styles ts). assert (Ag : agree styles us ts) by (intros n X; now apply used_here).
    assert (Us : forall n s, us n = Some s -> In (TBegin n) ts /\ styles n = Some s) by apply used_some.
    destruct (draw_facts fmtv x y us None None transform base ts Hb) as (cs2 & E2 & _ & _ & R2); auto.
    - intros n X. rewrite (Ag n X). now apply Hk.
    - intros n s0 X. apply (Vs n). now apply Us.
    - intros n X. destruct (us n) as [s0|] eqn:Eu; auto. destruct (Us n s0 Eu) as [_ K]. rewrite (Hh n X) in K. discriminate.
    - now apply (agree_regular styles).
    - rewrite (agree_draw styles) in E2 by exact Ag. assert (cs2 = cs) by congruence. subst cs2.
      rewrite (agree_glyphs styles) in R2 by exact Ag.
      apply (forall2_imp (rel fmtv us base)); auto. intros g h Hgh. apply (rel_look fmtv us base); auto; [|apply Hc].
      intros n s0 X. destruct (Us n s0 X) as [I0 S0]. split; [now apply (Vs n)|]. split; [now apply (Ps n)|]. now apply (Off n). }
  rewrite <- (letters_glyphs styles ts [Some base]).
  clear -R. unfold hard_spaces.
  induction R as [|g h gs hs [sts [_ [_ [_ H]]]] R IH]; auto. cbn [map]. now rewrite H, IH.
Qed.

(** The transformation of a text. *)
Definition text_transform (mid : Q * Q) (rot : pyval) (scale : option Q) : option str :=
  match (if truthy rot then [pys "rotate(" ++ fmtv rot ++ pys " " ++ fmtv (PNum (fst mid)) ++ pys " " ++
                   fmtv (PNum (snd mid)) ++ pys ")"] else []) ++
        (match scale with
            | Some k => if Qeq_bool k 0 then [] else [pys "scale(" ++ fmtv (PNum k) ++ pys ")"]
            | None => []
            end) with [] => None | l => Some (join_with (pys " ") l) end.
Lemma readable_sep : forall q, readable num_of fmtv q -> forall c, In c (fmtv (PNum q)) ->
  comma_space c = false /\ N.eqb 41 c = false.
Proof.
  intros q (_ & _ & F) c Hc. rewrite Forall_forall in F. destruct (F c Hc) as (A & B & C & _). split.
  - unfold comma_space. apply N.eqb_neq in A, B. now rewrite A, B.
  - apply N.eqb_neq. congruence.
Qed.
Lemma text_turn_reads : forall a x y, readable num_of fmtv a -> readable num_of fmtv x -> readable num_of fmtv y ->
  text_reads num_of (pys "rotate(" ++ fmtv (PNum a) ++ pys " " ++ fmtv (PNum x) ++ pys " " ++ fmtv (PNum y) ++ pys ")")
    (rotation_about (Q2R a) (Q2R x, Q2R y)).
Proof.
  intros a x y A X Y.
  assert (SA := readable_sep a A). assert (SX := readable_sep x X). assert (SY := readable_sep y Y).
  destruct A as (Na & Ea & _). destruct X as (N1 & E1 & _). destruct Y as (N2 & E2 & _).
  exists (pys "rotate" ++ 40%N :: (fmtv (PNum a) ++ 32%N :: fmtv (PNum x) ++ 32%N :: fmtv (PNum y))). split.
  - change (pys "rotate(") with (pys "rotate" ++ [40%N]). change (pys " ") with [32%N].
    change (pys ")") with [41%N]. repeat (rewrite <- app_assoc; cbn [app]). reflexivity.
  - apply reads_intro with (l := [Q2R a; Q2R x; Q2R y]); [discriminate|reflexivity| | | |reflexivity].
    + intros E. apply app_eq_nil in E as [E _]. contradiction.
    + intros c Hx. apply in_app_or in Hx. destruct Hx as [Hx|[<-|Hx]]; [now apply SA|reflexivity|].
      apply in_app_or in Hx. destruct Hx as [Hx|[<-|Hx]]; [now apply SX|reflexivity|now apply SY].
    + rewrite pieces_word; [|intros; now apply SA|exact Ea|reflexivity].
      rewrite pieces_word; [|intros; now apply SX|exact E1|reflexivity].
      rewrite pieces_end; [|intros; now apply SY|exact E2].
      cbn [all_numbers]. now rewrite Na, N1, N2.
Qed.
Lemma text_scale_reads : forall k, readable num_of fmtv k ->
  text_reads num_of (pys "scale(" ++ fmtv (PNum k) ++ pys ")") (mkMat (Q2R k) 0 0 (Q2R k) 0 0).
Proof.
  intros k K. assert (SK := readable_sep k K). destruct K as (N1 & E1 & _).
  exists (pys "scale" ++ 40%N :: fmtv (PNum k)). split.
  - change (pys "scale(") with (pys "scale" ++ [40%N]). change (pys ")") with [41%N].
    repeat (rewrite <- app_assoc; cbn [app]). reflexivity.
  - apply reads_intro with (l := [Q2R k]); [discriminate|reflexivity|exact E1| | |reflexivity].
    + intros c Hx. now apply SK.
    + rewrite pieces_end; [|intros; now apply SK|exact E1]. cbn [all_numbers]. now rewrite N1.
Qed.
Lemma text_is_placed : forall mid rot scale al, (forall k, scale = Some k -> ~ (k == 0)%Q) ->
  declared (pys "transform") al = text_transform mid rot scale ->
  text_placed num_of fmtv mid rot scale al.
Proof.
  intros mid rot scale al Nz D a -> F. cbv zeta. inversion F as [|? ? X F1]; subst. inversion F1 as [|? ? Y F2]; subst.
  apply Forall_app in F2 as [FA FK].
  assert (TR : exists l ms, text_transform mid (match a with Some d => PNum d | None => PNone end) scale =
      match l with [] => None | _ => Some (join_with (pys " ") l) end /\ Forall2 (text_reads num_of) l ms /\
      forall p, apply (product ms) p =
      apply (match a with Some d => rotation_about (Q2R d) (Q2R (fst mid), Q2R (snd mid)) | None => ident end)
        (match scale with Some k => Q2R k | None => 1 end * fst p, match scale with Some k => Q2R k | None => 1 end * snd p)).
  { assert (SC : exists l ms, (match scale with
            | Some k => if Qeq_bool k 0 then [] else [pys "scale(" ++ fmtv (PNum k) ++ pys ")"]
            | None => []
            end) = l /\ Forall2 (text_reads num_of) l ms /\
        forall p, apply (product ms) p =
          (match scale with Some k => Q2R k | None => 1 end * fst p, match scale with Some k => Q2R k | None => 1 end * snd p)).
    { destruct scale as [k|].
      - destruct (Qeq_bool k 0) eqn:E; [apply Qeq_bool_eq in E; now elim (Nz k eq_refl)|].
        do 2 eexists. split; [reflexivity|]. split.
        + constructor; [|constructor]. apply text_scale_reads. now inversion FK.
        + intros p. cbn [product]. rewrite mul_ident. unfold apply. cbn. apply f_equal2; ring.
      - exists [], []. split; [reflexivity|]. split; [constructor|]. intros p. cbn [product].
        unfold apply, ident. cbn. apply f_equal2; ring. }
    destruct SC as (l2 & m2 & S1 & S2 & S3). unfold text_transform. rewrite S1.
    destruct a as [d|].
    - cbn [truthy]. destruct (Qeq_bool d 0) eqn:E; cbn [negb].
      + exists l2, m2. split; [clear; now destruct l2|]. split; [exact S2|]. intros p. rewrite S3.
        apply Qeq_bool_eq in E. apply Qeq_eqR in E. rewrite E. replace (Q2R 0) with 0 by (unfold Q2R; cbn; field).
        rewrite rotation_zero. unfold apply, ident. cbn [m_xx m_xy m_yx m_yy m_x0 m_y0 fst snd]. apply f_equal2; ring.
      + eexists (_ :: l2), (_ :: m2). split; [reflexivity|]. split.
        * constructor; [apply text_turn_reads; auto; now inversion FA|exact S2].
        * intros p. cbn [product]. now rewrite apply_mul, S3.
    - cbn [truthy]. exists l2, m2. split; [clear; now destruct l2|]. split; [exact S2|]. intros p. rewrite S3.
      unfold apply, ident. cbn [m_xx m_xy m_yx m_yy m_x0 m_y0 fst snd]. apply f_equal2; ring. }
  destruct TR as (l & ms & T1 & T2 & T3). rewrite D, T1. exists (product ms). split; [|exact T3].
  destruct l as [|s l]; [|exact (transforms_read num_of _ _ T2)]. inversion T2. reflexivity.
Qed.

(** ** One call *)
Lemma legal_transform : forall rot (mid : Q * Q) (scale : option Q) t, legal_value (fmtv rot) = true ->
  match (if truthy rot then [pys "rotate(" ++ fmtv rot ++ pys " " ++ fmtv (PNum (fst mid)) ++ pys " " ++
                   fmtv (PNum (snd mid)) ++ pys ")"] else []) ++
        (match scale with
            | Some k => if Qeq_bool k 0 then [] else [pys "scale(" ++ fmtv (PNum k) ++ pys ")"]
            | None => []
            end) with [] => None | l => Some (join_with (pys " ") l) end = Some t -> legal_value t = true.
Proof.
  intros rot mid scale t Lr H.
  match goal with H : match ?l with _ => _ end = _ |- _ => assert (F : Forall (fun s => legal_value s = true) l) end.
  { apply Forall_app. split.
    - destruct (truthy rot); constructor; [|constructor]. now rewrite !legal_app, Lr, !Hlegv.
    - destruct scale as [k|]; [destruct (Qeq_bool k 0)|]; constructor; [|constructor]. now rewrite !legal_app, !Hlegv. }
  destruct (_ ++ _) as [|s l]; [discriminate|].
  assert (E : t = join_with (pys " ") (s :: l)) by congruence. rewrite E. now apply legal_join.
Qed.

Lemma call_drawn : forall g, tidy isfloat fmtv g ->
  exists f, svg_call fmt fmtv g = (forest_calls f, Ok tt) /\ Forall closes f /\ Forall lawful f /\
    drawn num_of fmtv g (forest_nodes f).
Proof.
  intros g T.
  assert (ONE : forall n al, is_name n = true -> legal_attrs al ->
    Forall closes [WElem n al (Some n) []] /\ Forall lawful [WElem n al (Some n) []]).
  { intros n al N [A B]. split; constructor; try constructor; cbn; auto. }
  assert (SH : (exists d, shape_of g = Some d /\ fit isfloat d /\ legal_paint (paint_of d) /\
           match d with SPolygon l _ _ => l <> [] | _ => True end) ->
    exists f, svg_call fmt fmtv g = (forest_calls f, Ok tt) /\ Forall closes f /\ Forall lawful f /\
    drawn num_of fmtv g (forest_nodes f)).
  { intros (d & Hs & F & LP & NE).
    destruct (shape_element g d Hs F LP NE) as (n & al & E & N & LA & pic & P & Me).
    exists [WElem n al (Some n) []]. unfold forest_calls, forest_nodes. cbn [flat_map]. rewrite !app_nil_r.
    split; [exact E|]. destruct (ONE n al N LA) as [C L]. split; [exact C|]. split; [exact L|].
    cbn [tree_nodes flat_map]. now apply drawn_shape with (d := d) (pic := pic). }
  destruct g as [r rx ry rot p|r rot p|l rot p|l p|cs p|mid x y ts s styles rot scale|x y w h rot href|svg x y k rot c];
    try (now apply SH).
  - clear SH ONE. destruct T as (Hb & Hk & Hc & Vs & Hh & Hr & Pb & Ps & Lt & Lr & Nz).
    cbn [svg_call]. unfold svg_draw_text. cbv zeta.
    match goal with |- context [draw_text fmtv _ _ ts s styles None None ?t] => set (tr := t) end.
    assert (LT : forall t, tr = Some t -> legal_value t = true) by (intros t; apply legal_transform; exact Lr).
    set (xy := match scale with Some k => ((x / k)%Q, (y / k)%Q) | None => (x, y) end).
    destruct (text_element (fst xy) (snd xy) ts s styles tr Hb Hk Hc Vs Hh Hr Pb Ps Lt LT)
      as (al & kids & E & C & L & X & Y & TR & AN & LK & G).
    set (t := WElem (pys "text") al (Some (pys "text")) kids) in *.
    exists [t]. unfold forest_calls, forest_nodes. cbn [flat_map]. rewrite !app_nil_r. split.
    + destruct scale as [k|]; [|exact E]. destruct (Qeq_bool k 0) eqn:Ek; [|exact E].
      apply Qeq_bool_eq in Ek. now elim (Nz k eq_refl).
    + split; [exact (Forall_cons _ C (Forall_nil _))|]. split; [exact (Forall_cons _ L (Forall_nil _))|].
      cbn [tree_nodes t]. apply drawn_text.
      * rewrite <- G. unfold t. cbn [tree_nodes flat_map]. now rewrite app_nil_r.
      * exists (fst xy), (snd xy). unfold xy. destruct scale as [k|]; cbn [fst snd].
        -- assert (N := Nz k eq_refl). split; [field; exact N|]. split; [field; exact N|]. auto.
        -- split; [ring|]. split; [ring|]. auto.
      * intros Off. specialize (LK Off). unfold t in LK. cbn [tree_nodes flat_map] in LK. now rewrite app_nil_r in LK.
      * exact AN.
      * apply text_is_placed; [exact Nz|exact TR].
  - destruct (bitmap_element x y w h rot href T) as (al & E & LA & D).
    exists [WElem (pys "image") al (Some (pys "image")) []]. unfold forest_calls, forest_nodes. cbn [flat_map].
    rewrite !app_nil_r. split; [cbn [svg_call]; unfold calls; now rewrite E|].
    destruct (ONE (pys "image") al eq_refl LA) as [C L]. auto.
  - clear SH ONE. destruct (svg_element svg x y k rot c T) as (t & ks & E & Lt & NC & R & D).
    set (tree := WElem (pys "g") [(pys "transform", t, true)] (Some (pys "g")) [WRaw svg]) in *.
    assert (C : Forall closes [tree]) by (constructor; [|constructor]; cbn; auto).
    assert (L : Forall lawful [tree]).
    { constructor; [|constructor]. cbn. split; [reflexivity|]. split; [repeat constructor; intros []|].
      split; [repeat constructor; auto|]. split; [|exact I]. split; [now exists ks|exact NC]. }
    destruct (forest_alone [tree] C) as (w & W1 & W2). unfold forest_calls in W1. cbn [flat_map] in W1.
    rewrite app_nil_r in W1.
    exists [WRaw (flat_map show [tree])]. split.
    + cbn [svg_call]. rewrite E. cbn [rbind]. rewrite W1. cbn [rbind]. rewrite W2. reflexivity.
    + assert (RR := forest_read [tree] L). split; [constructor; [exact I|constructor]|]. split.
      * constructor; [|constructor]. cbn [lawful]. split; [eexists; exact RR|now apply forest_no_cr].
      * assert (EN : forest_nodes [WRaw (flat_map show [tree])] = [NElem (pys "g") [(pys "transform", t)] ks]).
        { change (forest_nodes [WRaw (flat_map show [tree])]) with
            ((match read (flat_map show [tree]) with Some ns => ns | None => [] end) ++ []).
          rewrite RR, app_nil_r. unfold forest_nodes, tree. cbn [flat_map tree_nodes]. rewrite R, !app_nil_r. reflexivity. }
        rewrite EN. exact D.
Qed.
Lemma calls_drawn : forall l, Forall (tidy isfloat fmtv) l ->
  exists f, svg_calls fmt fmtv l = (forest_calls f, Ok tt) /\ Forall closes f /\ Forall lawful f /\
    drawn_all num_of fmtv l (forest_nodes f).
Proof.
  intros l H. induction H as [|g l Hg _ IH].
  - exists []. repeat split; constructor.
  - destruct (call_drawn g Hg) as (f1 & E1 & C1 & L1 & D1). destruct IH as (f2 & E2 & C2 & L2 & D2).
    exists (f1 ++ f2). unfold forest_calls, forest_nodes in *. rewrite !flat_map_app. split.
    + cbn [svg_calls]. rewrite E1. unfold tbind. cbn [fst snd]. rewrite E2. reflexivity.
    + split; [now apply Forall_app|]. split; [now apply Forall_app|]. now constructor.
Qed.
End Drawn.
