(** Debug frames in SVG documents: C94. *)
From Coq Require Import List Reals QArith ZArith NArith Bool String Lia Lra.
From Verif Require Import Py PyFacts XmlModel XmlSpec XmlProofs XmlProps StyleModel StyleSpec TextModel TextSpec
  TextBoxModel DrawModel DrawSpec DrawProofs DrawLoop DrawFacts DrawProps ShapeModel ShapeSpec ShapeProofs ShapePaint
  ShapeProps PicModel PicSpec PicProofs PageModel PageSpec PageProofs PageProps DebugModel DebugProps.
From Verif Require SlideProps.
Import ListNotations.
Local Open Scope R_scope.

(** The SVG document of a page with frames is the one without them with elements added. *)
Theorem C94_document : forall fmt fmtv w h v s k draw nss,
  legal_value (fmt w) = true -> legal_value (fmt h) = true -> legal_box fmt v ->
  Forall2 (fun p ns => exists o, alone (svg_item fmt fmtv (draw p)) = Ok o /\ ~ In 13%N o /\ read o = Some ns)
    (page_at true s k) nss ->
  exists out out',
    svg_document fmt fmtv w h v (map draw (page_at true s k)) = Ok out /\
    svg_document fmt fmtv w h v (map draw (page_at false s k)) = Ok out' /\
    read out = Some [NElem (pys "svg") (root_attrs fmt w h v) (List.concat nss)] /\
    read out' = Some [NElem (pys "svg") (root_attrs fmt w h v)
      (List.concat (map snd (filter (fun x => is_item (fst x)) (combine (page_at true s k) nss))))].
Proof.
  intros fmt fmtv w h v s k draw nss Lw Lh Lv H.
  assert (M : forall l ns, Forall2 (fun p ns => exists o, alone (svg_item fmt fmtv (draw p)) = Ok o /\ ~ In 13%N o /\ read o = Some ns) l ns ->
    Forall2 (fun it ns => exists o, alone (svg_item fmt fmtv it) = Ok o /\ ~ In 13%N o /\ read o = Some ns) (map draw l) ns /\
    Forall2 (fun it ns => exists o, alone (svg_item fmt fmtv it) = Ok o /\ ~ In 13%N o /\ read o = Some ns) (map draw (filter is_item l))
      (map snd (filter (fun x => is_item (fst x)) (combine l ns)))).
  { induction 1 as [|p ns l nss' Hp _ (I1 & I2)]; [split; constructor|]. cbn [map combine filter fst].
    split; [now constructor|]. destruct (is_item p); cbn [map snd]; [now constructor|exact I2]. }
  destruct (M _ _ H) as (M1 & M2). rewrite C94_same_items in M2.
  destruct (C91_document fmt fmtv w h v _ _ Lw Lh Lv M1) as (out & O1 & O2).
  destruct (C91_document fmt fmtv w h v _ _ Lw Lh Lv M2) as (out' & O1' & O2').
  exists out, out'. auto.
Qed.
Print Assumptions C94_document.

Lemma frame_look : forall depth,
  l_stroke (look_of (mkPaint (Some (pys "#ff00ff")) None (Some 2) (frame_dash depth))) =
  Some (pys "#ff00ff", 2, nth (Nat.modulo depth 3) [None; Some (pys "4 2"); Some (pys "1 2")] None).
Proof.
  intros depth. unfold look_of, frame_dash, width_or_1. cbn [l_stroke p_color p_width p_dash].
  assert (B := Nat.mod_upper_bound depth 3 ltac:(discriminate)). revert B. generalize (Nat.modulo depth 3). intros m B.
  rewrite reqF by lra. destruct m as [|[|[|m]]]; try reflexivity. lia.
Qed.
(** What a frame shows: the outline of the box, without fill, and a text with the name and the
    size of the box.  A side shorter than 0.1 is drawn with the length 0.1.
    Partial: for numbers, styles and names that can be written. *)
Theorem C94_frame_partial : forall fmt fmtv num_of isfloat num r name depth mid x y s styles l,
  good_numbers fmt num_of isfloat ->
  (forall x, isfloat x -> legal_value (fmt x) = true) -> (forall q, legal_value (fmtv (PNum q)) = true) ->
  frame_item num r name depth mid x y s styles = Ok l -> Forall (tidy isfloat fmtv) l ->
  exists o n1 n2 pic, alone (svg_item fmt fmtv (Ok l)) = Ok o /\ read o = Some [n1; n2] /\
    node_picture num_of n1 = Some pic /\
    pic_outline pic = rect_outline (r_x r) (r_y r) (Rmax (r_w r) (1 / 10)) (Rmax (r_h r) (1 / 10)) /\
    pic_matrix pic = ident /\ l_fill (pic_look pic) = None /\
    l_stroke (pic_look pic) =
      Some (pys "#ff00ff", 2, nth (Nat.modulo depth 3) [None; Some (pys "4 2"); Some (pys "1 2")] None) /\
    map fst (doc_glyphs [] n2) =
      hard_spaces ((if Nat.odd depth then 8598 else 8601)%N :: pys " " ++ match name with Some [] | None => [] | Some n => n ++ pys " " end ++
                   pys "[" ++ num (Rmax (r_w r) (1 / 10)) ++ pys "," ++ num (Rmax (r_h r) (1 / 10)) ++ pys "]").
Proof.
  intros fmt fmtv num_of isfloat num r name depth mid x y s styles l Hf Hl Hv E T. unfold frame_item in E. cbv zeta in E.
  assert (A : forall v, at_least v = Rmax v (1 / 10)).
  { intros v. unfold at_least, rlt, Rmax. destruct (Rlt_dec v (1 / 10)), (Rle_dec v (1 / 10)); lra. }
  cbn [r_x r_y r_w r_h] in E. rewrite !A in E. injection E as <-.
  destruct (tidy_item fmt fmtv num_of isfloat _ Hf Hl Hv T) as (o & ns & E & _ & R & D).
  inversion D as [|g1 l1 a b D1 D2]; subst. inversion D2 as [|g2 l2 a2 b2 D3 D4]; subst. inversion D4; subst.
  inversion D1 as [g d n pic ES EP M| | |]; subst. cbn [shape_of] in ES. injection ES as <-.
  inversion D3 as [g2 d2 n2 pic2 ES2 EP2 M2| | |? ? ? ? ? ? ? ? al ks ? G _]; subst; [discriminate|].
  exists o, n, (NElem (pys "text") al ks), pic. split; [exact E|]. split; [exact R|]. split; [exact EP|].
  cbn [meant paint_of] in M. destruct M as (M1 & M2 & M3). rewrite M1. split; [exact M2|]. split; [exact M3|].
  split; [reflexivity|].
  split; [exact (frame_look depth)|].
  rewrite G. cbn [letters flat_map]. rewrite app_nil_r. unfold frame_label.
  destruct (Nat.odd depth); destruct name as [[|c n']|]; reflexivity.
Qed.
Print Assumptions C94_frame_partial.

Example C94_frame_ex : exists l o n1 n2 pic,
  frame_item fmt0 (mkRect 0 0 4 3) (Some (pys "a")) 1 (0, 0)%Q 1 2 ex_base ex_styles = Ok l /\
  Forall (tidy isfloat0 ex_fmt) l /\ alone (svg_item fmt0 ex_fmt (Ok l)) = Ok o /\ read o = Some [n1; n2] /\
  node_picture num0 n1 = Some pic /\ pic_outline pic = rect_outline 0 0 4 3 /\
  map fst (doc_glyphs [] n2) = hard_spaces (8598%N :: pys " a [4,3]").
Proof.
  assert (I0 : isfloat0 0) by (unfold isfloat0; auto 10). assert (I2 : isfloat0 2) by (unfold isfloat0; auto 10).
  assert (I3 : isfloat0 3) by (unfold isfloat0; auto 10). assert (I4 : isfloat0 4) by (unfold isfloat0; auto 10).
  assert (M4 : Rmax 4 (1 / 10) = 4) by (apply Rmax_left; lra). assert (M3 : Rmax 3 (1 / 10) = 3) by (apply Rmax_left; lra).
  assert (A4 : at_least 4 = 4) by (unfold at_least, rlt; destruct (Rlt_dec 4 (1 / 10)); [lra|reflexivity]).
  assert (A3 : at_least 3 = 3) by (unfold at_least, rlt; destruct (Rlt_dec 3 (1 / 10)); [lra|reflexivity]).
  assert (F4 : fmt0 4 = pys "4") by (unfold fmt0; repeat (first [rewrite req_refl | rewrite reqF by lra]); reflexivity).
  assert (F3 : fmt0 3 = pys "3") by (unfold fmt0; repeat (first [rewrite req_refl | rewrite reqF by lra]); reflexivity).
  set (l := [GRect (mkRect 0 0 4 3) None None None (mkPaint (Some (pys "#ff00ff")) None (Some 2) (Some (pys "4 2")));
             GText (0, 0)%Q 1 2 [TText (8598%N :: pys " a [4,3]")] ex_base ex_styles PNone None]).
  assert (E : frame_item fmt0 (mkRect 0 0 4 3) (Some (pys "a")) 1 (0, 0)%Q 1 2 ex_base ex_styles = Ok l).
  { unfold frame_item, frame_label. cbn [r_x r_y r_w r_h]. rewrite A4, A3, F4, F3. reflexivity. }
  assert (T : Forall (tidy isfloat0 ex_fmt) l).
  { repeat apply Forall_cons; [| |constructor].
    - eexists. split; [reflexivity|]. split.
      + split; [|split].
        * cbn. rewrite reqF by lra. exact I2.
        * intros s c Hs Hc. injection Hs as <-. cbn in Hc. destruct Hc as [<-|[<-|[<-|[]]]]; cbn; auto.
        * cbn. repeat split; auto.
      + split; [|exact I]. unfold legal_paint, legal_option, no_semicolon. cbn.
        repeat split; try discriminate; intros ? K; injection K as <-;
          try reflexivity; intros K; repeat (destruct K as [K|K]; [discriminate|]); destruct K.
    - destruct ex_C39 as (E1 & E2 & E3 & E4 & E5 & E6 & (E7 & E8 & _) & E9 & _). cbn [tidy].
      split; [repeat constructor|]. split; [intros n [K|[]]; discriminate|]. repeat (split; [assumption|]).
      split; [exact I|]. repeat (split; [assumption|]).
      split; [intros t [K|[]]; injection K as <-; reflexivity|]. split; [reflexivity|discriminate]. }
  destruct (C94_frame_partial fmt0 ex_fmt num0 isfloat0 fmt0 (mkRect 0 0 4 3) (Some (pys "a")) 1 (0, 0)%Q 1 2 ex_base ex_styles
      l good0 legal_fmt0 (fun _ => eq_refl) E T) as (o & n1 & n2 & pic & O & R & P & P1 & _ & _ & _ & G).
  exists l, o, n1, n2, pic. repeat (split; [assumption|]). cbn [r_x r_y r_w r_h] in P1, G. rewrite M4, M3 in P1, G.
  split; [exact P1|]. rewrite G, F4, F3. reflexivity.
Qed.

(** The page of calls1 with frames and items. *)
Definition draw0 (p : dpainter) : result (list gcall) :=
  Ok (match p with DItem i _ => nth i items0 [] | DFrame _ _ _ => nth 0 items0 [] end).
Example C94_document_ex : let s := SlideProps.run SlideProps.blank_slide SlideProps.calls1 in
  exists nss out out', List.length nss = 6%nat /\
    svg_document fmt0 ex_fmt 4 3 None (map draw0 (page_at true s 2)) = Ok out /\
    svg_document fmt0 ex_fmt 4 3 None (map draw0 (page_at false s 2)) = Ok out' /\
    read out = Some [NElem (pys "svg") (root_attrs fmt0 4 3 None) (List.concat nss)] /\
    read out' = Some [NElem (pys "svg") (root_attrs fmt0 4 3 None)
      (List.concat [nth 0 nss []; nth 1 nss []; nth 3 nss []])].
Proof.
  intros s.
  assert (T : forall p, Forall (tidy isfloat0 ex_fmt) (match p with DItem i _ => nth i items0 [] | DFrame _ _ _ => nth 0 items0 [] end)).
  { assert (T := tidy0). rewrite Forall_forall in T.
    assert (N : forall i, Forall (tidy isfloat0 ex_fmt) (nth i items0 [])).
    { intros i. destruct (nth_in_or_default i items0 []) as [K|K]; [now apply T|rewrite K; constructor]. }
    intros []; apply N. }
  assert (E : page_at true s 2 = [DItem 4 (-1); DItem 5 (-1); DFrame 3 (-1) 1; DItem 2 0; DFrame 1 0 1; DFrame 0 0 0])
    by (vm_compute; reflexivity).
  assert (G : forall l, exists nss, Forall2 (fun p ns => exists o, alone (svg_item fmt0 ex_fmt (draw0 p)) = Ok o /\ ~ In 13%N o /\ read o = Some ns) l nss).
  { induction l as [|p l (nss & IH)]; [exists []; constructor|].
    destruct (tidy_item fmt0 ex_fmt num0 isfloat0 _ good0 legal_fmt0 (fun _ => eq_refl) (T p)) as (o & ns & A & B & C & _).
    exists (ns :: nss). constructor; [exists o; auto|exact IH]. }
  destruct (G (page_at true s 2)) as (nss & F).
  assert (I3 : isfloat0 3) by (unfold isfloat0; auto 10). assert (I4 : isfloat0 4) by (unfold isfloat0; auto 10).
  destruct (C94_document fmt0 ex_fmt 4 3 None s 2 draw0 nss (legal_fmt0 4 I4) (legal_fmt0 3 I3) I F)
    as (out & out' & D1 & D2 & D3 & D4).
  exists nss, out, out'. rewrite E in D4, F.
  do 6 (inversion F as [|? ? ? ? _ F']; subst; clear F; rename F' into F). inversion F; subst.
  split; [reflexivity|]. auto.
Qed.
