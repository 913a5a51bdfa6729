(** Properties of whole slides (C102): texts and images are drawn in the boxes of the final
    layout, and a page shows all its shapes, texts and images. *)
From Coq Require Import List ZArith NArith QArith Bool String Reals Qreals Lia Lqa Permutation.
From Verif Require Import Py PyFacts ShowModel LayoutModel LayoutSpec LayoutProofs LayoutProofs2 LayoutProofs4
  LayoutProps SlideModel SlideSpec SlideProofs RoomProofs RoomProps TextModel TextBoxModel StyleModel ImageModel
  ImageSpec ImageProps PlaceModel PlaceProps ArtModel.
From Verif Require TextBoxSpec TextBoxProofs ShapeModel PageModel.
Import ListNotations.
Open Scope Q_scope.

(** ** Specification *)

Section Art.
Variable measure : list token -> style -> (str -> option style) -> Q.
Variable serialize : xnode -> str.
Variable isalpha : char -> bool.
Variable to_float : str -> option Q.
Let call := art_call measure serialize isalpha to_float.
Let aperf := aperform measure serialize isalpha to_float.

(** Reachable by any calls, including rejected ones. *)
Inductive areach (c : art_slide) : art_slide -> Prop :=
| ar_nil : areach c c
| ar_cons : forall c1 k c2 r, areach c c1 -> aperf c1 k = (c2, r) -> areach c c2.

(** [centred a R lo len]: a piece of length [len] that starts at [lo] is as far from the start
    of the area [R] as from its end. *)
Definition centred (a : axis) (R : rect) (lo len : Q) : Prop := lo - start a R == stop a R - (lo + len).
(** Where texts are anchored in an area, by alignment, and how far they reach from there. *)
Inductive anchored (R : rect) : str -> Q -> Prop :=
| an_left : forall x, x == start X R -> anchored R (pys "left") x
| an_middle : forall x, centred X R x 0 -> anchored R (pys "middle") x
| an_right : forall x, x == stop X R -> anchored R (pys "right") x.
Inductive spans (x w : Q) : str -> Q -> Q -> Prop :=
| sp_left : spans x w (pys "left") x (x + w)
| sp_middle : spans x w (pys "middle") (x - w / 2) (x + w / 2)
| sp_right : spans x w (pys "right") (x - w) x.
(** The height of a text: as many lines as there are line breaks, and one. *)
Definition lines_high (ts : list token) (size spacing : Q) : Q :=
  TextBoxSpec.q_of_nat (1 + TextBoxSpec.line_breaks ts) * (size * spacing).
(** A text drawn in the area [R], enlarged by [q]: where it is anchored and where its first
    base line is; the block of all lines is in the middle. *)
Definition text_in (R : rect) (ts : list token) (s : style) (styles : str -> option style) (rot : pyval)
  (al : str) (size h q : Q) (scale : option Q) (g : PageModel.gcall) : Prop :=
  exists mx my x y, g = PageModel.GText (mx, my) x y ts s styles rot scale /\
    centred X R mx 0 /\ centred Y R my 0 /\ anchored R al x /\ centred Y R (y - q * size) (q * h).
(** An image of [iw] x [ih], enlarged by [q]: in the middle of the area, of the given scale, or as
    large as possible. *)
Definition image_in (R : rect) (scale : option Q) (iw ih q x y w h : Q) : Prop :=
  w == iw * q /\ h == ih * q /\ centred X R x w /\ centred Y R y h /\
  (forall v, scale = Some v -> q = v) /\
  (scale = None -> 0 < extent X R -> 0 < extent Y R -> 0 < iw -> 0 < ih ->
     0 < q /\ w <= extent X R /\ h <= extent Y R /\
     forall q', iw * q' <= extent X R -> ih * q' <= extent Y R -> q' <= q).

(** ** Slides *)
Lemma aperform_slide : forall c k c' res, aperf c k = (c', res) ->
  ar_slide c' = ar_slide c /\ ar_draws c' = ar_draws c \/
  exists q res', perform (ar_slide c) q = (ar_slide c', res') /\
    ((exists r a, q = CBox r a) /\ ar_draws c' = ar_draws c \/
     (exists e, res' = Err e) /\ ar_draws c' = ar_draws c \/
     exists i d, res' = Ok i /\ ar_draws c' = (i, d) :: ar_draws c).
Proof.
  intros c [r a|r a] c' res H; unfold aperf in H; cbn [aperform] in H.
  - destruct (box_call (ar_slide c) r a) as [s' res'] eqn:E. injection H as <- <-. right.
    exists (CBox r a), res'. split; [exact E|]. left. split; [exists r, a|]; reflexivity.
  - unfold art_call in H. destruct (get_box r (sl_box (ar_slide c))) as [[b cs]|]; [|injection H as <- <-; now auto].
    destruct (art_item _ _ _ _ _ _ _) as [[[k d]|]|e]; try (injection H as <- <-; now auto).
    destruct (item_call (ar_slide c) r k) as [s' [i|e]] eqn:E; injection H as <- <-; right.
    + exists (CItem r k), (Ok i). split; [exact E|]. right. right. exists i, d. auto.
    + exists (CItem r k), (Err e). split; [exact E|]. right. left. split; [exists e|]; reflexivity.
Qed.
Lemma areach_slides : forall c c', areach c c' -> reachable (ar_slide c) (ar_slide c').
Proof.
  intros c c' H. induction H as [|c1 k c2 r H IH P]; [constructor|].
  apply aperform_slide in P as [[-> _]|(q & res & E & _)]; [exact IH|]. econstructor; eauto.
Qed.
Lemma areach_trans : forall a b c, areach a b -> areach b c -> areach a c.
Proof. intros a b c A B. induction B; auto. econstructor; eauto. Qed.
Lemma new_art_slide : forall w h c, new_art w h = Ok c -> new_slide w h = Ok (ar_slide c) /\ ar_draws c = [].
Proof.
  intros w h c H. unfold new_art in H. destruct (new_slide w h) as [s|]; [|discriminate].
  cbn [rbind] in H. injection H as <-. auto.
Qed.
Lemma item_number : forall s r k s' i, wf s -> item_call s r k = (s', Ok i) -> i = sl_next s /\ sl_next s' = S (sl_next s).
Proof. intros s r k s' i W H. apply item_call_outcome in H; auto. inversion H; subst; auto. Qed.
Lemma areach_draw : forall c c' i, wf (ar_slide c) -> areach c c' -> (i < sl_next (ar_slide c))%nat ->
  draw_of i (ar_draws c') = draw_of i (ar_draws c) /\ (sl_next (ar_slide c) <= sl_next (ar_slide c'))%nat.
Proof.
  intros c c' i W H Hi. induction H as [|c1 k c2 r H [IH IN] P]; [auto|].
  assert (W1 : wf (ar_slide c1)) by (eapply reachable_wf; [exact W|apply areach_slides, H]).
  apply aperform_slide in P as [[-> ->]|(q & res & E & D)]; [auto|].
  destruct (perform_texts _ _ _ _ W1 E) as (N & _). split; [|lia].
  destruct D as [[_ ->]|[[_ ->]|(j & d & -> & ->)]]; auto. cbn [draw_of].
  assert (Hj : (sl_next (ar_slide c1) <= j)%nat).
  { destruct q as [r0 a|r0 k0]; cbn [perform] in E.
    - apply box_call_outcome in E; auto. inversion E; subst. lia.
    - destruct (item_number _ _ _ _ _ W1 E). lia. }
  destruct (Nat.eqb_spec i j); [lia|exact IH].
Qed.

(** What a successful call leaves behind. *)
Lemma art_called : forall w0 h0 c0 c r a c1 i c2 w h st S, new_art w0 h0 = Ok c0 -> areach c0 c ->
  call c r a = (c1, Ok i) -> areach c1 c2 -> prepare (sl_layout (ar_slide c2)) w h st = Ok S ->
  exists b cs R, get_box r (sl_box (ar_slide c)) = Some (b, cs) /\ st_rect S (b_id b) = Some R /\
    new_slide w0 h0 = Ok (ar_slide c0) /\ reachable (ar_slide c0) (ar_slide c) /\
    reachable (ar_slide c1) (ar_slide c2) /\
    (art_item measure serialize isalpha to_float (sl_next (ar_slide c)) (b_id b) a = Ok None /\ c1 = c /\ i = r \/
     exists k d, art_item measure serialize isalpha to_float (sl_next (ar_slide c)) (b_id b) a = Ok (Some (k, d)) /\
       item_call (ar_slide c) r k = (ar_slide c1, Ok i) /\ i = sl_next (ar_slide c) /\
       forall p T, art_drawing c2 p i T = d p T).
Proof.
  intros w0 h0 c0 c r a c1 i c2 w h st S H0 HC H HL HP. destruct (new_art_slide _ _ _ H0) as [H0' _].
  assert (RC := areach_slides _ _ HC).
  assert (W : wf (ar_slide c)) by (eapply reachable_wf; [eapply new_slide_wf; exact H0'|exact RC]).
  assert (R1 : areach c c1) by (eapply (ar_cons c c (ADraw r a)); [constructor|exact H]).
  assert (RL := areach_slides _ _ HL).
  assert (R2 : reachable (ar_slide c) (ar_slide c2)).
  { eapply reachable_trans; [apply areach_slides, R1|exact RL]. }
  assert (W1 : wf (ar_slide c1)) by (eapply reachable_wf; [exact W|apply areach_slides, R1]).
  unfold call, art_call in H. destruct (get_box r (sl_box (ar_slide c))) as [[b cs]|] eqn:Hg; [|discriminate].
  destruct (box_rect _ _ _ _ _ _ _ _ _ _ _ _ H0' RC Hg R2 HP) as [R ER].
  exists b, cs, R. do 5 (split; [auto|]).
  destruct (art_item _ _ _ _ _ _ _) as [[[k d]|]|e]; try discriminate.
  - right. exists k, d. split; [reflexivity|].
    destruct (item_call (ar_slide c) r k) as [s' [j|e]] eqn:E; [|discriminate]. injection H as <- <-.
    destruct (item_number _ _ _ _ _ W E) as [Ej Es]. split; [reflexivity|]. split; [exact Ej|].
    intros p T. unfold art_drawing.
    destruct (areach_draw _ c2 j W1 HL) as [-> _]; [cbn [ar_slide]; lia|].
    cbn [ar_draws draw_of]. now rewrite Nat.eqb_refl.
  - left. injection H as <- <-. auto.
Qed.

(** ** Texts *)
Lemma centred_mid : forall a R, centred a R (start a R + extent a R / 2) 0.
Proof. intros a R. unfold centred, stop. field. Qed.
Lemma mid_in : forall R, exists mx my, rect_mid R = (mx, my) /\ centred X R mx 0 /\ centred Y R my 0.
Proof. intros R. do 2 eexists. split; [reflexivity|]. split; [apply (centred_mid X R)|apply (centred_mid Y R)]. Qed.
Lemma anchor_found : forall R al, In al [pys "left"; pys "middle"; pys "right"] ->
  exists x, text_x_in_rect R (Some al) = Ok x /\ anchored R al x.
Proof.
  intros R al [<-|[<-|[<-|[]]]].
  - exists (rx R). split; [reflexivity|]. apply an_left. reflexivity.
  - exists (rx R + rw R / 2). split; [reflexivity|]. apply an_middle. apply (centred_mid X R).
  - exists (rx R + rw R). split; [reflexivity|]. apply an_right. reflexivity.
Qed.
(** Texts that are not scaled are never changed. *)
Lemma texts_stay : forall s s' t, wf s -> reachable s s' -> (t < sl_next s)%nat -> ~ In t (texts (sl_layout s)) ->
  ~ In t (texts (sl_layout s')) /\ (sl_next s <= sl_next s')%nat /\
  st_text (sl_store s') t = st_text (sl_store s) t.
Proof.
  intros s s' t W H L N. induction H as [|s1 c s2 r H IH P]; [auto|]. destruct IH as (N1 & L1 & E1).
  assert (W1 : wf s1) by (eapply reachable_wf; eauto).
  destruct (perform_texts s1 c s2 r W1 P) as (L2 & K2 & D). split; [|split; [lia|rewrite K2 by lia; exact E1]].
  destruct D as [->|[_ Pm]]; [exact N1|]. intro F. apply (Permutation_in _ Pm) in F as [F|F]; [lia|auto].
Qed.

(** The size and the scale that a text has in the end. *)
Lemma text_sizes : forall w0 h0 s0 s r w h fit s1 i s2 S b cs R,
  new_slide w0 h0 = Ok s0 -> reachable s0 s -> item_call s r (TextItem w h fit) = (s1, Ok i) ->
  reachable s1 s2 -> prepare (sl_layout s2) w0 h0 (sl_store s2) = Ok S ->
  get_box r (sl_box s) = Some (b, cs) -> st_rect S (b_id b) = Some R ->
  st_text S i = if fit then scale_callback R (mkText w h 1) else mkText w h 1.
Proof.
  intros w0 h0 s0 s r w h fit s1 i s2 S b cs R H0 HR H HL HP Gb ER.
  assert (W0 : wf s0) by (eapply new_slide_wf; eauto).
  assert (W : wf s) by (eapply reachable_wf; eauto).
  assert (W1 : wf s1) by (apply (perform_wf s (CItem r (TextItem w h fit)) s1 (Ok i)); auto).
  assert (W2 : wf s2) by (eapply reachable_wf; eauto).
  destruct (reachable_texts s0 s W0 (new_texts_ok _ _ _ H0) HR) as (T & _ & _).
  assert (T1 : texts_ok s1) by (eapply (perform_texts_ok s (CItem r (TextItem w h fit))); eauto).
  destruct (item_number _ _ _ _ _ W H) as [Ei En].
  destruct (reachable_texts s1 s2 W1 T1 HL) as (T2 & _ & K).
  assert (St : st_text (sl_store s1) i = mkText w h 1).
  { unfold item_call in H. rewrite Gb in H. cbv zeta in H. injection H as <- <-.
    cbn [append_item sl_store]. unfold upd_text. cbn. now rewrite Nat.eqb_refl. }
  assert (St2 : st_text (sl_store s2) i = mkText w h 1) by (rewrite K by lia; exact St).
  destruct fit.
  - destruct (item_request s r _ s1 i W H) as (b' & cs' & [hd ks] & [hd' ks'] & G & GL & GL' & Wi & Gr & Ei' & Ek & _ & D).
    rewrite Gb in G. injection G as <- <-. cbn in Ek. subst ks'.
    destruct (text_layout_grown _ _ _ _ _ _ _ D) as (_ & Tx & _).
    destruct (proj2 (reachable_grows s1 s2 W1 HL) _ Wi) as (c & Wc & Gc). cbn [head] in *.
    rewrite <- St2.
    apply (text_final _ _ _ _ (wf_lnodup s2 W2) (to_nodup s2 T2) HP c i R Wc).
    + destruct (gr_texts _ _ Gc) as [ts ->]. rewrite Tx, <- Ei. apply in_or_app. left. apply in_or_app. right. now left.
    + unfold area. rewrite (gr_id _ _ Gc), (gr_id _ _ Gr), Ei'. exact ER.
  - assert (N1 : ~ In i (texts (sl_layout s1))).
    { destruct (perform_texts s (CItem r (TextItem w h false)) s1 (Ok i) W H) as (_ & _ & D).
      assert (Ns : ~ In i (texts (sl_layout s))) by (intro F; apply (to_small s T) in F; lia).
      destruct D as [->|[_ Pm]]; [exact Ns|]. exfalso.
      assert (Lt : List.length (texts (sl_layout s1)) = List.length (texts (sl_layout s))).
      { apply item_call_outcome in H; auto.
        inversion H as [|C b1 b' cs1 LC h1 h' ls m st Hf Es Eh Eh' Eb Ez Hk Hh Hst]; subst. cbn [sl_layout].
        rewrite Es, !texts_fill, !texts_eq.
        destruct (text_layout_grown _ _ _ _ _ _ _ Hh) as (_ & Tq & _). rewrite Tq. now rewrite app_nil_r. }
      apply Permutation_length in Pm. cbn [List.length] in Pm. lia. }
    destruct (texts_stay s1 s2 i W1 HL) as (N2 & _ & _); [lia|exact N1|].
    rewrite <- St2. symmetry. apply (proj2 (set_rect_outside _ _ _ _ HP)).
    intro F. apply text_of_texts in F. contradiction.
Qed.

Lemma lines_high_eq : forall ts size spacing, text_height ts size spacing = lines_high ts size spacing.
Proof. intros. unfold text_height, lines_high. now rewrite TextBoxProofs.lines_q_breaks. Qed.

(** A text, after any further calls: it is drawn in the content area that its box has in the
    end, anchored by its alignment, all its lines in the middle; scaled texts are as large as
    the area allows, and are not drawn at all if that is too small. *)
Theorem C102_text : forall w0 h0 c0 c r ts s styles fit rot c1 i c2 S al,
  new_art w0 h0 = Ok c0 -> areach c0 c -> call c r (AtText ts s styles fit rot) = (c1, Ok i) -> areach c1 c2 ->
  prepare (sl_layout (ar_slide c2)) w0 h0 (sl_store (ar_slide c2)) = Ok S ->
  s_align s = PStr al -> In al [pys "left"; pys "middle"; pys "right"] ->
  exists b cs R size spacing, get_box r (sl_box (ar_slide c)) = Some (b, cs) /\ st_rect S (b_id b) = Some R /\
    s_size s = PNum size /\ s_line_spacing s = PNum spacing /\
    let w := measure ts s styles in
    let h := lines_high ts size spacing in
    (fit = false -> exists g, (forall k, art_drawing c2 k i S = Ok [g]) /\
       text_in R ts s styles rot al size h 1 None g) /\
    (fit = true -> w <= (1 # 100000) \/ h <= (1 # 100000) -> exists g, (forall k, art_drawing c2 k i S = Ok [g]) /\
       text_in R ts s styles rot al size h 1 (Some 1) g) /\
    (fit = true -> (1 # 100000) < w -> (1 # 100000) < h -> exists q,
       q * w <= extent X R /\ q * h <= extent Y R /\ (q * w == extent X R \/ q * h == extent Y R) /\
       (q <= (1 # 100000) -> forall k, art_drawing c2 k i S = Ok []) /\
       ((1 # 100000) < q -> exists g, (forall k, art_drawing c2 k i S = Ok [g]) /\
          text_in R ts s styles rot al size h q (Some q) g)).
Proof.
  intros w0 h0 c0 c r ts s styles fit rot c1 i c2 st al H0 HC H HL HP Ha Hal.
  change (1 # 100000) with tiny.
  destruct (art_called _ _ _ _ _ _ _ _ _ _ _ _ _ H0 HC H HL HP) as (b & cs & R & Hg & ER & N0 & RC & RL & D).
  cbn [art_item] in D. unfold text_of_style in D.
  destruct (s_size s) as [| |size| |] eqn:Esz; try (destruct D as [[D _]|(k & d & D & _)]; discriminate D).
  destruct (s_line_spacing s) as [| |spacing| |] eqn:Esp; try (destruct D as [[D _]|(k & d & D & _)]; discriminate D).
  cbn [rbind] in D. destruct D as [[D _]|(k & d & D & E & Ei & Dr)]; [discriminate|].
  injection D as <- <-. cbn [ti_size ti_spacing] in E.
  exists b, cs, R, size, spacing. do 4 (split; [assumption||reflexivity|]). cbv zeta.
  assert (Tx := text_sizes _ _ _ _ _ _ _ _ _ _ _ _ _ _ _ N0 RC E RL HP Hg ER).
  rewrite lines_high_eq in Tx. rewrite Ha in Dr. rewrite <- Ei in Dr.
  set (w := measure ts s styles) in *. set (h := lines_high ts size spacing) in *.
  destruct (anchor_found R al Hal) as (x & Ex & Ax). destruct (mid_in R) as (mx & my & Em & Cx & Cy).
  assert (G : forall tw th q fit' , st_text st i = mkText tw th q ->
    (Qle_bool q tiny = false -> forall k, text_drawing (mkItem i (b_id b) ts (Some al) size spacing fit') s styles rot st
       = Ok [PageModel.GText (mx, my) x (ry R + (rh R - th) / 2 + size * q) ts s styles rot (if fit' then Some q else None)]
       /\ k = k :> Z) /\
    (Qle_bool q tiny = true -> text_drawing (mkItem i (b_id b) ts (Some al) size spacing fit') s styles rot st = Ok [])).
  { intros tw th q fit' Et. unfold text_drawing, render_text. cbn [ti_box ti_id ti_align ti_size ti_fit ti_tokens].
    rewrite ER, Et. cbn [tx_h tx_scale]. rewrite Ex. cbn [rbind].
    split; intros Hq; rewrite Hq; cbn [rbind]; [|reflexivity]. intros k. rewrite Em. auto. }
  assert (B1 : Qle_bool 1 tiny = false) by reflexivity.
  split; [|split].
  - intros ->. destruct (G _ _ _ false Tx) as [G1 _]. specialize (G1 B1).
    eexists. split; [intros k; rewrite Dr; apply (G1 k)|].
    exists mx, my, x. eexists. split; [reflexivity|]. do 3 (split; [assumption|]).
    unfold centred, stop. cbn [start extent]. field.
  - intros -> Hs.
    assert (Ec : scale_callback R (mkText w h 1) = mkText w h 1).
    { unfold scale_callback. destruct Hs as [Hs|Hs]; apply Qle_bool_iff in Hs; rewrite Hs; cbn [negb andb];
        rewrite ?andb_false_r; reflexivity. }
    rewrite Ec in Tx. destruct (G _ _ _ true Tx) as [G1 _]. specialize (G1 B1).
    eexists. split; [intros k; rewrite Dr; apply (G1 k)|].
    exists mx, my, x. eexists. split; [reflexivity|]. do 3 (split; [assumption|]).
    unfold centred, stop. cbn [start extent]. field.
  - intros -> Hw Hh.
    assert (P0 : 0 < tiny) by reflexivity.
    destruct (C96_scaled _ _ _ _ _ _ _ _ _ _ _ _ _ N0 RC E RL HP Hg Hw) as (R' & ER' & Q1 & Q2 & Q3 & Q4 & Q5).
    { rewrite lines_high_eq. exact Hh. }
    rewrite ER in ER'. injection ER' as <-. rewrite lines_high_eq in Q1. fold h w in Q1, Q2.
    destruct (st_text st i) as [tw th q] eqn:Et. cbn [tx_w tx_h tx_scale] in *.
    assert (Hth : th == q * h).
    { assert (X1 : w * (th - q * h) == 0) by (rewrite Q2 in Q1; lra).
      apply Qmult_integral in X1 as [X1|X1]; lra. }
    exists q. split; [cbn [extent]; lra|]. split; [cbn [extent]; lra|].
    split; [cbn [extent]; destruct Q5 as [Q5|Q5]; [left|right]; lra|].
    destruct (G _ _ _ true eq_refl) as [G1 G2]. split.
    + intros Hq k. rewrite Dr. apply G2. now apply Qle_bool_iff.
    + intros Hq. assert (Bq : Qle_bool q tiny = false).
      { destruct (Qle_bool q tiny) eqn:Z; auto. apply Qle_bool_iff in Z. lra. }
      specialize (G1 Bq). eexists. split; [intros k; rewrite Dr; apply (G1 k)|].
      exists mx, my, x. eexists. split; [reflexivity|]. do 3 (split; [assumption|]).
      unfold centred, stop. cbn [start extent]. rewrite <- Hth. field.
Qed.
Print Assumptions C102_text.

Lemma anchored_inside : forall R al x w lo hi, anchored R al x -> spans x w al lo hi -> w <= extent X R ->
  start X R <= lo /\ hi <= stop X R.
Proof.
  intros R al x w lo hi A P L. assert (H2 : w / 2 + w / 2 == w) by field. unfold stop in *.
  destruct A as [x E|x E|x E]; inversion P as [Ex|Ex|Ex]; subst; try discriminate; unfold centred, stop in *; split; lra.
Qed.
Lemma centred_inside : forall a R lo len, centred a R lo len -> len <= extent a R ->
  start a R <= lo /\ lo + len <= stop a R.
Proof. intros a R lo len C L. unfold centred, stop in *. split; lra. Qed.

(** A text that is not scaled, in a box whose size along an axis is not "fill" and not lazy, is
    inside the content area of the box along this axis. *)
Theorem C102_text_inside : forall w0 h0 c0 c r ts s styles rot c1 i c2 S al,
  new_art w0 h0 = Ok c0 -> areach c0 c -> call c r (AtText ts s styles false rot) = (c1, Ok i) -> areach c1 c2 ->
  prepare (sl_layout (ar_slide c2)) w0 h0 (sl_store (ar_slide c2)) = Ok S ->
  s_align s = PStr al -> In al [pys "left"; pys "middle"; pys "right"] ->
  exists b cs R size spacing mid x y, get_box r (sl_box (ar_slide c)) = Some (b, cs) /\ st_rect S (b_id b) = Some R /\
    s_size s = PNum size /\ s_line_spacing s = PNum spacing /\
    (forall k, art_drawing c2 k i S = Ok [PageModel.GText mid x y ts s styles rot None]) /\
    forall l, get_layout (b_id b) (sl_layout (ar_slide c)) = Some l -> b_id b <> 0%nat ->
      (is_fill (size_arg X l) = false -> is_lazy (size_arg X l) = false ->
       forall lo hi, spans x (measure ts s styles) al lo hi -> start X R <= lo /\ hi <= stop X R) /\
      (is_fill (size_arg Y l) = false -> is_lazy (size_arg Y l) = false ->
       start Y R <= y - size /\ y - size + lines_high ts size spacing <= stop Y R).
Proof.
  intros w0 h0 c0 c r ts s styles rot c1 i c2 st al H0 HC H HL HP Ha Hal.
  destruct (C102_text _ _ _ _ _ _ _ _ _ _ _ _ _ _ _ H0 HC H HL HP Ha Hal)
    as (b & cs & R & size & spacing & Hg & ER & Es & Ep & T & _ & _).
  destruct (T eq_refl) as (g & Dg & mx & my & x & y & -> & _ & _ & A & Cy).
  exists b, cs, R, size, spacing, (mx, my), x, y. do 5 (split; [assumption|]). intros l Gl Nb.
  destruct (art_called _ _ _ _ _ _ _ _ _ _ _ _ _ H0 HC H HL HP) as (b' & cs' & R' & Hg' & ER' & N0 & RC & RL & D).
  rewrite Hg in Hg'. injection Hg' as <- <-.
  cbn [art_item] in D. unfold text_of_style in D. rewrite Es, Ep in D.
  cbn [rbind] in D. destruct D as [[D _]|(k & d & D & E & _ & _)]; [discriminate|].
  injection D as <- _. cbn [ti_size ti_spacing] in E. rewrite lines_high_eq in E.
  assert (Rm : forall a, is_fill (size_arg a l) = false -> is_lazy (size_arg a l) = false ->
    along_axis a (measure ts s styles) (lines_high ts size spacing) <= extent a R).
  { intros a F1 F2. destruct (C96_text_room _ _ _ _ _ _ _ _ _ _ _ _ _ _ _ a N0 RC E RL HP Hg Gl Nb F1 F2) as (R2 & E2 & L).
    rewrite ER in E2. injection E2 as <-. exact L. }
  split.
  - intros F1 F2 lo hi P. eapply anchored_inside; eauto. exact (Rm X F1 F2).
  - intros F1 F2. assert (L := Rm Y F1 F2). cbn [along_axis] in L.
    assert (Cy' : centred Y R (y - size) (lines_high ts size spacing)) by (unfold centred in *; lra).
    exact (centred_inside Y R _ _ Cy' L).
Qed.
Print Assumptions C102_text_inside.

(** A scaled text is always inside the content area. *)
Theorem C102_scaled_inside : forall w0 h0 c0 c r ts s styles rot c1 i c2 S al k g l,
  new_art w0 h0 = Ok c0 -> areach c0 c -> call c r (AtText ts s styles true rot) = (c1, Ok i) -> areach c1 c2 ->
  prepare (sl_layout (ar_slide c2)) w0 h0 (sl_store (ar_slide c2)) = Ok S ->
  s_align s = PStr al -> In al [pys "left"; pys "middle"; pys "right"] ->
  art_drawing c2 k i S = Ok (g :: l) ->
  exists b cs R size spacing mid x y q, get_box r (sl_box (ar_slide c)) = Some (b, cs) /\ st_rect S (b_id b) = Some R /\
    s_size s = PNum size /\ s_line_spacing s = PNum spacing /\
    l = [] /\ g = PageModel.GText mid x y ts s styles rot (Some q) /\
    let w := measure ts s styles in
    let h := lines_high ts size spacing in
    ((1 # 100000) < w -> (1 # 100000) < h ->
     (forall lo hi, spans x (q * w) al lo hi -> start X R <= lo /\ hi <= stop X R) /\
     start Y R <= y - q * size /\ y - q * size + q * h <= stop Y R).
Proof.
  intros w0 h0 c0 c r ts s styles rot c1 i c2 st al k g l H0 HC H HL HP Ha Hal E.
  destruct (C102_text _ _ _ _ _ _ _ _ _ _ _ _ _ _ _ H0 HC H HL HP Ha Hal)
    as (b & cs & R & size & spacing & Hg & ER & Es & Ep & _ & T1 & T2). cbv zeta in *.
  set (w := measure ts s styles) in *. set (h := lines_high ts size spacing) in *.
  destruct (Qlt_le_dec (1 # 100000) w) as [Hw|Hw]; [destruct (Qlt_le_dec (1 # 100000) h) as [Hh|Hh]|].
  - destruct (T2 eq_refl Hw Hh) as (q & Q1 & Q2 & _ & Q3 & Q4).
    destruct (Qlt_le_dec (1 # 100000) q) as [Hq|Hq]; [|specialize (Q3 Hq k); congruence].
    destruct (Q4 Hq) as (g' & Dg & mx & my & x & y & -> & _ & _ & A & Cy). specialize (Dg k).
    rewrite Dg in E. injection E as <- <-.
    exists b, cs, R, size, spacing, (mx, my), x, y, q. do 6 (split; [auto|]). intros _ _. split.
    + intros lo hi P. eapply anchored_inside; eauto.
    + exact (centred_inside Y R _ _ Cy Q2).
  - destruct (T1 eq_refl (or_intror Hh)) as (g' & Dg & mx & my & x & y & -> & _). specialize (Dg k).
    rewrite Dg in E. injection E as <- <-.
    exists b, cs, R, size, spacing, (mx, my), x, y, 1. do 6 (split; [auto|]). intros _ F. exfalso. exact (Qlt_not_le _ _ F Hh).
  - destruct (T1 eq_refl (or_introl Hw)) as (g' & Dg & mx & my & x & y & -> & _). specialize (Dg k).
    rewrite Dg in E. injection E as <- <-.
    exists b, cs, R, size, spacing, (mx, my), x, y, 1. do 6 (split; [auto|]). intros F. exfalso. exact (Qlt_not_le _ _ F Hw).
Qed.
Print Assumptions C102_scaled_inside.

(** ** Images *)
Lemma placed_in : forall R scale iw ih p, place R scale iw ih = Ok p ->
  image_in R scale iw ih (p_scale p) (p_x p) (p_y p) (p_w p) (p_h p).
Proof.
  intros R scale iw ih p H. destruct (C22_centred _ _ _ _ _ H) as (A & B & _ & C & D & E).
  assert (Hh : forall q, q / 2 + q / 2 == q) by (intro; field).
  assert (X1 := Hh (p_w p)). assert (X2 := Hh (p_h p)). assert (X3 := Hh (rw R)). assert (X4 := Hh (rh R)).
  unfold image_in. split; [exact A|]. split; [exact B|]. split; [unfold centred, stop; cbn [start extent]; lra|].
  split; [unfold centred, stop; cbn [start extent]; lra|]. split; [exact E|].
  intros -> W1 H1 W2 H2. cbn [extent] in *. destruct (C22_fits R iw ih W1 H1 W2 H2) as (p' & Ep & F).
  rewrite H in Ep. injection Ep as <-. exact F.
Qed.
Lemma place_ok : forall R scale iw ih, scale <> None \/ ~ iw == 0 /\ ~ ih == 0 -> exists p, place R scale iw ih = Ok p.
Proof.
  intros R [v|] iw ih H; unfold place; [cbn [rbind]; eauto|]. destruct H as [H|[H1 H2]]; [congruence|].
  unfold scaler, qdiv.
  assert (Z : forall q, ~ q == 0 -> Qeq_bool q 0 = false).
  { intros q Hq. destruct (Qeq_bool q 0) eqn:E; auto. apply Qeq_bool_iff in E. contradiction. }
  rewrite (Z _ H1), (Z _ H2). cbn [rbind].
  destruct (qtrue (rw R) && qtrue (rh R))%bool; [cbn [rbind]; eauto|].
  destruct (qtrue (rw R)); [cbn [rbind]; eauto|]. destruct (qtrue (rh R)); cbn [rbind]; eauto.
Qed.

(** A bitmap image, after any further calls, is drawn once on every page, in the middle of the
    content area that its box has in the end. *)
Theorem C102_bitmap : forall w0 h0 c0 c r iw ih scale rot href c1 i c2 w h st S,
  new_art w0 h0 = Ok c0 -> areach c0 c -> call c r (AtBitmap iw ih scale rot href) = (c1, Ok i) -> areach c1 c2 ->
  prepare (sl_layout (ar_slide c2)) w h st = Ok S -> scale <> None \/ ~ iw == 0 /\ ~ ih == 0 ->
  exists b cs R q x y pw ph, get_box r (sl_box (ar_slide c)) = Some (b, cs) /\ st_rect S (b_id b) = Some R /\
    image_in R scale iw ih q x y pw ph /\
    forall k, art_drawing c2 k i S = Ok [PageModel.GBitmap (Q2R x) (Q2R y) (Q2R pw) (Q2R ph) rot href].
Proof.
  intros w0 h0 c0 c r iw ih scale rot href c1 i c2 w h st0 st H0 HC H HL HP Hz.
  destruct (art_called _ _ _ _ _ _ _ _ _ _ _ _ _ H0 HC H HL HP) as (b & cs & R & Hg & ER & _ & _ & _ & D).
  cbn [art_item] in D. destruct D as [[D _]|(k & d & D & _ & _ & Dr)]; [discriminate|]. injection D as <- <-.
  destruct (place_ok R scale iw ih Hz) as [p Ep].
  exists b, cs, R, (p_scale p), (p_x p), (p_y p), (p_w p), (p_h p). do 2 (split; [assumption|]).
  split; [now apply placed_in|]. intros k. rewrite Dr. unfold bitmap_drawing. rewrite ER, Ep. reflexivity.
Qed.
Print Assumptions C102_bitmap.

(** An SVG image: on every page where it shows something (C56) it shows it in the middle of the
    content area that its box has in the end, turned about its own middle. *)
Theorem C102_svg : forall w0 h0 c0 c r root scale fragments show_begin select rot c1 i c2 w h st S k o,
  new_art w0 h0 = Ok c0 -> areach c0 c ->
  call c r (AtSvg root scale fragments show_begin select rot) = (c1, Ok i) -> areach c1 c2 ->
  prepare (sl_layout (ar_slide c2)) w h st = Ok S ->
  image_page select fragments show_begin 0 [root] k = Ok o ->
  exists b cs R iw ih, get_box r (sl_box (ar_slide c)) = Some (b, cs) /\ st_rect S (b_id b) = Some R /\
    svg_size_to_pixels isalpha to_float (attr_get (pys "width") (x_attrs root)) = Ok iw /\
    svg_size_to_pixels isalpha to_float (attr_get (pys "height") (x_attrs root)) = Ok ih /\
    (fst o = None -> art_drawing c2 k i S = Ok []) /\
    (forall t, fst o = Some t -> scale <> None \/ ~ iw == 0 /\ ~ ih == 0 ->
       exists q x y pw ph mx my, image_in R scale iw ih q x y pw ph /\
         mx - x == x + pw - mx /\ my - y == y + ph - my /\
         art_drawing c2 k i S = Ok [PageModel.GSvg (serialize t) (Q2R x) (Q2R y) (Q2R q) rot (Some (Q2R mx, Q2R my))]).
Proof.
  intros w0 h0 c0 c r root scale fragments show_begin select rot c1 i c2 w h st0 st k o H0 HC H HL HP Ho.
  destruct (art_called _ _ _ _ _ _ _ _ _ _ _ _ _ H0 HC H HL HP) as (b & cs & R & Hg & ER & _ & _ & _ & D).
  cbn [art_item] in D.
  destruct (svg_size_to_pixels isalpha to_float (attr_get (pys "width") _)) as [iw|]; [|destruct D as [[D _]|(? & ? & D & _)]; discriminate].
  destruct (svg_size_to_pixels isalpha to_float (attr_get (pys "height") _)) as [ih|]; [|destruct D as [[D _]|(? & ? & D & _)]; discriminate].
  cbn [rbind] in D. unfold image_page in Ho. cbn [nth_error] in Ho.
  destruct (image_steps select fragments root) as [steps|]; [|discriminate]. cbn [rbind] in D, Ho.
  destruct D as [[D _]|(k0 & d & D & _ & _ & Dr)]; [discriminate|]. injection D as <- <-.
  exists b, cs, R, iw, ih. do 4 (split; [auto|]). split.
  - intros Hn. rewrite Dr. unfold svg_drawing. rewrite ER, Ho. cbn [rbind]. now rewrite Hn.
  - intros t Ht Hz. destruct (place_ok R scale iw ih Hz) as [p Ep].
    exists (p_scale p), (p_x p), (p_y p), (p_w p), (p_h p). do 2 eexists. split; [now apply placed_in|].
    split; [|split; [|rewrite Dr; unfold svg_drawing; rewrite ER, Ho; cbn [rbind]; rewrite Ht, Ep; reflexivity]]; field.
Qed.
Print Assumptions C102_svg.

(** Images make the slide as long as their last fragment needs; other items leave its length. *)
Theorem C102_length : forall w0 h0 c0 c r a c1 i c2, new_art w0 h0 = Ok c0 -> areach c0 c ->
  call c r a = (c1, Ok i) -> areach c1 c2 ->
  (current_fragment (ar_slide c1) <= current_fragment (ar_slide c2))%Z /\
  match a with
  | AtSvg root _ fragments show_begin select _ => exists n, image_steps select fragments root = Ok n /\
      current_fragment (ar_slide c1) = Z.max (current_fragment (ar_slide c)) (show_begin - 1 + n)
  | _ => current_fragment (ar_slide c1) = current_fragment (ar_slide c)
  end.
Proof.
  intros w0 h0 c0 c r a c1 i c2 H0 HC H HL. destruct (new_art_slide _ _ _ H0) as [N0 _].
  assert (RC := areach_slides _ _ HC).
  assert (W : wf (ar_slide c)) by (eapply reachable_wf; [eapply new_slide_wf; exact N0|exact RC]).
  assert (W1 : wf (ar_slide c1)).
  { eapply reachable_wf; [exact W|]. apply areach_slides. eapply (ar_cons c c (ADraw r a)); [constructor|exact H]. }
  split.
  - assert (RL := areach_slides _ _ HL). clear - RL W1. induction RL as [|s1 q s2 res RL IH P]; [lia|].
    assert (W2 : wf s1) by (eapply reachable_wf; eauto). assert (M := perform_max _ _ _ _ W2 P).
    unfold current_fragment in *. lia.
  - unfold call, art_call in H. destruct (get_box r (sl_box (ar_slide c))) as [[b cs]|]; [|discriminate].
    destruct (art_item _ _ _ _ _ _ a) as [[[k d]|]|e] eqn:Ea; try discriminate.
    + destruct (item_call (ar_slide c) r k) as [s' [j|e]] eqn:E; [|discriminate]. injection H as <- <-. cbn [ar_slide].
      apply item_call_outcome in E; auto.
      inversion E as [|C b1 b' cs1 LC h1 h' ls m st Hf Es Eh Eh' Eb Ez Hk Hh Hst]; subst. cbn [current_fragment sl_max].
      destruct a as [sh|ts s styles fit rot|iw ih scale rot href|root scale fragments show_begin select rot]; cbn [art_item] in Ea.
      * destruct (shape_drawing _ sh) as [[d'|]|]; cbn [rbind] in Ea; try discriminate. injection Ea as <- <-. apply Hk.
      * destruct (text_of_style _ _ _ _ _) as [it|]; [|discriminate]. cbn [rbind] in Ea. injection Ea as <- <-. apply Hk.
      * injection Ea as <- <-. apply Hk.
      * destruct (svg_size_to_pixels isalpha to_float (attr_get (pys "width") _)) as [iw|]; [|discriminate].
        destruct (svg_size_to_pixels isalpha to_float (attr_get (pys "height") _)) as [ih|]; [|discriminate]. cbn [rbind] in Ea.
        destruct (image_steps select fragments root) as [n|]; [|discriminate]. cbn [rbind] in Ea. injection Ea as <- <-.
        exists n. split; [reflexivity|]. apply Hk.
    + injection H as <- <-. destruct a as [sh|ts s styles fit rot|iw ih scale rot href|root scale fragments show_begin select rot]; cbn [art_item] in Ea; auto.
      destruct (svg_size_to_pixels isalpha to_float (attr_get (pys "width") _)) as [iw|]; [|discriminate].
      destruct (svg_size_to_pixels isalpha to_float (attr_get (pys "height") _)) as [ih|]; [|discriminate]. cbn [rbind] in Ea.
      destruct (image_steps select fragments root) as [n|]; discriminate.
Qed.
Print Assumptions C102_length.

(** The size an image is asked for: its own, or multiplied by the scale if that is not 0. *)
Definition asked (scale : option Q) (q : Q) : Q -> Prop := fun v =>
  match scale with Some s => s == 0 /\ v == q \/ ~ s == 0 /\ v == q * s | None => v == q end.
(** A box without given sizes has room for its image, after any further calls. *)
Theorem C102_image_room : forall w0 h0 c0 c r a iw ih scale c1 i c2 st S b cs l x v,
  new_art w0 h0 = Ok c0 -> areach c0 c -> call c r a = (c1, Ok i) -> areach c1 c2 ->
  prepare (sl_layout (ar_slide c2)) w0 h0 st = Ok S ->
  (exists rot href, a = AtBitmap iw ih scale rot href) \/
  (exists root fragments show_begin select rot, a = AtSvg root scale fragments show_begin select rot /\
     svg_size_to_pixels isalpha to_float (attr_get (pys "width") (x_attrs root)) = Ok iw /\
     svg_size_to_pixels isalpha to_float (attr_get (pys "height") (x_attrs root)) = Ok ih) ->
  get_box r (sl_box (ar_slide c)) = Some (b, cs) -> get_layout (b_id b) (sl_layout (ar_slide c)) = Some l ->
  b_id b <> 0%nat -> l_wdef (head l) = ANone -> l_hdef (head l) = ANone ->
  is_fill (size_arg x l) = false -> is_lazy (size_arg x l) = false -> asked scale (along_axis x iw ih) v ->
  exists R, st_rect S (b_id b) = Some R /\ v <= extent x R.
Proof.
  intros w0 h0 c0 c r a iw ih scale c1 i c2 st S b cs l x v H0 HC H HL HP Ha Gb Gl Nb Dw Dh F1 F2 Hv.
  destruct (art_called _ _ _ _ _ _ _ _ _ _ _ _ _ H0 HC H HL HP) as (b' & cs' & R & Hg & ER & N0 & RC & RL & D).
  rewrite Gb in Hg. injection Hg as <- <-.
  assert (Ev : v == along_axis x (iw * or_one scale) (ih * or_one scale)).
  { unfold asked in Hv. unfold or_one. destruct scale as [s|].
    - assert (Q : qtrue s = negb (Qeq_bool s 0)) by reflexivity. rewrite Q.
      destruct (Qeq_bool s 0) eqn:Es; cbn [negb].
      + apply Qeq_bool_iff in Es. destruct Hv as [[_ Hv]|[Hn _]]; [|contradiction]. rewrite Hv. destruct x; cbn; ring.
      + destruct Hv as [[Hs _]|[_ Hv]].
        * apply Qeq_bool_iff in Hs. congruence.
        * rewrite Hv. destruct x; cbn; ring.
    - rewrite Hv. destruct x; cbn; ring. }
  assert (G : exists n, item_call (ar_slide c) r (ImageItem (iw * or_one scale) (ih * or_one scale) n) = (ar_slide c1, Ok i)).
  { destruct Ha as [(rot & href & ->)|(root & fragments & sb & select & rot & -> & E1 & E2)]; cbn [art_item] in D.
    - destruct D as [[D _]|(k & d & D & E & _)]; [discriminate|]. injection D as <- _. eauto.
    - rewrite E1, E2 in D. cbn [rbind] in D. destruct (image_steps select fragments root) as [n|]; cbn [rbind] in D;
        destruct D as [[D _]|(k & d & D & E & _)]; try discriminate. injection D as <- _. eauto. }
  destruct G as [n G].
  destruct (C96_image_room _ _ _ _ _ _ _ _ _ _ _ _ _ _ _ _ x N0 RC G RL HP Gb Gl Nb Dw Dh F1 F2) as (R' & ER' & L).
  exists R'. split; [exact ER'|]. rewrite Ev. exact L.
Qed.
Print Assumptions C102_image_room.

(** ** Every item is drawn by something *)
Fixpoint items_in (n : node) : list nat :=
  match n with NItem i _ => [i] | NBox _ cs => flat_map items_in cs end.
Lemma items_fill : forall C, exists P Q, forall n, items_in (fill C n) = P ++ items_in n ++ Q.
Proof.
  induction C as [|[[b pre] post] C (P & Q & IH)].
  - exists [], []. intros n. cbn. now rewrite app_nil_r.
  - exists (P ++ flat_map items_in pre), (flat_map items_in post ++ Q). intros n. cbn [fill]. rewrite IH.
    cbn [items_in]. rewrite flat_map_app. cbn [flat_map]. now rewrite <- !app_assoc.
Qed.
Lemma under_items : forall bs i z n, under bs i z n -> In i (items_in n).
Proof. intros bs i z n H. induction H; cbn [items_in]; [now left|]. apply in_flat_map. eauto. Qed.
Lemma perform_items : forall s q s' res, wf s -> perform s q = (s', res) ->
  (forall i, In i (items_in (sl_box s')) -> In i (items_in (sl_box s)) \/
     (exists r k, q = CItem r k) /\ res = Ok i).
Proof.
  intros s [r a|r k] s' res W H i Hi; cbn [perform] in H.
  - left. apply box_call_outcome in H; auto.
    destruct H as [Hg|e Hl|e l C b cs LC h ls Hl Hf Es Eh Hs
                  |e l C b cs LC h ls show Hl Hf Es Eh Hs Ha
                  |l C b cs LC h ls show z cs' Hl Hf Es Eh Hs Hz Ha]; try exact Hi.
    cbn [sl_box] in Hi. destruct Hf as [-> _]. destruct (items_fill C) as (P & Q & F). rewrite F in Hi |- *.
    cbn [items_in] in *. apply add_child_spec in Ha as (pre & post & -> & -> & _). 
    rewrite flat_map_app in *. cbn [flat_map items_in] in Hi. cbn [app] in Hi. exact Hi.
  - apply item_call_outcome in H; auto.
    destruct H as [e|C b b' cs LC h h' ls m st Hf Es Eh Eh' Eb Ez Hk Hh Hst]; [left; exact Hi|].
    cbn [sl_box] in Hi. destruct Hf as [-> _]. destruct (items_fill C) as (P & Q & F). rewrite F in Hi |- *.
    cbn [items_in] in *. rewrite flat_map_app in Hi. cbn [flat_map items_in app] in Hi.
    apply in_app_or in Hi as [Hi|Hi]; [left; apply in_or_app; now left|].
    apply in_app_or in Hi as [Hi|Hi]; [|left; apply in_or_app; right; apply in_or_app; now right].
    apply in_app_or in Hi as [Hi|[<-|[]]]; [left; apply in_or_app; right; apply in_or_app; now left|].
    right. split; eauto.
Qed.

(** Every item of a slide was added by a call that draws a shape, a text or an image, and draws
    what this call asked for. *)
Theorem C102_items : forall w0 h0 c0 c, new_art w0 h0 = Ok c0 -> areach c0 c ->
  forall bs i z, under bs i z (sl_box (ar_slide c)) ->
  exists c1 r a c2 b cs k d, areach c0 c1 /\ call c1 r a = (c2, Ok i) /\ areach c2 c /\
    get_box r (sl_box (ar_slide c1)) = Some (b, cs) /\
    art_item measure serialize isalpha to_float i (b_id b) a = Ok (Some (k, d)) /\
    forall p S, art_drawing c p i S = d p S.
Proof.
  intros w0 h0 c0 c H0 HC bs i z U. apply under_items in U.
  destruct (new_art_slide _ _ _ H0) as [N0 _]. assert (W0 := new_slide_wf _ _ _ N0).
  induction HC as [|c1 q c2 res HC IH P].
  - exfalso. unfold new_slide in N0. destruct (new_layout 0 _) as [l|]; [|discriminate].
    cbn [rbind] in N0. injection N0 as N0. rewrite <- N0 in U. exact U.
  - assert (W1 : wf (ar_slide c1)) by (eapply reachable_wf; [exact W0|apply areach_slides, HC]).
    assert (L : forall j, In j (items_in (sl_box (ar_slide c1))) -> (j < sl_next (ar_slide c1))%nat).
    { intros j Hj. apply (wf_small _ W1). revert Hj. generalize (sl_box (ar_slide c1)). clear.
      fix F 1. intros [j' y|b cs]; cbn [items_in node_ids]; [auto|]. intros H. right.
      induction cs as [|x cs G]; cbn [flat_map] in *; [exact H|].
      apply in_app_or in H as [H|H]; apply in_or_app; [left; now apply F|right; now apply G]. }
    assert (Old : In i (items_in (sl_box (ar_slide c1))) ->
      exists c1 r a c3 b cs k d, areach c0 c1 /\ call c1 r a = (c3, Ok i) /\ areach c3 c2 /\
        get_box r (sl_box (ar_slide c1)) = Some (b, cs) /\
        art_item measure serialize isalpha to_float i (b_id b) a = Ok (Some (k, d)) /\
        forall p S, art_drawing c2 p i S = d p S).
    { intros V. destruct (IH V) as (c1' & r & a & c3 & b & cs & k & d & A1 & A2 & A3 & A4 & A5 & A6).
      exists c1', r, a, c3, b, cs, k, d. do 2 (split; [assumption|]). split; [econstructor; eauto|].
      do 2 (split; [assumption|]). intros p st. rewrite <- A6. unfold art_drawing.
      assert (R12 : areach c1 c2) by (econstructor; [constructor|exact P]).
      now destruct (areach_draw c1 c2 i W1 R12 (L i V)) as [-> _]. }
    destruct q as [r a|r a].
    + apply Old. unfold aperf in P. cbn [aperform] in P.
      destruct (box_call (ar_slide c1) r a) as [s' res'] eqn:E. injection P as <- <-. cbn [ar_slide] in U.
      destruct (perform_items _ (CBox r a) _ _ W1 E i U) as [V|[(r' & k & D) _]]; [exact V|discriminate].
    + assert (P' := P). unfold aperf in P. cbn [aperform] in P. unfold art_call in P.
      destruct (get_box r (sl_box (ar_slide c1))) as [[b cs]|] eqn:Hg; [|injection P as <- <-; auto].
      destruct (art_item _ _ _ _ _ _ _) as [[[k d]|]|e] eqn:Ea; try (injection P as <- <-; now auto).
      destruct (item_call (ar_slide c1) r k) as [s' [j|e]] eqn:E; injection P as <- <-; cbn [ar_slide] in U.
      * destruct (perform_items _ (CItem r k) _ _ W1 E i U) as [V|[_ D]]; [now auto|]. injection D as ->.
        destruct (item_number _ _ _ _ _ W1 E) as [-> _].
        exists c1, r, a. do 5 eexists. split; [exact HC|]. split; [exact P'|]. split; [constructor|].
        split; [exact Hg|]. split; [exact Ea|]. intros p st. unfold art_drawing. cbn [ar_draws draw_of].
        now rewrite Nat.eqb_refl.
      * destruct (perform_items _ (CItem r k) _ _ W1 E i U) as [V|[_ D]]; [now auto|discriminate].
Qed.
Print Assumptions C102_items.
End Art.

(** ** A concrete slide *)

(** 200 x 100, with a box of 60 x 40; in it a text of two lines, aligned to the right, the same
    text scaled to the box, a bitmap of 10 x 10 and an SVG image of 30 x 10 with its second
    fragment shown first (the images make the box larger: next theorem); then a box that moves
    all of this is added. *)
Definition two_lines : list token := [TText (pys "ab"); TNewline 1; TText (pys "c")].
Definition right_style : style :=
  mkStyle (PStr (pys "sans")) (PNum 10) (PStr (pys "right")) (PNum (6 # 5)) (PStr (pys "black"))
    (PBool false) (PBool false) PNone (PNum 1) (PNum 0).
Definition no_styles : str -> option style := fun _ => None.
Definition measure0 (ts : list token) (s : style) (styles : str -> option style) : Q := 24.
Definition serialize0 (n : xnode) : str := dec (x_id n).
Definition isalpha0 (c : char) : bool := false.
Definition to_float0 (s : str) : option Q := if str_eqb s (pys "30") then Some 30 else Some 10.
Definition svg0 : xnode := XNode 0 (pys "svg") [(pys "width", pys "30"); (pys "height", pys "10")] [] [].
Definition art0 : art_slide := mkArt (match new_slide 200 100 with Ok s => s | Err _ => blank end) [].
Definition adraw0 := art_call measure0 serialize0 isalpha0 to_float0.
Definition abox0 (w h : Q) : acall := match side w h with CBox r a => ABox r a | CItem r k => ADraw r (AtBitmap 0 0 None None []) end.
Definition aperform0 := aperform measure0 serialize0 isalpha0 to_float0.
Fixpoint arun (c : art_slide) (l : list acall) : art_slide :=
  match l with [] => c | k :: l' => arun (fst (aperform0 c k)) l' end.
Lemma arun_reach : forall l c, areach measure0 serialize0 isalpha0 to_float0 c (arun c l).
Proof.
  induction l as [|k l IH]; intros c; [constructor|]. cbn [arun].
  eapply areach_trans; [|apply IH]. destruct (aperform0 c k) as [c1 res] eqn:E. cbn [fst].
  econstructor; [constructor|exact E].
Qed.
Definition a_text : art := AtText two_lines right_style no_styles false PNone.
Definition a_scaled : art := AtText two_lines right_style no_styles true PNone.
Definition a_bitmap : art := AtBitmap 10 10 None None (pys "x").
Definition a_svg : art := AtSvg svg0 (Some (1 # 2)) true 1 (Some [Some 2; None; Some 1]%Z) None.
Definition art1 : art_slide := arun art0 [abox0 60 40].
Definition art2 : art_slide := fst (adraw0 art1 1 a_text).
Definition art3 : art_slide := fst (adraw0 art2 1 a_scaled).
Definition art4 : art_slide := fst (adraw0 art3 1 a_bitmap).
Definition art5 : art_slide := fst (adraw0 art4 1 a_svg).
Definition art6 : art_slide := arun art5 [abox0 10 20].
Definition art_final : store :=
  match prepare (sl_layout (ar_slide art6)) 200 100 (sl_store (ar_slide art6)) with Ok st => st | Err _ => LayoutProps.empty_store end.
Definition art_rect : rect := match st_rect art_final 1 with Some R => R | None => mkRect 0 0 0 0 end.
Lemma pair_ok : forall (p : art_slide * result nat) i, snd p = Ok i -> p = (fst p, Ok i).
Proof. intros [c r] i H. cbn in *. now subst. Qed.
Example ex_C102 : new_art 200 100 = Ok art0 /\
  areach measure0 serialize0 isalpha0 to_float0 art0 art1 /\
  adraw0 art1 1 a_text = (art2, Ok 2%nat) /\ adraw0 art2 1 a_scaled = (art3, Ok 3%nat) /\
  adraw0 art3 1 a_bitmap = (art4, Ok 4%nat) /\ adraw0 art4 1 a_svg = (art5, Ok 5%nat) /\
  areach measure0 serialize0 isalpha0 to_float0 art5 art6 /\
  prepare (sl_layout (ar_slide art6)) 200 100 (sl_store (ar_slide art6)) = Ok art_final /\
  st_rect art_final 1 = Some art_rect /\ req art_rect (mkRect 10 10 180 60).
Proof.
  split; [reflexivity|]. split; [apply arun_reach|]. do 4 (split; [apply pair_ok; vm_compute; reflexivity|]).
  split; [apply arun_reach|]. split; [vm_compute; reflexivity|]. split; [vm_compute; reflexivity|].
  repeat split; vm_compute; reflexivity.
Qed.
(** What they draw. *)
Example ex_C102_text : 
  (exists mid x y, art_drawing art6 1 2 art_final = Ok [PageModel.GText mid x y two_lines right_style no_styles PNone None] /\
       x == 190 /\ y == 38) /\
  (exists mid x y q, art_drawing art6 1 3 art_final = Ok [PageModel.GText mid x y two_lines right_style no_styles PNone (Some q)] /\
       x == 190 /\ y == 35 /\ q == 5 # 2).
Proof.
  split.
  - do 3 eexists. split; [vm_compute; reflexivity|]. split; reflexivity.
  - do 4 eexists. split; [vm_compute; reflexivity|]. repeat split; reflexivity.
Qed.
Example ex_C102_images : 
  (exists x y w h, art_drawing art6 1 4 art_final = Ok [PageModel.GBitmap (Q2R x) (Q2R y) (Q2R w) (Q2R h) None (pys "x")] /\
       x == 70 /\ y == 10 /\ w == 60 /\ h == 60) /\
  (exists x y q p, art_drawing art6 1 5 art_final = Ok [PageModel.GSvg (pys "0") (Q2R x) (Q2R y) (Q2R q) None p] /\
       x == 10 + (165 # 2) /\ y == 10 + (55 # 2) /\ q == 1 # 2) /\
  art_drawing art6 2 5 art_final = Ok [] /\ art_drawing art6 4 5 art_final = Ok [] /\
  image_page (Some [Some 2; None; Some 1]%Z) true 1 0 [svg0] 2 = Ok (None, [svg0]).
Proof.
  assert (D4 : draw_of 4 (ar_draws art6) = Some (fun _ => bitmap_drawing 1 10 10 None None (pys "x"))) by (vm_compute; reflexivity).
  assert (D5 : draw_of 5 (ar_draws art6) =
    Some (svg_drawing serialize0 1 svg0 30 10 (Some (1 # 2)) 1 3 (Some [Some 2; None; Some 1]%Z) None)) by (vm_compute; reflexivity).
  assert (E : st_rect art_final 1 = Some art_rect) by (vm_compute; reflexivity).
  unfold art_drawing. rewrite D4, D5. unfold bitmap_drawing, svg_drawing. rewrite E.
  split; [do 4 eexists; split; [reflexivity|]; repeat split; vm_compute; reflexivity|].
  split; [do 4 eexists; split; [reflexivity|]; repeat split; vm_compute; reflexivity|].
  repeat split.
Qed.

(** The selected fragments of [a_svg] need three pages, the bitmap needs no further one; a box
    without given sizes has room for the image. *)
Definition loose : acall := ABox 0 (mkBArgs (mkLArgs ANone ANone ANone ANone None None None None None None None false)
    ShowNone None false None None).
Definition art7 : art_slide := arun art0 [loose].
Definition art8 : art_slide := fst (adraw0 art7 1 a_svg).
Definition art8_final : store :=
  match prepare (sl_layout (ar_slide art8)) 200 100 (sl_store (ar_slide art8)) with Ok st => st | Err _ => LayoutProps.empty_store end.
Example ex_C102_length :
  current_fragment (ar_slide art3) = 1%Z /\ current_fragment (ar_slide art4) = 1%Z /\ current_fragment (ar_slide art5) = 3%Z.
Proof. vm_compute. auto. Qed.
Example ex_C102_image_room : 
  areach measure0 serialize0 isalpha0 to_float0 art0 art7 /\ adraw0 art7 1 a_svg = (art8, Ok 2%nat) /\
  prepare (sl_layout (ar_slide art8)) 200 100 (sl_store (ar_slide art8)) = Ok art8_final /\
  (exists b cs l, get_box 1 (sl_box (ar_slide art7)) = Some (b, cs) /\ b_id b = 1%nat /\
     get_layout 1 (sl_layout (ar_slide art7)) = Some l /\ l_wdef (head l) = ANone /\ l_hdef (head l) = ANone /\
     is_fill (size_arg X l) = false /\ is_lazy (size_arg X l) = false) /\
  asked (Some (1 # 2)) 30 15 /\ exists R, st_rect art8_final 1 = Some R /\ 15 <= extent X R.
Proof.
  split; [apply arun_reach|]. split; [apply pair_ok; vm_compute; reflexivity|]. split; [vm_compute; reflexivity|].
  split; [do 3 eexists; repeat split; vm_compute; reflexivity|].
  split; [right; split; [discriminate|reflexivity]|].
  eexists. split; [vm_compute; reflexivity|]. vm_compute. discriminate.
Qed.

(** An image changes the size of a box for which both width and height were given: a box of
    60 x 40 with a bitmap of 10 x 10 in it is 60 x 60. *)
Theorem C102_given_size_refuted : exists c S R,
  aperform0 art0 (abox0 60 40) = (art1, Ok 1%nat) /\ adraw0 art1 1 a_bitmap = (c, Ok 2%nat) /\
  prepare (sl_layout (ar_slide c)) 200 100 (sl_store (ar_slide c)) = Ok S /\
  st_rect S 1%nat = Some R /\ rw R == 60 /\ rh R == 60.
Proof.
  exists (fst (adraw0 art1 1 a_bitmap)). do 2 eexists.
  split; [change art1 with (fst (aperform0 art0 (abox0 60 40))); apply pair_ok; vm_compute; reflexivity|].
  split; [apply pair_ok; vm_compute; reflexivity|]. split; [vm_compute; reflexivity|].
  split; [vm_compute; reflexivity|]. split; vm_compute; reflexivity.
Qed.
Print Assumptions C102_given_size_refuted.
