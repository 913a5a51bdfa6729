(** The room for texts on slides: C96. *)
From Coq Require Import String List ZArith NArith QArith Bool Lia Lqa Arith Permutation.
From Verif Require Import Py PyFacts ShowModel LayoutModel LayoutSpec LayoutProofs LayoutProofs2 LayoutProofs4 LayoutProps
  SlideModel SlideSpec SlideProofs SlideProps RoomProofs.
Import ListNotations.
Open Scope Q_scope.

(** The size of an item along an axis. *)
Definition along_axis (a : axis) (w h : Q) : Q := match a with X => w | Y => h end.

Lemma within_parent : forall c l, within c l -> c = l \/ exists p, within p l /\ In c (kids p).
Proof.
  intros c l W. induction W as [l|c d h cs Hd W IH]; [now left|]. right. destruct IH as [->|(p & Wp & Hc)].
  - exists (Node h cs). split; [constructor|exact Hd].
  - exists p. split; [econstructor; eauto|exact Hc].
Qed.
Lemma new_slide_root : forall w h s, new_slide w h = Ok s ->
  l_id (head (sl_layout s)) = 0%nat /\ forall a, pad_before a (sl_layout s) == 0 /\ pad_after a (sl_layout s) == 0.
Proof.
  intros w h s H. unfold new_slide in H.
  destruct (new_layout 0 _) as [l|] eqn:El; [|discriminate]. cbn [rbind] in H. injection H as <-. cbn [sl_layout].
  destruct (C15_padding_resolution _ _ _ El) as ((q1 & R1 & E1) & (q2 & R2 & E2) & (q3 & R3 & E3) & (q4 & R4 & E4)).
  cbn in R1, R2, R3, R4. destruct (new_layout_head _ _ _ El) as (hl & -> & Ei & _). split; [exact Ei|].
  intros []; (split; [rewrite ?E1, ?E3|rewrite ?E2, ?E4]).
  all: match goal with |- ?q == 0 => match goal with R : resolves None None None q |- _ => inversion R; reflexivity end end.
Qed.

(** Whatever was put on a slide, the box of the slide covers the whole slide. *)
Theorem C96_whole_slide : forall w h s0 s st S, new_slide w h = Ok s0 -> reachable s0 s ->
  prepare (sl_layout s) w h st = Ok S ->
  exists R, st_rect S 0%nat = Some R /\ req R (mkRect 0 0 w h).
Proof.
  intros w h s0 s st S H0 HR HP. assert (W0 := new_slide_wf _ _ _ H0).
  assert (W : wf s) by (eapply reachable_wf; eauto).
  destruct (new_slide_root w h s0 H0) as [E0 P0].
  destruct (reachable_grows s0 s W0 HR) as [G _].
  destruct (C15_content_area _ _ _ _ (wf_lnodup s W) HP) as (R & A & B).
  exists R. unfold area in A. rewrite (gr_id _ _ G), E0 in A. split; [exact A|].
  assert (PB : forall a, pad_before a (sl_layout s) == 0 /\ pad_after a (sl_layout s) == 0).
  { intro a. destruct (P0 a) as [Q1 Q2]. destruct a; cbn in *;
      rewrite ?(gr_left _ _ G), ?(gr_right _ _ G), ?(gr_top _ _ G), ?(gr_bottom _ _ G); auto. }
  destruct (B X) as [B1 B2], (B Y) as [B3 B4], (PB X) as [P1 P2], (PB Y) as [P3 P4].
  unfold stop in *. cbn [start extent rx ry rw rh] in *. unfold req. cbn [rx ry rw rh].
  rewrite P1 in B1. rewrite P2 in B2. rewrite P3 in B3. rewrite P4 in B4. repeat split; lra.
Qed.
Print Assumptions C96_whole_slide.

(** A box that asks for [q] (plus its padding) along an axis has a content area of at least
    [q] in every later state of the slide, unless it has the size "fill" or a lazy size. *)
Lemma room_kept : forall w h s0 s s' st S n q a, new_slide w h = Ok s0 -> reachable s0 s -> reachable s s' ->
  prepare (sl_layout s') w h st = Ok S -> within n (sl_layout s) -> l_id (head n) <> 0%nat ->
  q + pad a n <= sv_min (size_arg a n) -> is_fill (size_arg a n) = false -> is_lazy (size_arg a n) = false ->
  exists R, st_rect S (l_id (head n)) = Some R /\ q <= extent a R.
Proof.
  intros w h s0 s s' st S n q a H0 HR HL HP Wn Hn Hq Hf Hz. assert (W0 := new_slide_wf _ _ _ H0).
  assert (W : wf s) by (eapply reachable_wf; eauto). assert (W' : wf s') by (eapply reachable_wf; eauto).
  destruct (proj2 (reachable_grows s s' W HL) n Wn) as (c & Wc & G).
  assert (R0 : grown (head (sl_layout s0)) (head (sl_layout s'))).
  { apply (grown_trans _ (head (sl_layout s))); apply reachable_grows; assumption. }
  destruct (new_slide_root w h s0 H0) as [E0 _].
  destruct (within_parent c _ Wc) as [->|(p & Wp & Hc)].
  { exfalso. apply Hn. rewrite <- (gr_id _ _ G), (gr_id _ _ R0). exact E0. }
  assert (HLd : laid any S (sl_layout s') (mkRect 0 0 w h)).
  { eapply set_rect_laid_any; eauto. apply (wf_lnodup s' W'). }
  destruct (laid_within _ _ _ _ _ Wc HLd) as [o Lc].
  destruct (laid_outer _ _ _ _ Lc) as (o' & Ho & _). destruct Ho as (R & AR & Eo).
  exists R. split; [unfold area in AR; now rewrite (gr_id _ _ G) in AR|].
  assert (Sz : sort_of (size_arg a c) = sort_of (size_arg a n)) by (destruct a; [apply (gr_wsort _ _ G)|apply (gr_hsort _ _ G)]).
  unfold sort_of in Sz. injection Sz as _ Sf Sl.
  assert (Hf' : is_fill (size_arg a c) = false) by (unfold is_fill in *; now rewrite Sf).
  assert (Hz' : is_lazy (size_arg a c) = false) by (unfold is_lazy in *; now rewrite Sl).
  destruct (C13_min_sizes _ _ _ _ p c o' a (wf_lnodup s' W') HP Wp Hc (ex_intro _ R (conj AR Eo)) Hz' Hf') as [M _].
  assert (Mg : sv_min (size_arg a n) <= sv_min (size_arg a c)) by (destruct a; [apply (gr_w _ _ G)|apply (gr_h _ _ G)]).
  assert (Pd : extent a o' == extent a R + pad a n).
  { subst o'. unfold pad. destruct a; cbn; rewrite ?(gr_left _ _ G), ?(gr_right _ _ G), ?(gr_top _ _ G), ?(gr_bottom _ _ G); ring. }
  rewrite Pd in M. lra.
Qed.

Lemma within_fill : forall LC n, within n (lfill LC n).
Proof.
  induction LC as [|[[d p] q] LC IH]; intro n; [constructor|]. simpl.
  assert (T : forall a b c, within a b -> within b c -> within a c).
  { intros a b c A B. induction B as [|b e h cs He B IHB]; [exact A|]. econstructor; eauto. }
  eapply T; [|apply IH]. eapply within_kid; [apply in_elt|constructor].
Qed.

(** The layout of the box that gets a new item: what it asks for. *)
Lemma item_request : forall s r k s' id, wf s -> item_call s r k = (s', Ok id) ->
  exists b cs l l', get_box r (sl_box s) = Some (b, cs) /\ get_layout (b_id b) (sl_layout s) = Some l /\
    get_layout (b_id b) (sl_layout s') = Some l' /\ within l' (sl_layout s') /\ grown (head l) (head l') /\
    l_id (head l) = b_id b /\ kids l' = kids l /\ id = sl_next s /\
    match k with
    | Shape => l' = l
    | TextItem w h fit => l' = text_layout (sl_next s) w h fit l
    | ImageItem w h _ => set_image_size_request l w h = Ok l'
    end.
Proof.
  intros s r k s' id W H. assert (W' : wf s') by (apply (perform_wf s (CItem r k) s' (Ok id)); auto).
  assert (Id : id = sl_next s).
  { assert (H' := H). apply item_call_outcome in H'; auto. inversion H'; reflexivity. }
  assert (Dl := wf_lnodup s W). unfold item_call in H.
  destruct (get_box r (sl_box s)) as [[b cs]|] eqn:G; [|discriminate].
  destruct (wf_found s r b cs W G) as (C & LC & h & ls & F & Es & Eh).
  assert (GL : get_layout (b_id b) (sl_layout s) = Some (Node h ls)).
  { rewrite <- Eh, Es. apply get_layout_fill. rewrite <- Es. exact Dl. }
  assert (K : forall h', sl_layout s' = lfill LC (Node h' ls) -> grown h h' ->
    get_layout (b_id b) (sl_layout s') = Some (Node h' ls) /\ within (Node h' ls) (sl_layout s')).
  { intros h' E Gh. rewrite E. split; [|apply within_fill]. rewrite <- Eh, <- (gr_id _ _ Gh).
    apply get_layout_fill. rewrite <- E. apply (wf_lnodup s' W'). }
  assert (D : exists h', sl_layout s' = lfill LC (Node h' ls) /\ grown h h' /\
    match k with
    | Shape => Node h' ls = Node h ls
    | TextItem w q fit => Node h' ls = text_layout (sl_next s) w q fit (Node h ls)
    | ImageItem w q _ => set_image_size_request (Node h ls) w q = Ok (Node h' ls)
    end).
  { destruct k as [|w q fit|w q steps]; cbv zeta in H.
    - injection H as <- _. exists h. cbn [append_item sl_layout]. split; [exact Es|]. split; [apply grown_refl|reflexivity].
    - injection H as <- _. cbn [append_item sl_layout].
      rewrite Es, <- Eh, upd_layout_fill by (rewrite <- Es; exact Dl).
      destruct (text_layout_id (sl_next s) w q fit h ls) as (h' & E & _). exists h'. rewrite E.
      split; [reflexivity|]. split; [|reflexivity]. now apply (text_layout_grown _ _ _ _ _ _ _ (eq_sym E)).
    - rewrite GL in H. destruct (set_image_size_request (Node h ls) w q) as [l'|] eqn:E; [|discriminate].
      destruct (image_request_id _ _ _ _ _ E) as (h' & -> & _). exists h'.
      assert (U : upd_layout (b_id b) (fun _ => Node h' ls) (sl_layout s) = lfill LC (Node h' ls)).
      { rewrite Es, <- Eh. apply (upd_layout_fill (fun _ => Node h' ls)). rewrite <- Es. exact Dl. }
      split; [|split; [now apply (image_request_grown _ _ _ _ _ E)|reflexivity]].
      destruct steps; injection H as <- _; exact U. }
  destruct D as (h' & E & Gh & D). destruct (K h' E Gh) as [K1 K2].
  exists b, cs, (Node h ls), (Node h' ls). repeat (split; [solve [auto]|]). exact D.
Qed.

(** The size requests of the box that gets a text: for texts that are not scaled, both sides
    hold the text and the padding; a text that is scaled to the box only asks for the sides
    that are not given. The contents, positions and kinds of sizes stay. *)
Theorem C96_requests : forall w0 h0 s0 s r w h fit s' id, new_slide w0 h0 = Ok s0 -> reachable s0 s ->
  item_call s r (TextItem w h fit) = (s', Ok id) ->
  exists b cs l l', get_box r (sl_box s) = Some (b, cs) /\ get_layout (b_id b) (sl_layout s) = Some l /\
    get_layout (b_id b) (sl_layout s') = Some l' /\ kids l' = kids l /\
    l_texts (head l') = l_texts (head l) ++ (if fit then [id] else []) /\
    forall a, pos_arg a l' = pos_arg a l /\ pad a l' == pad a l /\
      is_fill (size_arg a l') = is_fill (size_arg a l) /\ is_lazy (size_arg a l') = is_lazy (size_arg a l) /\
      let given := match a with X => l_wdef (head l) | Y => l_hdef (head l) end in
      (fit = false \/ given = ANone ->
         sv_min (size_arg a l') == qmax (sv_min (size_arg a l)) (along_axis a w h + pad a l)) /\
      (fit = true -> given <> ANone -> sv_min (size_arg a l') == sv_min (size_arg a l)).
Proof.
  intros w0 h0 s0 s r w h fit s' id H0 HR H.
  assert (W : wf s) by (eapply reachable_wf; eauto; eapply new_slide_wf; eauto).
  destruct (item_request s r _ s' id W H) as (b & cs & [hd ks] & [hd' ks'] & G & GL & GL' & Wi & Gr & Ei & Ek & Eid & D).
  cbn in Ek. subst ks'. cbn [head] in Gr.
  destruct (text_layout_grown _ _ _ _ _ _ _ D) as (_ & T & Mw & Mh).
  exists b, cs, (Node hd ks), (Node hd' ks). repeat (split; [solve [auto]|]). split; [cbn [head]; subst id; exact T|].
  intro a. split; [destruct a; cbn; apply Gr|]. split.
  { unfold pad. destruct a; cbn; rewrite ?(gr_left _ _ Gr), ?(gr_right _ _ Gr), ?(gr_top _ _ Gr), ?(gr_bottom _ _ Gr); reflexivity. }
  assert (Sz : sort_of (size_arg a (Node hd' ks)) = sort_of (size_arg a (Node hd ks)))
    by (destruct a; [apply (gr_wsort _ _ Gr)|apply (gr_hsort _ _ Gr)]).
  unfold sort_of in Sz. injection Sz as _ Sf Sl.
  split; [unfold is_fill; now rewrite Sf|]. split; [unfold is_lazy; now rewrite Sl|]. cbv zeta.
  unfold counts in Mw, Mh. split.
  - intro F. destruct a; cbn [size_arg head along_axis pad pad_before pad_after] in *.
    + rewrite Mw. replace (negb fit || match l_wdef hd with ANone => true | _ => false end)%bool with true
        by (destruct F as [->| ->]; [reflexivity|now rewrite orb_true_r]).
      apply qmax_comp; [reflexivity|]. unfold pad. cbn. ring.
    + rewrite Mh. replace (negb fit || match l_hdef hd with ANone => true | _ => false end)%bool with true
        by (destruct F as [->| ->]; [reflexivity|now rewrite orb_true_r]).
      apply qmax_comp; [reflexivity|]. unfold pad. cbn. ring.
  - intros -> F. destruct a; cbn [size_arg head] in *.
    + rewrite Mw. cbn. destruct (l_wdef hd); [congruence|reflexivity..].
    + rewrite Mh. cbn. destruct (l_hdef hd); [congruence|reflexivity..].
Qed.
Print Assumptions C96_requests.

(** Texts have room: after any further calls, the content area of the box of a text that is
    not scaled is at least as large as the text, on every side whose size is a number, a
    percentage or not given. *)
Theorem C96_text_room : forall w0 h0 s0 s r w h s1 id s2 st S b cs l a,
  new_slide w0 h0 = Ok s0 -> reachable s0 s -> item_call s r (TextItem w h false) = (s1, Ok id) ->
  reachable s1 s2 -> prepare (sl_layout s2) w0 h0 st = Ok S ->
  get_box r (sl_box s) = Some (b, cs) -> get_layout (b_id b) (sl_layout s) = Some l -> b_id b <> 0%nat ->
  is_fill (size_arg a l) = false -> is_lazy (size_arg a l) = false ->
  exists R, st_rect S (b_id b) = Some R /\ along_axis a w h <= extent a R.
Proof.
  intros w0 h0 s0 s r w h s1 id s2 st S b cs l a H0 HR H HL HP Gb Gl Hb Hf Hz.
  assert (W : wf s) by (eapply reachable_wf; eauto; eapply new_slide_wf; eauto).
  destruct (item_request s r _ s1 id W H) as (b' & cs' & l1 & l' & G & GL & GL' & Wi & Gr & Ei & _).
  rewrite Gb in G. injection G as <- <-. rewrite Gl in GL. injection GL as <-.
  destruct (C96_requests w0 h0 s0 s r w h false s1 id H0 HR H) as (b2 & cs2 & l2 & l2' & G2 & GL2 & GL2' & _ & _ & Rq).
  rewrite Gb in G2. injection G2 as <- <-. rewrite Gl in GL2. injection GL2 as <-.
  rewrite GL' in GL2'. injection GL2' as <-.
  destruct (Rq a) as (_ & Pd & Ff & Fz & Mi & _). specialize (Mi (or_introl eq_refl)).
  assert (E' : l_id (head l') = b_id b) by (rewrite (gr_id _ _ Gr); exact Ei).
  assert (R1 : reachable s0 s1) by (apply (re_cons s0 s (CItem r (TextItem w h false)) s1 (Ok id)); assumption).
  assert (M1 : along_axis a w h + pad a l' <= sv_min (size_arg a l')) by (rewrite Mi, Pd; apply qmax_r).
  rewrite <- Ff in Hf. rewrite <- Fz in Hz. rewrite <- E' in Hb |- *.
  exact (room_kept w0 h0 s0 s1 s2 st S l' _ a H0 R1 HL HP Wi Hb M1 Hf Hz).
Qed.
Print Assumptions C96_text_room.

(** The same for an image in a box without given sizes. *)
Theorem C96_image_room : forall w0 h0 s0 s r w h n s1 id s2 st S b cs l a,
  new_slide w0 h0 = Ok s0 -> reachable s0 s -> item_call s r (ImageItem w h n) = (s1, Ok id) ->
  reachable s1 s2 -> prepare (sl_layout s2) w0 h0 st = Ok S ->
  get_box r (sl_box s) = Some (b, cs) -> get_layout (b_id b) (sl_layout s) = Some l -> b_id b <> 0%nat ->
  l_wdef (head l) = ANone -> l_hdef (head l) = ANone ->
  is_fill (size_arg a l) = false -> is_lazy (size_arg a l) = false ->
  exists R, st_rect S (b_id b) = Some R /\ along_axis a w h <= extent a R.
Proof.
  intros w0 h0 s0 s r w h n s1 id s2 st S b cs l a H0 HR H HL HP Gb Gl Hb Dw Dh Hf Hz.
  assert (W : wf s) by (eapply reachable_wf; eauto; eapply new_slide_wf; eauto).
  destruct (item_request s r _ s1 id W H) as (b' & cs' & [hd ks] & [hd' ks'] & G & GL & GL' & Wi & Gr & Ei & Ek & _ & D).
  rewrite Gb in G. injection G as <- <-. rewrite Gl in GL. injection GL as ->. cbn in Ek. subst ks'.
  destruct (image_request_grown _ _ _ _ _ D) as (_ & _ & I). destruct (I Dw Dh) as [Iw Ih].
  cbn [head] in *.
  assert (E' : l_id hd' = b_id b) by (rewrite (gr_id _ _ Gr); exact Ei).
  assert (Sz : sort_of (size_arg a (Node hd' ks)) = sort_of (size_arg a (Node hd ks)))
    by (destruct a; [apply (gr_wsort _ _ Gr)|apply (gr_hsort _ _ Gr)]).
  unfold sort_of in Sz. injection Sz as _ Sf Sl.
  assert (R1 : reachable s0 s1) by (apply (re_cons s0 s (CItem r (ImageItem w h n)) s1 (Ok id)); assumption).
  assert (M1 : along_axis a w h + pad a (Node hd' ks) <= sv_min (size_arg a (Node hd' ks))).
  { unfold pad. destruct a; cbn;
      rewrite ?(gr_left _ _ Gr), ?(gr_right _ _ Gr), ?(gr_top _ _ Gr), ?(gr_bottom _ _ Gr); lra. }
  assert (Hf' : is_fill (size_arg a (Node hd' ks)) = false) by (unfold is_fill in *; now rewrite Sf).
  assert (Hz' : is_lazy (size_arg a (Node hd' ks)) = false) by (unfold is_lazy in *; now rewrite Sl).
  assert (Hb' : l_id (head (Node hd' ks)) <> 0%nat) by (cbn [head]; now rewrite E').
  destruct (room_kept w0 h0 s0 s1 s2 st S (Node hd' ks) _ a H0 R1 HL HP Wi Hb' M1 Hf' Hz') as (R & Q1 & Q2).
  exists R. cbn [head] in Q1. rewrite E' in Q1. auto.
Qed.
Print Assumptions C96_image_room.

(** Scaled texts: whatever else was put on the slide, also further scaled texts in the same
    box, the text keeps its ratio, is inside the content area of its box and fills one side. *)
Theorem C96_scaled : forall w0 h0 s0 s r w h s1 id s2 S b cs,
  new_slide w0 h0 = Ok s0 -> reachable s0 s -> item_call s r (TextItem w h true) = (s1, Ok id) ->
  reachable s1 s2 -> prepare (sl_layout s2) w0 h0 (sl_store s2) = Ok S ->
  get_box r (sl_box s) = Some (b, cs) -> tiny < w -> tiny < h ->
  exists R, st_rect S (b_id b) = Some R /\
    let t := st_text S id in
    tx_w t * h == tx_h t * w /\ tx_w t == tx_scale t * w /\
    tx_w t <= rw R /\ tx_h t <= rh R /\ (tx_w t == rw R \/ tx_h t == rh R).
Proof.
  intros w0 h0 s0 s r w h s1 id s2 S b cs H0 HR H HL HP Gb Hw Hh.
  assert (W0 : wf s0) by (eapply new_slide_wf; eauto).
  assert (W : wf s) by (eapply reachable_wf; eauto).
  assert (W1 : wf s1) by (apply (perform_wf s (CItem r (TextItem w h true)) s1 (Ok id)); auto).
  assert (W2 : wf s2) by (eapply reachable_wf; eauto).
  destruct (reachable_texts s0 s W0 (new_texts_ok _ _ _ H0) HR) as (T & _ & _).
  assert (T1 : texts_ok s1) by (eapply (perform_texts_ok s (CItem r (TextItem w h true))); eauto).
  destruct (reachable_texts s1 s2 W1 T1 HL) as (T2 & _ & K).
  destruct (item_request s r _ s1 id W H) as (b' & cs' & [hd ks] & [hd' ks'] & G & GL & GL' & Wi & Gr & Ei & Ek & Eid & D).
  rewrite Gb in G. injection G as <- <-. cbn in Ek. subst ks'.
  destruct (text_layout_grown _ _ _ _ _ _ _ D) as (_ & Tx & _).
  destruct (proj2 (reachable_grows s1 s2 W1 HL) _ Wi) as (c & Wc & Gc). cbn [head] in *.
  assert (It : In id (l_texts (head c))).
  { destruct (gr_texts _ _ Gc) as [ts ->]. rewrite Tx, <- Eid. apply in_or_app. left. apply in_or_app. right. now left. }
  assert (HLd : laid any S (sl_layout s2) (mkRect 0 0 w0 h0)).
  { eapply set_rect_laid_any; eauto. apply (wf_lnodup s2 W2). }
  destruct (laid_within _ _ _ _ _ Wc HLd) as [o Lc].
  destruct (laid_outer _ _ _ _ Lc) as (o' & (R & AR & _) & _). exists R. split.
  { unfold area in AR. rewrite (gr_id _ _ Gc), (gr_id _ _ Gr), Ei in AR. exact AR. }
  assert (St : st_text (sl_store s2) id = mkText w h 1).
  { rewrite K.
    - unfold item_call in H. rewrite Gb in H. cbv zeta in H. injection H as <- <-.
      cbn [append_item sl_store]. unfold upd_text. cbn. now rewrite Nat.eqb_refl.
    - apply (to_small s1 T1). assert (X : In id (texts (sl_layout s1))); [|exact X].
      apply text_of_texts. exists (Node hd' ks). split; [exact Wi|]. cbn [head]. rewrite Tx, <- Eid.
      apply in_or_app. right. now left. }
  assert (Q := C21_scale_to_fit _ _ _ _ c id R (wf_lnodup s2 W2) (to_nodup s2 T2) HP Wc It AR).
  rewrite St in Q. cbn [tx_w tx_h] in Q. exact (Q Hw Hh).
Qed.
Print Assumptions C96_scaled.

(** A slide of 200 x 100 with a box with a padding of 5, a text of 30 x 20 in it, and in a box of
    half the width two texts that are scaled to it. *)
Definition la0 : layout_args :=
  mkLArgs ANone ANone ANone ANone None None None None None None (Some 5) false.
Definition la1 : layout_args :=
  mkLArgs ANone ANone (AStr (pys "50%")) (ANum 40) None None None None None None None false.
Definition room_calls : list call :=
  [CBox 0 (mkBArgs la0 ShowNone None false None None);
   CItem 1 (TextItem 30 20 false);
   CBox 0 (mkBArgs la1 ShowNone None false None None);
   CItem 3 (TextItem 10 20 true);
   CItem 3 (TextItem 50 10 true)].
Definition room_slide : option (slide * store) :=
  match new_slide 200 100 with
  | Ok s0 => let s := fold_left (fun s c => fst (perform s c)) room_calls s0 in
             match prepare (sl_layout s) 200 100 (sl_store s) with Ok sf => Some (s, sf) | Err _ => None end
  | Err _ => None
  end.
Example C96_ex : exists s S, room_slide = Some (s, S) /\
  (exists R, st_rect S 1%nat = Some R /\ req R (mkRect 85 20 30 20)) /\
  (exists R, st_rect S 3%nat = Some R /\ req R (mkRect 50 45 100 40)) /\
  tx_w (st_text S 4%nat) == 20 /\ tx_h (st_text S 4%nat) == 40 /\
  tx_w (st_text S 5%nat) == 100 /\ tx_h (st_text S 5%nat) == 20.
Proof.
  destruct room_slide as [[s sf]|] eqn:E; [|vm_compute in E; discriminate].
  exists s, sf. split; [reflexivity|]. vm_compute in E. injection E as <- <-.
  split; [eexists; split; [reflexivity|]; vm_compute; repeat split|].
  split; [eexists; split; [reflexivity|]; vm_compute; repeat split|]. vm_compute. repeat split.
Qed.
