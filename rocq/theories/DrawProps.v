(** Properties of the drawing of texts: C39, C40, C69. *)
From Coq Require Import List ZArith NArith QArith Bool String Lia.
From Verif Require Import Py PyFacts XmlModel XmlSpec XmlProofs XmlProps StyleModel StyleSpec StyleProofs
  TextModel TextSpec TextBoxModel DrawModel DrawSpec DrawProofs DrawLoop DrawCairo DrawFacts.
Import ListNotations.
Local Open Scope nat_scope.

(** ** Examples used below *)

Definition ex_fmt (v : pyval) : str :=
  match v with PStr s => s | PNum _ => pys "10" | PBool true => pys "True" | PBool false => pys "False"
  | _ => pys "None" end.
Definition ex_style (color bold prio : pyval) : style :=
  mkStyle PNone PNone PNone PNone color bold PNone PNone PNone prio.
Definition ex_base : style :=
  mkStyle (PStr (pys "sans-serif")) (PNum 28) (PStr (pys "left")) (PNum (6 # 5)) (PStr (pys "black"))
    (PBool false) (PBool false) PNone PNone (PNum 0).
Definition ex_styles (n : str) : option style :=
  if str_eqb n (pys "default") then Some ex_base
  else if str_eqb n (pys "b") then Some (ex_style PNone (PBool true) (PNum 0))
  else if str_eqb n (pys "r") then Some (ex_style (PStr (pys "red")) PNone (PNum 2))
  else None.
Definition ex_ts : list token :=
  [TText (pys "a "); TBegin (pys "r"); TText (pys "x"); TBegin (pys "b"); TText (pys "y"); TEnd; TNewline 1;
   TText (pys "z"); TEnd; TBegin (pys "#l"); TBegin (pys "b"); TText (pys "w<"); TEnd; TEnd].

Lemma ex_valid : forall n s, ex_styles n = Some s -> valid_style s.
Proof.
  intros n s H. unfold ex_styles in H.
  destruct (str_eqb n (pys "default")); [|destruct (str_eqb n (pys "b")); [|destruct (str_eqb n (pys "r")); [|discriminate]]];
  injection H as <-; intros []; cbn; unfold is_string, is_number, one_of; eauto 6.
  right. exists "left"%string. cbn. auto.
Qed.
Lemma ex_printable : forall n s, ex_styles n = Some s -> printable ex_fmt s.
Proof.
  intros n s H. unfold ex_styles in H.
  destruct (str_eqb n (pys "default")); [|destruct (str_eqb n (pys "b")); [|destruct (str_eqb n (pys "r")); [|discriminate]]];
  injection H as <-; (split; [intros []; reflexivity|]);
  split; (split; [vm_compute; intuition discriminate|reflexivity]).
Qed.
Lemma ex_hash : forall n, dummyb n = true -> ex_styles n = None.
Proof.
  intros [|c n] H; [discriminate|]. cbn in H. apply N.eqb_eq in H. subst. reflexivity.
Qed.
Lemma ex_complete : complete ex_base.
Proof.
  split; [|repeat split; discriminate]. apply (ex_valid (pys "default")). reflexivity.
Qed.
Lemma ex_known : known_names ex_styles ex_ts.
Proof.
  intros n H. unfold ex_ts in H. cbn [In] in H.
  repeat (destruct H as [H|H]; [try discriminate; injection H as <-; try (right; discriminate); try (left; eexists; reflexivity)|]).
  destruct H.
Qed.
Lemma ex_regular : regular ex_styles [Some ex_base] ex_ts.
Proof. vm_compute. intuition congruence. Qed.

(** ** C39 *)

(** Drawing a balanced text succeeds and leaves the stack of open elements as it was; the
    calls are those of well nested elements.  Missing: texts that are not [regular], for
    which see C39_refuted. *)
Theorem C39_partial : forall fmt x y styles ident id_index transform base ts,
  balanced ts -> known_names styles ts -> complete base ->
  (forall n s, styles n = Some s -> valid_style s) -> (forall n, dummyb n = true -> styles n = None) ->
  regular styles [Some base] ts ->
  (forall w, exists w', perform w (draw_text fmt x y ts base styles ident id_index transform) = Ok w' /\
     x_stack w' = x_stack w) /\
  exists f, Forall closes f /\
    draw_text fmt x y ts base styles ident id_index transform = (forest_calls f, Ok tt).
Proof.
  intros fmt x y styles ident id_index transform base ts Hb Hk Hc Vs Hh Hr.
  destruct (draw_facts fmt x y styles ident id_index transform base ts Hb Hk Hc Vs Hh Hr)
    as [cs [E [M _]]]. rewrite E. split.
  - intros w. destruct (M (x_stack w) w eq_refl) as [w' [E1 E2]]. exists w'.
    unfold perform. cbn [fst snd]. rewrite E1. cbn. auto.
  - destruct (M [] new_xml eq_refl) as [w' [E1 E2]].
    destruct (proj1 (C43_nested cs)) as [f [F ->]].
    { exists w'. unfold to_string. rewrite E1, E2. eauto. }
    exists f. auto.
Qed.
Print Assumptions C39_partial.

(** The markup is read back as a document that shows exactly the characters of the text. *)
Theorem C39_read_back_partial : forall fmt x y styles ident id_index transform base ts w out,
  balanced ts -> known_names styles ts -> complete base ->
  (forall n s, styles n = Some s -> valid_style s) -> (forall n, dummyb n = true -> styles n = None) ->
  regular styles [Some base] ts ->
  all_legal fmt (fmt (PNum x)) styles ident base -> legal_texts ts ->
  (forall t, transform = Some t -> legal_value t = true) ->
  perform new_xml (draw_text fmt x y ts base styles ident id_index transform) = Ok w ->
  to_string w = Ok out ->
  exists ns, read out = Some ns /\
    map fst (flat_map (doc_glyphs []) ns) = hard_spaces (map fst (glyphs styles [Some base] ts)).
Proof.
  intros fmt x y styles ident id_index transform base ts w out Hb Hk Hc Vs Hh Hr A T Ht Hw Ho.
  destruct (draw_facts fmt x y styles ident id_index transform base ts Hb Hk Hc Vs Hh Hr)
    as [cs [E [M [L R]]]]. rewrite E in Hw. unfold perform in Hw. cbn [fst snd] in Hw.
  destruct (xrun new_xml cs) as [w'|] eqn:Ew; [|discriminate]. cbn in Hw. injection Hw as ->.
  destruct (proj1 (C43_nested cs)) as [f [F ->]]. { eauto. }
  exists (forest_nodes f). split.
  - apply (C72_read_back_partial f w out F); auto. apply lawful_forest. auto.
  - rewrite <- call_glyphs_forest. clear -R. unfold hard_spaces.
    induction R as [|g h gs hs [sts [_ [_ [_ H]]]] R IH]; auto. cbn [map]. now rewrite H, IH.
Qed.
Print Assumptions C39_read_back_partial.

Example ex_C39 : balanced ex_ts /\ known_names ex_styles ex_ts /\ complete ex_base /\
  (forall n s, ex_styles n = Some s -> valid_style s) /\ (forall n, dummyb n = true -> ex_styles n = None) /\
  regular ex_styles [Some ex_base] ex_ts /\
  all_legal ex_fmt (ex_fmt (PNum 0)) ex_styles None ex_base /\ legal_texts ex_ts /\
  exists out, (do w <- perform new_xml (draw_text ex_fmt 0 0 ex_ts ex_base ex_styles None None None);
               to_string w) = Ok out /\ read out <> None.
Proof.
  split; [reflexivity|]. split; [exact ex_known|]. split; [exact ex_complete|]. split; [exact ex_valid|].
  split; [exact ex_hash|]. split; [exact ex_regular|]. split; [|split].
  - split; [now apply (ex_printable (pys "default"))|]. split; [exact ex_printable|].
    split; [reflexivity|]. split; [reflexivity|discriminate].
  - intros t H. unfold ex_ts in H. cbn [In] in H.
    repeat (destruct H as [H|H]; [try discriminate; injection H as <-; reflexivity|]). destruct H.
  - eexists. split; [vm_compute; reflexivity|]. vm_compute. discriminate.
Qed.

(** A line break inside a style without effect: a place marked with "#", or a style of a
    lower priority than the one around it.  draw_text raises. *)
Theorem C39_refuted : forall ts,
  ts = [TBegin (pys "#a"); TText (pys "x"); TNewline 1; TText (pys "y"); TEnd] \/
  ts = [TBegin (pys "r"); TBegin (pys "b"); TText (pys "x"); TNewline 1; TText (pys "y"); TEnd; TEnd] ->
  balanced ts /\ known_names ex_styles ts /\ complete ex_base /\
  perform new_xml (draw_text ex_fmt 0 0 ts ex_base ex_styles None None None) = Err EException.
Proof.
  intros ts [-> | ->]; (split; [reflexivity|]); (split;
   [intros n H; cbn [In] in H;
    repeat (destruct H as [H|H]; [try discriminate; injection H as <-; try (right; discriminate); try (left; eexists; reflexivity)|]);
    destruct H|]); (split; [exact ex_complete|]); vm_compute; reflexivity.
Qed.
Print Assumptions C39_refuted.

(** ** C40 *)

(** Cairo: the text and the attributes are those of the styles in effect.  Every byte has
    the attributes of one style, the sum of the effective styles around it. *)
Theorem C40_cairo : forall styles ts d s,
  balanced ts -> known_names styles ts -> styles default_ = Some d -> valid_style s ->
  (forall n s, styles n = Some s -> valid_style s) ->
  (forall t, In (TText t) ts -> encodable t) ->
  exists text segs out, text_and_attributes ts s styles = Ok (text, segs) /\ pango segs 0 text out /\
    Forall2 (fun h g => fst h = fst g /\ sum_of (snd g) (snd h))
      out (cairo_glyphs styles [Some (compose d s)] true ts).
Proof.
  intros styles ts d s Hb Hk Hd V Vs He.
  destruct (cairo_facts styles Vs ts d s Hb Hk Hd (Vs _ _ Hd) V He) as [text [segs [out [H1 [H2 [H3 _]]]]]].
  eauto 6.
Qed.
Print Assumptions C40_cairo.

(** SVG: every character of the document looks like the sum of the effective styles. *)
Theorem C40_svg_partial : forall fmt x y styles ident id_index transform base ts w out,
  balanced ts -> known_names styles ts -> complete base ->
  (forall n s, styles n = Some s -> valid_style s /\ printable fmt s /\ ~ switches_off s \/ n = default_) ->
  ~ In (TBegin default_) ts ->
  (forall n, dummyb n = true -> styles n = None) ->
  regular styles [Some base] ts ->
  printable fmt base -> (forall q, legal_value (fmt (PNum q)) = true) ->
  (forall d, ident = Some d -> legal_value d = true) -> legal_texts ts ->
  (forall t, transform = Some t -> legal_value t = true) ->
  perform new_xml (draw_text fmt x y ts base styles ident id_index transform) = Ok w ->
  to_string w = Ok out ->
  exists ns, read out = Some ns /\
    Forall2 (same_look fmt) (flat_map (doc_glyphs []) ns) (glyphs styles [Some base] ts).
Proof.
  intros fmt x y styles ident id_index transform base ts w out Hb Hk Hc Vs Hd Hh Hr Pb Pq Pi T Ht Hw Ho.
  set (styles' := fun n => if str_eqb n default_ then None else styles n).
  assert (Same : forall n, n <> default_ -> styles' n = styles n).
  { intros n Hn. unfold styles'. destruct (str_eqb n default_) eqn:E; auto.
    apply str_eqb_eq in E. contradiction. }
  assert (Vs' : forall n s, styles' n = Some s -> valid_style s /\ printable fmt s /\ ~ switches_off s).
  { intros n s H. unfold styles' in H. destruct (str_eqb n default_) eqn:E; [discriminate|].
    destruct (Vs n s H) as [K|K]; auto. subst. rewrite str_eqb_refl in E. discriminate. }
  assert (Hnd : forall n, In (TBegin n) ts -> n <> default_) by (intros n X ->; contradiction).
  assert (Ed : forall st n, n <> default_ -> effect styles' st n = effect styles st n).
  { intros st n Hn. unfold effect. now rewrite Same. }
  assert (Eg : forall us st, (forall n, In (TBegin n) us -> n <> default_) ->
    glyphs styles' st us = glyphs styles st us).
  { induction us as [|u us IH]; intros st Hu; auto.
    assert (Hu' : forall n, In (TBegin n) us -> n <> default_) by (intros; apply Hu; now right).
    destruct u; cbn [glyphs]; rewrite ?IH; auto. rewrite Ed by (apply Hu; now left). reflexivity. }
  assert (Er : forall us st, (forall n, In (TBegin n) us -> n <> default_) ->
    regular styles st us -> regular styles' st us).
  { induction us as [|u us IH]; intros st Hu H; auto.
    assert (Hu' : forall n, In (TBegin n) us -> n <> default_) by (intros; apply Hu; now right).
    destruct u; cbn [regular] in *; try (rewrite Ed by (apply Hu; now left)); intuition. }
  assert (Edl : forall us i p active l, (forall n, In (TBegin n) us -> n <> default_) ->
    draw_loop fmt (fmt (PNum x)) l styles' ident id_index i p active us =
    draw_loop fmt (fmt (PNum x)) l styles ident id_index i p active us).
  { induction us as [|u us IH]; intros i p active l Hu; auto.
    assert (Hu' : forall n, In (TBegin n) us -> n <> default_) by (intros; apply Hu; now right).
    destruct u as [t|k|nm|]; cbn [draw_loop]; unfold tbind; cbn [fst snd calls lift].
    - now rewrite IH.
    - now rewrite IH.
    - rewrite (Same nm) by (apply Hu; now left). destruct (styles nm) as [s0|].
      + destruct (num (s_priority s0)); auto. now rewrite IH.
      + destruct (startswith (pys "#") nm); auto. now rewrite IH.
    - destruct (rev active) as [|o [|[s|] below]]; auto; try now rewrite IH.
      destruct (num (s_priority s)); auto. now rewrite IH. }
  assert (Edt : draw_text fmt x y ts base styles ident id_index transform =
                draw_text fmt x y ts base styles' ident id_index transform).
  { unfold draw_text, tbind. cbn [fst snd calls lift]. destruct (anchor (s_align base)); auto.
    destruct (num (s_size base)); auto. cbn [rbind]. destruct (num (s_line_spacing base)); auto. cbn [rbind].
    destruct (num (s_priority base)); auto. now rewrite Edl. }
  assert (Hk' : known_names styles' ts).
  { intros n X. rewrite Same by auto. now apply Hk. }
  assert (Hh' : forall n, dummyb n = true -> styles' n = None).
  { intros n X. unfold styles'. destruct (str_eqb n default_); auto. }
  destruct (draw_facts fmt x y styles' ident id_index transform base ts Hb Hk' Hc
     (fun n s H => proj1 (Vs' n s H)) Hh' (Er ts _ Hnd Hr)) as [cs [E [M [L R]]]].
  rewrite Edt, E in Hw. unfold perform in Hw. cbn [fst snd] in Hw.
  destruct (xrun new_xml cs) as [w'|] eqn:Ew; [|discriminate]. cbn in Hw. injection Hw as ->.
  destruct (proj1 (C43_nested cs)) as [f [F ->]]. { eauto. }
  exists (forest_nodes f). split.
  - apply (C72_read_back_partial f w out F); auto. apply lawful_forest. apply L; auto.
    split; auto. split; [intros n s H; apply (Vs' n s H)|]. auto.
  - rewrite <- call_glyphs_forest. rewrite <- (Eg ts [Some base] Hnd).
    apply (forall2_imp (rel fmt styles' base)); auto. intros g h Hgh.
    apply (rel_look fmt styles' base); auto. apply Hc.
Qed.
Print Assumptions C40_svg_partial.
Example ex_C40 : ~ In (TBegin default_) ex_ts /\
  (forall n s, ex_styles n = Some s -> valid_style s /\ printable ex_fmt s /\ ~ switches_off s \/ n = default_) /\
  glyphs ex_styles [Some ex_base] ex_ts <> [] /\ (forall t, In (TText t) ex_ts -> encodable t).
Proof.
  split; [vm_compute; intuition discriminate|]. split; [|split].
  - intros n s H. pose proof (ex_valid n s H) as V. pose proof (ex_printable n s H) as P. unfold ex_styles in H.
    destruct (str_eqb n (pys "default")) eqn:E; [right; now apply str_eqb_eq in E|left].
    destruct (str_eqb n (pys "b")); [|destruct (str_eqb n (pys "r")); [|discriminate]];
    injection H as <-; (split; [exact V|]; split; [exact P|]); intros [X|X]; discriminate.
  - vm_compute. discriminate.
  - intros t H c Hc X. unfold ex_ts in H. cbn [In] in H.
    repeat (destruct H as [H|H]; [try discriminate; injection H as <-; cbn in Hc; lia|]). destruct H.
Qed.

(** SVG: the priority is not restored when a style is closed inside a style without
    effect.  Here "b" (priority 0) follows a closed "r" (priority 2), the priority in effect
    around it is that of the text, 0, but "b" is not bold. *)
Theorem C40_svg_refuted : exists ts w out ns,
  balanced ts /\ known_names ex_styles ts /\
  perform new_xml (draw_text ex_fmt 0 0 ts ex_base ex_styles None None None) = Ok w /\
  to_string w = Ok out /\ read out = Some ns /\
  map (fun h => value Bold (snd h)) (glyphs ex_styles [Some ex_base] ts) = [PBool false; PBool true] /\
  map (fun g => property (pys "font-weight") (snd g)) (flat_map (doc_glyphs []) ns) = [None; None].
Proof.
  exists [TBegin (pys "#a"); TBegin (pys "r"); TText (pys "x"); TEnd; TBegin (pys "b"); TText (pys "y"); TEnd; TEnd].
  do 3 eexists. split; [reflexivity|]. split.
  - intros n H. cbn [In] in H.
    repeat (destruct H as [H|H]; [try discriminate; injection H as <-; try (right; discriminate); try (left; eexists; reflexivity)|]).
    destruct H.
  - split; [vm_compute; reflexivity|]. split; [vm_compute; reflexivity|]. split; [vm_compute; reflexivity|].
    split; vm_compute; reflexivity.
Qed.
Print Assumptions C40_svg_refuted.

(** ** C69 *)

(** Both backends show the same characters with the same font, size, colour, weight and
    slant.  Missing: texts that are not [regular], styles that switch bold or italic off,
    styles whose name starts with "#", opacity. *)
Theorem C69_same_partial : forall fmt x y styles ident id_index transform d s ts w out,
  balanced ts -> known_names styles ts -> styles default_ = Some d -> valid_style d ->
  valid_style s -> complete (compose d s) ->
  (forall n s, styles n = Some s -> n <> default_ -> valid_style s /\ printable fmt s /\ ~ switches_off s) ->
  ~ In (TBegin default_) ts ->
  (forall n, dummyb n = true -> styles n = None) ->
  regular styles [Some (compose d s)] ts ->
  printable fmt (compose d s) -> (forall q, legal_value (fmt (PNum q)) = true) ->
  (forall i, ident = Some i -> legal_value i = true) -> legal_texts ts ->
  (forall t, transform = Some t -> legal_value t = true) ->
  (forall t, In (TText t) ts -> encodable t) -> no_fillers ts ->
  perform new_xml (draw_text fmt x y ts (compose d s) styles ident id_index transform) = Ok w ->
  to_string w = Ok out ->
  exists ns text segs shown, read out = Some ns /\
    text_and_attributes ts s styles = Ok (text, segs) /\ pango segs 0 text shown /\
    Forall2 (same_in_both fmt) (flat_map (doc_glyphs []) ns) (filter visible shown).
Proof.
  intros fmt x y styles ident id_index transform d s ts w out Hb Hk Hd Vd V Hc Vs Hnd Hh Hr Pb Pq Pi T Ht He Hf Hw Ho.
  assert (Dec : forall n, n = default_ \/ n <> default_).
  { intros n. destruct (str_eqb n default_) eqn:E; [left; now apply str_eqb_eq|right].
    intros ->. rewrite str_eqb_refl in E. discriminate. }
  assert (Vall : forall n s, styles n = Some s -> valid_style s).
  { intros n s0 H. destruct (Dec n) as [-> |N].
    - rewrite Hd in H. injection H as <-. exact Vd.
    - now apply (Vs n s0). }
  destruct (C40_svg_partial fmt x y styles ident id_index transform (compose d s) ts w out) as [ns [R1 R2]]; auto.
  { intros n s0 H. destruct (Dec n) as [N|N]; [now right|left]. now apply (Vs n s0). }
  destruct (C40_cairo styles ts d s Hb Hk Hd V Vall He) as [text [segs [shown [C1 [C2 C3]]]]].
  exists ns, text, segs, shown. split; auto. split; auto. split; auto.
  assert (C3' : Forall2 (fun (h : char * style) (g : char * list style) => fst h = fst g /\ sum_of (snd g) (snd h) /\
      (forall q, In q (snd g) -> valid_style q)) shown (cairo_glyphs styles [Some (compose d s)] true ts)).
  { assert (W : forall us st e, (forall q, In (Some q) st -> valid_style q) ->
      forall g, In g (cairo_glyphs styles st e us) -> forall q, In q (snd g) -> valid_style q).
    { induction us as [|u us IH]; intros st e Hst g Hg q Hq; [destruct Hg|].
      assert (Hef : forall q, In q (effective st) -> valid_style q).
      { intros q' X. unfold effective in X. apply in_flat_map in X. destruct X as [[q''|] [X1 X2]]; [|destruct X2].
        destruct X2 as [-> |[]]. auto. }
      destruct u as [t|n|s0|]; cbn [cairo_glyphs] in Hg.
      - apply in_app_or in Hg. destruct Hg as [Hg|Hg]; [|eauto]. apply in_map_iff in Hg.
        destruct Hg as [c [<- _]]. auto.
      - rewrite app_assoc in Hg. apply in_app_or in Hg. destruct Hg as [Hg|Hg]; [|eauto].
        destruct (newline_chars n e (effective st)) as [_ N]. apply N in Hg. destruct Hg as [Hg _].
        rewrite Hg in Hq. auto.
      - apply (IH (effect styles st s0 :: st) e) with (g := g); auto. intros q' [X|X]; [|auto]. unfold effect in X.
        destruct (dummyb s0); [discriminate|]. destruct (styles s0) eqn:Es; [|discriminate].
        destruct (effective st); [discriminate|]. destruct (Qle_bool _ _); [|discriminate].
        injection X as <-. eauto.
      - apply (IH (tl st) e) with (g := g); auto. intros q' X. apply Hst. destruct st; [destruct X|now right]. }
    assert (W1 : forall q, In (Some q) [Some (compose d s)] -> valid_style q).
    { intros q [X|[]]. injection X as <-. apply Hc. }
    specialize (W ts [Some (compose d s)] true W1). clear -C3 W.
    induction C3 as [|h g hs gs [H1 H2] C3 IH]; constructor.
    - split; auto. split; auto. apply W. now left.
    - apply IH. intros. eapply W; eauto. now right. }
  assert (C4 := filter_forall2 _ visible visible _ _
    (fun h g (H : fst h = fst g /\ _) => f_equal (fun c => negb (N.eqb c 10) && negb (N.eqb c invisible_space)) (proj1 H)) C3').
  rewrite visible_glyphs in C4 by auto. clear -R2 C4.
  assert (G : forall gs hs, Forall2 (same_look fmt) hs gs -> forall sh, 
     Forall2 (fun (h : char * style) (g : char * list style) => fst h = fst g /\ sum_of (snd g) (snd h) /\
      (forall q, In q (snd g) -> valid_style q)) sh gs -> Forall2 (same_in_both fmt) hs sh).
  { clear. intros gs hs H. induction H as [|h g hs gs S H IH]; intros sh F; inversion F as [|x g' sh' gs' HX F']; subst; constructor; auto.
    destruct HX as [E1 [E2 E3]]. destruct S as [S1 [S2 [S3 [S4 [S5 [S6 S7]]]]]].
    unfold same_in_both, style_to_attributes. cbv zeta. cbn [pa_family pa_size pa_color pa_bold pa_italic].
    rewrite E1.
    assert (V : forall a, a = Bold \/ a = Italic -> forall l, (forall q, In q l -> valid_style q) ->
      value a l = PNone \/ exists b, value a l = PBool b).
    { intros a Ha. induction l as [|q l IHl]; intros Hl; [left; reflexivity|]. cbn [value].
      assert (Vq := Hl q (or_introl eq_refl) a).
      assert (Wq : get q a = PNone \/ exists b, get q a = PBool b) by (destruct Ha as [-> | ->]; exact Vq).
      destruct Wq as [Wq|[b Wq]]; rewrite Wq; [|eauto]. apply IHl. intros. apply Hl. now right. }
    assert (Fl : forall a w, a = Bold \/ a = Italic ->
      flag (value a (snd g)) w = if truthy (get (snd x) a) then Some (pys w) else None).
    { intros a w Ha. rewrite <- E2. destruct (V a Ha (snd g) E3) as [Q|[[] Q]]; rewrite <- E2 in Q; rewrite Q; reflexivity. }
    split; auto. split; [now rewrite S2, <- E2|]. split; [now rewrite S3, <- E2|].
    split; [now rewrite S4, <- E2|]. split; [now rewrite S6, (Fl Bold) by auto|].
    now rewrite S7, (Fl Italic) by auto. }
  eapply G; eauto.
Qed.
Print Assumptions C69_same_partial.
Example ex_C69 : complete (compose ex_base ex_base) /\ regular ex_styles [Some (compose ex_base ex_base)] ex_ts /\
  no_fillers ex_ts /\ exists text segs, text_and_attributes ex_ts ex_base ex_styles = Ok (text, segs) /\
  List.length segs = 8.
Proof.
  change (compose ex_base ex_base) with ex_base. split; [exact ex_complete|]. split; [exact ex_regular|]. split.
  - intros t H. unfold ex_ts in H. cbn [In] in H.
    repeat (destruct H as [H|H]; [try discriminate; injection H as <-; vm_compute; intuition discriminate|]). destruct H.
  - do 2 eexists. split; [vm_compute; reflexivity|]. vm_compute. reflexivity.
Qed.

(** What a character looks like in both backends. *)
Definition svg_glyphs (ts : list token) (styles : str -> option style) :=
  do w <- perform new_xml (draw_text ex_fmt 0 0 ts ex_base styles None None None);
  do out <- to_string w;
  Ok (match read out with Some ns => flat_map (doc_glyphs []) ns | None => [] end).

(** Bold cannot be switched off inside bold text in SVG. *)
Definition unbold (n : str) : option style :=
  if str_eqb n (pys "nb") then Some (ex_style PNone (PBool false) (PNum 0)) else ex_styles n.
Theorem C69_bold_refuted : exists gs text segs st,
  svg_glyphs [TBegin (pys "b"); TBegin (pys "nb"); TText (pys "x"); TEnd; TEnd] unbold = Ok gs /\
  map (fun g => property (pys "font-weight") (snd g)) gs = [Some (pys "bold")] /\
  text_and_attributes [TBegin (pys "b"); TBegin (pys "nb"); TText (pys "x"); TEnd; TEnd] ex_base unbold =
    Ok (text, segs) /\ pango segs 0 text [(120%N, st)] /\ pa_bold (style_to_attributes st) = false.
Proof.
  do 4 eexists. split; [vm_compute; reflexivity|]. split; [vm_compute; reflexivity|].
  split; [vm_compute; reflexivity|]. split.
  - cbn [pango]. split; [reflexivity|]. split; [|exact I]. intros k Hk.
    assert (k = 0) by (vm_compute in Hk; lia). subst. split.
    + eexists. split; [right; right; left; reflexivity|reflexivity].
    + intros g Hg C. cbn [In] in Hg. repeat (destruct Hg as [<-|Hg]; [try discriminate; reflexivity|]). destruct Hg.
  - reflexivity.
Qed.
Print Assumptions C69_bold_refuted.

(** A style whose name starts with "#" takes effect in SVG only. *)
Definition hashed (n : str) : option style :=
  if str_eqb n (pys "#a") then Some (ex_style (PStr (pys "red")) PNone (PNum 0)) else ex_styles n.
Theorem C69_hash_refuted : exists gs text segs st,
  svg_glyphs [TBegin (pys "#a"); TText (pys "x"); TEnd] hashed = Ok gs /\
  map (fun g => property (pys "fill") (snd g)) gs = [Some (pys "red")] /\
  text_and_attributes [TBegin (pys "#a"); TText (pys "x"); TEnd] ex_base hashed = Ok (text, segs) /\
  pango segs 0 text [(120%N, st)] /\ pa_color (style_to_attributes st) = PStr (pys "black").
Proof.
  do 4 eexists. split; [vm_compute; reflexivity|]. split; [vm_compute; reflexivity|].
  split; [vm_compute; reflexivity|]. split.
  - cbn [pango]. split; [reflexivity|]. split; [|exact I]. intros k Hk.
    assert (k = 0) by (vm_compute in Hk; lia). subst. split.
    + eexists. split; [right; left; reflexivity|reflexivity].
    + intros g Hg C. cbn [In] in Hg. repeat (destruct Hg as [<-|Hg]; [try discriminate; reflexivity|]). destruct Hg.
  - reflexivity.
Qed.
Print Assumptions C69_hash_refuted.

(** Opacity is shown by SVG only: two styles that differ only in the opacity have the same
    Pango attributes and different SVG attributes. *)
Theorem C69_opacity_refuted : exists s1 s2, valid_style s1 /\ valid_style s2 /\
  style_to_attributes s1 = style_to_attributes s2 /\
  declared (pys "fill-opacity") (map (fun c => match c with CSet n v _ => (n, v) | _ => ([], []) end) (set_font ex_fmt s1)) <>
  declared (pys "fill-opacity") (map (fun c => match c with CSet n v _ => (n, v) | _ => ([], []) end) (set_font ex_fmt s2)).
Proof.
  exists (ex_style PNone PNone (PNum 0)),
    (mkStyle PNone PNone PNone PNone PNone PNone PNone PNone (PNum (1#2)) (PNum 0)).
  split; [|split; [|split]].
  - intros []; cbn; unfold is_string, is_number; eauto.
  - intros []; cbn; unfold is_string, is_number; eauto.
  - reflexivity.
  - vm_compute. discriminate.
Qed.
Print Assumptions C69_opacity_refuted.
