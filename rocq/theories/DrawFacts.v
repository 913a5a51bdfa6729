(** draw_text of the SVG backend as a whole. *)
From Coq Require Import List ZArith NArith QArith Bool String Lia.
From Verif Require Import Py PyFacts XmlModel XmlSpec XmlProofs XmlProps StyleModel StyleSpec StyleProofs
  TextModel TextSpec TextBoxModel DrawModel DrawSpec DrawProofs DrawLoop DrawCairo.
Import ListNotations.
Local Open Scope nat_scope.

Lemma tb : forall {A B} (f : A -> trace B) cs a ds r, f a = (ds, r) -> tbind (cs, Ok a) f = (cs ++ ds, r).
Proof. intros A B f cs a ds r H. unfold tbind. cbn [fst snd]. now rewrite H. Qed.

Section Whole.
Variable fmt : pyval -> str.
Variables (x y : Q) (styles : str -> option style) (ident : option str) (id_index : option nat)
  (transform : option str) (base : style).

Definition text_attrs (a : str) : list (str * str * bool) :=
  match ident, id_index with Some d, None => [(pys "id", d, true)] | _, _ => [] end ++
  [(pys "x", fmt (PNum x), true); (pys "y", fmt (PNum y), true)] ++
  match transform with Some t => [(pys "transform", t, true)] | None => [] end ++
  [(pys "text-anchor", a, true)].
Lemma text_attrs_extra : forall a, extra_attrs (text_attrs a).
Proof.
  intros a. unfold text_attrs, extra_attrs, font_names.
  destruct ident; [destruct id_index|]; destruct transform; cbn [map app fst];
    (split; [repeat (apply NoDup_cons; [cbn [In]; intuition discriminate|]); apply NoDup_nil|
      cbn [In map]; intros m H; intuition; subst; try reflexivity; discriminate]).
Qed.
Lemma text_calls : forall a, map set_call (text_attrs a) =
  match ident, id_index with Some d, None => [CSet (pys "id") d true] | _, _ => [] end ++
    [CSet (pys "x") (fmt (PNum x)) true; CSet (pys "y") (fmt (PNum y)) true] ++
    match transform with Some t => [CSet (pys "transform") t true] | None => [] end ++
    [CSet (pys "text-anchor") a true].
Proof. intros a. unfold text_attrs. destruct ident; [destruct id_index|]; destruct transform; reflexivity. Qed.
Definition variant_attrs : list (str * str * bool) :=
  if truthy (s_variant base) then [(pys "font-variant-numeric", fmt (s_variant base), true)] else [].
Lemma variant_extra : extra_attrs variant_attrs.
Proof.
  unfold variant_attrs, extra_attrs, font_names. destruct (truthy (s_variant base)); cbn [map app fst];
    (split; [repeat (apply NoDup_cons; [cbn [In]; intuition discriminate|]); apply NoDup_nil|
      cbn [In map]; intros m H; intuition; subst; try reflexivity; discriminate]).
Qed.

Lemma anchor_ok : complete base -> exists a, anchor (s_align base) = Ok a /\ legal_value a = true.
Proof.
  intros [V [A _]]. specialize (V Align). cbn [allowed get] in V, A.
  destruct V as [V|[w [H ->]]]; [contradiction|].
  destruct H as [<-|[<-|[<-|[]]]]; eexists; split; reflexivity.
Qed.
Lemma number_ok : forall a v, a = Size \/ a = LineSpacing -> allowed a v -> v <> PNone -> exists q, num v = Ok q.
Proof.
  intros a v Ha V N. assert (W : v = PNone \/ is_number v) by (destruct Ha as [-> | ->]; exact V).
  destruct W as [W|[[q ->]|[b ->]]]; [contradiction| |]; eexists; reflexivity.
Qed.

Lemma draw_facts : forall ts, balanced ts -> known_names styles ts -> complete base ->
  (forall n s, styles n = Some s -> valid_style s) -> (forall n, dummyb n = true -> styles n = None) ->
  regular styles [Some base] ts ->
  exists cs, draw_text fmt x y ts base styles ident id_index transform = (cs, Ok tt) /\
    (forall st, moves st cs st) /\
    (all_legal fmt (fmt (PNum x)) styles ident base -> legal_texts ts ->
     (forall t, transform = Some t -> legal_value t = true) -> lawful_calls cs) /\
    Forall2 (rel fmt styles base) (call_glyphs [] cs) (glyphs styles [Some base] ts).
Proof.
  intros ts Hb Hk Hc Vs Hh Hr.
  destruct (anchor_ok Hc) as [a [Ea La]]. pose proof Hc as [V [_ [Nz Nl]]].
  destruct (number_ok Size _ (or_introl eq_refl) (V Size) Nz) as [z Ez].
  destruct (number_ok LineSpacing _ (or_intror eq_refl) (V LineSpacing) Nl) as [l El].
  cbn [get] in Ez, El.
  destruct (loop_facts fmt (fmt (PNum x)) (z * l) styles ident id_index base V Vs Hh ts 0 (prio base) [] Hk)
    as [cs [E [M [L [G _]]]]]; auto.
  { cbn. reflexivity. }
  { intros s []. }
  destruct (open_block fmt (pys "text") (text_attrs a) (Some base) eq_refl (text_attrs_extra a))
    as [M1 [L1 [l1 [K1 G1]]]].
  destruct (open_block fmt tspan variant_attrs None eq_refl variant_extra) as [M2 [L2 [l2 [K2 G2]]]].
  cbv zeta in *.
  assert (F : fits fmt base [] [l2; l1]).
  { exists [], l2, l1, None. cbn [app]. auto 6. }
  destruct (G _ F) as [gs [ar [[ls [lb [lt [o [-> [F1 [Lb [Ho Lt]]]]]]]] [G' R]]]].
  inversion F1; subst. cbn [app] in G'.
  exists ((CElement (pys "text") :: map set_call (text_attrs a) ++ set_font fmt base) ++
      (CElement tspan :: map set_call variant_attrs ++ []) ++ cs ++ [CClose (Some tspan); CClose (Some (pys "text"))]).
  split.
  - match goal with |- ?d = (?c, _) => assert (D : exists c', d = (c', Ok tt) /\ c' = c) end.
    { eexists. split.
      - unfold draw_text, calls, lift. apply tb. rewrite Ea. apply tb. apply tb. rewrite Ez, El. cbn [rbind].
        apply tb. apply tb. rewrite (num_prio base V). apply tb. cbn [rev app] in E. rewrite E. apply tb.
        reflexivity.
      - rewrite text_calls. unfold variant_attrs. rewrite !app_nil_r. cbn [app flat_map].
        rewrite <- !app_assoc. cbn [app]. rewrite <- !app_assoc.
        destruct (truthy (s_variant base)); reflexivity. }
    destruct D as [c' [D ->]]. exact D.
  - split; [|split].
    + intros st. eapply moves_app; [apply M1|]. eapply moves_app; [apply M2|].
      eapply moves_app; [apply (M (pys "text" :: st))|].
      apply (moves_app [CClose (Some tspan)] [CClose (Some (pys "text"))] _ (pys "text" :: st)); apply moves_close.
    + intros A T Ht. apply lawful_calls_app; [apply L1|].
      * destruct A as [_ [_ [Ax [Aq Ai]]]]. unfold text_attrs.
        assert (Id : forall d, ident = Some d -> legal_value d = true) by auto.
        destruct ident as [d|]; [destruct id_index|]; destruct transform as [t|];
          repeat constructor; cbn [fst snd]; auto.
      * apply A.
      * apply lawful_calls_app; [apply L2|].
        -- unfold variant_attrs. destruct A as [[P _] _]. specialize (P VariantNumeric). cbn [get] in P.
           destruct (truthy (s_variant base)); repeat constructor; auto.
        -- exact I.
        -- apply lawful_calls_app; [apply L; auto|]. repeat constructor.
    + rewrite G1, G2, G'. cbn [call_glyphs]. rewrite app_nil_r. exact R.
Qed.
End Whole.

Lemma rel_look : forall fmt styles base g h,
  (forall n s, styles n = Some s -> valid_style s /\ printable fmt s /\ ~ switches_off s) ->
  valid_style base -> printable fmt base -> rel fmt styles base g h -> same_look fmt g h.
Proof.
  intros fmt styles base [c ar] [c' l] Hs Vb Pb [sts [F [E [K C]]]]. cbn [fst snd] in *. subst.
  apply fits_look; auto. intros s X. destruct (K s X) as [n Hn]. eauto.
Qed.

Lemma forall2_imp : forall {A B} (P Q : A -> B -> Prop) l l', (forall a b, P a b -> Q a b) ->
  Forall2 P l l' -> Forall2 Q l l'.
Proof. intros A B P Q l l' H F. induction F; constructor; auto. Qed.

(** Both backends. *)
Lemma visible_glyphs : forall styles ts st empty, no_fillers ts ->
  filter visible (cairo_glyphs styles st empty ts) = glyphs styles st ts.
Proof.
  intros styles ts. induction ts as [|t ts IH]; intros st empty H; auto.
  assert (H' : no_fillers ts) by (intros u X; apply H; now right).
  destruct t as [s|n|n|]; cbn [cairo_glyphs glyphs]; auto.
  - rewrite filter_app, IH by auto. f_equal.
    destruct (H s (or_introl eq_refl)) as [H1 H2]. clear -H1 H2.
    induction s as [|c s IHs]; auto. cbn [map filter]. unfold visible at 1. cbn [fst].
    destruct (N.eqb_spec c 10) as [->|N1]; [destruct H1; now left|].
    destruct (N.eqb_spec c invisible_space) as [->|N2]; [destruct H2; now left|].
    cbn [negb andb]. f_equal. apply IHs; intros X; [apply H1|apply H2]; now right.
  - rewrite !filter_app, IH by auto.
    assert (Z : forall l, (forall g : char * list style, In g l -> fst g = 10%N \/ fst g = invisible_space) ->
      filter visible l = []).
    { induction l as [|g l IHl]; intros Hl; auto. cbn [filter].
      assert (V : visible g = false) by (unfold visible; destruct (Hl g (or_introl eq_refl)) as [-> | ->]; reflexivity).
      rewrite V. apply IHl. intros. apply Hl. now right. }
    destruct (newline_chars n empty (effective st)) as [_ Hg]. unfold newline_glyphs in Hg.
    rewrite app_assoc, <- filter_app, (Z _ (fun g X => proj2 (Hg g X))). reflexivity.
Qed.

Lemma filter_forall2 : forall {A B} (R : A -> B -> Prop) f g l l',
  (forall a b, R a b -> f a = g b) -> Forall2 R l l' -> Forall2 R (filter f l) (filter g l').
Proof.
  intros A B R f g l l' H F. induction F as [|a b l l' Hab F IH]; cbn; auto.
  rewrite (H a b Hab). destruct (g b); auto.
Qed.

Lemma flag_sum : forall a w l s, a = Bold \/ a = Italic -> valid_style s -> sum_of l s ->
  flag (value a l) w = if truthy (get s a) then Some (pys w) else None.
Proof.
  intros a w l s Ha V S. rewrite <- S. specialize (V a).
  assert (W : get s a = PNone \/ exists b, get s a = PBool b) by (destruct Ha as [-> | ->]; exact V).
  destruct W as [-> |[[] ->]]; reflexivity.
Qed.
