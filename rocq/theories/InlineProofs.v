(** Proofs about the measurement of inline boxes with Cairo. *)
From Coq Require Import List ZArith NArith QArith Bool String Lia.
From Verif Require Import Py PyFacts TextProofs TextMerge TextLines LayoutModel StyleModel StyleSpec StyleProofs TextModel TextSpec
  TextBoxModel TextBoxSpec TextBoxProofs DrawModel DrawSpec MeasureSpec InlineModel DrawLoop DrawCairo.
From Verif Require DrawProps.
Import ListNotations.
Local Open Scope nat_scope.

(** ** Looks *)
Definition attrs_of (l : list style) : pango_attrs :=
  mkPango (value Size l) (value Font l) (value Color l) (truthy (value Bold l)) (truthy (value Italic l)).
Definition look_of (g : char * list style) : look := (fst g, Some (attrs_of (snd g))).

Lemma sum_attrs : forall l s, sum_of l s -> style_to_attributes s = attrs_of l.
Proof.
  intros l s H. unfold style_to_attributes, attrs_of.
  now rewrite <- (H Size), <- (H Font), <- (H Color), <- (H Bold), <- (H Italic).
Qed.
Lemma width_bytes : forall c, ~ (55296 <= c <= 57343)%N -> bytes_of c = width c.
Proof. intros c H. destruct (utf8_width c H) as (bs & E & L). unfold bytes_of. now rewrite E. Qed.
Lemma looks_of_pango : forall segs text off out, encodable text -> pango segs off text out ->
  looks_from segs off text = map (fun h => (fst h, Some (style_to_attributes (snd h)))) out.
Proof.
  intros segs. induction text as [|c text IH]; intros off out He H; destruct out as [|[c' s] out]; try contradiction; [reflexivity|].
  cbn [pango] in H. destruct H as (-> & K & H). cbn [looks_from map fst snd].
  rewrite (width_bytes c) by (apply He; now left). f_equal; [|apply IH; [intros d X; apply He; now right|exact H]].
  f_equal. specialize (K 0). rewrite Nat.add_0_r in K.
  assert (P : 0 < width c). { unfold width. repeat destruct (_ <? _)%N; lia. }
  destruct (K P) as [(g & G1 & G2) U].
  destruct (find (has_byte off) segs) as [h|] eqn:E.
  - apply find_some in E. destruct E as [E1 E2]. cbn. now rewrite (U h E1 E2).
  - exfalso. apply (find_none _ _ E) in G1. unfold covers in G2. unfold has_byte in G1. destruct g as [[g a] b].
    congruence.
Qed.

Section Looks.
Variable styles : str -> option style.
Hypothesis vstyles : forall n s, styles n = Some s -> valid_style s.

Lemma looks_spec : forall ts d s, balanced ts -> known_names styles ts -> styles default_ = Some d -> valid_style s ->
  (forall t, In (TText t) ts -> encodable t) ->
  exists text segs, text_and_attributes ts s styles = Ok (text, segs) /\
    looks_from segs 0 text = map look_of (cairo_glyphs styles [Some (compose d s)] true ts).
Proof.
  intros ts d s Hb Hk Hd V He.
  destruct (cairo_facts styles vstyles ts d s Hb Hk Hd (vstyles _ _ Hd) V He) as [text [segs [out [H1 [H2 [H3 _]]]]]].
  exists text, segs. split; [exact H1|].
  assert (E : text = map fst (cairo_glyphs styles [Some (compose d s)] true ts)).
  { clear -H2 H3. revert H2. generalize 0. revert text. induction H3 as [|h g out gl [Hf _] _ IH]; intros text off H.
    - destruct text; [reflexivity|contradiction].
    - destruct text as [|c text]; [contradiction|]. destruct h as [c' s']. cbn in H. destruct H as (-> & _ & H).
      cbn [map]. cbn [fst] in Hf. rewrite Hf. f_equal. eapply IH. exact H. }
  rewrite (looks_of_pango segs text 0 out); [|rewrite E; clear -He|exact H2].
  - clear -H3. induction H3 as [|h g out gl [Hf Hs] _ IH]; [reflexivity|]. cbn [map]. rewrite IH. f_equal.
    unfold look_of. rewrite Hf, (sum_attrs (snd g)); auto.
  - intros c Hc.
    assert (G : forall ts st e, (forall t, In (TText t) ts -> encodable t) -> In c (map fst (cairo_glyphs styles st e ts)) ->
      ~ (55296 <= c <= 57343)%N); [|now apply (G ts [Some (compose d s)] true)].
    clear. induction ts as [|t ts IH]; intros st e He H; [destruct H|].
    assert (He' : forall t, In (TText t) ts -> encodable t) by (intros t' X; apply He; now right).
    destruct t as [t|n|n|]; cbn [cairo_glyphs] in H; try (now apply (IH _ _ He' H)).
    + rewrite map_app, map_map in H. apply in_app_or in H. destruct H as [H|H]; [|now apply (IH _ _ He' H)].
      rewrite map_id in H. apply (He t); [now left|exact H].
    + rewrite app_assoc in H. fold (newline_glyphs e n (effective st)) in H. rewrite map_app in H.
      apply in_app_or in H. destruct H as [H|H]; [|now apply (IH _ _ He' H)].
      apply in_map_iff in H. destruct H as (g & <- & H). apply newline_chars in H.
      destruct H as [_ [->| ->]]; [|unfold invisible_space]; lia.
Qed.

(** ** Lines *)
Fixpoint around_after (st : surroundings) (ts : list token) : surroundings :=
  match ts with
  | [] => st
  | TBegin n :: ts' => around_after (effect styles st n :: st) ts'
  | TEnd :: ts' => around_after (tl st) ts'
  | _ :: ts' => around_after st ts'
  end.
Fixpoint line_empty (e : bool) (ts : list token) : bool :=
  match ts with
  | [] => e
  | TText s :: ts' => line_empty (e && match s with [] => true | _ => false end) ts'
  | TNewline n :: ts' => line_empty (match n with O => e | _ => true end) ts'
  | _ :: ts' => line_empty e ts'
  end.
Lemma around_app : forall a b st, around_after st (a ++ b) = around_after (around_after st a) b.
Proof. induction a as [|[s|n|n|] a IH]; intros b st; cbn [app around_after]; auto. Qed.
Lemma cairo_app : forall a b st e, cairo_glyphs styles st e (a ++ b) =
  cairo_glyphs styles st e a ++ cairo_glyphs styles (around_after st a) (line_empty e a) b.
Proof.
  induction a as [|[s|n|n|] a IH]; intros b st e; cbn [app cairo_glyphs around_after line_empty]; auto.
  - now rewrite IH, app_assoc.
  - rewrite IH. now rewrite !app_assoc.
Qed.
Lemma cairo_line : forall ts st e, no_newline ts -> cairo_glyphs styles st e ts = glyphs styles st ts.
Proof.
  induction ts as [|t ts IH]; intros st e N; [reflexivity|].
  assert (N' : no_newline ts) by (intros n X; apply (N n); now right).
  destruct t as [s|n|n|]; cbn [cairo_glyphs glyphs]; rewrite ?IH by exact N'; auto.
  exfalso. apply (N n). now left.
Qed.
Lemma glyphs_app : forall a b st, glyphs styles st (a ++ b) = glyphs styles st a ++ glyphs styles (around_after st a) b.
Proof. induction a as [|[s|n|n|] a IH]; intros b st; cbn [app glyphs around_after]; rewrite ?IH, ?app_assoc; auto. Qed.
Lemma glyphs_chars : forall ts st, map fst (glyphs styles st ts) = text_chars ts.
Proof.
  induction ts as [|[s|n|n|] ts IH]; intros st; cbn [glyphs text_chars flat_map]; auto.
  rewrite map_app, map_map, IH. f_equal. apply map_id.
Qed.
Lemma glyphs_begins : forall st names, glyphs styles st (rev (map TBegin names)) = [].
Proof.
  intros st names. assert (G : forall l st, glyphs styles st (map TBegin l) = []).
  { induction l as [|n l IH]; intros; cbn [map glyphs]; auto. }
  rewrite <- map_rev. apply G.
Qed.
Lemma glyphs_ends : forall m st, glyphs styles st (repeat TEnd m) = [].
Proof. induction m; intros; cbn [repeat glyphs]; auto. Qed.

(** The styles that are open at a place have the same effects when only they are opened. *)
Lemma around_names : forall st0 ts names d, nest (List.length names) ts = Some d ->
  around_after (around_after st0 (rev (map TBegin names))) ts =
  around_after st0 (rev (map TBegin (TextSpec.after names ts))).
Proof.
  intros st0. induction ts as [|[s|n|n|] ts IH]; intros names d H; cbn [around_after TextSpec.after nest] in *; [reflexivity| | | |].
  - now apply (IH names d).
  - now apply (IH names d).
  - rewrite <- (IH (n :: names) d H). cbn [map rev]. rewrite around_app. reflexivity.
  - destruct names as [|n names]; [discriminate|]. cbn [List.length tl] in *. rewrite <- (IH names d H).
    cbn [map rev]. rewrite around_app. reflexivity.
Qed.

Definition newlines (l : list (char * list style)) : nat := List.length (filter (fun g => N.eqb (fst g) 10) l).
Lemma newlines_app : forall a b, newlines (a ++ b) = newlines a + newlines b.
Proof. intros. unfold newlines. now rewrite filter_app, app_length. Qed.
Lemma newlines_cairo : forall ts st e, no_nl ts -> newlines (cairo_glyphs styles st e ts) = line_breaks ts.
Proof.
  induction ts as [|t ts IH]; intros st e N; [reflexivity|].
  assert (N' : no_nl ts) by (intros s X; apply N; now right).
  destruct t as [s|n|n|]; cbn [cairo_glyphs line_breaks]; auto.
  - rewrite newlines_app, IH by exact N'. unfold newlines.
    assert (Z : filter (fun g : char * list style => N.eqb (fst g) 10) (map (fun c => (c, effective st)) s) = []).
    { assert (M : ~ In 10%N s) by (apply N; now left). clear -M. induction s as [|c s IH]; [reflexivity|].
      cbn [map filter fst]. destruct (N.eqb_spec c 10) as [->|_]; [exfalso; apply M; now left|]. apply IH. intro X. apply M. now right. }
    now rewrite Z.
  - rewrite app_assoc, newlines_app, IH by exact N'. f_equal.
    assert (R : forall k l, newlines (List.concat (repeat [(invisible_space, l); (10%N, l)] k)) = k).
    { induction k as [|k IHk]; intros l; [reflexivity|]. cbn [repeat List.concat]. rewrite newlines_app, IHk. reflexivity. }
    rewrite newlines_app. assert (Z : newlines (if e then match n with O => [] | _ => [(invisible_space, effective st)] end else []) = 0)
      by (destruct e, n; reflexivity).
    rewrite Z. destruct n as [|k]; [reflexivity|]. cbn [Nat.add]. unfold newlines. cbn [filter fst N.eqb]. cbn [Pos.eqb List.length].
    f_equal. apply R.
Qed.

Lemma lines_first : forall L B, (forall g, In g L -> fst g <> 10%N) ->
  (B = [] \/ exists c B', B = (10%N, c) :: B') -> nth_error (look_lines (L ++ B)) 0 = Some L.
Proof.
  induction L as [|g L IH]; intros B H HB.
  - cbn [app]. destruct HB as [->|(c & B' & ->)]; reflexivity.
  - cbn [app look_lines]. destruct (N.eqb_spec (fst g) 10) as [X|_]; [exfalso; apply (H g); [now left|exact X]|].
    specialize (IH B (fun x X => H x (or_intror X)) HB).
    destruct (look_lines (L ++ B)) as [|x r]; [discriminate|]. cbn [nth_error] in IH |- *. injection IH as ->. reflexivity.
Qed.
Lemma lines_later : forall A c L n, nth_error (look_lines L) n = nth_error (look_lines ((A ++ [(10%N, c)]) ++ L))
  (List.length (filter (fun g : look => N.eqb (fst g) 10) (A ++ [(10%N, c)])) + n).
Proof.
  induction A as [|g A IH]; intros c L n; [reflexivity|]. cbn [app look_lines filter].
  destruct (N.eqb (fst g) 10).
  - cbn [List.length Nat.add nth_error]. apply IH.
  - rewrite (IH c L n). rewrite filter_app. cbn [filter fst N.eqb]. cbn [Pos.eqb]. rewrite app_length. cbn [List.length].
    set (k := List.length _). rewrite Nat.add_1_r. cbn [Nat.add].
    destruct (look_lines ((A ++ [(10%N, c)]) ++ L)); [|reflexivity]. now destruct (k + n).
Qed.

(** ** The line of a block *)
Lemma chars_app : forall a b, text_chars (a ++ b) = text_chars a ++ text_chars b.
Proof. intros. apply flat_map_app. Qed.
Lemma text_chars_plain : forall ts, no_newline ts -> text_chars ts = plain ts.
Proof.
  intros ts N. rewrite plain_text. induction ts as [|t ts IH]; [reflexivity|].
  assert (N' : no_newline ts) by (intros n X; apply (N n); now right). specialize (IH N').
  destruct t as [s|n|n|]; cbn [text_chars flat_map tokens_to_text]; auto.
  - f_equal. exact IH.
  - exfalso. apply (N n). now left.
Qed.
Lemma empty_line : forall ts e, no_newline ts -> text_chars ts <> [] -> line_empty e ts = false.
Proof.
  induction ts as [|t ts IH]; intros e N H; [contradiction H; reflexivity|].
  assert (N' : no_newline ts) by (intros n X; apply (N n); now right).
  destruct t as [s|n|n|]; cbn [line_empty text_chars flat_map] in *; auto.
  - destruct s as [|c s]; [now apply IH|]. rewrite andb_false_r. clear -N'.
    assert (G : forall ts0, no_newline ts0 -> line_empty false ts0 = false); [|].
    { induction ts0 as [|t ts0 IH]; intros N; [reflexivity|].
      assert (N1 : no_newline ts0) by (intros n X; apply (N n); now right).
      destruct t as [u|n|n|]; cbn [line_empty andb]; auto. exfalso. apply (N n). now left. }
    now apply G.
Qed.
End Looks.
