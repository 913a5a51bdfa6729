(** Properties of the measurement of texts with Inkscape: C97. *)
From Coq Require Import List ZArith NArith QArith Bool String Lia.
From Verif Require Import Py PyFacts TextProofs TextMerge TextLines XmlModel XmlSpec XmlProofs XmlProps StyleModel StyleSpec StyleProofs
  TextModel TextSpec TextBoxModel DrawModel DrawSpec MeasureModel MeasureSpec DrawProofs DrawLoop DrawFacts DrawProps
  MeasureProofs.
From Verif Require PageProofs.
Import ListNotations.
Local Open Scope nat_scope.

(** ** C97 *)

(** The conditions of C40_svg_partial on a text. *)
Definition measurable (fmt : pyval -> str) (styles : str -> option style) (base : style) (ts : list token) : Prop :=
  balanced ts /\ known_names styles ts /\ complete base /\
  (forall n s, styles n = Some s -> valid_style s /\ printable fmt s /\ ~ switches_off s) /\
  (forall n, dummyb n = true -> styles n = None) /\ regular styles [Some base] ts /\
  printable fmt base /\ (forall q, legal_value (fmt (PNum q)) = true) /\ legal_texts ts.
Definition query_attrs : list (str * str) :=
  [(pys "xmlns", pys "http://www.w3.org/2000/svg"); (pys "xmlns:xlink", pys "http://www.w3.org/1999/xlink")].

Lemma query_read : forall data ns, read data = Some ns -> ~ In 13%N data ->
  exists doc, query_document data = Ok doc /\ read doc = Some [NElem (pys "svg") query_attrs ns].
Proof.
  intros data ns R N.
  set (t := WElem (pys "svg") (map (fun a : str * str => (fst a, snd a, true)) query_attrs) (Some (pys "svg")) [WRaw data]).
  assert (C : Forall closes [t]) by (constructor; [|constructor]; cbn; auto).
  assert (L : Forall lawful [t]).
  { constructor; [|constructor]. cbn. split; [reflexivity|].
    split; [repeat (apply NoDup_cons; [cbn [In]; intuition discriminate|]); apply NoDup_nil|].
    split; [repeat constructor|]. split; [|exact I]. split; [now exists ns|exact N]. }
  destruct (PageProofs.forest_alone [t] C) as (w & W1 & W2). exists (flat_map show [t]). split.
  - unfold query_document. change (query_begin ++ [CRaw data; CClose (Some (pys "svg"))]) with (forest_calls [t]).
    rewrite W1. cbn [rbind]. exact W2.
  - rewrite (forest_read [t] L). unfold forest_nodes, t. cbn [flat_map tree_nodes]. rewrite R, !app_nil_r.
    reflexivity.
Qed.

(** Inkscape gets a document with the text as it is drawn: every character looks as it should
    (C40).  If the whole text is measured, the element with the name "target" is around all
    characters; if the block that the token number [k] opens is measured, it is around the
    characters from there to the end of the block or of the line, and there is exactly one
    such element. *)
Theorem C97_measured_partial : forall fmt styles base ts k, measurable fmt styles base ts ->
  exists data doc ns, text_data fmt ts base styles k = Ok data /\ query_document data = Ok doc /\
    read doc = Some [NElem (pys "svg") query_attrs ns] /\
    Forall2 (same_look fmt) (flat_map (doc_glyphs []) ns) (glyphs styles [Some base] ts) /\
    map (within asked) (flat_map (doc_glyphs []) ns) =
      match k with None => map (fun _ => true) (text_chars ts) | Some _ => covered k 0 None ts end /\
    count_id asked [NElem (pys "svg") query_attrs ns] =
      match k with None => 1 | Some j => match nth_error ts j with Some (TBegin _) => 1 | _ => 0 end end.
Proof.
  intros fmt styles base ts k (Hb & Hk & Hc & Vs & Hh & Hr & Pb & Pq & T).
  assert (Vs1 : forall n s, styles n = Some s -> valid_style s) by (intros n s H; now apply (Vs n s)).
  destruct (draw_facts fmt 0%Q 0%Q styles (Some target) k None base ts Hb Hk Hc Vs1 Hh Hr) as (cs & E & M & L & R).
  assert (P : Forall plain cs).
  { assert (Q := text_plain fmt 0%Q 0%Q ts base styles (Some target) k None). now rewrite E in Q. }
  change asked with target.
  assert (I := text_ids fmt target 0%Q 0%Q ts base styles k None cs E).
  assert (K := text_marks fmt target 0%Q 0%Q styles k None base ts cs Hb Hk Hc Vs1 Hh Hr E).
  destruct (M [] new_xml eq_refl) as (w & W1 & W2).
  destruct (proj1 (C43_nested cs)) as (f & Fc & Ef).
  { exists w, (List.concat (x_chunks w)). split; [exact W1|]. unfold to_string. now rewrite W2. }
  assert (Lf : Forall lawful f).
  { apply lawful_forest. rewrite <- Ef. apply L; auto; [|discriminate].
    split; [exact Pb|]. split; [intros n s H; now apply (Vs n s)|]. split; [apply Pq|]. split; [exact Pq|].
    intros d Hd. injection Hd as <-. reflexivity. }
  destruct (PageProofs.forest_alone f Fc) as (w' & F1 & F2).
  destruct (query_read (flat_map show f) (forest_nodes f) (forest_read f Lf) (PageProofs.forest_no_cr f Lf)) as (doc & Q1 & Q2).
  exists (flat_map show f), doc, (forest_nodes f). split.
  { unfold text_data. rewrite E. unfold perform. cbn [fst snd]. rewrite Ef, F1. cbn [rbind]. exact F2. }
  split; [exact Q1|]. split; [exact Q2|].
  rewrite <- call_glyphs_forest, <- Ef. split.
  { apply (forall2_imp (rel fmt styles base)); auto. intros g h Hgh. apply (rel_look fmt styles base); auto. apply Hc. }
  split.
  - rewrite marks_glyphs by exact P. cbn [map]. rewrite K. destruct k as [j|].
    + cbn. now rewrite map_id.
    + clear. assert (G : forall i o, map (orb true) (covered None i o ts) = map (fun _ => true) (text_chars ts)); [|apply G].
      induction ts as [|[s|n|n|] ts IH]; intros i o; cbn [covered text_chars flat_map]; try (apply IH); [reflexivity|].
      rewrite !map_app, IH. f_equal. rewrite map_map. now apply map_ext.
  - change [NElem (pys "svg") query_attrs (forest_nodes f)] with ([NElem (pys "svg") query_attrs (forest_nodes f)]).
    assert (Z : count_id target [NElem (pys "svg") query_attrs (forest_nodes f)] = count_id target (forest_nodes f)).
    { unfold count_id. cbn [flat_map attributes]. rewrite app_nil_r, filter_app. reflexivity. }
    rewrite Z, <- ids_forest by (rewrite <- Ef; exact P). rewrite <- Ef, I. destruct k as [j|]; [|reflexivity].
    unfold begins_at. cbn [Nat.leb]. now rewrite Nat.sub_0_r.
Qed.
Print Assumptions C97_measured_partial.

Lemma covered_none : forall k i ts, (forall j, k = Some j -> j < i \/ i + List.length ts <= j) ->
  covered k i None ts = map (fun _ => false) (text_chars ts).
Proof.
  intros k i ts. revert i. induction ts as [|t ts IH]; intros i H; [reflexivity|].
  assert (H' : forall j, k = Some j -> j < S i \/ S i + List.length ts <= j).
  { intros j Hj. specialize (H j Hj). cbn [List.length] in H. lia. }
  destruct t as [s|n|n|]; cbn [covered text_chars flat_map]; try (now apply IH).
  - rewrite map_app. f_equal. now apply IH.
  - assert (Z : match k with Some j => if Nat.eqb j i then Some 0 else None | None => None end = None).
    { destruct k as [j|]; [|reflexivity]. specialize (H j eq_refl). cbn [List.length] in H.
      destruct (Nat.eqb_spec j i); [lia|reflexivity]. }
    rewrite Z. now apply IH.
Qed.
Lemma covered_before : forall k i ts rest, (forall j, k = Some j -> i + List.length ts <= j) ->
  covered k i None (ts ++ rest) = map (fun _ => false) (text_chars ts) ++ covered k (i + List.length ts) None rest.
Proof.
  intros k i ts rest. revert i. induction ts as [|t ts IH]; intros i H; [cbn; now rewrite Nat.add_0_r|].
  assert (H' : forall j, k = Some j -> S i + List.length ts <= j).
  { intros j Hj. specialize (H j Hj). cbn [List.length] in H. lia. }
  specialize (IH (S i) H'). cbn [List.length]. rewrite Nat.add_succ_r.
  destruct t as [s|n|n|]; cbn [app covered text_chars flat_map]; try exact IH.
  - rewrite map_app, <- app_assoc. f_equal. exact IH.
  - assert (Z : match k with Some j => if Nat.eqb j i then Some 0 else None | None => None end = None).
    { destruct k as [j|]; [|reflexivity]. specialize (H j eq_refl). cbn [List.length] in H.
      destruct (Nat.eqb_spec j i); [lia|reflexivity]. }
    rewrite Z. exact IH.
Qed.
Lemma covered_inner : forall k ts i a b rest, no_newline ts -> nest a ts = Some b ->
  covered k i (Some a) (ts ++ rest) = map (fun _ => true) (text_chars ts) ++ covered k (i + List.length ts) (Some b) rest.
Proof.
  intros k. induction ts as [|t ts IH]; intros i a b rest N H.
  - cbn in H. injection H as <-. cbn. now rewrite Nat.add_0_r.
  - assert (N' : no_newline ts) by (intros n X; apply (N n); now right).
    cbn [List.length]. rewrite Nat.add_succ_r.
    destruct t as [s|n|n|]; cbn [app covered text_chars flat_map nest] in *.
    + rewrite map_app, <- app_assoc. f_equal. now apply (IH (S i)).
    + exfalso. apply (N n). now left.
    + now apply (IH (S i)).
    + destruct a as [|a]; [discriminate|]. now apply (IH (S i)).
Qed.

(** A block without line breaks: exactly its characters are inside of the element that is
    measured, of which there is exactly one. *)
Theorem C97_block_partial : forall fmt styles base before n inner after,
  let ts := before ++ TBegin n :: inner ++ TEnd :: after in
  measurable fmt styles base ts -> balanced inner -> no_newline inner ->
  exists data doc ns, text_data fmt ts base styles (Some (List.length before)) = Ok data /\
    query_document data = Ok doc /\ read doc = Some [NElem (pys "svg") query_attrs ns] /\
    Forall2 (same_look fmt) (flat_map (doc_glyphs []) ns) (glyphs styles [Some base] ts) /\
    map (within asked) (flat_map (doc_glyphs []) ns) =
      map (fun _ => false) (text_chars before) ++ map (fun _ => true) (text_chars inner) ++
      map (fun _ => false) (text_chars after) /\
    count_id asked [NElem (pys "svg") query_attrs ns] = 1.
Proof.
  intros fmt styles base before n inner after ts H B N.
  destruct (C97_measured_partial fmt styles base ts (Some (List.length before)) H) as (data & doc & ns & H1 & H2 & H3 & H4 & H5 & H6).
  exists data, doc, ns. split; [exact H1|]. split; [exact H2|]. split; [exact H3|]. split; [exact H4|]. split.
  - rewrite H5. unfold ts. rewrite covered_before by (intros j Hj; injection Hj as <-; lia). f_equal.
    cbn [covered Nat.add]. rewrite Nat.eqb_refl. rewrite (covered_inner _ inner _ 0 0 _ N B). f_equal.
    cbn [covered]. apply covered_none. intros j Hj. injection Hj as <-. lia.
  - rewrite H6. unfold ts. rewrite nth_error_app2, Nat.sub_diag by lia. reflexivity.
Qed.
Print Assumptions C97_block_partial.

(** A block with a line break: only its first line is inside of the element. *)
Theorem C97_newline_refuted : exists ts data doc ns,
  ts = [TBegin (pys "b"); TText (pys "xy"); TNewline 1; TText (pys "z"); TEnd] /\
  text_data ex_fmt ts ex_base ex_styles (Some 0) = Ok data /\ query_document data = Ok doc /\ read doc = Some ns /\
  map fst (flat_map (doc_glyphs []) ns) = pys "xyz" /\
  map (within asked) (flat_map (doc_glyphs []) ns) = [true; true; false].
Proof.
  do 4 eexists. split; [reflexivity|]. split; [vm_compute; reflexivity|]. split; [vm_compute; reflexivity|].
  split; [vm_compute; reflexivity|]. split; vm_compute; reflexivity.
Qed.
Print Assumptions C97_newline_refuted.

(** *** Inline boxes *)
Lemma extract_line_shape : forall pre line post k, balanced (pre ++ line ++ post) ->
  no_newline line -> k < List.length line ->
  (pre = [] \/ exists p n, pre = p ++ [TNewline n]) ->
  (post = [] \/ exists n p, post = TNewline n :: p) ->
  let st := TextSpec.after [] pre in
  exists m, extract_line (pre ++ line ++ post) (List.length pre + k) =
    Ok (rev (map TBegin st) ++ line ++ repeat TEnd m, Z.of_nat (List.length st + k)).
Proof.
  intros pre line post k HB Hl0 Hk Hpre Hpost st.
  assert (Hl : newline_free line).
  { apply Forall_forall. intros t Ht. destruct t as [s|n|s|]; auto. exfalso. now apply (Hl0 n). }
  unfold extract_line.
  destruct (Nat.leb_spec (List.length (pre ++ line ++ post)) (List.length pre + k)) as [Hx|_].
  { rewrite !app_length in Hx. lia. }
  replace (S (List.length pre + k)) with (List.length pre + S k) by lia.
  rewrite line_begin_spec by (auto; lia).
  assert (E0 : skipn (List.length pre + k) (pre ++ line ++ post) = skipn k line ++ post).
  { rewrite skipn_app. replace (List.length pre + k - List.length pre) with k by lia.
    rewrite skipn_all2 by lia. simpl. rewrite skipn_app.
    replace (k - List.length line) with 0 by lia. reflexivity. }
  rewrite E0. rewrite line_rest_spec; auto.
  2:{ unfold newline_free in *. rewrite Forall_forall in *. intros t Ht. apply Hl.
      rewrite <- (firstn_skipn k line). apply in_or_app. auto. }
  rewrite skipn_length. rewrite firstn_app, Nat.sub_diag, firstn_all, firstn_O, app_nil_r.
  rewrite skipn_app_len.
  replace (List.length pre + k + (List.length line - k) - List.length pre) with (List.length line) by lia.
  rewrite firstn_app, Nat.sub_diag, firstn_all, firstn_O, app_nil_r.
  unfold balanced in HB. rewrite nest_app in HB.
  destruct (nest 0 pre) as [d|] eqn:Ed; [|discriminate].
  destruct (open_blocks_from_spec pre [] d Ed) as [Eb Ea]. simpl map in Eb.
  unfold open_blocks. rewrite Eb. cbn [rbind].
  fold st.
  eexists. rewrite <- app_assoc. rewrite rev_length, map_length. f_equal. f_equal. lia.
Qed.

Lemma covered_shift : forall k a i o ts, covered (Some (a + k)) (a + i) o ts = covered (Some k) i o ts.
Proof.
  intros k a i o ts. revert i o. induction ts as [|[s|n|n|] ts IH]; intros i o; [reflexivity| | | |];
    cbn [covered]; rewrite <- ?Nat.add_succ_r, ?IH; auto.
  destruct o as [q|]; [reflexivity|].
  assert (Z : Nat.eqb (a + k) (a + i) = Nat.eqb k i).
  { destruct (Nat.eqb_spec (a + k) (a + i)), (Nat.eqb_spec k i); auto; lia. }
  now rewrite Z.
Qed.
Lemma covered_ends : forall k i o m, covered k i o (repeat TEnd m) = [].
Proof. intros k i o m. revert i o. induction m; intros i o; cbn [repeat covered]; auto. Qed.
Lemma covered_app_ends : forall k i o ts m, covered k i o (ts ++ repeat TEnd m) = covered k i o ts.
Proof.
  intros k i o ts m. revert i o. induction ts as [|[s|n|n|] ts IH]; intros i o; cbn [app covered]; auto.
  - apply covered_ends.
  - now rewrite IH.
Qed.
Lemma covered_line : forall k i o ts post, (post = [] \/ exists n p, post = TNewline n :: p) ->
  (forall j, k = Some j -> j < i + List.length ts) ->
  covered k i o (ts ++ post) = covered k i o ts ++ map (fun _ => false) (text_chars post).
Proof.
  intros k i o ts post Hp. revert i o. induction ts as [|t ts IH]; intros i o H.
  - cbn [app covered]. destruct Hp as [->|(n & p & ->)]; [reflexivity|]. cbn [covered text_chars flat_map app].
    apply covered_none. intros j Hj. specialize (H j Hj). cbn in H. lia.
  - assert (H' : forall j, k = Some j -> j < S i + List.length ts).
    { intros j Hj. specialize (H j Hj). cbn [List.length] in H. lia. }
    destruct t as [s|n|n|]; cbn [app covered]; rewrite IH by exact H'; auto. now rewrite app_assoc.
Qed.
Lemma begins_chars : forall st, text_chars (rev (map TBegin st)) = [].
Proof.
  induction st as [|n st IH]; [reflexivity|]. cbn [map rev]. unfold text_chars in *. now rewrite flat_map_app, IH.
Qed.
Lemma ends_chars : forall m, text_chars (repeat TEnd m) = [].
Proof. induction m; auto. Qed.

(** An inline box measures the line of its block, taken out of the text: [line] is that line
    and [k] the place of the block in it.  The line has the same characters, and among them
    those are covered that are covered in the whole text; the rest of the text has none. *)
Theorem C97_inline : forall pre line post k n, let ts := pre ++ line ++ post in
  balanced ts -> no_newline line -> nth_error line k = Some (TBegin n) ->
  (pre = [] \/ exists p i, pre = p ++ [TNewline i]) ->
  (post = [] \/ exists i p, post = TNewline i :: p) ->
  exists out j, extract_line ts (List.length pre + k) = Ok (out, Z.of_nat j) /\
    nth_error out j = Some (TBegin n) /\ text_chars out = text_chars line /\
    covered (Some (List.length pre + k)) 0 None ts =
      map (fun _ => false) (text_chars pre) ++ covered (Some j) 0 None out ++
      map (fun _ => false) (text_chars post).
Proof.
  intros pre line post k n ts HB Hl Hn Hpre Hpost.
  assert (Hk : k < List.length line) by (apply nth_error_Some; now rewrite Hn).
  destruct (extract_line_shape pre line post k HB Hl Hk Hpre Hpost) as (m & E). set (st := TextSpec.after [] pre) in *.
  assert (Lb : List.length (rev (map TBegin st)) = List.length st) by now rewrite rev_length, map_length.
  eexists _, _. split; [exact E|]. split; [|split].
  - rewrite nth_error_app2 by (rewrite Lb; lia). rewrite Lb.
    replace (List.length st + k - List.length st) with k by lia. rewrite nth_error_app1; auto.
  - unfold text_chars in *. rewrite !flat_map_app. fold (text_chars (rev (map TBegin st))). rewrite begins_chars.
    fold (text_chars (repeat TEnd m)). rewrite ends_chars. now rewrite app_nil_r.
  - unfold ts. rewrite covered_before by (intros j Hj; injection Hj as <-; lia). f_equal.
    replace (0 + List.length pre) with (List.length pre + 0) by lia. rewrite covered_shift.
    rewrite (covered_before _ 0 (rev (map TBegin st))) by (intros j Hj; injection Hj as <-; rewrite Lb; lia).
    rewrite begins_chars, Lb. cbn [map app]. replace (0 + List.length st) with (List.length st + 0) by lia.
    rewrite covered_shift, covered_app_ends. apply covered_line; [exact Hpost|].
    intros j Hj. injection Hj as <-. exact Hk.
Qed.
Print Assumptions C97_inline.

Example ex_C97_inline : exists out,
  extract_line [TBegin (pys "a"); TText (pys "p"); TNewline 1; TText (pys "q"); TBegin (pys "b");
                TText (pys "rs"); TNewline 1; TText (pys "t"); TEnd; TEnd] (3 + 1) = Ok (out, 2%Z) /\
  covered (Some 2) 0 None out = [false; true; true].
Proof. eexists. split; vm_compute; reflexivity. Qed.

(** *** Measured and drawn *)

(** Two characters of documents look the same. *)
Definition same_display (g h : char * list (list (str * str))) : Prop :=
  fst g = fst h /\
  (forall p, In p [pys "font-family"; pys "font-size"] -> inherited p (snd g) = inherited p (snd h)) /\
  (forall p, In p [pys "fill"; pys "fill-opacity"; pys "font-weight"; pys "font-style"] ->
     property p (snd g) = property p (snd h)).
Theorem C97_as_drawn_partial : forall fmt styles base ts k x y transform w out,
  measurable fmt styles base ts -> (forall t, transform = Some t -> legal_value t = true) ->
  perform new_xml (draw_text fmt x y ts base styles None None transform) = Ok w -> to_string w = Ok out ->
  exists data doc ns drawn, text_data fmt ts base styles k = Ok data /\ query_document data = Ok doc /\
    read doc = Some [NElem (pys "svg") query_attrs ns] /\ read out = Some drawn /\
    Forall2 same_display (flat_map (doc_glyphs []) ns) (flat_map (doc_glyphs []) drawn).
Proof.
  intros fmt styles base ts k x y transform w out H Ht Hw Ho.
  destruct (C97_measured_partial fmt styles base ts k H) as (data & doc & ns & H1 & H2 & H3 & H4 & _).
  destruct H as (Hb & Hk & Hc & Vs & Hh & Hr & Pb & Pq & T).
  assert (Vs1 : forall n s, styles n = Some s -> valid_style s) by (intros n s H; now apply (Vs n s)).
  destruct (draw_facts fmt x y styles None None transform base ts Hb Hk Hc Vs1 Hh Hr) as (cs & E & M & L & R).
  rewrite E in Hw. unfold perform in Hw. cbn [fst snd] in Hw.
  destruct (xrun new_xml cs) as [w'|] eqn:Ew; [|discriminate]. cbn in Hw. injection Hw as ->.
  destruct (proj1 (C43_nested cs)) as [f [F ->]]. { eauto. }
  exists data, doc, ns, (forest_nodes f). split; [exact H1|]. split; [exact H2|]. split; [exact H3|]. split.
  - apply (C72_read_back_partial f w out F); auto. apply lawful_forest. apply L; auto.
    split; [exact Pb|]. split; [intros n s X; now apply (Vs n s)|]. split; [apply Pq|]. split; [exact Pq|]. discriminate.
  - rewrite <- (call_glyphs_forest f).
    assert (R' : Forall2 (same_look fmt) (call_glyphs [] (forest_calls f)) (glyphs styles [Some base] ts)).
    { apply (forall2_imp (rel fmt styles base)); auto. intros g h Hgh. apply (rel_look fmt styles base); auto. apply Hc. }
    clear -H4 R'. revert R'. generalize (call_glyphs [] (forest_calls f)). induction H4 as [|g h l l' G _ IH]; intros l2 R.
    + inversion R. constructor.
    + inversion R as [|g2 ? l2' ? G2 R2]; subst. constructor; [|now apply IH].
      destruct G as (A1 & A2 & A3 & A4 & A5 & A6 & A7), G2 as (B1 & B2 & B3 & B4 & B5 & B6 & B7).
      split; [congruence|]. split; intros p Hp; cbn [In] in Hp;
        repeat (destruct Hp as [<-|Hp]; [congruence|]); destruct Hp.
Qed.
Print Assumptions C97_as_drawn_partial.

(** A text with a style inside of a style, and without the style "default" of the examples. *)
Definition two_styles (n : str) : option style := if str_eqb n (pys "default") then None else ex_styles n.
Example ex_C97 :
  let before := [TText (pys "a "); TBegin (pys "b"); TText (pys "b")] in
  let inner := [TText (pys "c"); TBegin (pys "b"); TText (pys "d"); TEnd] in
  let after := [TText (pys "e"); TEnd; TNewline 1; TText (pys "f")] in
  let ts := before ++ TBegin (pys "r") :: inner ++ TEnd :: after in
  measurable ex_fmt two_styles ex_base ts /\ balanced inner /\ no_newline inner /\
  exists data, text_data ex_fmt ts ex_base two_styles (Some 3) = Ok data.
Proof.
  cbv zeta.
  assert (S : forall n s, two_styles n = Some s -> ex_styles n = Some s /\ n <> pys "default").
  { intros n s H. unfold two_styles in H. destruct (str_eqb n (pys "default")) eqn:E; [discriminate|]. split; [exact H|].
    intros ->. rewrite str_eqb_refl in E. discriminate. }
  split; [|split; [reflexivity|split; [intros n H; cbn [In] in H; intuition discriminate|eexists; vm_compute; reflexivity]]].
  split; [reflexivity|]. split.
  { intros n H. cbn [In app] in H.
    repeat (destruct H as [H|H]; [try discriminate; injection H as <-; right; discriminate|]). destruct H. }
  split; [exact ex_complete|]. split.
  { intros n s H. destruct (S n s H) as [H' N]. split; [now apply (ex_valid n)|]. split; [now apply (ex_printable n)|].
    unfold ex_styles in H'. destruct (str_eqb n (pys "default")) eqn:E; [apply str_eqb_eq in E; contradiction|].
    destruct (str_eqb n (pys "b")); [|destruct (str_eqb n (pys "r")); [|discriminate]]; injection H' as <-; intros [X|X]; discriminate. }
  split.
  { intros n H. unfold two_styles. rewrite (ex_hash n H). now destruct (str_eqb n (pys "default")). }
  split; [vm_compute; intuition discriminate|]. split; [now apply (ex_printable (pys "default"))|]. split; [reflexivity|].
  intros t H. cbn [In app] in H. repeat (destruct H as [H|H]; [try discriminate; injection H as <-; reflexivity|]). destruct H.
Qed.
