(** Properties of highlighted code and of the styles of a deck: C99. *)
From Coq Require Import List ZArith NArith QArith Bool String Lia.
From Verif Require Import Py PyFacts TextProofs TextMerge TextLines TextCode XmlModel XmlSpec StyleModel StyleSpec StyleProofs
  TextModel TextSpec DrawModel DrawSpec DrawLoop DrawFacts ThemeModel ThemeProofs.
From Verif Require TextProps DrawProps DrawProps2.
Import ListNotations.
Local Open Scope nat_scope.

(** ** Specification *)

(** The characters of the tokens of a lexer, without line breaks, with the types of the tokens. *)
Definition code_chars (toks : list (str * str)) : list (char * str) :=
  flat_map (fun tv => map (fun c => (c, fst tv)) (filter (fun c => negb (N.eqb c 10)) (snd tv))) toks.

(** The value of an attribute for code of a type with entry [e], in a text of style [base]: what the theme says,
    otherwise what the style of the text says. *)
Definition wanted (base : style) (e : entry) (a : attr) : pyval :=
  match a with
  | Color => match e_color e with
             | Some c => if str_eqb c [] then get base Color else PStr (35%N :: c)
             | None => get base Color
             end
  | Bold => if e_bold e then PBool true else get base Bold
  | Italic => if e_italic e then PBool true else get base Italic
  | _ => get base a
  end.
(** The styles of the theme are those that the deck made of it. *)
Definition has_theme (th : theme) (styles : str -> option style) : Prop :=
  exists d, deck_styles th = Ok d /\ forall ty e, In (ty, e) th ->
    styles (pys "pygments-" ++ ty) = assoc (pys "pygments-" ++ ty) d.

(** ** The styles of a deck *)

(** A deck can be created with every theme.  It has the styles of the theme and six others, and all
    of them are valid, have priority 0 and do not switch anything off. *)
Theorem C99_deck_styles : forall th, NoDup (map fst th) -> exists d, deck_styles th = Ok d /\
  (forall ty e, In (ty, e) th -> exists s, assoc (pys "pygments-" ++ ty) d = Some s /\
     forall base a, a <> Priority -> value a [s; base] = wanted base e a) /\
  (forall n, assoc n d <> None <-> (exists ty, In ty (map fst th) /\ n = pys "pygments-" ++ ty) \/
     In n (map pys ["default"; "tt"; "emph"; "alert"; "code"; "code_lineno"]%string)) /\
  (forall n s, assoc n d = Some s -> valid_style s /\ (prio s == 0)%Q /\ ~ switches_off s).
Proof.
  intros th Hn. exists (rev (map (fun te => (pygments_ ++ fst te, entry_style (snd te))) th) ++ basic_styles).
  assert (D := deck_styles_is th). split; [exact D|]. split; [|split].
  - intros ty e Hi. exists (entry_style e). split; [exact (deck_entry th _ ty e D Hn Hi)|].
    intros base a Ha. destruct e as [[[|c r]|] [|] [|]]; destruct a; try contradiction; unfold wanted;
      cbn [value get entry_style e_color e_bold e_italic s_font s_size s_align s_line_spacing s_color s_bold s_italic s_variant
           s_opacity s_priority]; try reflexivity;
      match goal with |- match ?v with PNone => PNone | _ => _ end = _ => destruct v; reflexivity | _ => idtac end.
  - intros n. assert (A : forall (l : list (str * style)) k, assoc k l <> None <-> In k (map fst l)).
    { induction l as [|[k' v] l IH]; intros k; cbn [assoc map fst In]; [tauto|]. destruct (str_eqb k k') eqn:E.
      - apply str_eqb_eq in E. subst. split; [auto|discriminate].
      - rewrite IH. split; [auto|]. intros [->|X]; [|exact X]. rewrite str_eqb_refl in E. discriminate. }
    rewrite A, map_app, in_app_iff, map_rev, <- in_rev, map_map. cbn [fst]. split.
    + intros [X|X]; [left|right; exact X]. apply in_map_iff in X. destruct X as (te & <- & X). exists (fst te).
      split; [now apply in_map|reflexivity].
    + intros [(ty & X & ->)|X]; [left|right; exact X]. apply in_map_iff in X. destruct X as (te & <- & X).
      apply in_map_iff. now exists te.
  - intros n s H. assert (I : In (n, s) (rev (map (fun te => (pygments_ ++ fst te, entry_style (snd te))) th) ++ basic_styles)).
    { revert H. generalize (rev (map (fun te => (pygments_ ++ fst te, entry_style (snd te))) th) ++ basic_styles).
      induction l as [|[k v] l IH]; intros H; [discriminate|]. cbn [assoc] in H. destruct (str_eqb n k) eqn:E.
      - apply str_eqb_eq in E. injection H as <-. subst. now left.
      - right. now apply IH. }
    apply in_app_or in I. destruct I as [I|I].
    + apply in_rev in I. apply in_map_iff in I. destruct I as (te & X & _). injection X as _ <-.
      split; [apply entry_valid|]. split; [reflexivity|]. destruct (snd te) as [[[|c r]|] [|] [|]]; intros [X|X]; discriminate.
    + assert (V : make_style s = Ok s /\ (prio s == 0)%Q /\ ~ switches_off s).
      { cbn [basic_styles In] in I.
        repeat (destruct I as [I|I]; [injection I as _ <-; split; [vm_compute; reflexivity|];
          split; [reflexivity|intros [X|X]; discriminate]|]). destruct I. }
      destruct V as (V & P). split; [now apply make_style_ok in V|exact P].
Qed.
Print Assumptions C99_deck_styles.

(** ** Texts without special priorities *)

(** If the styles of a text have priority 0, none is a mere place, and the style of the whole text has no higher priority,
    then every style has its effect on the characters inside of it, in both backends; the SVG backend can draw the text. *)
Theorem C99_ordinary : forall styles base ts, balanced ts -> no_nl ts -> (prio base <= 0)%Q ->
  (forall n, In (TBegin n) ts -> dummyb n = false /\ exists s, styles n = Some s /\ (prio s == 0)%Q) ->
  known_names styles ts /\ regular styles [Some base] ts /\
  Forall2 (fun g h => fst g = fst h /\ exists l, snd g = l ++ [base] /\ Forall2 (fun s n => styles n = Some s) l (snd h))
    (glyphs styles [Some base] ts) (filter (fun g => negb (N.eqb (fst g) 10)) (styled [] ts)).
Proof.
  intros styles base ts Hb Nl Low Ho. unfold balanced in Hb.
  assert (Nn : nest (List.length (@nil str)) ts <> None) by (cbn [List.length]; rewrite Hb; discriminate).
  split. { intros n H. right. destruct (Ho n H) as (_ & s & E & _). congruence. }
  split; [exact (ordinary_regular styles base Low ts [] (Forall_nil _) Nn Ho)|].
  assert (G := ordinary_glyphs styles base Low ts [] Nl (Forall_nil _) Nn Ho). change (around styles base []) with [Some base] in G.
  rewrite G. clear G.
  assert (In' : forall ts names, Forall (fun n => ordinary styles n) names -> (forall n, In (TBegin n) ts -> ordinary styles n) ->
    Forall (fun g : char * list str => Forall (ordinary styles) (snd g)) (styled names ts)).
  { clear. induction ts as [|t ts IH]; intros names Hf Ho; [constructor|].
    assert (Ho' : forall n, In (TBegin n) ts -> ordinary styles n) by (intros x X; apply Ho; now right).
    destruct t as [s|k|n|]; unfold styled; cbn [events].
    - rewrite chars_app, chars_seen. apply Forall_app. split; [|now apply IH]. unfold styled_text. apply Forall_forall.
      intros g Hg. apply in_map_iff in Hg. destruct Hg as (c & <- & _). cbn [snd]. now destruct (N.eqb c 10).
    - rewrite chars_app, chars_repeat. apply Forall_app. split; [|now apply IH]. apply Forall_forall.
      intros g Hg. apply repeat_spec in Hg. subst. constructor.
    - cbn [chars]. apply IH; auto. constructor; auto. apply Ho. now left.
    - apply IH; auto. destruct names; [constructor|now inversion Hf]. }
  specialize (In' ts [] (Forall_nil _) Ho). fold shown_char.
  revert In'. generalize (styled [] ts). intros l F. induction F as [|g l Hg F IH]; [constructor|]. cbn [filter].
  fold (shown_char g). change (fun g0 : N * list (list N) => negb (N.eqb (fst g0) 10)) with shown_char.
  destruct (shown_char g); [|exact IH]. cbn [map]. constructor; [|exact IH]. cbn [fst snd]. split; [reflexivity|].
  exists (map (style_of styles) (snd g)). split; [reflexivity|]. clear -Hg. induction Hg as [|n ns (_ & s & E & _) _ IH]; constructor; auto.
  unfold style_of. now rewrite E.
Qed.
Print Assumptions C99_ordinary.

(** ** Code *)

Lemma code_filter : forall toks, filter (fun g : char * list str => negb (N.eqb (fst g) 10)) (lexed toks) =
  map (fun ct : char * str => (fst ct, [pys "pygments-" ++ snd ct])) (code_chars toks).
Proof.
  induction toks as [|[ty v] toks IH]; [reflexivity|]. unfold lexed, code_chars in *. cbn [flat_map fst snd].
  rewrite filter_app, map_app, IH. f_equal. rewrite map_map. cbn [fst snd]. clear. unfold styled_text.
  induction v as [|c v IH]; [reflexivity|]. cbn [map filter fst]. destruct (N.eqb c 10); cbn [negb]; [exact IH|].
  cbn [map]. now rewrite IH.
Qed.
Lemma code_names : forall lex text tabsize esc ts n, code_tokens (Some lex) text tabsize false false esc = Ok ts ->
  In (TBegin n) ts -> exists ty v, In (ty, v) (lex (expand_tabs tabsize text)) /\ n = pys "pygments-" ++ ty.
Proof.
  intros lex text tabsize esc ts n H X. unfold code_tokens in H. destruct (delimiters esc) as [[[x y] z]|]; [|discriminate].
  cbn [rbind] in H. destruct (highlight_code lex (expand_tabs tabsize text)) as [q|] eqn:E; [|discriminate].
  cbn [rbind] in H. injection H as <-. exact (highlight_begins lex _ _ n E X).
Qed.

(** Every character of the code has the looks that the theme gives to the type of its token; the rest is as in
    the style of the text.  The SVG backend can draw it. *)
Theorem C99_code : forall th styles base lex text tabsize esc ts,
  NoDup (map fst th) -> has_theme th styles -> (prio base <= 0)%Q ->
  let code := join_with (repeat 32%N tabsize) (split_on 9%N text) in
  (forall ty v, In (ty, v) (lex code) -> In ty (map fst th)) ->
  code_tokens (Some lex) text tabsize false false esc = Ok ts ->
  balanced ts /\ no_nl ts /\ known_names styles ts /\ regular styles [Some base] ts /\ ~ In (TBegin default_) ts /\
  Forall2 (fun g ct => fst g = fst ct /\ exists e, In (snd ct, e) th /\
      forall a, a <> Priority -> value a (snd g) = wanted base e a)
    (glyphs styles [Some base] ts) (code_chars (lex code)).
Proof.
  intros th styles base lex text tabsize esc ts Hn (d & Hd & Ht) Low code Hin H.
  destruct (C99_deck_styles th Hn) as (d' & Hd' & D1 & _ & D3). rewrite Hd in Hd'. injection Hd' as <-.
  assert (Hc : expand_tabs tabsize text = code).
  { unfold code, expand_tabs. clear. induction text as [|c s IH]; auto.
    cbn [flat_map split_on]. destruct (N.eqb_spec c 9).
    - rewrite IH. destruct (split_on_cons 9%N s) as [l [ls ->]]. reflexivity.
    - rewrite IH. destruct (split_on_cons 9%N s) as [l [ls ->]]. destruct ls; reflexivity. }
  assert (Names : forall n, In (TBegin n) ts -> exists ty e, In (ty, e) th /\ n = pys "pygments-" ++ ty).
  { intros n X. destruct (code_names _ _ _ _ _ _ H X) as (ty & v & A & ->). rewrite Hc in A. apply Hin in A.
    apply in_map_iff in A. destruct A as ([ty' e] & <- & A). now exists ty', e. }
  assert (E : highlight_code lex code = Ok ts).
  { unfold code_tokens in H. destruct (delimiters esc) as [[[x y] z]|]; [|discriminate]. cbn [rbind] in H. rewrite Hc in H.
    destruct (highlight_code lex code) as [q|]; [|discriminate]. cbn [rbind] in H. now injection H as <-. }
  destruct (highlight_spec lex code) as (ts' & k & E' & Hb & Hti & _ & Hl). rewrite E in E'. injection E' as <-.
  assert (Nl : no_nl ts) by (apply clean_no_nl; apply Hti).
  assert (Ho : forall n, In (TBegin n) ts -> dummyb n = false /\ exists s, styles n = Some s /\ (prio s == 0)%Q).
  { intros n X. destruct (Names n X) as (ty & e & A & ->). split; [reflexivity|]. destruct (D1 ty e A) as (s & S1 & _).
    exists s. rewrite (Ht ty e A). split; [exact S1|]. now apply (D3 _ _ S1). }
  destruct (C99_ordinary styles base ts Hb Nl Low Ho) as (K & R & F).
  split; [exact Hb|]. split; [exact Nl|]. split; [exact K|]. split; [exact R|].
  split. { intro X. destruct (Names _ X) as (ty & e & _ & Y). discriminate. }
  assert (Fl : filter (fun g : char * list str => negb (N.eqb (fst g) 10)) (styled [] ts) =
    map (fun ct : char * str => (fst ct, [pys "pygments-" ++ snd ct])) (code_chars (lex code))).
  { rewrite <- code_filter, Hl, filter_app.
    assert (Z : filter (fun g : char * list str => negb (N.eqb (fst g) 10)) (repeat (10%N, []) k) = []) by apply filter_breaks.
    change (list N) with str in *. rewrite Z. now rewrite app_nil_r. }
  rewrite Fl in F.
  assert (In' : forall ct, In ct (code_chars (lex code)) -> exists e, In (snd ct, e) th).
  { intros ct X. unfold code_chars in X. apply in_flat_map in X. destruct X as ([ty v] & A & X). apply in_map_iff in X.
    destruct X as (c & <- & _). cbn [fst snd] in *. apply Hin in A. apply in_map_iff in A. destruct A as ([ty' e] & <- & A). eauto. }
  revert F In'. generalize (glyphs styles [Some base] ts), (code_chars (lex code)). clear -D1 Ht.
  intros gs cs F. remember (map _ cs) as ms eqn:Em. revert cs Em. induction F as [|g h gs ms [F1 F2] F IH]; intros cs Em In'.
  - destruct cs; [constructor|discriminate].
  - destruct cs as [|ct cs]; [discriminate|]. cbn [map] in Em. injection Em as -> ->. constructor.
    + cbn [fst snd] in *. split; [exact F1|]. destruct (In' ct (or_introl eq_refl)) as (e & A). exists e. split; [exact A|].
      intros a Ha. destruct F2 as (l & -> & F2). inversion F2 as [|s ? l' ? Hs Hl']; subst. inversion Hl'; subst. cbn [app].
      destruct (D1 _ e A) as (s' & S1 & S2).
      assert (Hs' : styles (pys "pygments-" ++ snd ct) = Some s) by exact Hs. rewrite (Ht _ _ A), S1 in Hs'. injection Hs' as ->. now apply S2.
    + apply IH; [reflexivity|]. intros x X. apply In'. now right.
Qed.
Print Assumptions C99_code.

(** The SVG: characters, font, colour, weight and slant of the code.  Missing: what C40_svg_partial misses. *)
Definition code_look (fmt : pyval -> str) (th : theme) (base : style) (g : char * list (list (str * str))) (ct : char * str) : Prop :=
  exists e, In (snd ct, e) th /\
  fst g = (if N.eqb (fst ct) 32 then 160 else fst ct)%N /\
  inherited (pys "font-family") (snd g) = shown fmt (get base Font) /\
  inherited (pys "font-size") (snd g) = shown fmt (get base Size) /\
  property (pys "fill") (snd g) = shown fmt (wanted base e Color) /\
  property (pys "font-weight") (snd g) = flag (wanted base e Bold) "bold" /\
  property (pys "font-style") (snd g) = flag (wanted base e Italic) "italic".
Theorem C99_svg_partial : forall fmt x y th styles base lex text tabsize esc ts ident transform w out,
  NoDup (map fst th) -> has_theme th styles -> (prio base <= 0)%Q ->
  let code := join_with (repeat 32%N tabsize) (split_on 9%N text) in
  (forall ty v, In (ty, v) (lex code) -> In ty (map fst th)) ->
  code_tokens (Some lex) text tabsize false false esc = Ok ts ->
  complete base -> printable fmt base ->
  (forall n s, styles n = Some s -> valid_style s /\ printable fmt s /\ ~ switches_off s \/ n = default_) ->
  (forall n, dummyb n = true -> styles n = None) -> (forall q, legal_value (fmt (PNum q)) = true) ->
  (forall d, ident = Some d -> legal_value d = true) -> legal_texts ts ->
  (forall t, transform = Some t -> legal_value t = true) ->
  perform new_xml (draw_text fmt x y ts base styles ident None transform) = Ok w -> to_string w = Ok out ->
  exists ns, read out = Some ns /\ Forall2 (code_look fmt th base) (flat_map (doc_glyphs []) ns) (code_chars (lex code)).
Proof.
  intros fmt x y th styles base lex text tabsize esc ts ident transform w out Hn Ht Low code Hin H Hc Pb Vs Hh Pq Pi T Htr Hw Ho.
  destruct (C99_code th styles base lex text tabsize esc ts Hn Ht Low Hin H) as (Hb & Nl & K & R & Nd & F). fold code in F.
  destruct (DrawProps.C40_svg_partial fmt x y styles ident None transform base ts w out) as (ns & N1 & N2); auto.
  exists ns. split; [exact N1|]. revert F. generalize (code_chars (lex code)). clear -N2.
  induction N2 as [|g h gs hs S N2 IH]; intros cs F; inversion F as [|? ct ? cs' [F1 (e & F2 & F3)] F']; subst; constructor; auto.
  destruct S as (S1 & S2 & S3 & S4 & _ & S6 & S7). exists e. split; [exact F2|]. rewrite <- F1. split; [exact S1|].
  rewrite F3 in S2, S3, S4, S6, S7 by discriminate. auto 6.
Qed.
Print Assumptions C99_svg_partial.

(** Cairo: the visible characters with their attributes. *)
Theorem C99_cairo : forall th styles d s lex text tabsize esc ts,
  NoDup (map fst th) -> has_theme th styles -> styles default_ = Some d -> (prio (compose d s) <= 0)%Q ->
  let code := join_with (repeat 32%N tabsize) (split_on 9%N text) in let base := compose d s in
  (forall ty v, In (ty, v) (lex code) -> In ty (map fst th)) ->
  code_tokens (Some lex) text tabsize false false esc = Ok ts -> valid_style s ->
  (forall n s, styles n = Some s -> valid_style s) -> (forall t, In (TText t) ts -> encodable t) -> no_fillers ts ->
  exists shown segs out, text_and_attributes ts s styles = Ok (shown, segs) /\ pango segs 0 shown out /\
    Forall2 (fun g ct => fst g = fst ct /\ exists e, In (snd ct, e) th /\
        style_to_attributes (snd g) = mkPango (get base Size) (get base Font) (wanted base e Color)
          (truthy (wanted base e Bold)) (truthy (wanted base e Italic)))
      (filter visible out) (code_chars (lex code)).
Proof.
  intros th styles d s lex text tabsize esc ts Hn Ht Hd Low code base Hin H V Vs He Hf.
  destruct (C99_code th styles base lex text tabsize esc ts Hn Ht Low Hin H) as (Hb & Nl & K & R & Nd & F). fold code in F.
  destruct (DrawProps.C40_cairo styles ts d s Hb K Hd V Vs He) as (txt & segs & out & C1 & C2 & C3).
  exists txt, segs, out. split; [exact C1|]. split; [exact C2|].
  assert (C4 := filter_forall2 _ visible visible _ _
    (fun h g (H : fst h = fst g /\ _) => f_equal (fun c => negb (N.eqb c 10) && negb (N.eqb c invisible_space)) (proj1 H)) C3).
  rewrite visible_glyphs in C4 by auto. fold base in C4. revert F. generalize (code_chars (lex code)). clear -C4.
  induction C4 as [|g h gs hs [S1 S2] C4 IH]; intros cs F; inversion F as [|? ct ? cs' [F1 (e & F2 & F3)] F']; subst; constructor; auto.
  split; [now rewrite S1|]. exists e. split; [exact F2|]. unfold style_to_attributes.
  change (s_size (snd g)) with (get (snd g) Size). change (s_font (snd g)) with (get (snd g) Font).
  change (s_color (snd g)) with (get (snd g) Color). change (s_bold (snd g)) with (get (snd g) Bold).
  change (s_italic (snd g)) with (get (snd g) Italic). rewrite !S2, !F3 by discriminate. reflexivity.
Qed.
Print Assumptions C99_cairo.

(** ** Line numbers *)

(** A line number as it is shown: [w] digits and a space in the style [s], which is the innermost one. *)
Definition shown_number (w i : nat) (s : style) (p : list (char * list style)) : Prop :=
  exists d, map fst p = d ++ [32%N] /\ List.length d = w /\ Forall (fun c => is_digit c = true) d /\
    int_of_digits d = Z.of_nat i /\ Forall (fun g => exists l, snd g = s :: l) p.

Lemma lines_concat : forall l : list (char * list str), List.concat (lines l) = filter (fun g => negb (N.eqb (fst g) 10)) l.
Proof.
  induction l as [|g l IH]; [reflexivity|]. cbn [lines filter]. destruct (N.eqb (fst g) 10); cbn [negb].
  - exact IH.
  - destruct (lines_cons l) as (a & ls & E). rewrite E in *. cbn [List.concat app] in *. now rewrite IH.
Qed.
(** Every line begins with its number in the style of line numbers; the code looks as without numbers. *)
Theorem C99_line_numbers : forall styles base ts sn, balanced ts -> no_nl ts -> (prio base <= 0)%Q ->
  (forall n, In (TBegin n) ts -> dummyb n = false /\ exists s, styles n = Some s /\ (prio s == 0)%Q) ->
  styles (pys "code_lineno") = Some sn -> (prio sn == 0)%Q ->
  exists w rows, glyphs styles [Some base] (add_line_numbers ts) = flat_map (fun r => fst r ++ snd r) rows /\
    glyphs styles [Some base] ts = flat_map snd rows /\ List.length rows = number_of_lines ts /\
    (forall i r, nth_error rows i = Some r -> shown_number w (S i) sn (fst r)) /\
    regular styles [Some base] (add_line_numbers ts).
Proof.
  intros styles base ts sn Hb Nl Low Ho Hs Ps.
  destruct (TextProps.C28_line_numbers ts Nl) as (w & _ & Wn & Bn & _ & Len).
  assert (Nl' : no_nl (add_line_numbers ts)).
  { assert (D : forall n f, Forall (fun c => c <> 10%N) (dec_fuel f n)).
    { intros n f. revert n. induction f as [|f IH]; intro n; cbn [dec_fuel].
      - constructor.
      - destruct (n <? 10) eqn:E.
        + apply Nat.ltb_lt in E. constructor; [lia|constructor].
        + apply Forall_app. split; [apply IH|]. constructor; [|constructor]. assert (n mod 10 < 10) by (apply Nat.mod_upper_bound; lia). lia. }
    assert (Zf : forall w s, Forall (fun c => c <> 10%N) s -> ~ In 10%N (zfill w s ++ [32%N])).
    { intros w0 s F X. rewrite Forall_forall in F. apply in_app_or in X. destruct X as [X|[X|[]]]; [|discriminate].
      unfold zfill in X. apply in_app_or in X. destruct X as [X|X]; [apply repeat_spec in X; discriminate|]. now apply (F 10%N X). }
    intros s X. unfold add_line_numbers in X. cbn [In] in X. destruct X as [X|[X|[X|X]]]; try discriminate.
    { injection X as <-. apply Zf. repeat constructor. discriminate. }
    revert X. generalize (List.length (dec (number_of_lines ts))) as v, 1 as line. clear -Nl D Zf.
    induction ts as [|t ts IH]; intros v line X; [destruct X|]. assert (Nl' : no_nl ts) by (intros y Y; apply Nl; now right).
    assert (K : forall k line, In (TText s) (number_newlines v k line) -> ~ In 10%N s).
    { clear -D Zf. induction k as [|k IH]; intros line H; [destruct H|]. cbn [number_newlines In] in H.
      destruct H as [H|[H|[H|[H|H]]]]; try discriminate; [|now apply (IH (S line))]. injection H as <-. apply Zf. unfold dec. apply D. }
    destruct t as [u|k|m|]; cbn [add_numbers_loop] in X.
    - destruct X as [X|X]; [injection X as ->; apply Nl; now left|eauto].
    - apply in_app_or in X. destruct X as [X|X]; [eauto|eauto].
    - destruct X as [X|X]; [discriminate|eauto].
    - destruct X as [X|X]; [discriminate|eauto]. }
  assert (Ho' : forall n, In (TBegin n) (add_line_numbers ts) -> ordinary styles n).
  { intros n X. apply numbers_begins in X. destruct X as [->|X]; [|now apply Ho]. split; [reflexivity|]. now exists sn. }
  assert (N0 : nest (List.length (@nil str)) ts <> None). { cbn [List.length]. unfold balanced in Hb. rewrite Hb. discriminate. }
  assert (N1 : nest (List.length (@nil str)) (add_line_numbers ts) <> None). { rewrite Bn. exact N0. }
  assert (G := ordinary_glyphs styles base Low ts [] Nl (Forall_nil _) N0 Ho). change (around styles base []) with [Some base] in G.
  assert (G' := ordinary_glyphs styles base Low (add_line_numbers ts) [] Nl' (Forall_nil _) N1 Ho').
  change (around styles base []) with [Some base] in G'. unfold shown_char in G, G'. change (list N) with str in *.
  rewrite <- lines_concat in G, G'. set (f := fun g : char * list str => (fst g, map (style_of styles) (snd g) ++ [base])) in *.
  exists w.
  assert (Z : forall i ls ls', with_numbers w i ls ls' -> exists rows,
    map f (List.concat ls') = flat_map (fun r => fst r ++ snd r) rows /\ map f (List.concat ls) = flat_map snd rows /\
    List.length rows = List.length ls /\ forall k r, nth_error rows k = Some r -> shown_number w (i + k) sn (fst r)).
  { clear -Hs. intros i ls ls' W. induction W as [i|i p l ls ls' (dg & P1 & P2 & P3 & P4 & P5) W (rows & R1 & R2 & R3 & R4)].
    - exists []. repeat split; auto. intros [|k] r H; discriminate.
    - exists ((map f p, map f l) :: rows). cbn [List.concat flat_map fst snd List.length]. rewrite !map_app, R1, R2, R3.
      split; [reflexivity|]. split; [reflexivity|]. split; [reflexivity|]. intros [|k] r H.
      + cbn in H. injection H as <-. rewrite Nat.add_0_r. exists dg. cbn [fst].
        split; [rewrite map_map; exact P1|]. split; [exact P2|]. split; [exact P3|]. split; [exact P4|].
        apply Forall_forall. intros g Hg. apply in_map_iff in Hg. destruct Hg as (h & <- & Hh). rewrite Forall_forall in P5.
        destruct (P5 h Hh) as (st & E). unfold f. cbn [snd]. rewrite E. cbn [map app]. unfold style_of at 1.
        change (code_lineno) with (pys "code_lineno"). rewrite Hs. eauto.
      + cbn in H. replace (i + S k) with (S i + k) by lia. eauto. }
  destruct (Z 1 _ _ Wn) as (rows & R1 & R2 & R3 & R4). exists rows.
  split; [now rewrite G', R1|]. split; [now rewrite G, R2|]. split; [now rewrite R3, Len|]. split; [exact R4|].
  exact (ordinary_regular styles base Low (add_line_numbers ts) [] (Forall_nil _) N1 Ho').
Qed.
Print Assumptions C99_line_numbers.

(** ** Examples and what is not so *)

Definition demo_theme : theme :=
  [(pys "Token.Text", mkEntry None false false); (pys "Token.Keyword", mkEntry (Some (pys "008000")) true false);
   (pys "Token.Literal.String.Doc", mkEntry (Some (pys "BA2121")) false true); (pys "Token.Name", mkEntry (Some []) false false)].
Definition demo_styles (n : str) : option style :=
  match deck_styles demo_theme with Ok d => assoc n d | Err _ => None end.
Definition code_style : style :=
  match demo_styles default_, demo_styles (pys "code") with Some d, Some c => compose d c | _, _ => no_args end.
(** A keyword, a space, a name, a line break and a text of two lines. *)
Definition demo_lexer (code : str) : list (str * str) :=
  [(pys "Token.Keyword", firstn 2 code); (pys "Token.Text", firstn 1 (skipn 2 code)); (pys "Token.Name", firstn 1 (skipn 3 code));
   (pys "Token.Text", firstn 1 (skipn 4 code)); (pys "Token.Literal.String.Doc", skipn 5 code); (pys "Token.Text", [nl])].
Definition demo_code : str := pys "if x" ++ [nl] ++ pys "'a" ++ [nl] ++ pys "b'".

Lemma demo_has_theme : NoDup (map fst demo_theme) /\ has_theme demo_theme demo_styles.
Proof.
  assert (N : NoDup (map fst demo_theme)). { cbn. repeat (constructor; [cbn [In]; intuition discriminate|]). constructor. }
  split; [exact N|]. destruct (C99_deck_styles demo_theme N) as (d & D & _). exists d. split; [exact D|].
  intros ty e _. unfold demo_styles. now rewrite D.
Qed.
Example ex_C99 : exists ts, code_tokens (Some demo_lexer) demo_code 4 false false (pys "~") = Ok ts /\
  (forall ty v, In (ty, v) (demo_lexer demo_code) -> In ty (map fst demo_theme)) /\ (prio code_style <= 0)%Q /\
  complete code_style /\
  map (fun g => (fst g, value Color (snd g), value Bold (snd g), value Italic (snd g))) (glyphs demo_styles [Some code_style] ts) =
  [(105%N, PStr (pys "#008000"), PBool true, PNone); (102%N, PStr (pys "#008000"), PBool true, PNone);
   (32%N, PStr (pys "#222"), PNone, PNone); (120%N, PStr (pys "#222"), PNone, PNone);
   (39%N, PStr (pys "#BA2121"), PNone, PBool true); (97%N, PStr (pys "#BA2121"), PNone, PBool true);
   (98%N, PStr (pys "#BA2121"), PNone, PBool true); (39%N, PStr (pys "#BA2121"), PNone, PBool true)].
Proof.
  eexists. split; [vm_compute; reflexivity|]. split.
  { intros ty v H. cbn [demo_lexer In] in H. repeat (destruct H as [H|H]; [injection H as <- _; vm_compute; auto 10|]). destruct H. }
  split; [discriminate|]. split; [|vm_compute; reflexivity].
  split; [|repeat split; discriminate].
  assert (M : make_style code_style = Ok code_style) by (vm_compute; reflexivity). now apply make_style_ok in M.
Qed.

(** Full statement: all line numbers look alike.  Refuted: a number inside of a token of several lines has its weight and slant. *)
Theorem C99_number_looks_refuted : exists ts, code_tokens (Some demo_lexer) demo_code 4 true false (pys "~") = Ok ts /\
  map (fun g => (fst g, value Color (snd g), value Italic (snd g)))
    (filter (fun g => is_digit (fst g)) (glyphs demo_styles [Some code_style] ts)) =
  [(49%N, PStr (pys "gray"), PNone); (50%N, PStr (pys "gray"), PNone); (51%N, PStr (pys "gray"), PBool true)].
Proof. eexists. split; [vm_compute; reflexivity|]. vm_compute. reflexivity. Qed.
Print Assumptions C99_number_looks_refuted.

(** Full statement: C99_code for every style of the text.  Refuted: with a priority above 0 nothing is highlighted, and with the
    SVG backend a token of several lines cannot be drawn. *)
Definition high_style : style := put code_style Priority (PNum 1).
Theorem C99_priority_refuted : exists ts, code_tokens (Some demo_lexer) demo_code 4 false false (pys "~") = Ok ts /\
  Forall (fun g => snd g = [high_style]) (glyphs demo_styles [Some high_style] ts) /\
  perform new_xml (draw_text DrawProps.ex_fmt 0 0 ts high_style demo_styles None None None) = Err EException.
Proof.
  eexists. split; [vm_compute; reflexivity|]. split; [|vm_compute; reflexivity]. vm_compute. repeat constructor.
Qed.
Print Assumptions C99_priority_refuted.

(** Types of tokens that are not in the theme: the code cannot be drawn. *)
Theorem C99_unknown_type : forall styles lex text tabsize esc ts ty v,
  let code := join_with (repeat 32%N tabsize) (split_on 9%N text) in
  code_tokens (Some lex) text tabsize false false esc = Ok ts ->
  In (ty, v) (lex code) -> v <> [nl] -> styles (pys "pygments-" ++ ty) = None ->
  (forall fmt x y s ident k tr cs, draw_text fmt x y ts s styles ident k tr <> (cs, Ok tt)) /\
  (forall s out, text_and_attributes ts s styles <> Ok out).
Proof.
  intros styles lex text tabsize esc ts ty v code H Hi Hv Hs.
  assert (Hc : expand_tabs tabsize text = code).
  { unfold code, expand_tabs. clear. induction text as [|c s IH]; auto.
    cbn [flat_map split_on]. destruct (N.eqb_spec c 9).
    - rewrite IH. destruct (split_on_cons 9%N s) as [l [ls ->]]. reflexivity.
    - rewrite IH. destruct (split_on_cons 9%N s) as [l [ls ->]]. destruct ls; reflexivity. }
  assert (B : In (TBegin (pys "pygments-" ++ ty)) ts).
  { unfold code_tokens in H. destruct (delimiters esc) as [[[x y] z]|]; [|discriminate]. cbn [rbind] in H. rewrite Hc in H.
    destruct (highlight_code lex code) as [q|] eqn:E; [|discriminate]. cbn [rbind] in H. injection H as <-.
    unfold highlight_code in E. apply normalize_tokens_begins in E. apply begins_in. rewrite E. apply begins_in.
    apply in_flat_map. exists (ty, v). split; [exact Hi|]. unfold format_token.
    destruct (str_eqb v [nl]) eqn:Ev; [apply str_eqb_eq in Ev; contradiction|]. now left. }
  assert (Nk : ~ known_names styles ts).
  { intro K. destruct (K _ B) as [(r & X)|X]; [discriminate|contradiction]. }
  split.
  - intros fmt x y s ident k tr cs X. apply Nk. now apply DrawProps2.C39_svg_refused in X.
  - intros s out X. apply Nk. now apply DrawProps2.C39_cairo_refused in X.
Qed.
Print Assumptions C99_unknown_type.
Example ex_C99_unknown : exists ts, code_tokens (Some (fun c => [(pys "Token.New", c)])) (pys "x") 4 false false (pys "~") = Ok ts /\
  demo_styles (pys "pygments-" ++ pys "Token.New") = None.
Proof. eexists. split; [vm_compute; reflexivity|]. vm_compute. reflexivity. Qed.
