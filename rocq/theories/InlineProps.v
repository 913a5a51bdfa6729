(** Properties of inline boxes with the Cairo backend: C98. *)
From Coq Require Import List ZArith NArith QArith Bool String Lia.
From Verif Require Import Py PyFacts TextProofs TextMerge TextLines LayoutModel LayoutSpec SlideModel StyleModel StyleSpec
  StyleProofs TextModel TextSpec TextBoxModel TextBoxSpec TextBoxProofs DrawModel DrawSpec MeasureSpec InlineModel
  DrawLoop DrawCairo InlineProofs.
From Verif Require MeasureProps TextBoxProps TextProps DrawProps ShowModel LayoutProps.
Import ListNotations.
Local Open Scope nat_scope.

(** What is assumed about a text: known and valid styles, characters that can be encoded,
    and line breaks only where there are tokens for them (as in all parsed texts). *)
Definition well_formed (styles : str -> option style) (ts : list token) : Prop :=
  balanced ts /\ known_names styles ts /\ no_nl ts /\ (forall t, In (TText t) ts -> encodable t) /\
  (forall i, In (TNewline i) ts -> 1 <= i).
Definition styles_ok (styles : str -> option style) (d s : style) (al : str) : Prop :=
  (forall n s, styles n = Some s -> valid_style s) /\ styles default_ = Some d /\ valid_style s /\
  s_align s = PStr al /\ In al [pys "left"; pys "middle"; pys "right"] /\
  exists q, num (s_line_spacing (compose d s)) = Ok q /\ (1 <= q)%Q.

Section Facts.
Variable styles : str -> option style.
Variables d s : style.
Variable al : str.
Hypothesis OK : styles_ok styles d s al.
Let base := compose d (compose d s).

Lemma base_align : s_align (compose d s) = PStr al.
Proof.
  destruct OK as (_ & _ & _ & E & _). change (get (update d s) Align = PStr al). rewrite update_get.
  change (get s Align) with (s_align s). now rewrite E.
Qed.
Lemma layout_ok : forall ts, balanced ts -> known_names styles ts -> (forall t, In (TText t) ts -> encodable t) ->
  build_layout ts s styles = Ok (map look_of (cairo_glyphs styles [Some base] true ts), PStr al).
Proof.
  intros ts Hb Hk He. assert (A := base_align). destruct OK as (Vs & Hd & V & E & In3 & q & Hq & Q1).
  destruct (looks_spec styles Vs ts d (compose d s) Hb Hk Hd (update_valid _ _ (Vs _ _ Hd) V) He) as (text & segs & T1 & T2).
  unfold build_layout. rewrite Hd. rewrite A.
  assert (Z : str_eqb al (pys "left") || str_eqb al (pys "middle") || str_eqb al (pys "right") = true).
  { cbn [In] in In3. destruct In3 as [<-|[<-|[<-|[]]]]; reflexivity. }
  rewrite Z. cbn [rbind]. rewrite T1. cbn [rbind]. rewrite Hq. cbn [rbind].
  apply Qle_bool_iff in Q1. rewrite Q1. cbn [fst snd]. now rewrite T2.
Qed.
End Facts.

Lemma table_offsets : forall text off g, encodable text -> List.length g = List.length text ->
  offsets_from off text g (char_table off text g).
Proof.
  induction text as [|c text IH]; intros off g He L; destruct g as [|[x w] g]; try discriminate; [exact I|].
  cbn [offsets_from char_table]. split; [reflexivity|]. split; [reflexivity|]. split; [reflexivity|].
  destruct (utf8_width c (He c (or_introl eq_refl))) as (bs & E & _). exists bs. split; [exact E|].
  unfold bytes_of. rewrite E. apply IH; [intros x' X; apply He; now right|]. cbn in L. lia.
Qed.
Lemma split_lengths : forall (A : Type) (l : list A) a b c, List.length l = a + (b + c) ->
  exists x y z, l = x ++ y ++ z /\ List.length x = a /\ List.length y = b /\ List.length z = c.
Proof.
  intros A l a b c H. exists (firstn a l), (firstn b (skipn a l)), (skipn b (skipn a l)).
  rewrite firstn_skipn, firstn_skipn. split; [reflexivity|].
  rewrite !skipn_length, !firstn_length, skipn_length. lia.
Qed.

(** The line of a block: how it is laid out alone, and in the text. *)
Lemma block_line : forall styles d s al pre a n body b post,
  let line := a ++ TBegin n :: body ++ TEnd :: b in let ts := pre ++ line ++ post in
  styles_ok styles d s al -> well_formed styles ts -> no_newline line ->
  (pre = [] \/ exists p i, pre = p ++ [TNewline i]) -> (post = [] \/ exists i p, post = TNewline i :: p) ->
  balanced (pre ++ a) -> balanced body -> text_chars body <> [] ->
  exists out j L all, extract_line ts (List.length pre + List.length a) = Ok (out, Z.of_nat j) /\
    build_layout out s styles = Ok (L, PStr al) /\ build_layout ts s styles = Ok (all, PStr al) /\
    nth_error (look_lines all) (line_breaks pre) = Some L /\
    map fst L = text_chars a ++ text_chars body ++ text_chars b /\
    encodable (map fst L) /\ (forall g, In g L -> fst g <> 10%N) /\
    exists p1 p2, out = p1 ++ TBegin n :: body ++ TEnd :: p2 /\ j = List.length p1 /\ balanced p1 /\
      no_newline out /\ text_chars p1 = text_chars a /\ text_chars p2 = text_chars b.
Proof.
  intros styles d s al pre a n body b post line ts OK (Hb & Hk & Hn & He & Hi) Nl Hpre Hpost Ba Bb Ne.
  assert (Hkl : List.length a < List.length line) by (unfold line; rewrite app_length; cbn; lia).
  destruct (MeasureProps.extract_line_shape pre line post (List.length a) Hb Nl Hkl Hpre Hpost) as (m & E).
  destruct (extract_line_spec pre line post (List.length a) Hb) as (r' & j' & E' & Bo & No & _); auto.
  { apply Forall_forall. intros t Ht. destruct t as [u|i|u|]; auto. exfalso. now apply (Nl i). }
  fold ts in E'. fold ts in E. rewrite E in E'. set (st := TextSpec.after [] pre) in *.
  set (out := rev (map TBegin st) ++ line ++ repeat TEnd m) in *.
  injection E' as <- _.
  assert (Nest : exists k, nest 0 pre = Some k /\ k = List.length st /\ nest k a = Some 0).
  { unfold balanced in Ba. rewrite nest_app in Ba. destruct (nest 0 pre) as [k|] eqn:En; [|discriminate].
    destruct (open_blocks_from_spec pre [] k En) as [_ El]. exists k. repeat split; auto. }
  destruct Nest as (k & N1 & N2 & N3).
  assert (Ko : known_names styles out).
  { intros x Hx. unfold out in Hx. apply in_app_or in Hx. destruct Hx as [Hx|Hx].
    - apply Hk. apply in_rev in Hx. apply in_map_iff in Hx. destruct Hx as (y & Hy & Hx). injection Hy as ->.
      assert (G : forall ts st, In x (TextSpec.after st ts) -> In x st \/ In (TBegin x) ts).
      { clear. induction ts as [|[u|i|u|] ts IH]; intros st H; cbn [TextSpec.after] in H; auto.
        - destruct (IH _ H); auto. right. now right.
        - destruct (IH _ H); auto. right. now right.
        - destruct (IH _ H) as [[->|X]|X]; auto; [right; now left|right; now right].
        - destruct (IH _ H) as [X|X]; [left; destruct st; [destruct X|now right]|right; now right]. }
      unfold ts. apply in_or_app. left. destruct (G pre [] Hx) as [[]|X]. exact X.
    - apply in_app_or in Hx. destruct Hx as [Hx|Hx].
      + apply Hk. unfold ts. apply in_or_app. right. apply in_or_app. now left.
      + apply repeat_spec in Hx. discriminate. }
  assert (Eo : forall t, In (TText t) out -> encodable t).
  { intros t Ht. unfold out in Ht. apply in_app_or in Ht. destruct Ht as [Ht|Ht].
    - apply in_rev in Ht. apply in_map_iff in Ht. destruct Ht as (y & Hy & _). discriminate.
    - apply in_app_or in Ht. destruct Ht as [Ht|Ht].
      + apply He. unfold ts. apply in_or_app. right. apply in_or_app. now left.
      + apply repeat_spec in Ht. discriminate. }
  assert (Nout : no_newline out).
  { intros i Hx. unfold newline_free in No. rewrite Forall_forall in No. apply No in Hx. discriminate. }
  set (base := compose d (compose d s)).
  set (gl := glyphs styles (around_after styles [Some base] pre) line).
  assert (Gl : cairo_glyphs styles [Some base] true out = gl).
  { rewrite cairo_line by exact Nout. unfold out. rewrite !glyphs_app, glyphs_begins, glyphs_ends, app_nil_r. cbn [app].
    unfold gl. f_equal. symmetry. exact (around_names styles [Some base] pre [] k N1). }
  set (A := cairo_glyphs styles [Some base] true pre).
  set (B := cairo_glyphs styles (around_after styles (around_after styles [Some base] pre) line)
              (line_empty (line_empty true pre) line) post).
  assert (All : cairo_glyphs styles [Some base] true ts = A ++ gl ++ B).
  { unfold ts. rewrite cairo_app, cairo_app. fold A. fold B. now rewrite (cairo_line styles line). }
  exists out, (List.length st + List.length a), (map look_of gl), (map look_of (A ++ gl ++ B)).
  split; [exact E|]. split; [rewrite <- Gl; now apply (layout_ok styles d s al OK)|].
  split; [rewrite <- All; now apply (layout_ok styles d s al OK)|].
  assert (Chars : map fst gl = text_chars line) by apply glyphs_chars.
  assert (Lc : map fst (map look_of gl) = text_chars line).
  { rewrite map_map, <- Chars. apply map_ext. reflexivity. }
  assert (N10 : forall g, In g gl -> fst g <> 10%N).
  { intros g Hg X. apply (in_map fst) in Hg. rewrite Chars, X in Hg. unfold text_chars in Hg.
    apply in_flat_map in Hg. destruct Hg as (t & T1 & T2). destruct t as [u|i|u|]; try destruct T2.
    apply (Hn u); [|exact T2]. unfold ts. apply in_or_app. right. apply in_or_app. now left. }
  split.
  { rewrite !map_app.
    assert (First : nth_error (look_lines (map look_of gl ++ map look_of B)) 0 = Some (map look_of gl)).
    { apply lines_first.
      - intros g Hg. apply in_map_iff in Hg. destruct Hg as (h & <- & Hh). exact (N10 h Hh).
      - destruct Hpost as [->|(i & p & ->)]; [now left|right].
        assert (I : 1 <= i). { apply Hi. unfold ts. apply in_or_app. right. apply in_or_app. right. now left. }
        unfold B. rewrite empty_line; auto.
        + cbn [cairo_glyphs]. destruct i as [|i]; [lia|]. cbn [app map]. do 2 eexists. reflexivity.
        + unfold line. rewrite chars_app. cbn [text_chars flat_map app]. fold text_chars.
          intro X. apply app_eq_nil in X. destruct X as [_ X]. change (text_chars (body ++ TEnd :: b) = []) in X.
          rewrite chars_app in X. apply app_eq_nil in X. now destruct X. }
    assert (Count : line_breaks pre = List.length (filter (fun g : look => N.eqb (fst g) 10) (map look_of A))).
    { rewrite <- (newlines_cairo styles pre [Some base] true).
      - fold A. unfold newlines. clear. induction A as [|g A IH]; [reflexivity|]. cbn [map filter].
        change (fst (look_of g)) with (fst g). destruct (N.eqb (fst g) 10); cbn [List.length]; now rewrite IH.
      - intros u Hu. apply Hn. unfold ts. apply in_or_app. now left. }
    rewrite Count. destruct Hpre as [->|(p & i & ->)]; [exact First|].
    assert (I : 1 <= i). { apply Hi. unfold ts. apply in_or_app. left. apply in_or_app. right. now left. }
    assert (Last : exists A' l, A = A' ++ [(10%N, l)]).
    { unfold A. rewrite cairo_app. cbn [cairo_glyphs]. destruct i as [|i]; [lia|].
      set (l := effective _). rewrite app_nil_r.
      assert (R : forall k, exists A', (10%N, l) :: List.concat (repeat [(invisible_space, l); (10%N, l)] k) = A' ++ [(10%N, l)]).
      { induction k0 as [|k0 [A' IH]]; [exists []; reflexivity|].
        cbn [repeat]. rewrite repeat_cons. exists ((10%N, l) :: List.concat (repeat [(invisible_space, l); (10%N, l)] k0) ++ [(invisible_space, l)]).
        rewrite concat_app. cbn [List.concat app]. now rewrite <- app_assoc. }
      destruct (R i) as [A' ->]. rewrite !app_assoc. eauto. }
    destruct Last as (A' & l & ->). rewrite map_app. cbn [map]. change (look_of (10%N, l)) with (10%N, Some (attrs_of l)).
    rewrite <- First. rewrite (lines_later (map look_of A') (Some (attrs_of l)) (map look_of gl ++ map look_of B) 0).
    now rewrite Nat.add_0_r. }
  assert (Lt : text_chars line = text_chars a ++ text_chars body ++ text_chars b).
  { unfold line. rewrite chars_app. f_equal. change (text_chars (body ++ TEnd :: b) = text_chars body ++ text_chars b).
    now rewrite chars_app. }
  split; [now rewrite Lc|]. split.
  { rewrite Lc. intros c Hc. unfold text_chars in Hc. apply in_flat_map in Hc. destruct Hc as (t & T1 & T2).
    destruct t as [u|i|u|]; try destruct T2. apply (He u); [|exact T2]. unfold ts. apply in_or_app. right. apply in_or_app. now left. }
  split. { intros g Hg. apply in_map_iff in Hg. destruct Hg as (h & <- & Hh). exact (N10 h Hh). }
  exists (rev (map TBegin st) ++ a), (b ++ repeat TEnd m). split.
  { unfold out, line. rewrite <- !app_assoc. cbn [app]. now rewrite <- !app_assoc. }
  split. { rewrite app_length, rev_length, map_length. reflexivity. }
  split. { unfold balanced. rewrite nest_app, begins_nest, <- N2. exact N3. }
  split; [exact Nout|]. rewrite !chars_app, MeasureProps.begins_chars, MeasureProps.ends_chars, app_nil_r. auto.
Qed.

(** ** C98 *)

(** The part of the free space of a line that is left of it. *)
Definition share (al : str) : Q :=
  if str_eqb al (pys "middle") then 1 # 2 else if str_eqb al (pys "right") then 1 else 0.
Definition widths (gs : list (Q * Q)) : Q := fold_right (fun g q => snd g + q)%Q 0%Q gs.

(** What Pango does with a scaled text: everything on a line is scaled. *)
Definition scales (shape : Q -> list look -> list (Q * Q)) (aligned : Q -> list look -> Q) : Prop :=
  (forall k g, List.length (shape k g) = List.length g) /\
  (forall k g, Forall2 (fun p q => fst p == k * fst q /\ snd p == k * snd q)%Q (shape k g) (shape 1%Q g)) /\
  (forall k g, (aligned k g == k * aligned 1%Q g)%Q).

(** The measurement of a block that is not inside of another one gives the place of its first
    character on the line, relative to the anchor of the line, and the width of all of its
    characters.  Missing: blocks inside of others (C35_nested_refuted), without text
    (C35_empty_refuted), with line breaks. *)
Theorem C98_measured_partial : forall shape aligned measured styles d s al pre a n body b post,
  let line := a ++ TBegin n :: body ++ TEnd :: b in let ts := pre ++ line ++ post in
  styles_ok styles d s al -> well_formed styles ts -> no_newline line ->
  (pre = [] \/ exists p i, pre = p ++ [TNewline i]) -> (post = [] \/ exists i p, post = TNewline i :: p) ->
  balanced (pre ++ a) -> balanced body -> text_chars body <> [] -> scales shape aligned ->
  exists out j L all g1 x w g2 g3 w', extract_line ts (List.length pre + List.length a) = Ok (out, j) /\
    build_layout ts s styles = Ok (all, PStr al) /\ nth_error (look_lines all) (line_breaks pre) = Some L /\
    map fst L = text_chars a ++ text_chars body ++ text_chars b /\
    shape 1%Q L = g1 ++ ((x, w) :: g2) ++ g3 /\
    List.length g1 = List.length (text_chars a) /\ List.length ((x, w) :: g2) = List.length (text_chars body) /\
    (exists x', query_x shape measured s styles out j = Ok x' /\ x' == x - share al * measured 1%Q L)%Q /\
    query_w shape measured s styles out j = Ok w' /\ (w' == widths ((x, w) :: g2))%Q.
Proof.
  intros shape aligned measured styles d s al pre a n body b post line ts OK W Nl Hpre Hpost Ba Bb Ne (S1 & S2 & S3).
  destruct (block_line styles d s al pre a n body b post OK W Nl Hpre Hpost Ba Bb Ne)
    as (out & j & L & all & E1 & E2 & E3 & E4 & E5 & E6 & E7 & p1 & p2 & -> & -> & B1 & No & C1 & C2).
  fold line ts in E1, E3.
  assert (Len : List.length (shape 1%Q L) = List.length (text_chars a) + (List.length (text_chars body) + List.length (text_chars b))).
  { rewrite S1, <- !app_length, <- E5, map_length. reflexivity. }
  destruct (split_lengths _ _ _ _ _ Len) as (g1 & gb & g3 & Sh & L1 & L2 & L3).
  destruct gb as [|[x w] g2]. { destruct (text_chars body); [contradiction|discriminate]. }
  destruct (text_chars body) as [|c0 body'] eqn:Eb; [contradiction|].
  assert (Pl : plain (p1 ++ TBegin n :: body ++ TEnd :: p2) = text_chars a ++ (c0 :: body') ++ text_chars b).
  { rewrite <- text_chars_plain by exact No. rewrite chars_app. rewrite C1. f_equal.
    change (text_chars (body ++ TEnd :: p2) = (c0 :: body') ++ text_chars b). rewrite chars_app, Eb. f_equal. exact C2. }
  assert (Enc : forall t, (forall c, In c t -> In c (map fst L)) -> exists bs, utf8 t = Ok bs).
  { induction t as [|c t IH]; intros H; [exists []; reflexivity|]. destruct IH as (bs & Hb). { intros c' X. apply H. now right. }
    destruct (utf8_width c (E6 c (H c (or_introl eq_refl)))) as (b' & Hc & _). cbn [utf8]. rewrite Hc, Hb. eexists. reflexivity. }
  assert (Nn : forall i, ~ In (TNewline i) (p1 ++ body)).
  { intros i X. apply (No i). apply in_app_or in X. apply in_or_app. destruct X as [X|X]; [now left|]. right. right.
    apply in_or_app. now left. }
  assert (N1 : no_newline p1) by (intros i X; apply (Nn i); apply in_or_app; now left).
  assert (N2 : no_newline body) by (intros i X; apply (Nn i); apply in_or_app; now right).
  assert (Free : forall t, no_newline t -> newline_free t).
  { intros t H. apply Forall_forall. intros y Hy. destruct y as [u|i|u|]; auto. exfalso. now apply (H i). }
  destruct (Enc (text_chars a)) as (u1 & U1). { intros c X. rewrite E5. apply in_or_app. now left. }
  destruct (Enc (c0 :: body')) as (u2 & U2). { intros c X. rewrite E5. apply in_or_app. right. apply in_or_app. now left. }
  set (out := p1 ++ TBegin n :: body ++ TEnd :: p2) in *.
  assert (Rg : get_byte_range out (Z.of_nat (List.length p1)) = Ok (List.length u1, List.length (u1 ++ u2))).
  { unfold get_byte_range, out.
    rewrite (range_before _ p1 0 0 0 0 _ u1); auto; try lia; [|rewrite <- text_chars_plain by exact N1; now rewrite C1].
    cbn [byte_range_from]. rewrite Z.eqb_refl. rewrite app_length.
    rewrite (range_after _ body _ 0 _ _ _ u2); auto; try lia. rewrite <- text_chars_plain by exact N2. now rewrite Eb. }
  destruct (TextBoxProps.C35_extents out (Z.of_nat (List.length p1)) (List.length u1) (List.length (u1 ++ u2))
    (text_chars a) c0 body' (text_chars b) g1 x w g2 g3 (char_table 0 (map fst L) (shape 1%Q L))) as (w' & X1 & X2); auto.
  { exists u1, u2. auto. }
  { rewrite Pl, <- E5. rewrite <- Sh. apply table_offsets; [exact E6|]. rewrite S1, map_length. reflexivity. }
  destruct OK as (_ & _ & _ & Al & In3 & _).
  assert (Start : text_x_in_rect (mkRect 0 0 (measured 1%Q L) 0) (align_of s) =
    Ok (if str_eqb al (pys "left") then 0 else if str_eqb al (pys "middle") then 0 + measured 1 L / 2 else 0 + measured 1 L)%Q).
  { unfold align_of. rewrite Al. unfold text_x_in_rect. cbn [rx rw].
    cbn [In] in In3. destruct In3 as [<-|[<-|[<-|[]]]]; reflexivity. }
  assert (No10 : existsb (fun x : look => N.eqb (fst x) 10) L = false).
  { destruct (existsb _ L) eqn:X; [|reflexivity]. apply existsb_exists in X. destruct X as (g & G1 & G2).
    apply N.eqb_eq in G2. exfalso. now apply (E7 g). }
  exists out, (Z.of_nat (List.length p1)), L, all, g1, x, w, g2, g3, w'.
  split; [exact E1|]. split; [exact E3|]. split; [exact E4|]. split; [exact E5|]. split; [exact Sh|].
  split; [exact L1|]. split; [exact L2|].
  unfold query_x, query_w, block_extents. rewrite E2. cbn [rbind fst snd]. rewrite Start. cbn [rbind]. rewrite No10, X1.
  cbn [rbind fst snd]. split; [|split; [reflexivity|exact X2]].
  eexists. split; [reflexivity|]. unfold share. cbn [In] in In3. destruct In3 as [<-|[<-|[<-|[]]]].
  - change (str_eqb (pys "left") (pys "left")) with true. change (str_eqb (pys "left") (pys "middle")) with false.
    change (str_eqb (pys "left") (pys "right")) with false. cbn iota. ring.
  - change (str_eqb (pys "middle") (pys "left")) with false. change (str_eqb (pys "middle") (pys "middle")) with true.
    cbn iota. field.
  - change (str_eqb (pys "right") (pys "left")) with false. change (str_eqb (pys "right") (pys "middle")) with false.
    change (str_eqb (pys "right") (pys "right")) with true. cbn iota. ring.
Qed.
Print Assumptions C98_measured_partial.

(** Where the box is: its left side is at the first character of the block as it is drawn, its
    width is that of the characters of the block.  If the line is not aligned to the left and
    the width that is measured is not that by which Pango aligns, the box is off by a share of
    the difference. *)
Theorem C98_inline_box_partial : forall shape aligned measured styles d s al pre a n body b post
    owner l r st S p c c0 R it kw args x y scale,
  let line := a ++ TBegin n :: body ++ TEnd :: b in let ts := pre ++ line ++ post in
  let sc := tx_scale (st_text S (ti_id it)) in
  styles_ok styles d s al -> well_formed styles ts -> no_newline line ->
  (pre = [] \/ exists p i, pre = p ++ [TNewline i]) -> (post = [] \/ exists i p, post = TNewline i :: p) ->
  balanced (pre ++ a) -> balanced body -> text_chars body <> [] -> scales shape aligned ->
  NoDup (ids l) -> owned owner l -> user_tree owner l -> fresh st -> set_rect l r st = Ok S ->
  LayoutSpec.within p l -> In c (kids p) -> area p S = Some R ->
  ti_box it = l_id (head p) -> ti_tokens it = ts -> ti_align it = Some al ->
  text_box_args (query_x shape measured s styles) (query_w shape measured s styles) it
    (List.length pre + List.length a) kw = Ok args ->
  new_layout (l_id (head c)) (ba_layout args) = Ok c0 -> grown c0 c ->
  kw_x kw = None -> kw_y kw = None -> kw_width kw = None -> kw_height kw = None ->
  render_text it S = Ok (Some (x, y, scale)) -> (ti_fit it = false -> (sc == 1)%Q) ->
  exists o L all gs, outer c S o /\
    build_layout ts s styles = Ok (all, PStr al) /\ nth_error (look_lines all) (line_breaks pre) = Some L /\
    List.length gs = List.length (text_chars body) /\
    (forall i g, nth_error gs i = Some g ->
       drawn_char shape aligned R ts s styles scale (line_breaks pre) (List.length (text_chars a) + i) = Ok g) /\
    (forall g, nth_error gs 0 = Some g ->
       rx o == fst g + sc * share al * (aligned 1%Q L - measured 1%Q L))%Q /\
    (rw o == widths gs)%Q.
Proof.
  intros shape aligned measured styles d s al pre a n body b post owner l r st S p c c0 R it kw args x y scale line ts sc
    OK W Nl Hpre Hpost Ba Bb Ne Sc Hn Ho Hu Hf Hs Hw Hc HR Hb Ht Hal Ha Hl G Kx Ky Kw Kh Hr Hfit.
  destruct (TextBoxProps.C34_inline_box owner l r st S p c c0 R it _ kw _ _ args Hn Ho Hu Hf Hs Hw Hc HR Hb Ha Hl G Kx Ky Kw Kh)
    as (o & out' & j' & x0 & w0 & anchor & O1 & _ & _ & E' & Qx & Qw & An & Px & Pw).
  destruct (C98_measured_partial shape aligned measured styles d s al pre a n body b post OK W Nl Hpre Hpost Ba Bb Ne Sc)
    as (out & j & L & all & g1 & x1 & w1 & g2 & g3 & w' & E1 & E3 & E4 & E5 & Sh & L1 & L2 & (x' & Q1 & Q2) & Q3 & Q4).
  fold line ts in E1, E3. rewrite Ht in E'. rewrite E1 in E'. injection E' as <- <-.
  rewrite Qx in Q1. injection Q1 as <-. rewrite Qw in Q3. injection Q3 as <-.
  destruct Sc as (S1 & S2 & S3).
  set (k := match scale with Some k => k | None => 1%Q end).
  assert (Hk : (k == sc)%Q).
  { unfold render_text in Hr. unfold area in HR. rewrite Hb, HR, Hal in Hr. cbn [rbind] in Hr.
    destruct (text_x_in_rect R (Some al)); [|discriminate]. cbn [rbind] in Hr.
    destruct (Qle_bool (tx_scale (st_text S (ti_id it))) tiny); [discriminate|]. injection Hr as _ _ <-.
    unfold k. destruct (ti_fit it); [reflexivity|]. symmetry. now apply Hfit. }
  assert (F := S2 k L). rewrite Sh in F.
  apply Forall2_app_inv_r in F. destruct F as (h1 & hr & F1 & F & Shk).
  apply Forall2_app_inv_r in F. destruct F as (hb & h3 & F2 & F3 & ->).
  assert (Lh1 : List.length h1 = List.length g1) by (clear -F1; induction F1; cbn; auto).
  assert (Lhb : List.length hb = List.length ((x1, w1) :: g2)) by (clear -F2; induction F2; cbn in *; auto).
  set (off := (rx R + pango_offset (PStr al) (rw R - aligned k L))%Q).
  exists o, L, all, (map (fun g : Q * Q => (off + fst g, snd g)%Q) hb).
  split; [exact O1|]. split; [exact E3|]. split; [exact E4|]. split; [rewrite map_length, Lhb; exact L2|]. split.
  { intros i g Hg. rewrite nth_error_map in Hg. destruct (nth_error hb i) as [[gx gw]|] eqn:Ei; [|discriminate]. injection Hg as <-.
    unfold drawn_char. rewrite E3. cbn [rbind fst snd]. rewrite E4. fold k. rewrite Shk.
    rewrite nth_error_app2 by lia. rewrite Lh1, L1. replace (List.length (text_chars a) + i - List.length (text_chars a)) with i by lia.
    assert (Hi : i < List.length hb) by (apply nth_error_Some; now rewrite Ei).
    rewrite nth_error_app1 by exact Hi. rewrite Ei. reflexivity. }
  split.
  { intros g Hg. inversion F2 as [|[hx hw] ? hb' ? [Fx Fw] F2']; subst. cbn [map nth_error] in Hg. injection Hg as <-.
    cbn [fst snd] in Fx, Fw |- *. rewrite Px, Q2, Fx. unfold off.
    rewrite Hal in An. assert (A : (aligned k L == sc * aligned 1 L)%Q) by (rewrite (S3 k L), Hk; reflexivity).
    destruct OK as (_ & _ & _ & _ & In3 & _). unfold text_x_in_rect in An. unfold share, pango_offset. cbn match.
    cbn [In] in In3. destruct In3 as [<-|[<-|[<-|[]]]].
    - change (str_eqb (pys "left") (pys "left")) with true in An. change (str_eqb (pys "left") (pys "middle")) with false.
      change (str_eqb (pys "left") (pys "right")) with false. cbn iota. injection An as <-. fold sc. rewrite Hk. ring.
    - change (str_eqb (pys "middle") (pys "left")) with false in An. change (str_eqb (pys "middle") (pys "middle")) with true in An |- *.
      cbn iota. injection An as <-. fold sc. rewrite A, Hk. field.
    - change (str_eqb (pys "right") (pys "left")) with false in An. change (str_eqb (pys "right") (pys "middle")) with false in An |- *.
      change (str_eqb (pys "right") (pys "right")) with true in An |- *. cbn iota. injection An as <-. fold sc. rewrite A, Hk. ring. }
  rewrite Pw, Q4.
  assert (T : forall h g, Forall2 (fun p q : Q * Q => fst p == k * fst q /\ snd p == k * snd q)%Q h g ->
    (widths (map (fun g : Q * Q => (off + fst g, snd g)) h) == widths g * sc)%Q).
  { clear -Hk. intros h g F. induction F as [|u v h g [_ F] _ IH]; [reflexivity|]. cbn [map widths fold_right snd].
    change (snd u + widths (map (fun g : Q * Q => (off + fst g, snd g)) h) == (snd v + widths g) * sc)%Q.
    rewrite IH, F, Hk. ring. }
  symmetry. now apply T.
Qed.
Print Assumptions C98_inline_box_partial.

(** If the measured width is that by which Pango aligns, and the characters of the block are next
    to each other, the box has the sides of the block. *)
Fixpoint adjacent (gs : list (Q * Q)) : Prop :=
  match gs with
  | a :: ((b :: _) as rest) => (fst b == fst a + snd a)%Q /\ adjacent rest
  | _ => True
  end.
Lemma adjacent_right : forall gs g0 ge, adjacent gs -> nth_error gs 0 = Some g0 ->
  nth_error gs (List.length gs - 1) = Some ge -> (fst ge + snd ge == fst g0 + widths gs)%Q.
Proof.
  induction gs as [|a gs IH]; intros g0 ge H H0 He; [discriminate|]. cbn [nth_error] in H0. injection H0 as <-.
  destruct gs as [|b gs].
  - cbn in He. injection He as <-. cbn [widths fold_right]. ring.
  - destruct H as [E H]. replace (List.length (a :: b :: gs) - 1) with (S (List.length (b :: gs) - 1)) in He by (cbn; lia).
    cbn [nth_error] in He. rewrite (IH b ge H eq_refl He), E.
    change (widths (a :: b :: gs)) with (snd a + widths (b :: gs))%Q. ring.
Qed.
Corollary C98_sides_partial : forall shape aligned measured styles d s al pre a n body b post
    owner l r st S p c c0 R it kw args x y scale,
  let line := a ++ TBegin n :: body ++ TEnd :: b in let ts := pre ++ line ++ post in
  let sc := tx_scale (st_text S (ti_id it)) in
  styles_ok styles d s al -> well_formed styles ts -> no_newline line ->
  (pre = [] \/ exists p i, pre = p ++ [TNewline i]) -> (post = [] \/ exists i p, post = TNewline i :: p) ->
  balanced (pre ++ a) -> balanced body -> text_chars body <> [] -> scales shape aligned ->
  (forall g, measured 1%Q g == aligned 1%Q g)%Q -> (forall k g, adjacent (shape k g)) ->
  NoDup (ids l) -> owned owner l -> user_tree owner l -> fresh st -> set_rect l r st = Ok S ->
  LayoutSpec.within p l -> In c (kids p) -> area p S = Some R ->
  ti_box it = l_id (head p) -> ti_tokens it = ts -> ti_align it = Some al ->
  text_box_args (query_x shape measured s styles) (query_w shape measured s styles) it
    (List.length pre + List.length a) kw = Ok args ->
  new_layout (l_id (head c)) (ba_layout args) = Ok c0 -> grown c0 c ->
  kw_x kw = None -> kw_y kw = None -> kw_width kw = None -> kw_height kw = None ->
  render_text it S = Ok (Some (x, y, scale)) -> (ti_fit it = false -> (sc == 1)%Q) ->
  exists o f e, outer c S o /\
    drawn_char shape aligned R ts s styles scale (line_breaks pre) (List.length (text_chars a)) = Ok f /\
    drawn_char shape aligned R ts s styles scale (line_breaks pre)
      (List.length (text_chars a) + List.length (text_chars body) - 1) = Ok e /\
    (rx o == fst f)%Q /\ (rx o + rw o == fst e + snd e)%Q.
Proof.
  intros shape aligned measured styles d s al pre a n body b post owner l r st S p c c0 R it kw args x y scale line ts sc
    OK W Nl Hpre Hpost Ba Bb Ne Sc Hm Had Hn Ho Hu Hf Hs Hw Hc HR Hb Ht Hal Ha Hl G Kx Ky Kw Kh Hr Hfit.
  destruct (C98_inline_box_partial shape aligned measured styles d s al pre a n body b post owner l r st S p c c0 R it kw args x y
    scale OK W Nl Hpre Hpost Ba Bb Ne Sc Hn Ho Hu Hf Hs Hw Hc HR Hb Ht Hal Ha Hl G Kx Ky Kw Kh Hr Hfit)
    as (o & L & all & gs & O1 & E1 & E2 & E3 & E4 & E5 & E6). fold line ts in E1, E4. fold sc in E5.
  assert (Pos : 0 < List.length gs).
  { rewrite E3. destruct (text_chars body); [contradiction|cbn; lia]. }
  destruct (nth_error gs 0) as [f|] eqn:F; [|apply nth_error_None in F; lia].
  destruct (nth_error gs (List.length gs - 1)) as [e|] eqn:E; [|apply nth_error_None in E; lia].
  exists o, f, e. split; [exact O1|].
  assert (D := E4 _ _ F). rewrite Nat.add_0_r in D. split; [exact D|].
  assert (D' := E4 _ _ E). rewrite E3 in D'.
  replace (List.length (text_chars a) + List.length (text_chars body) - 1)
    with (List.length (text_chars a) + (List.length (text_chars body) - 1)) by (rewrite E3 in Pos; lia).
  split; [exact D'|].
  assert (X : (rx o == fst f)%Q). { rewrite (E5 f eq_refl), Hm. ring. }
  split; [exact X|]. rewrite X, E6. symmetry. apply adjacent_right; auto.
  (* the drawn characters of the block are next to each other *)
  set (k := match scale with Some k => k | None => 1%Q end).
  assert (At : forall i g, nth_error gs i = Some g -> exists h, nth_error (shape k L) (List.length (text_chars a) + i) = Some h /\
    (fst g == rx R + pango_offset (PStr al) (rw R - aligned k L) + fst h)%Q /\ snd g = snd h).
  { intros i g Hg. specialize (E4 _ _ Hg). unfold drawn_char in E4. rewrite E1 in E4. cbn [rbind fst snd] in E4.
    rewrite E2 in E4. fold k in E4. destruct (nth_error (shape k L) _) as [[hx hw]|]; [|discriminate].
    injection E4 as <-. exists (hx, hw). cbn [fst snd]. repeat split; reflexivity. }
  assert (Step : forall l i u v, adjacent l -> nth_error l i = Some u -> nth_error l (1 + i) = Some v -> (fst v == fst u + snd u)%Q).
  { clear. induction l as [|z l IH]; intros i u v H Hu Hv; [destruct i; discriminate|].
    destruct l as [|z' l]; [cbn in Hv; destruct i; discriminate|]. destruct H as [E H]. destruct i as [|i].
    - cbn in Hu, Hv. injection Hu as <-. injection Hv as <-. exact E.
    - exact (IH i u v H Hu Hv). }
  assert (Tl : forall gs n, (forall i g, nth_error gs i = Some g -> exists h, nth_error (shape k L) (n + i) = Some h /\
    (fst g == rx R + pango_offset (PStr al) (rw R - aligned k L) + fst h)%Q /\ snd g = snd h) -> adjacent gs).
  { clear -Had Step. induction gs as [|u gs IH]; intros n At; [exact I|]. destruct gs as [|v gs]; [exact I|]. split.
    - destruct (At 0 u eq_refl) as (h & H1 & H2 & H3). destruct (At 1 v eq_refl) as (h' & H1' & H2' & H3').
      rewrite H2, H2', H3. replace (n + 1) with (1 + (n + 0)) in H1' by lia.
      rewrite (Step _ _ _ _ (Had k L) H1 H1'). ring.
    - apply (IH (1 + n)). intros i g Hg. destruct (At (1 + i) g Hg) as (h & H1 & H). exists h. split; [|exact H].
      now replace (1 + n + i) with (n + (1 + i)) by lia. }
  exact (Tl gs _ At).
Qed.
Print Assumptions C98_sides_partial.

(** ** Example *)

(** Every character is 7 wide; the measured width misses the last unit of the line. *)
Fixpoint mono_from (x : Q) (k : Q) (g : list look) : list (Q * Q) :=
  match g with [] => [] | _ :: g' => (x * k, 7 * k)%Q :: mono_from (x + 7)%Q k g' end.
Definition mono (k : Q) (g : list look) : list (Q * Q) := mono_from 0 k g.
Definition mono_width (k : Q) (g : list look) : Q := (k * (7 * inject_Z (Z.of_nat (List.length g))))%Q.
Definition mono_ink (k : Q) (g : list look) : Q := (mono_width k g - k)%Q.
Lemma mono_scales : scales mono mono_width.
Proof.
  assert (G : forall g x k, List.length (mono_from x k g) = List.length g) by (induction g; intros; cbn; auto).
  split; [intros; apply G|]. split.
  - intros k g. unfold mono. generalize 0%Q. induction g as [|c g IH]; intro x; [constructor|]. cbn [mono_from].
    constructor; [cbn [fst snd]; split; ring|apply IH].
  - intros k g. unfold mono_width. ring.
Qed.
Lemma mono_adjacent : forall k g, adjacent (mono k g).
Proof.
  intros k g. unfold mono. generalize 0%Q. induction g as [|c g IH]; intro x; [exact I|]. specialize (IH (x + 7)%Q).
  cbn [mono_from]. destruct g as [|c' g]; [exact I|]. cbn [mono_from] in *. split; [cbn [fst snd]; ring|exact IH].
Qed.

Definition in_pre : list token := [TText (pys "ab"); TNewline 1].
Definition in_a : list token := [TText (pys "c")].
Definition in_body : list token := [TText (pys "d"); TBegin (pys "b"); TText (pys "e"); TEnd].
Definition in_b : list token := [TText (pys "f")].
Definition in_post : list token := [TNewline 1; TText (pys "g")].
Definition in_ts : list token := in_pre ++ (in_a ++ TBegin (pys "r") :: in_body ++ TEnd :: in_b) ++ in_post.
Definition in_style : style :=
  mkStyle PNone PNone (PStr (pys "middle")) PNone PNone PNone PNone PNone PNone (PNum 0).
Definition in_item : text_item := mkItem 2 1 in_ts (Some (pys "middle")) 10 1 true.
Definition in_slide : slide :=
  match new_slide 200 100 with
  | Ok s0 =>
      let s1 := fst (box_call s0 0 (mkBArgs (mkLArgs ANone ANone (ANum 100) (ANum 60) None None
        None None None None None false) ShowModel.ShowNone None false None None)) in
      let s2 := fst (text_call s1 1 (fun _ => 20%Q) in_ts 10 1 true) in
      fst (inline_box (query_x mono mono_ink in_style DrawProps.ex_styles) (query_w mono mono_ink in_style DrawProps.ex_styles)
        s2 in_item (pys "r") 1 TextBoxProps.plain_kw)
  | Err _ => mkSlide (NItem 0 0) (Node (LayoutProps.hd 0 None None (LayoutProps.px 0) (LayoutProps.px 0) false) []) 0 0 LayoutProps.empty_store
  end.
Example ex_C98_text : styles_ok DrawProps.ex_styles DrawProps.ex_base in_style (pys "middle") /\
  well_formed DrawProps.ex_styles in_ts /\ balanced (in_pre ++ in_a) /\ balanced in_body.
Proof.
  split.
  { split; [exact DrawProps.ex_valid|]. split; [reflexivity|]. split.
    { intros []; cbn; unfold is_string, is_number, one_of; eauto 6. right. exists "middle"%string. cbn. auto. }
    split; [reflexivity|]. split; [right; left; reflexivity|]. exists (6 # 5)%Q. split; [reflexivity|]. discriminate. }
  split; [|split; reflexivity]. split; [reflexivity|]. split.
  { intros n H. unfold in_ts, in_pre, in_a, in_body, in_b, in_post in H. cbn [app In] in H.
    repeat (destruct H as [H|H]; [try discriminate; injection H as <-; try (right; discriminate); try (left; eexists; reflexivity)|]).
    destruct H. }
  split.
  { intros t H. unfold in_ts, in_pre, in_a, in_body, in_b, in_post in H. cbn [app In] in H.
    repeat (destruct H as [H|H]; [try discriminate; injection H as <-; vm_compute; intuition discriminate|]). destruct H. }
  split.
  { intros t H. unfold in_ts, in_pre, in_a, in_body, in_b, in_post in H. cbn [app In] in H.
    repeat (destruct H as [H|H]; [try discriminate; injection H as <-; intros c Hc; cbn in Hc;
      repeat (destruct Hc as [<-|Hc]; [vm_compute; intuition (try discriminate)|]); destruct Hc|]). destruct H. }
  intros i H. unfold in_ts, in_pre, in_a, in_body, in_b, in_post in H. cbn [app In] in H.
  repeat (destruct H as [H|H]; [try discriminate; injection H as <-; lia|]). destruct H.
Qed.
Example ex_C98 : exists S, prepare (sl_layout in_slide) 200 100 (sl_store in_slide) = Ok S /\
  NoDup (ids (sl_layout in_slide)) /\ fresh (sl_store in_slide) /\
  exists R o x y sc f e, st_rect S 1 = Some R /\ st_rect S 3 = Some o /\
    render_text in_item S = Ok (Some (x, y, Some sc)) /\ (sc == 2)%Q /\ (rx R == 50)%Q /\
    drawn_char mono mono_width R in_ts in_style DrawProps.ex_styles (Some sc) 1 1 = Ok f /\
    drawn_char mono mono_width R in_ts in_style DrawProps.ex_styles (Some sc) 1 2 = Ok e /\
    (fst f == 86)%Q /\ (rx o == fst f + 1)%Q /\ (rw o == 28)%Q /\ (snd f + snd e == 28)%Q.
Proof.
  eexists. split; [vm_compute; reflexivity|].
  split. { vm_compute. repeat constructor; simpl; intuition congruence. }
  split; [intros i; reflexivity|].
  do 7 eexists. split; [vm_compute; reflexivity|]. split; [vm_compute; reflexivity|].
  split; [vm_compute; reflexivity|]. split; [vm_compute; reflexivity|]. split; [vm_compute; reflexivity|].
  split; [vm_compute; reflexivity|]. split; [vm_compute; reflexivity|].
  do 3 (split; [vm_compute; reflexivity|]). vm_compute. reflexivity.
Qed.

(** ** Refusals *)

(** Full statement: Cairo draws every text with known and valid styles.  Refuted: the spacing of
    lines must be at least 1 (the setter of the style accepts any number). *)
Theorem C98_spacing_exact : forall styles d s al q ts,
  (forall n s, styles n = Some s -> valid_style s) -> styles default_ = Some d -> valid_style s ->
  s_align s = PStr al -> In al [pys "left"; pys "middle"; pys "right"] ->
  num (s_line_spacing (compose d s)) = Ok q ->
  balanced ts -> known_names styles ts -> (forall t, In (TText t) ts -> encodable t) ->
  ((1 <= q)%Q -> exists g, build_layout ts s styles = Ok (g, PStr al)) /\
  ((q < 1)%Q -> build_layout ts s styles = Err EAssertion).
Proof.
  intros styles d s al q ts Vs Hd V E In3 Hq Hb Hk He.
  assert (A : s_align (compose d s) = PStr al).
  { change (get (update d s) Align = PStr al). rewrite update_get. change (get s Align) with (s_align s). now rewrite E. }
  destruct (looks_spec styles Vs ts d (compose d s) Hb Hk Hd (update_valid _ _ (Vs _ _ Hd) V) He) as (text & segs & T1 & T2).
  unfold build_layout. rewrite Hd, A.
  assert (Z : str_eqb al (pys "left") || str_eqb al (pys "middle") || str_eqb al (pys "right") = true).
  { cbn [In] in In3. destruct In3 as [<-|[<-|[<-|[]]]]; reflexivity. }
  rewrite Z. cbn [rbind]. rewrite T1. cbn [rbind]. rewrite Hq. cbn [rbind]. split; intro H.
  - apply Qle_bool_iff in H. rewrite H. eauto.
  - destruct (Qle_bool 1 q) eqn:X; [|reflexivity]. apply Qle_bool_iff in X. exfalso. now apply (Qlt_not_le _ _ H).
Qed.
Print Assumptions C98_spacing_exact.
Definition tight : style :=
  mkStyle PNone PNone (PStr (pys "left")) (PNum (9 # 10)) PNone PNone PNone PNone PNone (PNum 0).
Theorem C98_spacing_refuted : valid_style tight /\
  build_layout [TText (pys "a")] tight DrawProps.ex_styles = Err EAssertion.
Proof.
  split; [|vm_compute; reflexivity].
  intros []; cbn; unfold is_string, is_number, one_of; eauto 6. right. exists "left"%string. cbn. auto.
Qed.
Print Assumptions C98_spacing_refuted.

(** Only single lines can be measured. *)
Theorem C98_single_line : forall shape measured styles s al ts j g,
  s_align s = PStr al -> In al [pys "left"; pys "middle"; pys "right"] ->
  build_layout ts s styles = Ok (g, PStr al) -> In 10%N (map fst g) ->
  query_x shape measured s styles ts j = Err EAssertion /\ query_w shape measured s styles ts j = Err EAssertion.
Proof.
  intros shape measured styles s al ts j g E In3 B H. unfold query_x, query_w, block_extents. rewrite B.
  cbn [rbind fst]. unfold align_of. rewrite E.
  assert (X : existsb (fun x : look => N.eqb (fst x) 10) g = true).
  { apply existsb_exists. apply in_map_iff in H. destruct H as (y & Hy & H). exists y. split; [exact H|]. rewrite Hy. reflexivity. }
  rewrite X. cbn [In] in In3. destruct In3 as [<-|[<-|[<-|[]]]]; split; reflexivity.
Qed.
Print Assumptions C98_single_line.
