(** C65, C85-C87: what a markdown document shows. *)
From Coq Require Import String List ZArith NArith QArith Bool Lia Arith.
From Verif Require Import Py PyFacts TextModel TextSpec TextCode TextProps ShowModel ShowSpec ShowProofs LayoutModel LayoutSpec LayoutProofs SlideModel SlideSpec SlideProofs ListModel ListSpec ListProofs ListProps2 MarkdownModel MarkdownSpec MarkdownProofs MarkdownOrder.
Import ListNotations.
Local Open Scope Z_scope.

(** ** C65: the text of inline nodes and its styles *)
(** For nodes of the supported kinds: no escape character in the texts, no closing brace in
    styled texts; text() shows exactly the text of the nodes, every character with the styles
    of the nodes around it, up to line breaks at the end. *)
Theorem C65_styles_partial : forall esc l, esc <> 125%N -> all (ok_inline esc false) l ->
  exists ts, text_tokens (get_raw_text [esc] l) [esc] = Ok ts /\ balanced ts /\
    without_trailing break (inlines_events l) (events [] ts).
Proof. exact inline_text. Qed.
Print Assumptions C65_styles_partial.

Definition inl1 : list inline :=
  [IRaw (pys "a }"); IStrong [IRaw (pys "b"); IEmphasis [IRaw (pys "{c")]; IBreak; ILink [IRaw (pys "d")]]; IRaw (pys "e")].
Example C65_ex : all (ok_inline 126%N false) inl1 /\
  text_tokens (get_raw_text (pys "~") inl1) (pys "~") =
    Ok [TText (pys "a }"); TBegin (pys "md-bold"); TText (pys "b"); TBegin (pys "md-italic"); TText (pys "{c"); TEnd;
        TNewline 1; TBegin (pys "md-link"); TText (pys "d"); TEnd; TEnd; TText (pys "e")].
Proof.
  split; [|vm_compute; reflexivity]. unfold inl1.
  repeat (split; [try (cbn; repeat split; first [discriminate | intuition discriminate])|]); exact I.
Qed.

(** The text of other inline nodes, for example code spans, is not shown. *)
Theorem C65_code_span_refuted : exists s ts, s <> [] /\ ~ In 126%N s /\ ~ In 125%N s /\
  text_tokens (get_raw_text (pys "~") [IOther s]) (pys "~") = Ok ts /\
  ~ without_trailing break (inlines_events [IOther s]) (events [] ts).
Proof.
  exists (pys "x"), []. split; [discriminate|]. split; [cbn; intuition discriminate|]. split; [cbn; intuition discriminate|].
  split; [vm_compute; reflexivity|]. intros [[k E] _]. cbn in E. destruct k; discriminate.
Qed.
Print Assumptions C65_code_span_refuted.
(** A closing brace in an emphasised text ends the style. *)
Theorem C65_brace_refuted : exists s ts, ~ In 126%N s /\
  text_tokens (get_raw_text (pys "~") [IEmphasis [IRaw s]]) (pys "~") = Ok ts /\
  ~ without_trailing break (inlines_events [IEmphasis [IRaw s]]) (events [] ts).
Proof.
  exists (pys "f{x}y"), [TBegin (pys "md-italic"); TText (pys "f{x"); TEnd; TText (pys "y}")].
  split; [cbn; intuition discriminate|]. split; [vm_compute; reflexivity|].
  intros [[k E] _]. cbn in E. discriminate.
Qed.
Print Assumptions C65_brace_refuted.
(** The escape character in a plain text raises. *)
Theorem C65_escape_refuted : exists s, (forall c, In c s -> c <> 125%N) /\
  is_ok (text_tokens (get_raw_text (pys "~") [IRaw s]) (pys "~")) = false.
Proof.
  exists (pys "~5 km"). split; [|vm_compute; reflexivity]. intros c Hc ->. cbn in Hc. intuition discriminate.
Qed.
Print Assumptions C65_escape_refuted.
(** text() accepts an escape_char of three characters; markdown() with it does not style. *)
Theorem C65_delimiters_refuted : exists esc s ts, is_ok (delimiters esc) = true /\ (forall c, In c s -> ~ In c esc) /\
  text_tokens (get_raw_text esc [IStrong [IRaw s]]) esc = Ok ts /\
  ~ without_trailing break (inlines_events [IStrong [IRaw s]]) (events [] ts).
Proof.
  exists (pys "~[]"), (pys "x"), [TBegin []; TEnd; TText (pys "md-bold{x}")].
  split; [reflexivity|]. split; [cbn; intuition (subst; discriminate)|]. split; [vm_compute; reflexivity|].
  intros [[k E] _]. cbn in E. discriminate.
Qed.
Print Assumptions C65_delimiters_refuted.

(** ** Documents *)
(** The texts drawn by earlier calls have numbers that are in use. *)
Definition started (m : mstate) : Prop :=
  wf (ls_slide (m_state m)) /\ forall i st ts, In (i, st, ts) (m_texts m) -> (i < sl_next (ls_slide (m_state m)))%nat.
Section Doc.
Variable measure_text : str -> list token -> Q * Q.
Variable measure : str -> Q * Q.
Variable lexer_of : str -> option (str -> list (str * str)).
Variable esc : char.
Hypothesis Hesc : esc <> 125%N.
Notation markdown := (markdown measure_text measure lexer_of [esc]).
Definition accepted (doc : list block) : Prop := all (ok_block lexer_of esc false) doc.

Lemma markdown_ok : forall m C b cs doc, started m -> sl_box (ls_slide (m_state m)) = fill C (NBox b cs) -> accepted doc ->
  exists m' w ws, markdown (b_id b) doc m = (m', Ok tt) /\ grows m m' /\
    sl_box (ls_slide (m_state m')) = fill C (NBox b (cs ++ [NBox w ws])) /\
    Forall2 (rel lexer_of m' false) (walk false [] (NBox w ws)) (flat_map placed doc) /\
    new_labels measure m m' (flat_map labels doc).
Proof.
  intros m C b cs doc G T A. unfold markdown. assert (W := proj1 G).
  assert (M1 : max_step always <= sl_max (ls_slide (m_state m))) by apply W.
  destruct (box_ok (m_state m) C b cs [] [] _ _ always W T eq_refl eq_refl eq_refl eq_refl eq_refl eq_refl M1) as (x1 & z1 & Q1 & W1 & T1 & X1 & Y1).
  unfold MarkdownModel.markdown. rewrite Q1. cbn [with_box]. set (w := mkBox _ always z1) in *. set (m1 := mkM (with_slide (m_state m) x1) (m_texts m)).
  assert (G1 : grows m m1) by (apply grows_with_slide; [exact G|exact W1|lia|exact Y1]).
  assert (FA : builds measure lexer_of (run_all (fun b => build measure_text measure lexer_of [esc] b (mkCtx (b_id w) None)) doc) false (mkCtx (b_id w) None)
             (flat_map (here false) doc) (flat_map (later false) doc) (flat_map labels doc)).
  { apply (run_all_builds measure lexer_of esc Hesc). apply all_Forall in A. eapply Forall_impl; [|exact A]. intros x Hx. now apply build_ok. }
  destruct (FA m1 (fun cs' _ => fill C (NBox b (cs ++ [NBox w cs']))) w (gr_good _ _ G1)) as (m2 & E2 & ws & B & G2 & T2 & L2 & I2 & R2 & S2 & NL2).
  { intro B. exists ((b, cs, []) :: C), []. reflexivity. } { reflexivity. } { exact T1. } { reflexivity. }
  exists m2, w, ws. split; [exact E2|]. split; [eapply grows_trans; eauto|]. split; [exact T2|]. split.
  - rewrite walk_box. apply rel_always; [reflexivity|exact R2].
  - destruct NL2 as (new & EN & FN). exists new. split; [exact EN|exact FN].
Qed.

(** ** C85: order *)
(** [item lexer_of texts x mk]: the painter [x] paints what the mark says. *)
Definition shows_mark (m : mstate) (x : list bhead * painter) (mk : mark) : Prop :=
  exists i z, snd x = PItem i z /\ matches lexer_of (m_texts m) i (snd mk).
(** Every accepted document is built without an exception, inside of one new box at the end of
    the given one; everything in it is in one box tree, in the order of [placed]: the order of
    the document, except that sublists come at the end of the items that they are in.  Nothing
    is lost, doubled or added. *)
Theorem C85_order_partial : forall m C b cs doc, started m -> sl_box (ls_slide (m_state m)) = fill C (NBox b cs) -> accepted doc ->
  exists m' w ws, markdown (b_id b) doc m = (m', Ok tt) /\ started m' /\
    sl_box (ls_slide (m_state m')) = fill C (NBox b (cs ++ [NBox w ws])) /\
    Forall2 (shows_mark m') (walk false [] (NBox w ws)) (flat_map placed doc).
Proof.
  intros m C b cs doc G T A. destruct (markdown_ok m C b cs doc G T A) as (m' & w & ws & E & GR & T' & R & _).
  exists m', w, ws. split; [exact E|]. split; [exact (gr_good _ _ GR)|]. split; [exact T'|].
  clear - R. induction R as [|x mk xs mks (i & z & E & _ & Q & _) R IH]; constructor; auto. exists i, z. auto.
Qed.

(** In regular documents this is the order of the document. *)
Lemma own_listless : forall b, listless b = true -> own true b = document true b /\ lists b = [].
Proof.
  induction b as [k l|l| |bs IH|lang t|o s u items IH|] using block_ind2; intro H; try (split; reflexivity); [|discriminate].
  cbn [listless] in H. rewrite forallb_forall in H. rewrite Forall_forall in IH. cbn [own lists document].
  split; [|induction bs as [|b bs IHb]; [reflexivity|]; cbn [flat_map]; rewrite (proj2 (IH b (or_introl eq_refl) (H b (or_introl eq_refl)))); apply IHb;
           [intros x Hx; apply IH; now right|intros x Hx; apply H; now right]].
  induction bs as [|b bs IHb]; [reflexivity|]. cbn [flat_map]. rewrite (proj1 (IH b (or_introl eq_refl) (H b (or_introl eq_refl)))). f_equal. apply IHb;
           [intros x Hx; apply IH; now right|intros x Hx; apply H; now right].
Qed.
(** A block in an item: either it has no lists, or it is one. *)
Definition settled (b : block) : Prop :=
  if is_list b then own true b = [] /\ lists b = document true b else own true b = document true b /\ lists b = [].
Lemma settled_item : forall item, Forall settled item -> lists_last item = true ->
  flat_map (own true) item ++ flat_map lists item = flat_map (document true) item.
Proof.
  intros item F. induction F as [|b item Fb F IH]; intro L; [reflexivity|]. cbn [lists_last] in L. unfold settled in Fb. cbn [flat_map].
  destruct (is_list b).
  - destruct Fb as [-> ->]. cbn [app].
    assert (Q : flat_map (own true) item = [] /\ flat_map lists item = flat_map (document true) item).
    { clear IH. induction F as [|x item Fx F IHF]; [split; reflexivity|]. cbn [forallb] in L. apply andb_true_iff in L as [L1 L2].
      destruct (IHF L2) as [Q1 Q2]. cbn [flat_map]. rewrite Q1, Q2. unfold settled in Fx. destruct x; try discriminate L1; cbn [is_list] in Fx.
      - destruct Fx as [-> ->]. split; [reflexivity|]. reflexivity.
      - split; reflexivity. }
    destruct Q as [-> ->]. reflexivity.
  - destruct Fb as [-> ->]. cbn [app]. rewrite <- app_assoc, IH by exact L. reflexivity.
Qed.
Lemma regular_lists : forall b, regular b = true -> is_list b = true -> lists b = document true b /\ lists b = document false b.
Proof.
  induction b as [k l|l| |bs IH|lang t|o s u items IH|] using block_ind2; intros R L; try discriminate.
  cbn [regular] in R. rewrite forallb_forall in R. rewrite Forall_forall in IH.
  assert (Q : lists (BList o s u items) = document true (BList o s u items)).
  { cbn [lists document]. clear L. induction items as [|item items IHi]; [reflexivity|]. cbn [flat_map].
    rewrite IHi; [|intros x Hx; apply IH; now right|intros x Hx; apply R; now right]. f_equal. f_equal.
    assert (Ri := R item (or_introl eq_refl)). apply andb_true_iff in Ri as [R1 R2]. apply settled_item; [|exact R1].
    specialize (IH item (or_introl eq_refl)). rewrite Forall_forall in IH. apply Forall_forall. intros b Hb.
    rewrite forallb_forall in R2. specialize (R2 b Hb). unfold settled.
    destruct b as [k l|l| |bs|lang t|o' s' u' items'|]; cbn [is_list]; try (split; reflexivity).
    - apply own_listless. exact R2.
    - split; [reflexivity|]. apply (IH _ Hb); [exact R2|reflexivity]. }
  split; [exact Q|]. rewrite Q. reflexivity.
Qed.
Lemma regular_placed : forall b, regular b = true -> placed b = document false b.
Proof.
  induction b as [k l|l| |bs IH|lang t|o s u items IH|] using block_ind2; intro R; try reflexivity.
  - cbn [regular] in R. rewrite forallb_forall in R. rewrite Forall_forall in IH. cbn [placed document].
    induction bs as [|b bs IHb]; [reflexivity|]. cbn [flat_map]. rewrite (IH b (or_introl eq_refl) (R b (or_introl eq_refl))). f_equal.
    apply IHb; [intros x Hx; apply IH; now right|intros x Hx; apply R; now right].
  - apply (regular_lists (BList o s u items) R eq_refl).
Qed.
Theorem C85_document_order_partial : forall m C b cs doc, started m -> sl_box (ls_slide (m_state m)) = fill C (NBox b cs) -> accepted doc ->
  forallb regular doc = true ->
  exists m' w ws, markdown (b_id b) doc m = (m', Ok tt) /\
    sl_box (ls_slide (m_state m')) = fill C (NBox b (cs ++ [NBox w ws])) /\
    Forall2 (shows_mark m') (walk false [] (NBox w ws)) (flat_map (document false) doc).
Proof.
  intros m C b cs doc G T A R. destruct (C85_order_partial m C b cs doc G T A) as (m' & w & ws & E & _ & T' & Q).
  exists m', w, ws. split; [exact E|]. split; [exact T'|]. replace (flat_map (document false) doc) with (flat_map placed doc); [exact Q|].
  clear - R. induction doc as [|x doc IH]; [reflexivity|]. cbn [forallb] in R. apply andb_true_iff in R as [R1 R2]. cbn [flat_map].
  now rewrite regular_placed, IH.
Qed.

(** ** C86: fragments *)
(** What is not in a list is shown in every fragment; what is in a list from the last fragment
    of the slide at the moment of the call on.  No fragment is added. *)
Theorem C86_fragments_partial : forall m C b cs doc, started m -> sl_box (ls_slide (m_state m)) = fill C (NBox b cs) -> accepted doc ->
  exists m' w ws, markdown (b_id b) doc m = (m', Ok tt) /\
    sl_max (ls_slide (m_state m')) = sl_max (ls_slide (m_state m)) /\
    sl_box (ls_slide (m_state m')) = fill C (NBox b (cs ++ [NBox w ws])) /\
    Forall2 (fun x mk => forall k, 1 <= k ->
        (Forall (fun b => is_visible (b_show b) k = true) (fst x) <-> (fst mk = true -> sl_max (ls_slide (m_state m)) <= k)))
      (walk false [] (NBox w ws)) (flat_map placed doc).
Proof.
  intros m C b cs doc G T A. destruct (markdown_ok m C b cs doc G T A) as (m' & w & ws & E & GR & T' & R & _).
  exists m', w, ws. split; [exact E|]. split; [exact (gr_max _ _ GR)|]. split; [exact T'|]. rewrite <- (gr_max _ _ GR).
  clear - R. induction R as [|x mk xs mks (i & z & E & _ & _ & V) R IH]; constructor; auto. intros k K. specialize (V k K). cbn [andb] in V.
  rewrite Forall_forall. unfold visible_all in V.
  transitivity (forallb (fun b => is_visible (b_show b) k) (fst x) = true); [rewrite forallb_forall; reflexivity|]. rewrite V.
  destruct (fst mk); [rewrite Z.leb_le|]; intuition discriminate.
Qed.
(** So on a slide with one fragment everything is always shown together. *)
Theorem C86_together_partial : forall m C b cs doc, started m -> sl_box (ls_slide (m_state m)) = fill C (NBox b cs) -> accepted doc ->
  sl_max (ls_slide (m_state m)) = 1 ->
  exists m' w ws, markdown (b_id b) doc m = (m', Ok tt) /\
    sl_box (ls_slide (m_state m')) = fill C (NBox b (cs ++ [NBox w ws])) /\
    forall x k, In x (walk false [] (NBox w ws)) -> 1 <= k -> Forall (fun b => is_visible (b_show b) k = true) (fst x).
Proof.
  intros m C b cs doc G T A M. destruct (C86_fragments_partial m C b cs doc G T A) as (m' & w & ws & E & _ & T' & R).
  exists m', w, ws. split; [exact E|]. split; [exact T'|]. intros x k I K. rewrite M in R.
  clear - R I K. induction R as [|y mk xs mks V R IH]; [destruct I|]. destruct I as [->|I]; [|auto]. apply (V k K). lia.
Qed.

(** ** C87: labels *)
(** The labels made are those that the document asks for, in its order: in ordered lists the
    numbers from the start of the list on, without the numbers of the lists around; else the
    bullet of the document, by default the bullet of unordered lists. *)
Theorem C87_labels : forall m C b cs doc, started m -> sl_box (ls_slide (m_state m)) = fill C (NBox b cs) -> accepted doc ->
  exists m' new, markdown (b_id b) doc m = (m', Ok tt) /\ ls_shown (m_state m') = ls_shown (m_state m) ++ new /\
    Forall2 (fun x l => exists bd, nth_error (ls_lists (m_state m')) (fst x) = Some bd /\
      match l with
      | Num k => snd x = [k] /\ l_label bd = Some (arabic measure)
      | Bul t => exists t', l_label bd = Some (LText t') /\ (t = [] -> t' = [8226%N]) /\ (t <> [] -> t' = t)
      end) new (flat_map labels doc).
Proof.
  intros m C b cs doc G T A. destruct (markdown_ok m C b cs doc G T A) as (m' & w & ws & E & GR & T' & _ & new & N & R).
  exists m', new. split; [exact E|]. split; [exact N|]. clear - R. induction R as [|x l xs ls (bd & Q & V) R IH]; constructor; auto.
  exists bd. split; [exact Q|]. destruct l as [k|t]; [exact V|]. destruct t as [|c t]; eexists; (split; [exact V|]); split; congruence.
Qed.
End Doc.
Print Assumptions C85_order_partial.
Print Assumptions C85_document_order_partial.
Print Assumptions C86_fragments_partial.
Print Assumptions C86_together_partial.
Print Assumptions C87_labels.

(** ** Examples and refutations *)
Definition mt (style : str) (ts : list token) : Q * Q := (100%Q, 20%Q).
Definition lexers (lang : str) : option (str -> list (str * str)) := if str_eqb lang (pys "python") then Some pyg else None.
Definition m0 : mstate := mkM state0 [].
Definition par (s : str) : block := BParagraph [IRaw s].
Notation md := (markdown mt meas lexers (pys "~") 0).
Lemma m0_started : started m0.
Proof. split; [exact slide0_wf|]. intros i st ts []. Qed.
Lemma m0_root : sl_box (ls_slide (m_state m0)) = fill [] (NBox (mkBox 0 always 0) []).
Proof. reflexivity. Qed.

Definition doc1 : list block :=
  [BHeading 2 inl1; BQuote [par (pys "q"); BFenced (pys "python") (pys "x = 1")];
   BList true 3 [] [[par (pys "a"); BList false 1 (pys "*") [[par (pys "b")]]]; [BBlank; par (pys "c")]]; BOther].
Example C85_ex : accepted lexers 126%N doc1 /\ forallb regular doc1 = true /\
  (let m' := fst (md doc1 m0) in
   snd (md doc1 m0) = Ok tt /\ ls_shown (m_state m') = [(0%nat, [3]); (1%nat, [3; 1]); (0%nat, [4])] /\
   flat_map labels doc1 = [Num 3; Bul (pys "*"); Num 4] /\
   map fst (map fst (m_texts m')) = [3; 6; 8; 16; 24; 30; 32]%nat).
Proof.
  split; [|split; [reflexivity|vm_compute; repeat split; reflexivity]].
  unfold accepted, doc1. cbn [all ok_block]. split.
  - split; [lia|exact (proj1 C65_ex)].
  - cbn. intuition discriminate.
Qed.

(** A paragraph after a sublist is drawn before the sublist. *)
Definition doc2 : list block := [BList false 1 (pys "-") [[par (pys "a"); BList false 1 (pys "-") [[par (pys "b")]]; par (pys "c")]]].
Theorem C85_document_order_refuted : exists m C b cs doc m' w ws,
  started m /\ sl_box (ls_slide (m_state m)) = fill C (NBox b cs) /\ accepted lexers 126%N doc /\
  markdown mt meas lexers (pys "~") (b_id b) doc m = (m', Ok tt) /\
  sl_box (ls_slide (m_state m')) = fill C (NBox b (cs ++ [NBox w ws])) /\
  ~ Forall2 (shows_mark lexers m') (walk false [] (NBox w ws)) (flat_map (document false) doc).
Proof.
  exists m0, [], (mkBox 0 always 0), [], doc2, (fst (md doc2 m0)). do 2 eexists.
  split; [exact m0_started|]. split; [reflexivity|].
  split; [unfold accepted, doc2; cbn; intuition discriminate|]. split; [vm_compute; reflexivity|]. split; [vm_compute; reflexivity|].
  intro F. vm_compute in F. inversion F as [|x1 k1 xs1 ks1 _ F1]; subst. inversion F1 as [|x2 k2 xs2 ks2 _ F2]; subst.
  inversion F2 as [|x3 k3 xs3 ks3 S3 F3]; subst. destruct S3 as (i & z & E & Q). cbn in E. injection E as <- <-. cbn in Q.
  eapply Q. right. right. left. reflexivity.
Qed.
Print Assumptions C85_document_order_refuted.
(** A nested ordered list that starts at 0 raises; at the top it does not. *)
Definition zero : block := BList true 0 [] [[par (pys "a")]].
Theorem C85_start_zero_refuted : snd (md [zero] m0) = Ok tt /\
  snd (md [BList false 1 (pys "-") [[par (pys "b"); zero]]] m0) = Err EAssertion.
Proof. split; vm_compute; reflexivity. Qed.
Print Assumptions C85_start_zero_refuted.

(** On a slide whose last fragment is 2, the paragraphs of a document are in the first
    fragment, its lists are not. *)
Definition show2 : result box_args := call_args [Kshow (ShowInt 2)] [].
Definition slide2 : slide := match show2 with Ok a => fst (box_call slide0 0 a) | Err _ => slide0 end.
Definition m2 : mstate := mkM (mkState slide2 [] []) [].
Lemma m2_started : started m2.
Proof.
  split; [|intros i st ts []]. cbn [m2 m_state ls_slide]. unfold slide2. destruct show2 as [a|e]; [|exact slide0_wf].
  apply (perform_wf slide0 (CBox 0 a) _ (snd (box_call slide0 0 a)) slide0_wf). cbn [perform]. apply surjective_pairing.
Qed.
Definition doc3 : list block := [par (pys "a"); BList false 1 (pys "-") [[par (pys "b")]]].
Theorem C86_together_refuted : exists m C b cs doc m' w ws x y,
  started m /\ sl_box (ls_slide (m_state m)) = fill C (NBox b cs) /\ accepted lexers 126%N doc /\
  markdown mt meas lexers (pys "~") (b_id b) doc m = (m', Ok tt) /\
  sl_box (ls_slide (m_state m')) = fill C (NBox b (cs ++ [NBox w ws])) /\
  In x (walk false [] (NBox w ws)) /\ In y (walk false [] (NBox w ws)) /\
  Forall (fun b => is_visible (b_show b) 1 = true) (fst x) /\ ~ Forall (fun b => is_visible (b_show b) 1 = true) (fst y).
Proof.
  exists m2, [], (mkBox 0 always 0). eexists. exists doc3, (fst (md doc3 m2)). do 4 eexists.
  split; [exact m2_started|]. split; [vm_compute; reflexivity|].
  split; [unfold accepted, doc3; cbn; intuition discriminate|]. split; [vm_compute; reflexivity|]. 
  split; [vm_compute; reflexivity|]. split; [left; reflexivity|]. split; [right; left; reflexivity|].
  split; [repeat constructor|]. intro F. rewrite Forall_forall in F.
  apply (proj2 (forallb_forall (fun b => is_visible (b_show b) 1) _)) in F. vm_compute in F. discriminate.
Qed.
Print Assumptions C86_together_refuted.
