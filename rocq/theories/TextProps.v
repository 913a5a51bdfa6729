(** Properties of texts: C23 - C32. *)
From Coq Require Import List ZArith NArith Bool Arith String Lia.
From Verif Require Import Py PyFacts TextModel TextSpec TextProofs TextMerge TextLines TextCode.
Import ListNotations.
Open Scope nat_scope.

Definition tilde : char := 126%N.
Definition lbr : char := 123%N.
Definition rbr : char := 125%N.
Definition parse (s : string) : result (list token) := parse_text (pys s) (Some tilde) lbr rbr.

(** ** C23 *)
Lemma scan_plain : forall esc b e s buf, Forall (fun c => is_char esc c = false) s ->
  scan esc b e 0 false buf s = scan esc b e 0 false (rev s ++ buf) [].
Proof.
  induction s as [|c s IH]; intros buf H; auto. inversion H as [|? ? Hc Hs]; subst.
  cbn [scan]. rewrite Hc, andb_false_r, IH by exact Hs. simpl. now rewrite <- app_assoc.
Qed.

Theorem C23_plain_text : forall esc b e s,
  (forall x, esc = Some x -> ~ In x s) ->
  exists ts, parse_text s esc b e = Ok ts /\
    without_trailing nl s (plain ts) /\
    styled [] ts = map (fun c => (c, [])) (plain ts) /\
    number_of_lines ts = List.length (split_on nl (plain ts)).
Proof.
  intros esc b e s H.
  assert (HF : Forall (fun c => is_char esc c = false) s).
  { apply Forall_forall. intros c Hc. destruct esc as [x|]; auto. simpl.
    apply N.eqb_neq. intros ->. exact (H x eq_refl Hc). }
  assert (E := scan_plain esc b e s [] HF). rewrite app_nil_r in E.
  assert (E0 : snd (scan esc b e 0 false [] s) = 0) by (rewrite E; reflexivity).
  destruct (parse_total _ _ _ _ E0) as [ts Hts]. exists ts. split; auto.
  destruct (parse_ok _ _ _ _ _ Hts) as [_ [Ht [_ W]]]. specialize (W []).
  assert (EE : events [] (fst (scan esc b e 0 false [] s)) = map (seen []) s).
  { rewrite E. cbn [scan fst]. destruct (rev s) as [|c r] eqn:Er.
    - assert (s = []) by (rewrite <- (rev_involutive s), Er; reflexivity). now subst.
    - rewrite <- Er, rev_involutive. simpl. apply app_nil_r. }
  rewrite EE in W. destruct W as [[k Wk] Wl].
  assert (ES : forall l, map (seen []) l = map (fun c => Char c []) l).
  { intro l. apply map_ext. intro c. unfold seen, break. now destruct (N.eqb_spec c 10); subst. }
  rewrite ES in Wk. apply map_eq_app in Wk. destruct Wk as [s1 [s2 [-> [E1 E2]]]].
  assert (Hc : styled [] ts = map (fun c => (c, [])) s1).
  { unfold styled. rewrite <- E1. clear. induction s1; simpl; congruence. }
  assert (Hp : plain ts = s1).
  { unfold plain. rewrite Hc, map_map. apply map_id. }
  assert (H2 : s2 = repeat nl k).
  { clear - E2. revert k E2. induction s2 as [|c s2 IH]; intros [|k] E2; auto; try discriminate.
    simpl in E2. injection E2 as -> E2. simpl. f_equal. now apply IH. }
  rewrite Hp. split; [|split].
  - split; [exists k; now rewrite H2|]. intros x Hx. apply (Wl (map (fun c => Char c []) x)).
    rewrite <- E1, Hx, map_app. reflexivity.
  - exact Hc.
  - rewrite <- (lines_count ts []) by (apply clean_no_nl, Ht). rewrite Hc. clear.
    induction s1 as [|c s IH]; auto. cbn [map lines fst split_on].
    change nl with 10%N in *. destruct (N.eqb c 10); simpl; [now rewrite IH|].
    destruct (lines_cons (map (fun c => (c, [])) s)) as [l [ls El]]. rewrite El in *.
    destruct (split_on_cons 10%N s) as [l' [ls' El']]. rewrite El' in *. exact IH.
Qed.
Print Assumptions C23_plain_text.

Example ex_C23 : parse_text (pys "a}b" ++ [nl; nl] ++ pys "{c" ++ [nl]) (Some tilde) lbr rbr =
  Ok [TText (pys "a}b"); TNewline 2; TText (pys "{c")].
Proof. reflexivity. Qed.

(** ** C24 *)

(** [docs_events]: characters with the names of all styles around them, and the openings of
    the styles, so also empty styles and the nesting are kept. *)
Theorem C24_inline_styles : forall esc b e ds, esc <> e -> valids esc b e false ds ->
  exists ts, parse_text (prints esc b e ds) (Some esc) b e = Ok ts /\ balanced ts /\
    without_trailing break (docs_events [] ds) (events [] ts).
Proof.
  intros esc b e ds He H. destruct (parse_docs esc b e He ds H) as [ts [Hp Hw]].
  exists ts. split; auto. split; auto. now apply parse_ok in Hp.
Qed.
Print Assumptions C24_inline_styles.

Definition doc1 : list doc :=
  [DText (pys "a"); DStyle (pys "x") [DText (pys "b"); DStyle (pys "y") [DText (pys "c" ++ [nl])];
   DStyle (pys "z") []]; DText (pys "}d")].
Example ex_C24 : valids tilde lbr rbr false doc1 /\
  prints tilde lbr rbr doc1 = pys "a~x{b~y{c" ++ [nl] ++ pys "}~z{}}}d" /\
  parse_text (prints tilde lbr rbr doc1) (Some tilde) lbr rbr =
    Ok [TText (pys "a"); TBegin (pys "x"); TText (pys "b"); TBegin (pys "y"); TText (pys "c");
        TEnd; TNewline 1; TBegin (pys "z"); TEnd; TEnd; TText (pys "}d")].
Proof.
  split; [|split; reflexivity].
  repeat constructor; simpl; intuition discriminate.
Qed.

(** ** C25 *)
Theorem C25_parsed_is_balanced : forall s esc b e ts, parse_text s esc b e = Ok ts ->
  balanced ts /\ tidy ts.
Proof. intros s esc b e ts H. destruct (parse_ok _ _ _ _ _ H) as [H1 [H2 _]]. auto. Qed.
Print Assumptions C25_parsed_is_balanced.

(** A text is accepted exactly if it is a document written with the delimiters; otherwise
    (some style is not closed) an exception is raised. *)
Theorem C25_rejected : forall s esc b e, esc <> e ->
  ((exists ts, parse_text s (Some esc) b e = Ok ts) <->
   exists ds, valids esc b e false ds /\ prints esc b e ds = s) /\
  (forall x, parse_text s (Some esc) b e = Err x -> x = EException).
Proof.
  intros s esc b e He. split; [split|].
  - intros [ts H]. eapply parse_complete; eauto.
  - intros [ds [Hv <-]]. destruct (parse_docs esc b e He ds Hv) as [ts [H _]]. eauto.
  - intros x H. now apply parse_err in H.
Qed.
Print Assumptions C25_rejected.

Example ex_C25 : parse "~a{b~c{d}" = Err EException /\ parse "~a b" = Err EException /\
  is_ok (parse "~a{b~c{d}}") = true.
Proof. repeat split. Qed.

(** ** C26 *)

(** The documentation says that a doubled escape character stands for itself.  Such a text is
    rejected if no begin character follows ... *)
Theorem C26_doubled_escape_refuted : forall esc b e s t, ~ In esc s -> ~ In b t -> esc <> b ->
  parse_text (s ++ esc :: esc :: t) (Some esc) b e = Err EException.
Proof.
  intros esc b e s t Hs Ht Hb. unfold parse_text.
  rewrite (scan_text esc b e s 0 [] (esc :: esc :: t) Hs) by lia.
  cbn [scan is_char]. rewrite N.eqb_refl.
  assert (K : forall u buf, ~ In b u ->
    scan (Some esc) b e 0 true buf u = ([TBegin (rev buf ++ u)], 1)).
  { induction u as [|c u IH]; intros buf Hu; cbn [scan].
    - now rewrite app_nil_r.
    - destruct (N.eqb_spec c b); [exfalso; apply Hu; now left|].
      rewrite IH by (intro; apply Hu; now right). simpl. now rewrite <- app_assoc. }
  destruct (N.eqb_spec esc b); [contradiction|]. rewrite K by exact Ht. reflexivity.
Qed.
Print Assumptions C26_doubled_escape_refuted.

(** ... and otherwise loses the characters. *)
Theorem C26_doubled_escape_lost_refuted : exists ts, parse "a~~b{c}" = Ok ts /\
  plain ts = pys "ac".
Proof. eexists. split; reflexivity. Qed.
Print Assumptions C26_doubled_escape_lost_refuted.

(** ** C27 *)

(** [line] is the line of the token at position [k] of the line.  The tokens of the result
    up to the returned index show the part of the line before the token, with the same
    styles open. *)
Theorem C27_extract_line : forall pre line post k, balanced (pre ++ line ++ post) ->
  (forall n, ~ In (TNewline n) line) -> k < List.length line ->
  (pre = [] \/ exists p n, pre = p ++ [TNewline n]) ->
  (post = [] \/ exists n p, post = TNewline n :: p) ->
  exists r j,
    extract_line (pre ++ line ++ post) (List.length pre + k) = Ok (r, Z.of_nat j) /\
    balanced r /\ (forall n, ~ In (TNewline n) r) /\
    styled [] r = styled (after [] pre) line /\
    j < List.length r /\ nth_error r j = nth_error line k /\
    styled [] (firstn j r) = styled (after [] pre) (firstn k line) /\
    after [] (firstn j r) = after [] (pre ++ firstn k line).
Proof.
  intros pre line post k H1 H2 H3 H4 H5.
  assert (Hn : newline_free line).
  { apply Forall_forall. intros t Ht. destruct t as [s|n|s|]; auto. exfalso. now apply (H2 n). }
  destruct (extract_line_spec pre line post k H1 Hn H3 H4 H5)
    as [r [j [E [B [N [S1 [L [Nth [S2 A]]]]]]]]].
  exists r, j. split; auto. split; auto. split.
  { intros n Hx. unfold newline_free in N. rewrite Forall_forall in N. apply N in Hx. discriminate. }
  split; auto. split; auto. split; auto. split; auto. rewrite after_app. exact A.
Qed.
Print Assumptions C27_extract_line.

Example ex_C27 : exists ts, parse_text (pys "~a{b" ++ [nl] ++ pys "~c{d} e" ++ [nl] ++ pys "f}")
    (Some tilde) lbr rbr = Ok ts /\
  extract_line ts 5 = Ok ([TBegin (pys "a"); TBegin (pys "c"); TText (pys "d"); TEnd;
                           TText (pys " e"); TEnd], 3%Z).
Proof. eexists. split; reflexivity. Qed.

(** ** C28 *)
Theorem C28_line_numbers : forall ts, no_nl ts -> exists w,
  1 <= w /\
  with_numbers w 1 (lines (styled [] ts)) (lines (styled [] (add_line_numbers ts))) /\
  (forall n, nest n (add_line_numbers ts) = nest n ts) /\
  number_of_lines (add_line_numbers ts) = number_of_lines ts /\
  List.length (lines (styled [] ts)) = number_of_lines ts.
Proof.
  intros ts H. destruct (line_numbers_spec ts H) as [w [H1 [H2 [H3 [H4 H5]]]]].
  exists w. split; auto. split; auto. split; auto. split; auto. now apply lines_count.
Qed.
Print Assumptions C28_line_numbers.

Example ex_C28 : exists ts, parse_text (pys "~a{b" ++ repeat nl 9 ++ pys "c}") (Some tilde) lbr rbr = Ok ts /\
  map (map fst) (firstn 2 (lines (styled [] (add_line_numbers ts)))) = [pys "01 b"; pys "02 "] /\
  map (map fst) (skipn 9 (lines (styled [] (add_line_numbers ts)))) = [pys "10 c"].
Proof. eexists. split; [reflexivity|]. split; vm_compute; reflexivity. Qed.

(** ** C29 *)
Theorem C29_merge_keeps_text : forall t1 t2, clean t1 -> clean t2 -> balanced t1 ->
  balanced t2 -> plain t1 = plain t2 ->
  exists m, tokens_merge t1 t2 = Ok m /\ balanced m /\ tidy m /\
    exists k, plain t1 = plain m ++ repeat nl k.
Proof.
  intros t1 t2 C1 C2 B1 B2 HT. rewrite !plain_text in HT.
  destruct (tokens_merge_spec t1 t2 C1 C2 B1 B2 HT) as [m [H1 [H2 [H3 [H4 _]]]]].
  exists m. split; auto. split; auto. split; auto. now rewrite !plain_text.
Qed.
Print Assumptions C29_merge_keeps_text.

Example ex_C29 : exists t1 t2 m, parse "~a{AB}CD" = Ok t1 /\ parse "A~x{B~y{C}D}" = Ok t2 /\
  clean t1 /\ clean t2 /\ balanced t1 /\ balanced t2 /\ plain t1 = plain t2 /\
  tokens_merge t1 t2 = Ok m /\ plain m = pys "ABCD".
Proof.
  do 3 eexists. split; [reflexivity|]. split; [reflexivity|].
  split; [repeat constructor; simpl; intuition discriminate|].
  split; [repeat constructor; simpl; intuition discriminate|].
  repeat split.
Qed.

(** ** C30 *)

(** Full statement: every character carries the styles of both lists ([joined]). It is false
    if one list closes a block below two blocks of the other list: they are reopened in the
    wrong order, and later the wrong one is closed.  It holds if neither list has nested
    blocks (the highlighting never has). *)
Theorem C30_merge_styles_partial : forall t1 t2, clean t1 -> clean t2 -> balanced t1 ->
  balanced t2 -> plain t1 = plain t2 -> flat false t1 -> flat false t2 ->
  exists m k, tokens_merge t1 t2 = Ok m /\
    joined (styled [] m ++ repeat (nl, []) k) (styled [] t1) (styled [] t2).
Proof.
  intros t1 t2 C1 C2 B1 B2 HT F1 F2. rewrite !plain_text in HT.
  destruct (tokens_merge_spec t1 t2 C1 C2 B1 B2 HT) as [m [H1 [H2 [H3 [H4 H5]]]]].
  destruct (H5 F1 F2) as [k Hk]. eauto.
Qed.
Print Assumptions C30_merge_styles_partial.

Theorem C30_merge_styles_refuted : exists t1 t2 m, clean t1 /\ clean t2 /\ balanced t1 /\
  balanced t2 /\ plain t1 = plain t2 /\ flat false t1 /\ tokens_merge t1 t2 = Ok m /\
  nth_error (styled [] t1) 3 = Some (68%N, []) /\
  nth_error (styled [] t2) 3 = Some (68%N, [pys "x"]) /\
  nth_error (styled [] m) 3 = Some (68%N, [pys "y"]).
Proof.
  exists [TBegin (pys "a"); TText (pys "AB"); TEnd; TText (pys "CD")],
    [TText (pys "A"); TBegin (pys "x"); TBegin (pys "y"); TText (pys "BC"); TEnd;
     TText (pys "D"); TEnd].
  eexists. split; [repeat constructor; simpl; intuition discriminate|].
  split; [repeat constructor; simpl; intuition discriminate|]. repeat split.
Qed.
Print Assumptions C30_merge_styles_refuted.

Example ex_C30 : exists t1 t2 m, parse "~a{AB}CD" = Ok t1 /\ parse "A~x{BC}D" = Ok t2 /\
  flat false t1 /\ flat false t2 /\ tokens_merge t1 t2 = Ok m /\
  styled [] m = [(65%N, [pys "a"]); (66%N, [pys "x"; pys "a"]); (67%N, [pys "x"]); (68%N, [])].
Proof. do 3 eexists. repeat split. Qed.

(** ** C31 *)

(** [m] characters are removed from each line, only white space from lines that are not
    blank; one more would remove a character that is not white space. *)
Theorem C31_trim_indent_partial : forall s r, trim_indent s = Ok r -> exists m ls,
  has_lines s ls /\ split_on nl r = map (skipn m) ls /\
  (forall l, In l ls -> ~ blank l ->
     Forall (fun c => is_space c = true) (firstn m l) /\ m < List.length l) /\
  (exists l c t, In l ls /\ ~ blank l /\ skipn m l = c :: t /\ is_space c = false) /\
  ((forall r', r <> r' ++ [nl]) -> r <> [] -> trim_indent r = Ok r).
Proof.
  intros s r H. destruct (trim_ok s r H) as [m [ls [H1 [H2 [H3 [H4 _]]]]]].
  exists m, ls. split; auto. split; [|split; auto; split; auto; now apply trim_again with s].
  rewrite H2. apply split_join.
  - destruct H4 as [l [_ [_ [Hl _]]]]. destruct ls; [destruct Hl|discriminate].
  - apply Forall_map. eapply Forall_impl; [|exact (has_lines_free _ _ H1)].
    intros a Ha Hn. apply (skipn_free _ m) in Ha. rewrite Forall_forall in Ha.
    apply (Ha _ Hn). unfold boundary, nl. simpl. tauto.
Qed.
Print Assumptions C31_trim_indent_partial.

(** Raises exactly if there is no line that is not blank. *)
Theorem C31_trim_indent_raises : forall s,
  (exists x, trim_indent s = Err x) <-> forall ls, has_lines s ls -> Forall blank ls.
Proof.
  intro s. split.
  - intros [x H] ls Hl. apply trim_err in H. destruct H as [_ H].
    now rewrite (has_lines_det s ls (splitlines s) Hl (splitlines_spec s)).
  - intro H. destruct (trim_indent s) as [r|x] eqn:E; [|eauto].
    destruct (trim_ok s r E) as [m [ls [H1 [_ [_ [[l [c [t [L1 [L2 _]]]]] _]]]]]].
    specialize (H ls H1). rewrite Forall_forall in H. now apply H in L1.
Qed.
Print Assumptions C31_trim_indent_raises.

(** Not idempotent if the last line gets empty. *)
Theorem C31_idempotent_refuted : exists s r r', trim_indent s = Ok r /\
  trim_indent r = Ok r' /\ r' <> r.
Proof.
  exists (pys "  a" ++ [nl] ++ pys "  "), (pys "a" ++ [nl]), (pys "a").
  split; [reflexivity|]. split; [reflexivity|]. discriminate.
Qed.
Print Assumptions C31_idempotent_refuted.

Example ex_C31 : trim_indent (pys "   a" ++ [nl; 32%N; nl] ++ pys "  b") =
  Ok (pys " a" ++ [nl; nl] ++ pys "b").
Proof. reflexivity. Qed.

(** ** C32 *)

(** Highlighting never fails and shows the texts of the lexer's tokens, each character with
    the style of its token, without trailing newlines. *)
Theorem C32_highlight : forall lex code, exists ts k, highlight_code lex code = Ok ts /\
  balanced ts /\ tidy ts /\
  flat_map (fun tv => map (fun c => (c, if N.eqb c nl then [] else [pys "pygments-" ++ fst tv]))
              (snd tv)) (lex code) = styled [] ts ++ repeat (nl, []) k.
Proof.
  intros lex code. destruct (highlight_spec lex code) as [ts [k [H1 [H2 [H3 [H4 H5]]]]]].
  exists ts, k. auto.
Qed.
Print Assumptions C32_highlight.

(** With inline styles, written as the document [ds] after [n] newlines.
    Full statement: for all documents.  Missing: texts of the document that start with a
    newline inside a style or end with a newline before an empty style (refuted below). *)
Theorem C32_code_partial : forall lex text n ds tabsize esc_s esc b e,
  delimiters esc_s = Ok (esc, b, e) -> esc <> e -> valids esc b e false ds ->
  expand_tabs tabsize text = repeat nl n ++ prints esc b e ds ->
  (forall x, prints esc b e ds <> nl :: x) ->
  let shown := map fst (chars (docs_events [] ds)) in
  (forall x, shown <> nl :: x) -> (forall x, shown <> x ++ [nl]) ->
  (forall s, (forall x, s <> nl :: x) -> (forall x, s <> x ++ [nl]) -> tokenises lex s) ->
  exists r hl, code_tokens (Some lex) text tabsize false true esc_s = Ok r /\
    highlight_code lex shown = Ok hl /\ balanced r /\
    plain r = repeat nl n ++ shown /\
    ((forall nm es, In (DStyle nm es) ds -> forall nm' es', ~ In (DStyle nm' es') es) ->
     joined (styled [] r) (repeat (nl, []) n ++ styled [] hl)
       (repeat (nl, []) n ++ chars (docs_events [] ds))).
Proof.
  intros lex text n ds tabsize esc_s esc b e Hd He Hv Ht Hs shown S1 S2 Hlex.
  destruct (parse_docs esc b e He ds Hv) as [pt [Hp Hw]].
  assert (HC : chars (docs_events [] ds) = styled [] pt).
  { destruct Hw as [[k Hk] _]. destruct k as [|k].
    - rewrite app_nil_r in Hk. rewrite Hk. reflexivity.
    - exfalso. rewrite repeat_snoc, app_assoc in Hk.
      apply (S2 (map fst (chars (events [] pt ++ repeat break k)))). unfold shown.
      rewrite Hk, chars_app, map_app. reflexivity. }
  assert (HP : plain pt = shown) by (unfold plain, shown; now rewrite HC).
  destruct (code_styles lex text n (prints esc b e ds) tabsize esc_s esc b e pt)
    as [r [hl [R1 [R2 [R3 [R4 [R5 R6]]]]]]]; auto.
  { now rewrite HP. } { rewrite HP. auto. }
  exists r, hl. rewrite HP in *. split; auto. split; auto. split; auto. split; auto.
  intro Hflat. rewrite HC. apply R6. eapply docs_flat; eauto.
Qed.
Print Assumptions C32_code_partial.

(** Without inline styles: with a language the tokens of the lexer, else the text. *)
Theorem C32_code_plain : forall lex text tabsize ln esc_s esc b e,
  delimiters esc_s = Ok (esc, b, e) ->
  let code := join_with (repeat 32%N tabsize) (split_on 9%N text) in
  exists ts, code_tokens lex text tabsize false false esc_s = Ok ts /\ balanced ts /\ tidy ts /\
    code_tokens lex text tabsize ln false esc_s = Ok (if ln then add_line_numbers ts else ts) /\
    match lex with
    | Some l => exists k, flat_map snd (l code) = plain ts ++ repeat nl k
    | None => without_trailing nl code (plain ts)
    end.
Proof.
  intros lex text tabsize ln esc_s esc b e Hd code.
  assert (Hc : expand_tabs tabsize text = code).
  { unfold code, expand_tabs. clear. induction text as [|c s IH]; auto.
    cbn [flat_map split_on]. destruct (N.eqb_spec c 9).
    - rewrite IH. destruct (split_on_cons 9%N s) as [l [ls ->]]. reflexivity.
    - rewrite IH. destruct (split_on_cons 9%N s) as [l [ls ->]]. destruct ls; reflexivity. }
  unfold code_tokens. rewrite Hd, Hc. cbn [rbind]. destruct lex as [l|].
  - destruct (highlight_spec l code) as [ts [k [H1 [H2 [H3 [_ H5]]]]]]. rewrite H1. cbn [rbind].
    exists ts. split; auto. split; auto. split; auto. split; [now destruct ln|].
    exists k. rewrite <- lexed_text, H5, map_app, map_fst_repeat. reflexivity.
  - destruct (C23_plain_text None b e code) as [ts [H1 [H2 _]]]; [discriminate|].
    rewrite H1. cbn [rbind]. destruct (parse_ok _ _ _ _ _ H1) as [H3 [H4 _]].
    exists ts. auto 6.
Qed.
Print Assumptions C32_code_plain.

(** A lexer of pygments: newlines around the code are stripped and one is added. *)
Definition strip_nl (s : str) : str :=
  let drop s := snd (span (N.eqb nl) s) in rev (drop (rev (drop s))).
Definition pyg (s : str) : list (str * str) := [(pys "Text", strip_nl s ++ [nl])].

Example ex_pyg_tokenises : forall s, s <> [] -> (forall x, s <> nl :: x) -> (forall x, s <> x ++ [nl]) ->
  tokenises pyg s.
Proof.
  intros s H0 H1 H2. split.
  - constructor; [|constructor]. simpl. destruct (strip_nl s); discriminate.
  - right. simpl. rewrite app_nil_r. f_equal. unfold strip_nl.
    assert (E1 : snd (span (N.eqb nl) s) = s).
    { destruct s as [|c s]; auto. cbn [span]. destruct (N.eqb_spec nl c); auto. subst.
      exfalso. now apply (H1 s). }
    rewrite E1. destruct (exists_last H0) as [s' [c ->]]. rewrite rev_app_distr. cbn [rev app span].
    destruct (N.eqb_spec nl c) as [<-|]; [exfalso; now apply (H2 s')|].
    cbn [snd]. simpl. now rewrite rev_involutive.
Qed.

(** "~a{\nx}" and "x\n~a{}" make code() fail. *)
Theorem C32_code_refuted :
  code_tokens (Some pyg) (pys "~a{" ++ [nl] ++ pys "x}") 4 false true (pys "~") = Err EAssertion /\
  code_tokens (Some pyg) (pys "x" ++ [nl] ++ pys "~a{}") 4 false true (pys "~") = Err EAssertion.
Proof. split; vm_compute; reflexivity. Qed.
Print Assumptions C32_code_refuted.

(** Without inline styles nobody puts back the leading newlines that the lexer strips. *)
Theorem C32_leading_newlines_refuted : exists ts1 ts2,
  code_tokens (Some pyg) ([nl] ++ pys "x") 4 false false (pys "~") = Ok ts1 /\ plain ts1 = pys "x" /\
  code_tokens (Some pyg) ([nl] ++ pys "x") 4 false true (pys "~") = Ok ts2 /\
  plain ts2 = [nl] ++ pys "x".
Proof. do 2 eexists. repeat split. Qed.
Print Assumptions C32_leading_newlines_refuted.

Definition words (s : str) : list (str * str) :=
  map (fun c => ((if is_digit c then pys "Number" else pys "Name"), [c])) s ++ [(pys "Text", [nl])].
Example ex_C32 : exists r,
  code_tokens (Some words) (repeat nl 2 ++ pys "a~x{1" ++ [9%N] ++ pys "2}b") 2 false true (pys "~") = Ok r /\
  plain r = repeat nl 2 ++ pys "a1  2b" /\
  nth_error (styled [] r) 3 = Some (49%N, [pys "pygments-Number"; pys "x"]).
Proof. eexists. split; [vm_compute; reflexivity|]. split; vm_compute; reflexivity. Qed.
