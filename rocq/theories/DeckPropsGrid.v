(** C47 for decks with PDFs: where each slide and each PDF is when there are several slides on
    a page. *)
From Coq Require Import List ZArith QArith NArith Bool String Lia.
From Verif Require Import Py PyFacts XmlModel XmlSpec XmlProofs XmlProps DeckModel DeckSpec DeckProofs DeckPages DeckProps.
Import ListNotations.

(** ** What is expected *)

(** What render() gets (slides with their contents, and files), and what it makes of them
    (pages with several slides, and files). *)
Inductive given := GSlide (content : list node) | GFile (u : runit).
Inductive made := MPage (contents : list (list node)) | MFile (u : runit).
Definition slides_in (l : list given) : list (list node) :=
  flat_map (fun g => match g with GSlide c => [c] | GFile _ => [] end) l.
Definition files_in (l : list given) : list runit :=
  flat_map (fun g => match g with GSlide _ => [] | GFile u => [u] end) l.
Definition pages_out (l : list made) : list (list (list node)) :=
  flat_map (fun m => match m with MPage cs => [cs] | MFile _ => [] end) l.
Definition files_out (l : list made) : list runit :=
  flat_map (fun m => match m with MPage _ => [] | MFile u => [u] end) l.
(** Slides are cut in pieces of [n]; files stay in order.  A file with [j] slides before it
    comes after the pages that were full before the last of these slides was placed. *)
Definition arranged (n : nat) (ins : list given) (outs : list made) : Prop :=
  pieces n (pages_out outs) (slides_in ins) /\
  files_out outs = files_in ins /\
  forall i1 u i2, ins = i1 ++ GFile u :: i2 ->
    exists o1 o2, outs = o1 ++ MFile u :: o2 /\ files_out o1 = files_in i1 /\
      List.length (pages_out o1) = ((List.length (slides_in i1) - 1) / n)%nat.

Definition unit_given (u : runit) (g : given) : Prop :=
  match g with
  | GSlide c => slide_unit u c
  | GFile v => u = v /\ get_svg u = None
  end.
Section Grid.
Variable fmt : Q -> str.
Variables width height : Q.
Variables columns rows : nat.
Hypothesis columns_pos : (0 < columns)%nat.
Hypothesis rows_pos : (0 < rows)%nat.
Hypothesis fmt_legal : forall q, legal_value (fmt q) = true.
Definition unit_made (u : runit) (m : made) : Prop :=
  match m with
  | MPage cs => is_page fmt width height columns rows u cs
  | MFile v => u = v
  end.
Let n := (columns * rows)%nat.

Lemma n_pos : (0 < n)%nat.
Proof. unfold n. destruct columns, rows; cbn; lia. Qed.

Lemma group_mixed : forall units ins, Forall2 unit_given units ins ->
  forall svgs cs acc, Forall2 embeddable svgs cs -> (List.length svgs <= n)%nat ->
  exists us outs,
    group_loop fmt width height (Z.of_nat columns) (Z.of_nat rows) units (Z.of_nat (List.length svgs))
      (page_calls fmt width height columns rows svgs) acc = Ok (acc ++ us) /\
    Forall2 unit_made us outs /\
    pieces n (pages_out outs) (cs ++ slides_in ins) /\
    files_out outs = files_in ins /\
    ((cs ++ slides_in ins) <> [] -> pages_out outs <> []) /\
    forall i1 u i2, ins = i1 ++ GFile u :: i2 ->
      exists o1 o2, outs = o1 ++ MFile u :: o2 /\ files_out o1 = files_in i1 /\
        List.length (pages_out o1) = ((List.length cs + List.length (slides_in i1) - 1) / n)%nat.
Proof.
  intros units ins H. assert (Np := n_pos).
  induction H as [|u g units ins Hu H IH]; intros svgs cs acc Hs Hl; cbn [group_loop].
  - cbn [slides_in flat_map]. rewrite app_nil_r. assert (L := forall2_length _ _ _ Hs).
    destruct svgs as [|x svgs].
    + destruct cs; [|discriminate]. exists [], []. cbn [List.length Z.of_nat close_page].
      unfold close_page. change (0 <? 0)%Z with false. cbv iota. rewrite app_nil_r.
      split; [reflexivity|]. split; [constructor|]. split; [apply pieces_nil|]. split; [reflexivity|].
      split; [intros X; congruence|]. intros i1 u i2 X. destruct i1; discriminate.
    + destruct (close_page_ok fmt width height columns rows columns_pos rows_pos fmt_legal (x :: svgs) cs acc ltac:(discriminate) Hs) as [v [E P]].
      exists [v], [MPage cs]. split; [exact E|]. split; [constructor; [exact P|constructor]|].
      cbn [pages_out flat_map app]. split.
      { destruct cs as [|c cs]; [discriminate|]. apply pieces_last. rewrite <- L. exact Hl. }
      split; [reflexivity|]. split; [discriminate|]. intros i1 u i2 X. destruct i1; discriminate.
  - destruct g as [c|v]; cbn [unit_given] in Hu.
    + destruct Hu as [of_ [svg [-> Hu]]]. cbn [get_svg]. assert (L := forall2_length _ _ _ Hs).
      destruct (Z.eqb_spec (Z.of_nat (List.length svgs)) (Z.of_nat columns * Z.of_nat rows)) as [E|E].
      * assert (E' : List.length svgs = n) by (unfold n; lia).
        assert (Hn : svgs <> []) by (intros X; rewrite X in E'; cbn in E'; lia).
        destruct (close_page_ok fmt width height columns rows columns_pos rows_pos fmt_legal svgs cs acc Hn Hs) as [v [Ev P]]. rewrite Ev. cbn [rbind].
        change (cell_calls fmt width height (Z.of_nat columns) 0 svg)
          with (cell_calls fmt width height (Z.of_nat columns) (Z.of_nat (List.length (@nil str))) svg).
        replace (new_page fmt width height (Z.of_nat columns) (Z.of_nat rows)) with (page_calls fmt width height columns rows [])
          by (unfold page_calls; cbn [cell_trees flat_map]; now rewrite app_nil_r).
        rewrite page_calls_snoc. cbn [app]. change 1%Z with (Z.of_nat (List.length [svg])).
        destruct (IH [svg] [c] (acc ++ [v])) as [us [outs [E1 [E2 [E3 [E4 [E5 E6]]]]]]].
        { constructor; [exact Hu|constructor]. } { cbn [List.length]. lia. }
        exists (v :: us), (MPage cs :: outs). split; [rewrite E1; now rewrite <- app_assoc|].
        split; [constructor; [exact P|exact E2]|]. cbn [pages_out files_out files_in slides_in flat_map app] in *.
        split; [apply pieces_full; [lia|apply E5; discriminate|exact E3]|].
        split; [exact E4|]. split; [discriminate|].
        intros i1 u i2 X. destruct i1 as [|g i1]; [discriminate|]. injection X as <- X.
        destruct (E6 i1 u i2 X) as [o1 [o2 [O1 [O2 O3]]]]. exists (MPage cs :: o1), o2.
        split; [now rewrite O1|]. split; [exact O2|].
        change (S (List.length (pages_out o1)) = ((List.length cs + S (List.length (slides_in i1)) - 1) / n)%nat).
        change (List.length (pages_out o1) = ((1 + List.length (slides_in i1) - 1) / n)%nat) in O3.
        rewrite O3, <- L, E'.
        replace (n + S (List.length (slides_in i1)) - 1)%nat with (List.length (slides_in i1) + 1 * n)%nat by lia.
        rewrite Nat.div_add by lia. replace (1 + List.length (slides_in i1) - 1)%nat with (List.length (slides_in i1)) by lia. lia.
      * replace (Z.of_nat (List.length svgs) + 1)%Z with (Z.of_nat (List.length (svgs ++ [svg])))
          by (rewrite app_length; cbn [List.length]; lia).
        rewrite page_calls_snoc.
        destruct (IH (svgs ++ [svg]) (cs ++ [c]) acc) as [us [outs [E1 [E2 [E3 [E4 [E5 E6]]]]]]].
        { apply forall2_snoc; auto. } { rewrite app_length. cbn [List.length]. unfold n in *. lia. }
        exists us, outs. split; [exact E1|]. split; [exact E2|]. rewrite <- app_assoc in E3, E5.
        split; [exact E3|]. split; [exact E4|]. split; [exact E5|].
        intros i1 u i2 X. destruct i1 as [|g i1]; [discriminate|]. injection X as <- X.
        destruct (E6 i1 u i2 X) as [o1 [o2 [O1 [O2 O3]]]]. exists o1, o2. split; [exact O1|]. split; [exact O2|].
        rewrite O3, app_length. cbn [slides_in flat_map app List.length]. f_equal. unfold slides_in. lia.
    + destruct Hu as [<- Hu]. rewrite Hu.
      destruct (IH svgs cs (acc ++ [u]) Hs Hl) as [us [outs [E1 [E2 [E3 [E4 [E5 E6]]]]]]].
      exists (u :: us), (MFile u :: outs). split; [rewrite E1; now rewrite <- app_assoc|].
      split; [constructor; [reflexivity|exact E2]|]. cbn [pages_out files_out files_in slides_in flat_map app] in *.
      split; [exact E3|]. split; [exact (f_equal (cons u) E4)|]. split; [exact E5|].
      intros i1 v i2 X. destruct i1 as [|g i1].
      * injection X as <- <-. exists [], outs. split; [reflexivity|]. split; [reflexivity|].
        cbn [List.length pages_out flat_map slides_in]. rewrite Nat.add_0_r.
        assert (L := forall2_length _ _ _ Hs). symmetry. apply Nat.div_small. lia.
      * injection X as <- X. destruct (E6 i1 v i2 X) as [o1 [o2 [O1 [O2 O3]]]]. exists (MFile u :: o1), o2.
        split; [now rewrite O1|]. split; [exact (f_equal (cons u) O2)|]. exact O3.
Qed.
End Grid.

(** Slides and PDFs together: every slide once, in order, on pages of [columns * rows]; every
    file once, in order, and exactly where. *)
Theorem C47_mixed : forall fmt width height columns rows units ins,
  (0 < columns)%nat -> (0 < rows)%nat -> (columns * rows <> 1)%nat ->
  (forall q, legal_value (fmt q) = true) ->
  Forall2 unit_given units ins ->
  exists us outs,
    per_page_grouping fmt width height (Z.of_nat columns) (Z.of_nat rows) Inkscape units = Ok us /\
    Forall2 (unit_made fmt width height columns rows) us outs /\
    arranged (columns * rows) ins outs.
Proof.
  intros fmt width height columns rows units ins Hc Hr H1 Hf H. unfold per_page_grouping.
  assert (E : ((0 <? Z.of_nat columns) && (0 <? Z.of_nat rows))%Z = true).
  { apply andb_true_iff. split; apply Z.ltb_lt; lia. }
  rewrite E. destruct (Z.eqb_spec (Z.of_nat columns * Z.of_nat rows) 1) as [E1|E1]; [lia|].
  destruct (group_mixed fmt width height columns rows Hc Hr Hf _ _ H [] [] []) as [us [outs [G1 [G2 [G3 [G4 [_ G5]]]]]]].
  { constructor. } { cbn. lia. }
  exists us, outs. split; [|split; [exact G2|split; [exact G3|split; [exact G4|exact G5]]]].
  unfold page_calls in G1. cbn [cell_trees flat_map List.length app] in G1.
  rewrite app_nil_r in G1. exact G1.
Qed.
Print Assumptions C47_mixed.

(** So a PDF comes too early whenever there is a slide before it, even if the page of that
    slide is full; and no slide comes too early. *)
Lemma pieces_bound : forall {A} n (xss : list (list A)) xs, pieces n xss xs ->
  xs = List.concat xss /\ Forall (fun x => (List.length x <= n)%nat) xss.
Proof.
  intros A n xss xs H. induction H as [|x xs L|x xss xs L N H [-> IH]]; cbn [List.concat].
  - split; [reflexivity|constructor].
  - rewrite app_nil_r. split; [reflexivity|]. constructor; [exact L|constructor].
  - split; [reflexivity|]. constructor; [lia|exact IH].
Qed.
Theorem C47_pdf_too_early : forall n ins outs i1 u i2, (0 < n)%nat -> arranged n ins outs ->
  ins = i1 ++ GFile u :: i2 ->
  exists o1 o2 before, outs = o1 ++ MFile u :: o2 /\ files_out o1 = files_in i1 /\
    slides_in i1 = List.concat (pages_out o1) ++ before /\ (slides_in i1 <> [] -> before <> []).
Proof.
  intros n ins outs i1 u i2 Hn [P [F A]] E. destruct (A i1 u i2 E) as [o1 [o2 [-> [F1 C]]]].
  assert (P' := P). apply pieces_bound in P'. destruct P' as [Pc Pb]. unfold pages_out in Pc, Pb. rewrite flat_map_app in Pc, Pb.
  fold (pages_out o1) in Pc, Pb. rewrite concat_app in Pc. apply Forall_app in Pb. destruct Pb as [Pb _].
  rewrite E in Pc. unfold slides_in in Pc. rewrite flat_map_app in Pc. fold (slides_in i1) in Pc.
  assert (Lc : (List.length (List.concat (pages_out o1)) <= n * List.length (pages_out o1))%nat).
  { clear - Pb. induction Pb as [|x l H Pb IH]; cbn [List.concat List.length]; [lia|]. rewrite app_length. lia. }
  assert (Ld : (n * List.length (pages_out o1) <= List.length (slides_in i1) - 1)%nat) by (rewrite C; apply Nat.mul_div_le; lia).
  set (a := List.concat (pages_out o1)) in *.
  assert (Ea : exists before, slides_in i1 = a ++ before).
  { exists (skipn (List.length a) (slides_in i1)).
    assert (X : firstn (List.length a) (slides_in i1) = a).
    { assert (Y := f_equal (firstn (List.length a)) Pc). rewrite firstn_app in Y.
      rewrite firstn_app, firstn_all, Nat.sub_diag, firstn_O, app_nil_r in Y.
      replace (List.length a - List.length (slides_in i1))%nat with 0%nat in Y by lia. now rewrite firstn_O, app_nil_r in Y. }
    rewrite <- X at 1. now rewrite firstn_skipn. }
  destruct Ea as [before Ea]. exists o1, o2, before. split; [reflexivity|]. split; [exact F1|]. split; [exact Ea|].
  intros N X. subst before. rewrite app_nil_r in Ea. rewrite Ea in Ld. destruct (slides_in i1); [congruence|].
  assert (List.length a <> 0)%nat by (rewrite <- Ea; discriminate). lia.
Qed.
Print Assumptions C47_pdf_too_early.

(** ** The whole render *)
Section Rendering.
Variable fmt : Q -> str.
Variables width height : Q.
Variable prepare : slide_obj -> result unit.
Variable steps : slide_obj -> Z.
Variable draw : slide_obj -> Z -> result str.
Variable svg_file : str -> str -> result str.
Variable cairo_file : slide_obj -> Z -> str -> str.
Notation render := (render fmt width height prepare steps draw svg_file cairo_file).
(** What a page of C46 is: a drawing that is the XML [content], or a PDF. *)
Definition page_given (ek : entry * Z) (g : given) : Prop :=
  match fst ek, g with
  | ESlide s, GSlide c => exists svg, draw s (snd ek) = Ok svg /\ embeddable svg c
  | EPdf f, GFile u => u = UFile f (pys "pdf")
  | _, _ => False
  end.
(** render() with slides_per_page=(columns, rows): the fragments of the slides in order on
    the pages, exported one by one. *)
Theorem C47_render : forall b debug d a es r columns rows,
  ra_per_page a = Some [Some (Z.of_nat columns); Some (Z.of_nat rows)] -> (columns * rows <> 1)%nat ->
  (forall q, legal_value (fmt q) = true) ->
  (forall s k svg, draw s k = Ok svg -> exists c, embeddable svg c) ->
  render b debug d a = (es, Ok r) ->
  b = Inkscape /\ (0 < columns)%nat /\ (0 < rows)%nat /\
  exists ins outs us,
    Forall2 page_given (pages steps (selected d a)) ins /\ arranged (columns * rows) ins outs /\
    Forall2 (unit_made fmt width height columns rows) us outs /\
    if ra_return_units a then r = RUnits us /\ written es = []
    else exists fs, Forall2 (exported svg_file cairo_file (ra_type a)) us fs /\
         if merged a then r = RNone /\ written es = [fs] else r = RFiles fs /\ written es = [].
Proof.
  intros b debug d a es r columns rows Hp H1 Hf Hd H.
  unfold DeckModel.render in H. fold (selected d a) in H. remember (selected d a) as l eqn:El. clear El.
  destruct l as [|e0 l0] eqn:El; [discriminate|]. rewrite <- El in *. clear El e0 l0. rewrite Hp in H. cbn [check_per_page] in H.
  apply tseq_ok in H. destruct H as [cnt [es0 [es1 [H0 [H ->]]]]]. injection H0 as <- <-.
  apply tseq_ok in H. destruct H as [[] [e1 [es2 [X1 [H ->]]]]].
  apply tseq_ok in H. destruct H as [[] [e2 [es3 [X2 [H ->]]]]].
  apply tseq_ok in H. destruct H as [[] [e3 [es4 [X3 [H ->]]]]].
  apply tseq_ok in H. destruct H as [units [e4 [es5 [X4 [H ->]]]]].
  apply tseq_ok in H. destruct H as [[] [e5 [es6 [X5 [H ->]]]]].
  apply tseq_ok in H. destruct H as [us [e6 [es7 [X6 [H ->]]]]]. injection X6 as <- X6.
  injection X4 as <- X4. assert (Sh := make_units_shows _ _ _ _ _ _ _ X4).
  assert (B : b = Inkscape /\ (0 < columns)%nat /\ (0 < rows)%nat).
  { destruct b; [|discriminate]. split; [reflexivity|]. unfold per_page_grouping in X6.
    destruct ((0 <? Z.of_nat columns)%Z && (0 <? Z.of_nat rows)%Z)%bool eqn:Z; [|discriminate].
    apply andb_true_iff in Z. destruct Z as [Z1 Z2]. apply Z.ltb_lt in Z1, Z2. lia. }
  destruct B as [-> [Hc Hr]]. split; [reflexivity|]. split; [exact Hc|]. split; [exact Hr|].
  assert (G : exists ins, Forall2 page_given (pages steps l) ins /\ Forall2 unit_given units ins).
  { clear - Sh Hd. induction Sh as [|ek u eks us S F [ins [I1 I2]]]; [exists []; split; constructor|].
    destruct ek as [[s|f] k]; unfold shows in S; cbn [fst snd] in S.
    - destruct S as [svg [D ->]]. destruct (Hd _ _ _ D) as [c Hc]. exists (GSlide c :: ins).
      split; constructor; auto; [exists svg; auto|]. do 2 eexists. eauto.
    - destruct S as [_ ->]. exists (GFile (UFile f (pys "pdf")) :: ins). split; constructor; auto; [reflexivity|].
      split; reflexivity. }
  destruct G as [ins [G1 G2]].
  destruct (C47_mixed fmt width height columns rows units ins Hc Hr H1 Hf G2) as [us' [outs [E1 [E2 E3]]]].
  rewrite E1 in X6. injection X6 as <-.
  exists ins, outs, us'. split; [exact G1|]. split; [exact E3|]. split; [exact E2|].
  assert (W1 : written e1 = []).
  { apply when_ok in X1. destruct X1 as [[_ X1]|[_ ->]]; [|reflexivity].
    apply tseq_ok in X1. destruct X1 as [bs [a1 [a2 [Y1 [Y2 ->]]]]]. injection Y1 as <- _. injection Y2 as <-. reflexivity. }
  assert (W2 : written e2 = []).
  { apply when_ok in X2. destruct X2 as [[_ X2]|[_ ->]]; [|reflexivity]. injection X2 as <-. reflexivity. }
  assert (W3 : written e3 = []).
  { apply when_ok in X3. destruct X3 as [[_ X3]|[_ ->]]; [|reflexivity]. injection X3 as <-. reflexivity. }
  assert (W5 : written e5 = []).
  { apply when_ok in X5. destruct X5 as [[_ X5]|[_ ->]]; [|reflexivity].
    rewrite <- (write_debugs_written units). now rewrite X5. }
  rewrite !written_app, W1, W2, W3, W5. cbn [app written flat_map].
  destruct (ra_return_units a).
  { injection H as <- <-. auto. }
  assert (Su : Forall (suits (ra_type a)) us').
  { assert (Tf : forall u, In u (files_out outs) -> suits (ra_type a) u).
    { destruct E3 as [_ [E3 _]]. rewrite E3. intros u I.
      clear - Sh I G1. revert units Sh. induction G1 as [|ek g eks ins Pg G1 IH]; intros units Sh; [destruct I|].
      inversion Sh as [|? ? ? ? S Sh']; subst. destruct ek as [[s|f] k], g as [c|v]; unfold page_given in Pg; cbn [fst snd] in Pg;
        try contradiction; cbn [files_in flat_map app] in I.
      - eapply IH; eauto.
      - destruct I as [<-|I]; [|eapply IH; eauto]. subst v. unfold shows in S. cbn [fst] in S. destruct S as [S _]. cbn. now symmetry. }
    clear - E2 Tf. induction E2 as [|u m us outs M E2 IH]; constructor.
    - destruct m as [cs|v]; cbn [unit_made] in M; [destruct M as [o [-> _]]; exact I|]. subst v. apply Tf. now left.
    - apply IH. intros v I. apply Tf. destruct m; [exact I|now right]. }
  unfold merged.
  assert (Ex : forall (k : list str -> tr rendered) es r, (tseq (export_all svg_file cairo_file us' (ra_type a)) k = (es, Ok r)) ->
    exists fs es', Forall2 (exported svg_file cairo_file (ra_type a)) us' fs /\
      k fs = (es', Ok r) /\ written es = written es').
  { intros k ess rr Hk. apply tseq_ok in Hk. destruct Hk as [fs [x1 [x2 [Y1 [Y2 ->]]]]].
    destruct (export_all_ok _ _ _ _ _ _ Su Y1) as [F ->]. exists fs, x2. split; [exact F|]. split; [exact Y2|].
    now rewrite written_app, written_exports. }
  assert (Pr : forall es (x : unit), when (ra_prune a) (temit EvPruneFiles) = (es, Ok x) -> written es = []).
  { intros ess [] Hw. apply when_ok in Hw. destruct Hw as [[_ Hw]|[_ ->]]; [|reflexivity]. injection Hw as <-. reflexivity. }
  assert (Un : forall (k : list str -> tr rendered) es r, tseq (export_all svg_file cairo_file us' (ra_type a)) k = (es, Ok r) ->
     k = (fun fs => tseq (when (ra_prune a) (temit EvPruneFiles)) (fun _ => tret (RFiles fs))) ->
     exists fs, Forall2 (exported svg_file cairo_file (ra_type a)) us' fs /\ r = RFiles fs /\ written es = []).
  { intros k ess rr Hk ->. apply Ex in Hk. destruct Hk as [fs [es' [F [X W]]]]. exists fs. split; [exact F|].
    apply tseq_ok in X. destruct X as [[] [x1 [x2 [Y1 [Y2 ->]]]]]. injection Y2 as <- <-.
    split; [reflexivity|]. rewrite W, written_app, (Pr _ _ Y1). reflexivity. }
  destruct (ra_merger a) as [m|]; [destruct (str_eqb (ra_type a) (pys "pdf"))|];
    apply tseq_ok in H; destruct H as [[] [x1 [x2 [Y1 [Y2 ->]]]]].
  - apply Ex in Y2. destruct Y2 as [fs [es' [F [Y2 W]]]]. exists fs. split; [exact F|].
    apply tseq_ok in Y2. destruct Y2 as [[] [y1 [y2 [V1 [V2 ->]]]]]. injection V1 as <-.
    apply tseq_ok in V2. destruct V2 as [[] [z1 [z2 [Z1 [Z2 ->]]]]]. injection Z2 as <- <-.
    split; [reflexivity|]. rewrite written_app, W.
    destruct (known_merger m); [|discriminate]. injection Y1 as <-.
    rewrite app_nil_r, written_app, (Pr _ _ Z1). reflexivity.
  - destruct (Un _ _ _ Y2 eq_refl) as [fs [F [-> W]]]. exists fs. split; [exact F|].
    injection Y1 as <-. split; [reflexivity|]. exact W.
  - destruct (Un _ _ _ Y2 eq_refl) as [fs [F [-> W]]]. exists fs. split; [exact F|].
    injection Y1 as <-. split; [reflexivity|]. exact W.
Qed.
End Rendering.
Print Assumptions C47_render.

(** A PDF between slides: two slides per page. *)
Example ex_C47_mixed : exists es p1 p2, ex_render Inkscape true two
  (mkArgs true (pys "pdf") (Some (pys "pypdf")) false true true None (Some [Some 2%Z; Some 1%Z])) =
    (es, Ok (RUnits [UFile (pys "x.pdf") (pys "pdf"); p1; p2])) /\
  read (match p1 with USvg _ s => s | _ => [] end) =
    Some [sheet (fun _ => pys "7") 4 3 2 1 [[NElem (pys "a") [] []]; [NElem (pys "a") [] []]]] /\
  read (match p2 with USvg _ s => s | _ => [] end) =
    Some [sheet (fun _ => pys "7") 4 3 2 1 [[NElem (pys "a") [] []]]].
Proof.
  do 3 eexists. split; [vm_compute; reflexivity|]. split; vm_compute; reflexivity.
Qed.
