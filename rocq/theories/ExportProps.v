(** Property C100: what becomes of the pages: merged documents, presentations, notebooks. *)
From Coq Require Import List ZArith QArith NArith Bool String Lia.
From Verif Require Import Py PyFacts XmlModel XmlSpec DeckModel DeckSpec DeckProofs DeckPages DeckProps.
From Verif Require JupyterModel JupyterProps.
From Verif Require Import ExportModel.
Import ListNotations.

(** ** What is expected *)

Section Spec.
Variable draw : slide_obj -> Z -> result str.
Variable svg_file : str -> str -> result str.
Variable cairo_file : slide_obj -> Z -> str -> str.
(** [f] is the file of this page. *)
Definition page_file (b : backend) (type : str) (ek : entry * Z) (f : str) : Prop :=
  match fst ek with
  | EPdf g => f = g
  | ESlide s =>
      exists svg, draw s (snd ek) = Ok svg /\
      match b with
      | Inkscape => svg_file svg type = Ok f
      | Cairo => f = cairo_file s (snd ek) type
      end
  end.

(** The pages of PDF files, and the page that shows a drawing. *)
Variable P : Type.
Variable pdf_pages : str -> list P.
Variable page_of : str -> P.
(** The programs that make PDFs write one page with the drawing. *)
Definition converts : Prop :=
  (forall svg f, svg_file svg (pys "pdf") = Ok f -> pdf_pages f = [page_of svg]) /\
  (forall s k svg, draw s k = Ok svg -> pdf_pages (cairo_file s k (pys "pdf")) = [page_of svg]).
(** What pdfunite in_1 .. in_n out, or the library, writes: the file and its pages. *)
Definition document (w : wrote) : option (str * list P) :=
  match w with
  | WPy o ins => Some (o, flat_map pdf_pages ins)
  | WCall (prog :: (_ :: _) as rest) =>
      if str_eqb prog (pys "pdfunite")
      then Some (last rest [], flat_map pdf_pages (removelast rest)) else None
  | WCall _ => None
  end.
(** The pages that an entry should get. *)
Definition own_pages (ek : entry * Z) : list P :=
  match fst ek with
  | EPdf f => pdf_pages f
  | ESlide s => match draw s (snd ek) with Ok svg => [page_of svg] | Err _ => [] end
  end.
End Spec.

(** ** Proofs *)

Lemma fold_append_py : forall fs gs, fold_left append fs (MPy gs) = MPy (gs ++ fs).
Proof. induction fs as [|f fs IH]; intros gs; cbn; [now rewrite app_nil_r|]. rewrite IH, <- app_assoc. reflexivity. Qed.
Lemma fold_append_ext : forall fs c gs, fold_left append fs (MExternal c gs) = MExternal c (gs ++ fs).
Proof. induction fs as [|f fs IH]; intros c gs; cbn; [now rewrite app_nil_r|]. rewrite IH, <- app_assoc. reflexivity. Qed.
Lemma merge_is : forall m fs o w, merge m fs (Some o) = Ok w ->
  w = WPy o fs \/ w = WCall (pys "pdfunite" :: fs ++ [o]).
Proof.
  intros m fs o w H. unfold merge, get_pdf_merger_by_name in H.
  destruct (str_eqb m (pys "pypdf")); [|destruct (str_eqb m (pys "pdfunite")); [|discriminate]]; cbn [rbind] in H.
  - rewrite fold_append_py in H. injection H as <-. now left.
  - rewrite fold_append_ext in H. injection H as <-. right. reflexivity.
Qed.
Lemma merge_known : forall m fs o, known_merger m = true -> exists w, merge m fs (Some o) = Ok w.
Proof.
  intros m fs o H. unfold known_merger in H. apply orb_true_iff in H. unfold merge, get_pdf_merger_by_name.
  destruct (str_eqb m (pys "pypdf")); cbn [rbind].
  - rewrite fold_append_py. eexists. reflexivity.
  - destruct H as [H|H]; [discriminate|]. rewrite H. cbn [rbind]. rewrite fold_append_ext. eexists. reflexivity.
Qed.
Lemma document_merge : forall P (pp : str -> list P) m fs o w, merge m fs (Some o) = Ok w ->
  document P pp w = Some (o, flat_map pp fs).
Proof.
  intros P pp m fs o w H. apply merge_is in H. destruct H as [->| ->]; [reflexivity|].
  cbn [document]. destruct (fs ++ [o]) as [|x r] eqn:E; [destruct fs; discriminate|]. rewrite <- E.
  rewrite str_eqb_refl, last_last, removelast_last. reflexivity.
Qed.

Section Exports.
Variable fmt : Q -> str.
Variables width height : Q.
Variable prepare : slide_obj -> result unit.
Variable steps : slide_obj -> Z.
Variable draw : slide_obj -> Z -> result str.
Variable svg_file : str -> str -> result str.
Variable cairo_file : slide_obj -> Z -> str -> str.
Notation render := (render fmt width height prepare steps draw svg_file cairo_file).
Notation page_file := (page_file draw svg_file cairo_file).
Notation export_pptx := (export_pptx fmt width height prepare steps draw svg_file cairo_file).

Lemma page_files : forall b type eks us fs, Forall2 (shows draw b type) eks us ->
  Forall2 (exported svg_file cairo_file type) us fs -> Forall2 (page_file b type) eks fs.
Proof.
  intros b type eks us fs H. revert fs. induction H as [|ek u eks us S _ IH]; intros fs F; inversion F as [|? f ? fs' E F']; subst; constructor; auto.
  destruct ek as [[s|g] k]; unfold shows in S; cbn [fst snd] in S; unfold ExportProps.page_file; cbn [fst snd].
  - destruct S as [svg [D S]]. exists svg. split; [exact D|]. destruct b; [|destruct S as [_ S]]; subst u; exact E.
  - destruct S as [_ ->]. exact E.
Qed.

(** A successful render with a merger: the file has, in order, one page for each fragment of
    each slide and all pages of the PDFs of the deck. *)
Theorem C100_document : forall P pp page_of b debug d a es r m o,
  converts draw svg_file cairo_file P pp page_of ->
  ra_per_page a = None -> ra_type a = pys "pdf" -> ra_merger a = Some m -> ra_return_units a = false ->
  render b debug d a = (es, Ok r) ->
  exists fs w, written es = [fs] /\ merge m fs (Some o) = Ok w /\
  document P pp w = Some (o, flat_map (own_pages draw P pp page_of) (pages steps (selected d a))).
Proof.
  intros P pp po b debug d a es r m o [C1 C2] Hp Ht Hm Hu H.
  assert (K : known_merger m = true).
  { destruct (known_merger m) eqn:K; [reflexivity|]. exfalso. unfold DeckModel.render in H. fold (selected d a) in H.
    destruct (selected d a); [discriminate|]. rewrite Hp in H.
    do 7 (apply tseq_ok in H; destruct H as [? [? [? [_ [H ->]]]]]).
    rewrite Hu, Hm, Ht, str_eqb_refl in H. cbv zeta in H. rewrite K in H. discriminate. }
  assert (X := C46_pages fmt width height prepare steps draw svg_file cairo_file b debug d a es r Hp H). rewrite Hu in X.
  destruct X as [us [S [fs [E W]]]]. unfold merged in W. rewrite Hm, Ht, str_eqb_refl in W. destruct W as [_ W].
  destruct (merge_known m fs o K) as [w Ew]. exists fs, w. split; [exact W|]. split; [exact Ew|].
  rewrite (document_merge _ _ _ _ _ _ Ew). do 2 f_equal. rewrite Ht in *.
  assert (F := page_files _ _ _ _ _ S E). clear - C1 C2 F.
  induction F as [|[[s|g] k] f eks fs H F IH]; cbn [flat_map]; [reflexivity| |]; rewrite IH; f_equal;
    unfold ExportProps.page_file in H; unfold own_pages; cbn [fst snd] in *.
  - destruct H as [svg [D H]]. rewrite D. destruct b; [now apply C1|]. rewrite H. now apply C2.
  - now rewrite H.
Qed.

(** Without an output the merger fails, whichever it is. *)
Theorem C100_no_output : forall m fs, exists e, merge m fs None = Err e.
Proof.
  intros m fs. unfold merge. destruct (get_pdf_merger_by_name m) as [x|e]; cbn [rbind]; [|eauto].
  unfold write. eauto.
Qed.

(** A presentation has, in order, one slide for each fragment of each slide; its picture fills
    the slide.  The deck has no PDFs. *)
Theorem C100_pptx_partial : forall t b debug d a es sl, ra_per_page a = None -> ra_return_units a = false ->
  export_pptx t b debug d a = (es, Ok sl) ->
  Forall2 (page_file b (pys "png")) (pages steps (selected d a)) (map ps_file sl) /\
  no_pdf (selected d a) /\
  Forall (fun p => ps_layout p = pys "Blank" /\ ps_x p = 0%Z /\ ps_y p = 0%Z /\
                   ps_w p = t_width t /\ ps_h p = t_height t) sl.
Proof.
  intros t b debug d a es sl Hp Hu H. unfold ExportModel.export_pptx in H.
  apply tseq_ok in H. destruct H as [l [e1 [e2 [H1 [H ->]]]]].
  apply tseq_ok in H. destruct H as [r [e3 [e4 [H2 [H ->]]]]].
  apply tseq_ok in H. destruct H as [fs [e5 [e6 [H3 [H ->]]]]]. injection H as _ <-.
  injection H1 as _ H1.
  assert (X := C46_pages fmt width height prepare steps draw svg_file cairo_file b debug d _ _ _ (Hp : ra_per_page (mkArgs (ra_return_units a) (pys "png") (ra_merger a) (ra_post a) (ra_prune a) (ra_save a) (ra_select a) (ra_per_page a)) = None) H2).
  cbn [ra_return_units ra_type] in X. rewrite Hu in X. destruct X as [us [S [gs [E W]]]].
  unfold merged in W. cbn [ra_merger ra_type] in W. change (selected d _) with (selected d a) in S.
  assert (R : r = RFiles gs).
  { destruct (ra_merger a); [|exact (proj1 W)]. change (str_eqb (pys "png") (pys "pdf")) with false in W. exact (proj1 W). }
  subst r. cbn [picture_files tlift] in H3. injection H3 as _ <-.
  split; [|split].
  - rewrite map_map. cbn [ps_file]. rewrite map_id. eapply page_files; eauto.
  - unfold no_pdf. apply Forall_forall. intros [s|f] I; [eauto|]. exfalso.
    destruct (C46_pdf_only fmt width height prepare steps draw svg_file cairo_file b debug d (mkArgs (ra_return_units a) (pys "png") (ra_merger a) (ra_post a) (ra_prune a) (ra_save a) (ra_select a) (ra_per_page a)) _ _ f I H2) as [T _].
    discriminate.
  - apply Forall_forall. intros p I. apply in_map_iff in I. destruct I as [f [<- _]]. cbn.
    repeat split. clear - H1. induction (t_layouts t) as [|x ls IH]; [discriminate|]. cbn [blank_layout] in H1.
    destruct (str_eqb x (pys "Blank")) eqn:E; [|now apply IH]. injection H1 as <-. now apply str_eqb_eq.
Qed.
(** It fails if there is no such layout, and if units are wanted. *)
Theorem C100_pptx_refused : forall t b debug d a es sl, ra_per_page a = None -> (forall s, 1 <= steps s)%Z ->
  export_pptx t b debug d a = (es, Ok sl) -> In (pys "Blank") (t_layouts t) /\ ra_return_units a = false.
Proof.
  intros t b debug d a es sl Hp Hs H. unfold ExportModel.export_pptx in H.
  apply tseq_ok in H. destruct H as [l [e1 [e2 [H1 [H ->]]]]]. injection H1 as _ H1. split.
  - clear - H1. induction (t_layouts t) as [|x ls IH]; [discriminate|]. cbn [blank_layout] in H1.
    destruct (str_eqb x (pys "Blank")) eqn:E; [|right; now apply IH]. left. now apply str_eqb_eq.
  - destruct (ra_return_units a) eqn:U; [|reflexivity]. exfalso.
    apply tseq_ok in H. destruct H as [r [e3 [e4 [H2 [H ->]]]]].
    apply tseq_ok in H. destruct H as [fs [e5 [e6 [H3 [H ->]]]]].
    assert (X := C46_pages fmt width height prepare steps draw svg_file cairo_file b debug d _ _ _ (Hp : ra_per_page (mkArgs true (pys "png") (ra_merger a) (ra_post a) (ra_prune a) (ra_save a) (ra_select a) (ra_per_page a)) = None) H2).
    cbn [ra_return_units] in X. destruct X as [us [S [-> _]]]. change (selected d _) with (selected d a) in S.
    assert (N : selected d a <> []).
    { intros E. assert (Y := C46_empty fmt width height prepare steps draw svg_file cairo_file b debug d
        (mkArgs true (pys "png") (ra_merger a) (ra_post a) (ra_prune a) (ra_save a) (ra_select a) (ra_per_page a)) E).
      rewrite Y in H2. discriminate. }
    destruct (selected d a) as [|e l']; [congruence|].
    assert (M : pages steps (e :: l') <> []).
    { destruct e as [s|f]; cbn; [|discriminate]. specialize (Hs s). destruct (Z.to_nat (steps s)) eqn:Z; [lia|]. discriminate. }
    destruct us as [|u us]; [apply forall2_length in S; destruct (pages steps (e :: l')); [congruence|discriminate]|]. discriminate.
Qed.

(** *** Notebooks *)
Variable contents : str -> result str.
Variable base64 : str -> str.
Notation repr_steps := (repr_steps fmt width height prepare steps draw svg_file cairo_file contents base64).

(** The text in the page for a drawing. *)
Definition shown_as (b : backend) (s : slide_obj) (format : str) (k : Z) (c : str) : Prop :=
  if str_eqb format (pys "svg") then draw s k = Ok c
  else exists f data, page_file b (pys "png") (ESlide s, k) f /\ contents f = Ok data /\
       c = pys "<img src=""data:image/png;base64, " ++ base64 data ++ pys """ />".

Lemma unit_svgs_is : forall us cs, unit_svgs us = Ok cs ->
  Forall2 (fun u c => exists o, u = USvg o c) us cs.
Proof.
  induction us as [|u us IH]; intros cs H; cbn [unit_svgs] in H; [injection H as <-; constructor|].
  destruct u as [o svg|f ty|s k ty]; try discriminate. cbn [rbind] in H.
  destruct (unit_svgs us) as [r|]; [|discriminate]. injection H as <-. constructor; eauto.
Qed.
Lemma images_is : forall fs cs, images contents base64 fs = Ok cs ->
  Forall2 (fun f c => exists data, contents f = Ok data /\
     c = pys "<img src=""data:image/png;base64, " ++ base64 data ++ pys """ />") fs cs.
Proof.
  induction fs as [|f fs IH]; intros cs H; cbn [images] in H; [injection H as <-; constructor|].
  destruct (contents f) as [data|] eqn:E; [|discriminate]. cbn [rbind] in H.
  destruct (images contents base64 fs) as [r|]; [|discriminate]. injection H as <-. constructor; eauto.
Qed.

(** A notebook gets one content for each fragment of the slide, in order: its drawing or the
    file made from it. *)
Theorem C100_fragments : forall b debug d s format es cs,
  repr_steps b debug d s format = (es, Ok cs) ->
  (format = pys "svg" \/ format = pys "png") /\
  List.length cs = Z.to_nat (steps s) /\
  (forall i c, nth_error cs i = Some c -> shown_as b s format (Z.of_nat i + 1) c) /\
  ~ In EvPruneFiles es /\ ~ In EvPruneQueries es.
Proof.
  intros b debug d s format es cs H. unfold ExportModel.repr_steps in H. cbv zeta in H.
  destruct (str_eqb format (pys "svg") || str_eqb format (pys "png"))%bool eqn:F; [|discriminate].
  apply tseq_ok in H. destruct H as [r [e1 [e2 [H1 [H ->]]]]]. injection H as <- H. rewrite app_nil_r.
  assert (F' : format = pys "svg" \/ format = pys "png").
  { apply orb_true_iff in F. destruct F as [F|F]; apply str_eqb_eq in F; auto. }
  split; [exact F'|].
  assert (Pr : ~ In EvPruneFiles e1 /\ ~ In EvPruneQueries e1).
  { unfold DeckModel.render in H1. cbn [ra_select ra_per_page check_per_page ra_post ra_prune ra_save when] in H1.
    clear - H1 F'.
    apply tseq_ok in H1. destruct H1 as [? [? [? [X0 [H1 ->]]]]]. injection X0 as <- <-.
    apply tseq_ok in H1. destruct H1 as [? [? [? [X1 [H1 ->]]]]]. injection X1 as <- <-.
    apply tseq_ok in H1. destruct H1 as [? [? [? [X2 [H1 ->]]]]]. injection X2 as <- <-.
    apply tseq_ok in H1. destruct H1 as [? [? [? [X3 [H1 ->]]]]]. injection X3 as <- <-.
    apply tseq_ok in H1. destruct H1 as [us [? [? [X4 [H1 ->]]]]]. injection X4 as <- X4.
    apply tseq_ok in H1. destruct H1 as [? [w [? [X5 [H1 ->]]]]].
    apply tseq_ok in H1. destruct H1 as [? [? [w2 [X6 [H1 ->]]]]]. injection X6 as <- <-.
    assert (W : forall x, In x w -> exists y, x = EvDebugFile y).
    { clear - X5. apply when_ok in X5. destruct X5 as [[_ X5]|[_ ->]]; [|intros ? []].
      revert w X5. induction us as [|u us IH]; intros w X5; cbn [write_debugs] in X5.
      - injection X5 as <- _. intros ? [].
      - apply tseq_ok in X5. destruct X5 as [? [a1 [a2 [Y1 [Y2 ->]]]]].
        intros y I. apply in_app_or in I. destruct I as [I|I]; [|now apply (IH a2)].
        destruct u as [[[s k]|] svg|f ty|s k ty]; cbn in Y1; try discriminate; injection Y1 as <-; [|destruct I|destruct I].
        destruct I as [<-|[]]. eauto. }
    assert (W2 : forall x, In x w2 -> exists y z, x = EvExport y z).
    { clear - H1 F'. destruct (ra_return_units _) in H1; [injection H1 as <- _; intros ? []|].
      cbn [ra_merger ra_type] in H1.
      assert (T : str_eqb format (pys "pdf") = false) by (destruct F' as [->| ->]; reflexivity).
      rewrite T in H1. cbv zeta in H1.
      apply tseq_ok in H1. destruct H1 as [? [? [? [X0 [H1 ->]]]]]. injection X0 as <- <-.
      apply tseq_ok in H1. destruct H1 as [fs [v [? [X1 [H1 ->]]]]].
      apply tseq_ok in H1. destruct H1 as [? [? [? [X2 [H1 ->]]]]]. injection X2 as <- <-.
      injection H1 as <- _. rewrite !app_nil_r. cbn [app].
      revert fs v X1. induction us as [|u us IH]; intros fs v X1; cbn [export_all] in X1.
      - injection X1 as <- _. intros ? [].
      - apply tseq_ok in X1. destruct X1 as [? [a1 [a2 [Y1 [Y2 ->]]]]].
        apply tseq_ok in Y2. destruct Y2 as [? [a3 [a4 [Y2 [Y3 ->]]]]]. injection Y3 as <- _.
        rewrite app_nil_r. intros y I. apply in_app_or in I. destruct I as [I|I].
        + apply tseq_ok in Y1. destruct Y1 as [? [a5 [a6 [Z1 [Z2 ->]]]]]. injection Z1 as <- _. injection Z2 as <- _.
          destruct I as [<-|[]]. eauto.
        + now apply (IH _ _ Y2). }
    split; intros I; (destruct I as [X|I]; [discriminate|]); cbn [app] in I;
      apply in_app_or in I; (destruct I as [I|I]; [destruct (W _ I) as [? X]; discriminate|]);
      destruct (W2 _ I) as [? [? X]]; discriminate. }
  split; [|split; [|exact Pr]].
  - assert (X := C46_pages fmt width height prepare steps draw svg_file cairo_file b debug d
      (mkArgs (str_eqb format (pys "svg")) format (Some (pys "pypdf")) false false true (Some [ESlide s]) None) _ _ eq_refl H1).
    unfold selected in X. cbn [ra_select ra_type ra_return_units] in X.
    destruct X as [us [S X]]. assert (L := forall2_length _ _ _ S).
    cbn [pages flat_map] in L. rewrite app_nil_r, map_length, seq_length in L.
    destruct (str_eqb format (pys "svg")) eqn:Fs.
    + destruct X as [-> _]. apply unit_svgs_is in H. apply forall2_length in H. lia.
    + unfold merged in X. cbn [ra_merger ra_type] in X.
      assert (T : str_eqb format (pys "pdf") = false) by (destruct F' as [->| ->]; reflexivity). rewrite T in X.
      destruct X as [fs [E [-> _]]]. apply images_is in H. apply forall2_length in H. apply forall2_length in E. lia.
  - intros i c Hc.
    assert (X := C46_pages fmt width height prepare steps draw svg_file cairo_file b debug d
      (mkArgs (str_eqb format (pys "svg")) format (Some (pys "pypdf")) false false true (Some [ESlide s]) None) _ _ eq_refl H1).
    unfold selected in X. cbn [ra_select ra_type ra_return_units] in X.
    destruct X as [us [S X]]. cbn [pages flat_map] in S. rewrite app_nil_r in S.
    assert (Nth : forall (A B : Type) (R : A -> B -> Prop) la lb j y, Forall2 R la lb -> nth_error lb j = Some y ->
      exists x, nth_error la j = Some x /\ R x y).
    { clear. intros A B R la lb j y H. revert j. induction H as [|a b0 la lb r H IH]; intros j E; [destruct j; discriminate|].
      destruct j as [|j]; cbn in *; [|now apply IH]. injection E as <-. eauto. }
    assert (At : forall x, nth_error (map (fun k => (ESlide s, Z.of_nat k)) (seq 1 (Z.to_nat (steps s)))) i = Some x ->
      x = (ESlide s, Z.of_nat i + 1)%Z).
    { clear. intros x E. rewrite nth_error_map in E. destruct (nth_error (seq 1 (Z.to_nat (steps s))) i) as [k|] eqn:K; [|discriminate].
      injection E as <-. assert (L : (i < Z.to_nat (steps s))%nat) by (rewrite <- (seq_length (Z.to_nat (steps s)) 1); apply nth_error_Some; congruence).
      apply (nth_error_nth _ _ 0%nat) in K. rewrite seq_nth in K by exact L. subst k. f_equal. lia. }
    unfold shown_as. destruct (str_eqb format (pys "svg")) eqn:Fs.
    + destruct X as [-> _]. apply unit_svgs_is in H.
      destruct (Nth _ _ _ _ _ _ _ H Hc) as [u [Hu [o ->]]]. destruct (Nth _ _ _ _ _ _ _ S Hu) as [ek [Hek Sh]].
      apply At in Hek. subst ek. unfold shows in Sh. cbn [fst snd] in Sh. destruct Sh as [svg [D Sh]].
      destruct b; [|destruct Sh as [_ Sh]; discriminate]. injection Sh as _ <-. exact D.
    + destruct F' as [F'|F']; [subst format; discriminate|]. subst format.
      unfold merged in X. cbn [ra_merger ra_type] in X. change (str_eqb (pys "png") (pys "pdf")) with false in X.
      destruct X as [fs [E [-> _]]]. apply images_is in H.
      destruct (Nth _ _ _ _ _ _ _ H Hc) as [f [Hf [data [Ed ->]]]].
      destruct (Nth _ _ _ _ _ _ _ (page_files _ _ _ _ _ S E) Hf) as [ek [Hek Sh]]. apply At in Hek. subst ek.
      exists f, data. auto.
Qed.

(** A displayed slide shows exactly the drawing of its current fragment, whatever was
    displayed and clicked. *)
Theorem C100_displayed : forall b debug d s format es cs evs id k,
  repr_steps b debug d s format = (es, Ok cs) -> (1 < List.length cs)%nat ->
  NoDup (JupyterProps.displayed evs) -> JupyterProps.current evs id (List.length cs) k ->
  exists p, In p (JupyterModel.g_doc (JupyterModel.page_after evs)) /\ JupyterModel.p_id p = id /\
  List.length (JupyterModel.p_fragments p) = List.length cs /\
  (exists c, In (c, true) (combine cs (map JupyterModel.f_display (JupyterModel.p_fragments p)))) /\
  forall c, In (c, true) (combine cs (map JupyterModel.f_display (JupyterModel.p_fragments p))) ->
    shown_as b s format k c.
Proof.
  intros b debug d s format es cs evs id k H L N C.
  destruct (JupyterProps.C64_navigation evs id _ k N C L) as [K [p [I [Id [[Lp Sh] _]]]]].
  exists p. split; [exact I|]. split; [exact Id|]. split; [exact Lp|].
  destruct (C100_fragments _ _ _ _ _ _ _ H) as [_ [_ [Fr _]]].
  assert (Comb : forall (A B : Type) (l : list A) (m : list B) x y, List.length l = List.length m ->
    (In (x, y) (combine l m) <-> exists i, nth_error l i = Some x /\ nth_error m i = Some y)).
  { clear. induction l as [|a l IH]; intros [|c m] x y L; try discriminate; cbn.
    - split; [intros []|]. intros [i [E _]]. destruct i; discriminate.
    - injection L as L. rewrite (IH m x y L). split.
      + intros [E|[i E]]; [injection E as -> ->; now exists O|now exists (S i)].
      + intros [[|i] [E1 E2]]; cbn in *; [left; congruence|right; eauto]. }
  assert (L' : List.length cs = List.length (map JupyterModel.f_display (JupyterModel.p_fragments p))) by now rewrite map_length.
  split.
  - assert (B : (Z.to_nat (k - 1) < List.length cs)%nat) by lia.
    destruct (nth_error cs (Z.to_nat (k - 1))) as [c|] eqn:Ec; [|apply nth_error_None in Ec; lia].
    destruct (nth_error (JupyterModel.p_fragments p) (Z.to_nat (k - 1))) as [f|] eqn:Ef; [|apply nth_error_None in Ef; lia].
    exists c. apply Comb; [exact L'|]. exists (Z.to_nat (k - 1)). split; [exact Ec|].
    rewrite nth_error_map, Ef. cbn. f_equal. apply (Sh _ _ Ef). lia.
  - intros c Hc. apply Comb in Hc; [|exact L']. destruct Hc as [i [E1 E2]]. rewrite nth_error_map in E2.
    destruct (nth_error (JupyterModel.p_fragments p) i) as [f|] eqn:Ef; [|discriminate]. injection E2 as E2.
    apply (Sh _ _ Ef) in E2. rewrite <- E2. now apply Fr.
Qed.

(** Cairo cannot make the contents as SVG. *)
Theorem C100_cairo_svg_refuted : forall debug d s es r, (1 <= steps s)%Z ->
  repr_steps Cairo debug d s (pys "svg") = (es, r) -> exists e, r = Err e.
Proof.
  intros debug d s es [cs|e] Hs H; [|eauto]. exfalso.
  unfold ExportModel.repr_steps in H. change (str_eqb (pys "svg") (pys "svg")) with true in H. cbn [orb] in H. cbv zeta in H.
  apply tseq_ok in H. destruct H as [r [e1 [e2 [H1 _]]]].
  assert (X := C46_pages fmt width height prepare steps draw svg_file cairo_file Cairo debug d
    (mkArgs true (pys "svg") (Some (pys "pypdf")) false false true (Some [ESlide s]) None) _ _ eq_refl H1).
  destruct X as [us [S _]]. unfold selected in S. cbn [ra_select ra_type pages flat_map] in S. rewrite app_nil_r in S.
  destruct (Z.to_nat (steps s)) as [|n] eqn:E; [lia|]. cbn [seq map] in S. inversion S as [|? ? ? ? Sh]. subst.
  unfold shows in Sh. cbn [fst] in Sh. destruct Sh as [svg [_ [[X|X] _]]]; discriminate.
Qed.
End Exports.
Print Assumptions C100_document.
Print Assumptions C100_no_output.
Print Assumptions C100_pptx_partial.
Print Assumptions C100_pptx_refused.
Print Assumptions C100_fragments.
Print Assumptions C100_displayed.
Print Assumptions C100_cairo_svg_refuted.

(** ** Concrete cases *)

(** Two slides, the first of two fragments, and a PDF of two pages between them. *)
Definition ex_steps (s : slide_obj) : Z := if Nat.eqb (so_index s) 0 then 2%Z else 1%Z.
Definition ex_draw (s : slide_obj) (k : Z) : result str :=
  Ok (if Nat.eqb (so_index s) 0 then if (k =? 1)%Z then pys "one" else pys "two" else pys "three").
Definition ex_file (svg type : str) : result str := Ok (pys "/cache/" ++ svg).
Definition ex_cairo (s : slide_obj) (k : Z) (type : str) : str :=
  match ex_draw s k with Ok svg => pys "/cache/" ++ svg | Err _ => [] end.
Definition ex_pages (f : str) : list str :=
  match strip_prefix (pys "/cache/") f with
  | Some svg => [svg]
  | None => [f ++ pys "#1"; f ++ pys "#2"]
  end.
Definition ex_args : render_args := mkArgs false (pys "pdf") (Some (pys "pdfunite")) false true true None None.
Definition ex_run := render (fun _ => pys "7") 16 9 (fun _ => Ok tt) ex_steps ex_draw ex_file ex_cairo.
Example ex_C100_converts : converts ex_draw ex_file ex_cairo str ex_pages (fun svg => svg).
Proof.
  assert (A : forall x, ex_pages (pys "/cache/" ++ x) = [x]).
  { intros x. unfold ex_pages. destruct (strip_prefix (pys "/cache/") (pys "/cache/" ++ x)) as [y|] eqn:E.
    - apply strip_prefix_spec in E. apply app_inv_head in E. now subst.
    - exfalso. now apply (proj1 (strip_prefix_none _ _) E x). }
  split.
  - intros svg f H. unfold ex_file in H. injection H as <-. apply A.
  - intros s k svg H. unfold ex_cairo. rewrite H. apply A.
Qed.
Example ex_C100_document : exists es fs, ex_run Inkscape false two ex_args = (es, Ok RNone) /\
  written es = [fs] /\
  merge (pys "pdfunite") fs (Some (pys "out.pdf")) =
    Ok (WCall [pys "pdfunite"; pys "/cache/one"; pys "/cache/two"; pys "x.pdf"; pys "/cache/three"; pys "out.pdf"]) /\
  flat_map (own_pages ex_draw str ex_pages (fun svg => svg)) (pages ex_steps (selected two ex_args)) =
    [pys "one"; pys "two"; pys "x.pdf#1"; pys "x.pdf#2"; pys "three"].
Proof.
  do 2 eexists. split; [vm_compute; reflexivity|]. split; [vm_compute; reflexivity|].
  split; vm_compute; reflexivity.
Qed.

(** The default template of the library: 10 by 7.5 inches. *)
Definition ex_template : template := mkTemplate [pys "Title Slide"; pys "Blank"] 9144000 6858000.
Definition ex_slides : deck := drun (empty PIgnore) [DNew (Name (pys "a")) NoView; DNew NoName NoView].
Definition ex_pptx (width height : Q) :=
  export_pptx (fun _ => pys "7") width height (fun _ => Ok tt) ex_steps ex_draw ex_file ex_cairo ex_template.
Example ex_C100_pptx : forall b, exists es sl, ex_pptx 4 3 b false ex_slides ex_args = (es, Ok sl) /\
  map ps_file sl = [pys "/cache/one"; pys "/cache/two"; pys "/cache/three"].
Proof. intros []; do 2 eexists; (split; [vm_compute; reflexivity|]); vm_compute; reflexivity. Qed.

(** The pictures are stretched to the slides of the presentation: unless the deck has their
    ratio, everything is distorted. *)
Theorem C100_pptx_ratio_refuted : exists width height b es sl p,
  ex_pptx width height b false ex_slides ex_args = (es, Ok sl) /\ In p sl /\
  ~ (inject_Z (ps_w p) * height == inject_Z (ps_h p) * width)%Q.
Proof.
  exists 16%Q, 9%Q, Inkscape. do 3 eexists. split; [vm_compute; reflexivity|].
  split; [left; reflexivity|]. vm_compute. discriminate.
Qed.
Print Assumptions C100_pptx_ratio_refuted.
Theorem C100_pptx_ratio_exact : forall fmt width height prepare steps draw sf cf t b debug d a es sl p,
  (0 < height)%Q -> (0 < t_height t)%Z ->
  export_pptx fmt width height prepare steps draw sf cf t b debug d a = (es, Ok sl) -> In p sl ->
  (inject_Z (ps_w p) / inject_Z (ps_h p) == width / height <-> inject_Z (t_width t) * height == inject_Z (t_height t) * width)%Q.
Proof.
  intros fmt width height prepare steps draw sf cf t b debug d a es sl p Hh Ht H I. unfold export_pptx in H.
  apply tseq_ok in H. destruct H as [l [e1 [e2 [H1 [H ->]]]]].
  apply tseq_ok in H. destruct H as [r [e3 [e4 [H2 [H ->]]]]].
  apply tseq_ok in H. destruct H as [fs [e5 [e6 [H3 [H ->]]]]]. injection H as _ <-.
  apply in_map_iff in I. destruct I as [f [<- _]]. cbn [ps_w ps_h].
  assert (Th : (~ inject_Z (t_height t) == 0)%Q).
  { intros X. unfold Qeq in X. cbn in X. lia. }
  assert (Hh' : (~ height == 0)%Q) by (intros X; rewrite X in Hh; now apply Qlt_irrefl in Hh).
  split; intros E.
  - assert (E' : (inject_Z (t_width t) / inject_Z (t_height t) * (inject_Z (t_height t) * height) ==
                  width / height * (inject_Z (t_height t) * height))%Q) by now rewrite E.
    field_simplify in E'; auto.
  - apply (Qmult_inj_r _ _ (inject_Z (t_height t) * height)).
    + intros X. apply Qmult_integral in X. tauto.
    + field_simplify; auto.
Qed.
Print Assumptions C100_pptx_ratio_exact.

Definition ex_repr := repr_steps (fun _ => pys "7") 4 3 (fun _ => Ok tt) ex_steps ex_draw ex_file ex_cairo
  (fun f => Ok (f ++ pys "!")) (fun x => pys "b" ++ x).
Example ex_C100_fragments : exists es es',
  ex_repr Inkscape true ex_slides (mkSlide 0 (Name (pys "a")) 0) (pys "svg") = (es, Ok [pys "one"; pys "two"]) /\
  ex_repr Cairo true ex_slides (mkSlide 0 (Name (pys "a")) 0) (pys "png") =
    (es', Ok [pys "<img src=""data:image/png;base64, b/cache/one!"" />";
              pys "<img src=""data:image/png;base64, b/cache/two!"" />"]).
Proof. do 2 eexists. split; [vm_compute; reflexivity|]. vm_compute. reflexivity. Qed.
Example ex_C100_displayed : let evs := [JupyterModel.Display 7 2; JupyterModel.Click true 7] in
  NoDup (JupyterProps.displayed evs) /\ JupyterProps.current evs 7 2 2.
Proof.
  cbv zeta. split; [repeat constructor; simpl; tauto|].
  apply (JupyterProps.cu_click [_] 7 2 1 true). apply (JupyterProps.cu_display [] 7 2).
Qed.
