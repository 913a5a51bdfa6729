(** Properties of the deck and of its pages: C44-C47, C73, C74. *)
From Coq Require Import List ZArith QArith NArith Bool String Lia.
From Verif Require Import Py PyFacts XmlModel XmlSpec XmlProofs XmlProps DeckModel DeckSpec DeckProofs DeckPages.
Import ListNotations.

(** ** C44 *)

(** A rejected call changes nothing, whatever the policy. *)
Theorem C44_rejected : forall d c e, snd (dstep d c) = Err e -> fst (dstep d c) = d.
Proof.
  intros d [n v|f] e H; cbn [dstep] in *; [|discriminate].
  destruct (new_slide d n v) as [d' [s|e']] eqn:E; cbn [fst snd] in *; [discriminate|].
  now apply new_slide_err in E.
Qed.
Print Assumptions C44_rejected.

(** Under unique and replace no two slides ever have the same name. *)
Theorem C44_names : forall p cs, p <> PIgnore -> NoDup (names (dk_slides (drun (empty p) cs))).
Proof.
  intros p cs Hp. destruct (empty_ok p) as [H1 H2].
  destruct (run_inv cs (empty p) H1 H2) as [_ [H3 H4]]. apply H3. now rewrite H4.
Qed.
Print Assumptions C44_names.

(** Unique: a clash raises; a new name (or none) is appended. *)
Theorem C44_unique : forall cs n v, let d := drun (empty PUnique) cs in
  (In n (names (dk_slides d)) -> exists e, dstep d (DNew (Name n) v) = (d, Err e)) /\
  (forall nm d' s, dstep d (DNew nm v) = (d', Ok (Some s)) ->
     dk_slides d' = dk_slides d ++ [ESlide s] /\ so_name s = nm /\
     ~ exists t, In (ESlide t) (dk_slides d) /\ so_name t = so_name s /\ nm <> NoName).
Proof.
  intros cs n v d. destruct (empty_ok PUnique) as [H1 H2].
  destruct (run_inv cs (empty PUnique) H1 H2) as [H3 [H4 H5]]. fold d in H3, H4, H5.
  cbn [empty dk_policy] in H5. split.
  - intros Hn. cbn [dstep]. destruct (new_slide d (Name n) v) as [d' [s|e]] eqn:E.
    + apply new_slide_spec in E; auto. destruct E as [l [_ [_ E]]]. rewrite H5 in E. tauto.
    + exists e. apply new_slide_err in E. now subst d'.
  - intros nm d' s H. cbn [dstep] in H. destruct (new_slide d nm v) as [d1 [s1|e]] eqn:E; [|discriminate].
    injection H as <- <-. apply new_slide_spec in E; auto. destruct E as [l [-> [-> E]]]. rewrite H5 in E.
    cbn [dk_slides so_name]. destruct nm as [|m|k]; [| |contradiction].
    + subst l. split; [reflexivity|]. split; [reflexivity|]. intros [t [_ [_ X]]]. congruence.
    + destruct E as [-> E]. split; [reflexivity|]. split; [reflexivity|]. intros [t [X1 [X2 _]]].
      apply E. apply in_names. eauto.
Qed.
Print Assumptions C44_unique.

(** Replace: the previous slide of that name goes, all others stay in order, the new one is
    appended. *)
Theorem C44_replace : forall cs nm v d' s, let d := drun (empty PReplace) cs in
  dstep d (DNew nm v) = (d', Ok (Some s)) ->
  exists n, nm = Name n /\ so_name s = Name n /\
  dk_slides d' = filter (not_named n) (dk_slides d) ++ [ESlide s].
Proof.
  intros cs nm v d' s d H. destruct (empty_ok PReplace) as [H1 H2].
  destruct (run_inv cs (empty PReplace) H1 H2) as [H3 [H4 H5]]. fold d in H3, H4, H5.
  cbn [empty dk_policy] in H5. cbn [dstep] in H.
  destruct (new_slide d nm v) as [d1 [s1|e]] eqn:E; [|discriminate].
  injection H as <- <-. apply new_slide_spec in E; auto. destruct E as [l [-> [-> E]]]. rewrite H5 in E.
  destruct nm as [|m|k]; try contradiction. subst l. exists m. auto.
Qed.
Print Assumptions C44_replace.

(** Ignore: every slide is appended, whatever its name. *)
Theorem C44_ignore : forall cs nm v, view_ok v = true -> let d := drun (empty PIgnore) cs in
  exists d' s, dstep d (DNew nm v) = (d', Ok (Some s)) /\
  so_name s = nm /\ dk_slides d' = dk_slides d ++ [ESlide s].
Proof.
  intros cs nm v Hv d. destruct (empty_ok PIgnore) as [H1 H2].
  destruct (run_inv cs (empty PIgnore) H1 H2) as [H3 [H4 H5]]. fold d in H3, H4, H5.
  cbn [empty dk_policy] in H5. cbn [dstep]. unfold new_slide. rewrite Hv, H5. cbn [apply_name_policy].
  do 2 eexists. split; [reflexivity|]. split; reflexivity.
Qed.
Print Assumptions C44_ignore.

(** Calls are accepted if the view box is None or four numbers and the name fits. *)
Theorem C44_accepts : forall p cs n v, let d := drun (empty p) cs in
  no_pdf (dk_slides d) -> view_ok v = true ->
  (p = PUnique -> ~ In n (names (dk_slides d))) ->
  exists d' s, dstep d (DNew (Name n) v) = (d', Ok (Some s)).
Proof.
  intros p cs n v d Hp Hv Hn. destruct (empty_ok p) as [H1 H2].
  destruct (run_inv cs (empty p) H1 H2) as [H3 [H4 H5]]. fold d in H3, H4, H5.
  cbn [empty dk_policy] in H5. cbn [dstep]. unfold new_slide. rewrite Hv, H5. unfold apply_name_policy.
  destruct (get_no_pdf (dk_slides d) (Name n) Hp) as [r Hr].
  destruct p; [| |]; cbn [apply_name_policy].
  - rewrite Hr. cbn [rbind]. destruct r as [s|]; [|eauto].
    exfalso. apply Hn; auto. apply get_found in Hr. apply in_names. exists s. tauto.
  - eauto.
  - rewrite Hr. cbn [rbind]. destruct r as [s|]; eauto.
Qed.
Print Assumptions C44_accepts.
Theorem C44_view_box : forall d n v d' s, dstep d (DNew n v) = (d', Ok s) ->
  v = NoView \/ exists a b c e, v = ViewTuple [Some a; Some b; Some c; Some e].
Proof.
  intros d n v d' s H. cbn [dstep] in H. unfold new_slide in H.
  destruct (view_ok v) eqn:V; [|discriminate]. clear H. destruct v as [|l|]; [auto| |discriminate].
  right. cbn [view_ok] in V. apply andb_true_iff in V. destruct V as [V1 V2].
  destruct l as [|[a|] [|[b|] [|[c|] [|[e|] [|]]]]]; cbn in V1, V2; try discriminate. eauto.
Qed.
Print Assumptions C44_view_box.

Definition abc : list dcall :=
  [DNew (Name (pys "a")) NoView; DNew (Name (pys "b")) NoView; DNew (Name (pys "a")) NoView].
Example ex_C44 :
  names (dk_slides (drun (empty PUnique) abc)) = [pys "a"; pys "b"] /\
  names (dk_slides (drun (empty PReplace) abc)) = [pys "b"; pys "a"] /\
  names (dk_slides (drun (empty PIgnore) abc)) = [pys "a"; pys "b"; pys "a"].
Proof. repeat split; reflexivity. Qed.

(** The decorator names the slide after the function; the slide stays in the deck even if
    the function fails. *)
Theorem C44_decorator : forall d n fn v body d' r,
  slide_decorator d n fn v body = (d', r) ->
  let m := match n with NoName => Name fn | _ => n end in
  match snd (new_slide d m v) with
  | Ok s => d' = fst (body (fst (new_slide d m v))) /\ (forall t, r = Ok t -> t = s)
  | Err e => d' = d /\ r = Err e
  end.
Proof.
  intros d n fn v body d' r H. cbn zeta. unfold slide_decorator in H.
  destruct (new_slide d match n with NoName => Name fn | _ => n end v) as [d1 [s|e]] eqn:E; cbn [fst snd].
  - destruct (body d1) as [d2 [u|e]]; injection H as <- <-; split; auto; intros t X; congruence.
  - injection H as <- <-. apply new_slide_err in E. auto.
Qed.
Print Assumptions C44_decorator.

(** ** C45 *)

(** Under ignore and unique the index of a slide is its position in the deck. *)
Definition index_is_position (l : list entry) : Prop :=
  forall i s, nth_error l i = Some (ESlide s) -> so_index s = i.
Lemma index_snoc : forall l e, index_is_position l ->
  (forall s, e = ESlide s -> so_index s = List.length l) -> index_is_position (l ++ [e]).
Proof.
  intros l e H He i s Hi. destruct (Nat.lt_ge_cases i (List.length l)) as [L|L].
  - rewrite nth_error_app1 in Hi by lia. now apply H.
  - rewrite nth_error_app2 in Hi by lia. destruct (i - List.length l)%nat eqn:D; cbn in Hi.
    + injection Hi as ->. rewrite (He s eq_refl). lia.
    + now rewrite nth_error_nil in Hi || (destruct n; discriminate).
Qed.
Lemma run_index : forall cs d, ids_ok d -> distinct_names d -> dk_policy d <> PReplace ->
  index_is_position (dk_slides d) -> index_is_position (dk_slides (drun d cs)).
Proof.
  induction cs as [|c cs IH]; intros d Hi Hn Hp H; [exact H|]. cbn [drun].
  destruct (step_inv d c Hi Hn) as [H1 [H2 H3]]. apply IH; auto; [congruence|].
  destruct c as [n v|f].
  - cbn [dstep]. destruct (new_slide d n v) as [d' [s|e]] eqn:E; cbn [fst].
    + apply new_slide_spec in E; auto. destruct E as [l [-> [-> E]]]. cbn [dk_slides].
      assert (l = dk_slides d).
      { destruct (dk_policy d), n; try contradiction; try congruence; tauto. }
      subst l. apply index_snoc; auto. intros s X. now injection X as <-.
    + apply new_slide_err in E. now subst.
  - cbn [dstep fst add_pdf dk_slides]. unfold add_pdf. cbn [dk_slides]. apply index_snoc; auto. discriminate.
Qed.

Theorem C45_indices_partial : forall p cs, p <> PReplace ->
  let l := dk_slides (drun (empty p) cs) in
  (forall i s, nth_error l i = Some (ESlide s) -> so_index s = i) /\
  (forall i j s t, nth_error l i = Some (ESlide s) -> nth_error l j = Some (ESlide t) ->
     so_index s = so_index t -> i = j).
Proof.
  intros p cs Hp l. destruct (empty_ok p) as [H1 H2].
  assert (I : index_is_position l).
  { apply run_index; auto. intros i s H. cbn in H. destruct i; discriminate. }
  split; [exact I|]. intros i j s t Hs Ht E. rewrite <- (I i s Hs), <- (I j t Ht). exact E.
Qed.
Print Assumptions C45_indices_partial.

(** Under replace (the policy of notebooks) two slides can get the same index, so one of the
    debug files is lost. *)
Theorem C45_replace_refuted : exists cs, let l := dk_slides (drun (empty PReplace) cs) in
  exists i j s t, nth_error l i = Some (ESlide s) /\ nth_error l j = Some (ESlide t) /\
  i <> j /\ so_index s = so_index t.
Proof.
  exists abc. cbn zeta. exists 0%nat, 1%nat. do 2 eexists.
  split; [vm_compute; reflexivity|]. split; [vm_compute; reflexivity|]. split; [discriminate|reflexivity].
Qed.
Print Assumptions C45_replace_refuted.

(** After add_pdf no named slide can be made under unique. *)
Theorem C45_pdf_refuted : forall p n v, p <> PIgnore -> view_ok v = true ->
  forall f, dstep (drun (empty p) [DPdf f]) (DNew (Name n) v) =
            (drun (empty p) [DPdf f], Err EAttribute).
Proof.
  intros p n v Hp Hv f. cbn. unfold new_slide. rewrite Hv. cbn.
  destruct p; [reflexivity|congruence|reflexivity].
Qed.
Print Assumptions C45_pdf_refuted.
(** Exactly: a named slide can be made unless a PDF comes before the first slide of that
    name (or, under unique, the name is taken). *)
Theorem C45_named_exact : forall d n v, dk_policy d = PReplace -> view_ok v = true ->
  ((exists d' s, dstep d (DNew (Name n) v) = (d', Ok (Some s))) <->
   (no_pdf (dk_slides d) \/
    exists l1 s l2, dk_slides d = l1 ++ ESlide s :: l2 /\ no_pdf l1 /\ so_name s = Name n)).
Proof.
  intros d n v Hp Hv. cbn [dstep]. unfold new_slide. rewrite Hv, Hp. cbn [apply_name_policy].
  assert (G : (exists r, get_slide_by_name (dk_slides d) (Name n) = Ok r) <->
    (no_pdf (dk_slides d) \/
     exists l1 s l2, dk_slides d = l1 ++ ESlide s :: l2 /\ no_pdf l1 /\ so_name s = Name n)).
  { generalize (dk_slides d) as l. induction l as [|[t|f] l IH]; cbn [get_slide_by_name].
    - split; [intros _; left; constructor|eauto].
    - destruct (name_eqb (so_name t) (Name n)) eqn:E.
      + apply name_eqb_eq in E. split; [|eauto]. intros _. right. exists [], t, l.
        split; [reflexivity|]. split; [constructor|exact E].
      + rewrite IH. split.
        * intros [H|[l1 [s [l2 [-> [H1 H2]]]]]]; [left; constructor; eauto|].
          right. exists (ESlide t :: l1), s, l2. split; [reflexivity|]. split; [constructor; eauto|exact H2].
        * intros [H|[l1 [s [l2 [H0 [H1 H2]]]]]]; [left; now inversion H|].
          right. destruct l1 as [|x l1]; cbn in H0.
          -- injection H0 as -> ->. rewrite H2 in E. cbn in E. now rewrite str_eqb_refl in E.
          -- injection H0 as <- ->. exists l1, s, l2. split; [reflexivity|]. split; [now inversion H1|exact H2].
    - split; [intros [r X]; discriminate|]. intros [H|[l1 [s [l2 [H0 [H1 H2]]]]]].
      + inversion H as [|? ? [s X] _]. discriminate.
      + destruct l1 as [|x l1]; cbn in H0; [discriminate|]. injection H0 as <- _.
        inversion H1 as [|? ? [s' X] _]. discriminate. }
  rewrite <- G. destruct (get_slide_by_name (dk_slides d) (Name n)) as [r|e]; cbn [rbind].
  - split; [eauto|]. intros _. destruct r as [s|]; eauto.
  - split; [intros [d' [s X]]; discriminate|intros [r X]; discriminate].
Qed.
Print Assumptions C45_named_exact.

(** ** C46 *)
Section Rendering.
Variable fmt : Q -> str.
Variables width height : Q.
Variable prepare : slide_obj -> result unit.
Variable steps : slide_obj -> Z.
Variable draw : slide_obj -> Z -> result str.
Variable svg_file : str -> str -> result str.
Variable cairo_file : slide_obj -> Z -> str -> str.
Notation render := (render fmt width height prepare steps draw svg_file cairo_file).

Lemma tseq_ok : forall {A B} (t : tr A) (f : A -> tr B) es x, tseq t f = (es, Ok x) ->
  exists a es1 es2, t = (es1, Ok a) /\ f a = (es2, Ok x) /\ es = es1 ++ es2.
Proof.
  intros A B [es1 [a|e]] f es x H; unfold tseq in H; cbn [fst snd] in H; [|discriminate].
  destruct (f a) as [es2 r] eqn:E. injection H as <- ->. exists a, es1, es2. auto.
Qed.
Lemma when_ok : forall b t es (x : unit), when b t = (es, Ok x) -> (b = true /\ t = (es, Ok x)) \/ (b = false /\ es = []).
Proof. intros [] t es x H; cbn [when] in H; auto. injection H as <- _. auto. Qed.

Definition selected (d : deck) (a : render_args) : list entry :=
  match ra_select a with None => dk_slides d | Some l => l end.
(** The result goes through a merger. *)
Definition merged (a : render_args) : bool :=
  match ra_merger a with Some _ => str_eqb (ra_type a) (pys "pdf") | None => false end.

Lemma write_debugs_written : forall us, written (fst (write_debugs us)) = [].
Proof.
  induction us as [|u us IH]; [reflexivity|]. cbn [write_debugs]. unfold tseq.
  destruct u as [[[s k]|] svg|f t|s k t]; cbn [write_debug temit tfail tret snd fst]; auto;
    destruct (write_debugs us) as [es r] eqn:E; cbn [fst] in *; rewrite ?app_nil_l; auto.
Qed.
Lemma written_app : forall a b, written (a ++ b) = written a ++ written b.
Proof. intros. unfold written. now rewrite flat_map_app. Qed.
Lemma written_exports : forall us t, written (map (fun u => EvExport u t) us) = [].
Proof. induction us as [|u us IH]; intros t; [reflexivity|]. cbn. apply IH. Qed.

(** A successful render without grids makes one unit for each fragment of each selected
    slide, in order; each becomes one file, and exactly these files are merged or returned. *)
Theorem C46_pages : forall b debug d a es r, ra_per_page a = None ->
  render b debug d a = (es, Ok r) ->
  exists us, Forall2 (shows draw b (ra_type a)) (pages steps (selected d a)) us /\
  if ra_return_units a then r = RUnits us /\ written es = []
  else exists fs, Forall2 (exported svg_file cairo_file (ra_type a)) us fs /\
       if merged a then r = RNone /\ written es = [fs] else r = RFiles fs /\ written es = [].
Proof.
  intros b debug d a es r Hp H. unfold DeckModel.render in H. fold (selected d a) in H.
  remember (selected d a) as l eqn:El. clear El.
  destruct l as [|e0 l0] eqn:El; [discriminate|]. rewrite <- El in *. clear El e0 l0.
  rewrite Hp in H. cbn [check_per_page] in H.
  apply tseq_ok in H. destruct H as [cnt [es0 [es1 [H0 [H ->]]]]]. injection H0 as <- <-.
  apply tseq_ok in H. destruct H as [[] [e1 [es2 [H1 [H ->]]]]].
  apply tseq_ok in H. destruct H as [[] [e2 [es3 [H2 [H ->]]]]].
  apply tseq_ok in H. destruct H as [[] [e3 [es4 [H3 [H ->]]]]].
  apply tseq_ok in H. destruct H as [us [e4 [es5 [H4 [H ->]]]]].
  apply tseq_ok in H. destruct H as [[] [e5 [es6 [H5 [H ->]]]]].
  apply tseq_ok in H. destruct H as [us' [e6 [es7 [H6 [H ->]]]]]. injection H6 as <- <-.
  injection H4 as <- H4. assert (Sh := make_units_shows _ _ _ _ _ _ _ H4).
  exists us. split; [exact Sh|].
  assert (W1 : written e1 = []).
  { apply when_ok in H1. destruct H1 as [[_ H1]|[_ ->]]; [|reflexivity].
    apply tseq_ok in H1. destruct H1 as [bs [a1 [a2 [X1 [X2 ->]]]]]. injection X1 as <- _. injection X2 as <-. reflexivity. }
  assert (W2 : written e2 = []).
  { apply when_ok in H2. destruct H2 as [[_ H2]|[_ ->]]; [|reflexivity]. injection H2 as <-. reflexivity. }
  assert (W3 : written e3 = []).
  { apply when_ok in H3. destruct H3 as [[_ H3]|[_ ->]]; [|reflexivity]. injection H3 as <-. reflexivity. }
  assert (W5 : written e5 = []).
  { apply when_ok in H5. destruct H5 as [[_ H5]|[_ ->]]; [|reflexivity].
    rewrite <- (write_debugs_written us). now rewrite H5. }
  rewrite !written_app, W1, W2, W3, W5. cbn [app written flat_map].
  destruct (ra_return_units a).
  { injection H as <- <-. auto. }
  assert (Su : Forall (suits (ra_type a)) us).
  { clear - Sh. induction Sh; constructor; auto. eapply shows_suits; eauto. }
  unfold merged.
  assert (Ex : forall (k : list str -> tr rendered) es r, (tseq (export_all svg_file cairo_file us (ra_type a)) k = (es, Ok r)) ->
    exists fs es', Forall2 (exported svg_file cairo_file (ra_type a)) us fs /\
      k fs = (es', Ok r) /\ written es = written es').
  { intros k ess rr Hk. apply tseq_ok in Hk. destruct Hk as [fs [x1 [x2 [X1 [X2 ->]]]]].
    destruct (export_all_ok _ _ _ _ _ _ Su X1) as [F ->]. exists fs, x2. split; [exact F|]. split; [exact X2|].
    now rewrite written_app, written_exports. }
  assert (Pr : forall es (x : unit), when (ra_prune a) (temit EvPruneFiles) = (es, Ok x) -> written es = []).
  { intros ess [] Hw. apply when_ok in Hw. destruct Hw as [[_ Hw]|[_ ->]]; [|reflexivity]. injection Hw as <-. reflexivity. }
  assert (Un : forall (k : list str -> tr rendered) es r, tseq (export_all svg_file cairo_file us (ra_type a)) k = (es, Ok r) ->
     k = (fun fs => tseq (when (ra_prune a) (temit EvPruneFiles)) (fun _ => tret (RFiles fs))) ->
     exists fs, Forall2 (exported svg_file cairo_file (ra_type a)) us fs /\ r = RFiles fs /\ written es = []).
  { intros k ess rr Hk ->. apply Ex in Hk. destruct Hk as [fs [es' [F [X W]]]]. exists fs. split; [exact F|].
    apply tseq_ok in X. destruct X as [[] [x1 [x2 [X1 [X2 ->]]]]]. injection X2 as <- <-.
    split; [reflexivity|]. rewrite W, written_app, (Pr _ _ X1). reflexivity. }
  destruct (ra_merger a) as [m|]; [destruct (str_eqb (ra_type a) (pys "pdf"))|];
    apply tseq_ok in H; destruct H as [[] [x1 [x2 [X1 [X2 ->]]]]].
  - apply Ex in X2. destruct X2 as [fs [es' [F [X2 W]]]]. exists fs. split; [exact F|].
    apply tseq_ok in X2. destruct X2 as [[] [y1 [y2 [Y1 [Y2 ->]]]]]. injection Y1 as <-.
    apply tseq_ok in Y2. destruct Y2 as [[] [z1 [z2 [Z1 [Z2 ->]]]]]. injection Z2 as <- <-.
    split; [reflexivity|]. rewrite written_app, W.
    destruct (known_merger m); [|discriminate]. injection X1 as <-.
    rewrite app_nil_r, written_app, (Pr _ _ Z1). reflexivity.
  - destruct (Un _ _ _ X2 eq_refl) as [fs [F [-> W]]]. exists fs. split; [exact F|].
    injection X1 as <-. split; [reflexivity|]. exact W.
  - destruct (Un _ _ _ X2 eq_refl) as [fs [F [-> W]]]. exists fs. split; [exact F|].
    injection X1 as <-. split; [reflexivity|]. exact W.
Qed.

(** Nothing is written or removed from the file cache by a render that fails before that. *)
Theorem C46_empty : forall b debug d a, selected d a = [] -> render b debug d a = ([], Err EException).
Proof. intros b debug d a H. unfold DeckModel.render. fold (selected d a). now rewrite H. Qed.

(** PDFs can only be rendered as PDF, and not if boxes are post-processed. *)
Theorem C46_pdf_only : forall b debug d a es r f, In (EPdf f) (selected d a) ->
  render b debug d a = (es, Ok r) -> ra_type a = pys "pdf" /\ ra_post a = false.
Proof.
  intros b debug d a es r f Hf H. unfold DeckModel.render in H. fold (selected d a) in H.
  remember (selected d a) as l eqn:El. clear El.
  destruct l as [|e0 l0] eqn:El; [discriminate|]. rewrite <- El in *. clear El e0 l0.
  apply tseq_ok in H. destruct H as [cnt [es0 [es1 [H0 [H ->]]]]].
  apply tseq_ok in H. destruct H as [[] [e1 [es2 [H1 [H ->]]]]].
  apply tseq_ok in H. destruct H as [[] [e2 [es3 [H2 [H ->]]]]].
  apply tseq_ok in H. destruct H as [[] [e3 [es4 [H3 [H ->]]]]].
  apply tseq_ok in H. destruct H as [us [e4 [es5 [H4 [H ->]]]]]. clear H. injection H4 as <- H4. split.
  - apply make_units_shows in H4.
    assert (X : In (EPdf f, 1%Z) (pages steps l)).
    { apply in_flat_map. exists (EPdf f). split; auto. now left. }
    clear - H4 X. induction H4 as [|ek u eks us Hs F IH]; [destruct X|].
    destruct X as [->|X]; auto. unfold shows in Hs. cbn [fst] in Hs. tauto.
  - apply when_ok in H1. destruct H1 as [[_ H1]|[H1 _]]; [|exact H1]. exfalso.
    apply tseq_ok in H1. destruct H1 as [bs [a1 [a2 [X1 _]]]]. injection X1 as <- X1. clear - X1 Hf.
    revert bs X1. induction l as [|[s|g] l IH]; intros bs X1; [destruct Hf| |discriminate].
    cbn [root_boxes] in X1. destruct (root_boxes l) as [r|] eqn:E; [|discriminate].
    destruct Hf as [X|X]; [discriminate|]. now apply (IH X r).
Qed.

(** ** C74: a failing render *)
Definition prunes (es : list event) : Prop := In EvPruneFiles es \/ In EvPruneQueries es.
Theorem C74_files_partial : forall b debug d a es e, render b debug d a = (es, Err e) -> ~ In EvPruneFiles es.
Proof.
  intros b debug d a es e H X.
  assert (Seq : forall {A B} (t : tr A) (f : A -> tr B) es e, tseq t f = (es, Err e) ->
    (exists e', t = (es, Err e')) \/ exists x es1 es2, t = (es1, Ok x) /\ f x = (es2, Err e) /\ es = es1 ++ es2).
  { intros A B [es1 [x|e1]] f es' e' H'; unfold tseq in H'; cbn [fst snd] in H'.
    - right. destruct (f x) as [es2 r] eqn:E. injection H' as <- ->. exists x, es1, es2. auto.
    - left. injection H' as <- <-. eauto. }
  assert (Wh : forall c t es r, when c t = (es, r) -> ~ In EvPruneFiles (fst t) -> ~ In EvPruneFiles es).
  { intros [] t es' r Hw Ht; cbn [when] in Hw; [now rewrite Hw in Ht|]. injection Hw as <- _. intros []. }
  assert (Post : forall l, ~ In EvPruneFiles (fst (tseq (tlift (root_boxes l)) (fun bs => temit (EvPostprocess bs))))).
  { intro l. unfold tlift. destruct (root_boxes l); cbn; intuition discriminate. }
  assert (Dbg : forall us, ~ In EvPruneFiles (fst (write_debugs us))).
  { induction us as [|u us IH]; [intros []|]. cbn [write_debugs]. unfold tseq.
    destruct u as [[[s k]|] svg|f t|s k t]; cbn [write_debug temit tfail tret snd fst]; auto;
      destruct (write_debugs us) as [es' r'] eqn:E; cbn [fst] in *; rewrite ?app_nil_l; auto.
    intros [Y|Y]; [discriminate|auto]. }
  assert (Exp : forall us t, ~ In EvPruneFiles (fst (export_all svg_file cairo_file us t))).
  { induction us as [|u us IH]; intros t; [intros []|]. cbn [export_all]. unfold tseq, temit, tlift. cbn [fst snd app].
    destruct (export svg_file cairo_file u t) as [o|e']; cbn [fst snd]; [|intros [Y|[]]; discriminate].
    specialize (IH t). destruct (export_all svg_file cairo_file us t) as [es' [fs|e']]; cbn [fst snd tret app] in *.
    - rewrite app_nil_r. intros [Y|Y]; [discriminate|auto].
    - intros [Y|Y]; [discriminate|auto]. }
  unfold DeckModel.render in H. fold (selected d a) in H.
  destruct (selected d a) as [|e0 l0]; [injection H as <- _; destruct X|].
  set (l := e0 :: l0) in *.
  apply Seq in H. destruct H as [[e' H]|[cnt [es0 [es1 [H0 [H ->]]]]]]; [injection H as <- _; destruct X|].
  injection H0 as <- _. cbn [app] in X.
  apply Seq in H. destruct H as [[e' H]|[[] [e1 [es2 [H1 [H ->]]]]]]; [now apply (Wh _ _ _ _ H (Post l))|].
  apply in_app_or in X. destruct X as [X|X]; [now apply (Wh _ _ _ _ H1 (Post l))|].
  apply Seq in H. destruct H as [[e' H]|[[] [e2 [es3 [H2 [H ->]]]]]]; [apply (Wh _ _ _ _ H); [cbn; intuition discriminate|exact X]|].
  apply in_app_or in X. destruct X as [X|X]; [apply (Wh _ _ _ _ H2); [cbn; intuition discriminate|exact X]|].
  apply Seq in H. destruct H as [[e' H]|[[] [e3 [es4 [H3 [H ->]]]]]]; [apply (Wh _ _ _ _ H); [cbn; intuition discriminate|exact X]|].
  apply in_app_or in X. destruct X as [X|X]; [apply (Wh _ _ _ _ H3); [cbn; intuition discriminate|exact X]|].
  apply Seq in H. destruct H as [[e' H]|[us [e4 [es5 [H4 [H ->]]]]]]; [injection H as <- _; destruct X|].
  injection H4 as <- _. cbn [app] in X.
  apply Seq in H. destruct H as [[e' H]|[[] [e5 [es6 [H5 [H ->]]]]]]; [now apply (Wh _ _ _ _ H (Dbg us))|].
  apply in_app_or in X. destruct X as [X|X]; [now apply (Wh _ _ _ _ H5 (Dbg us))|].
  assert (Gr : forall es r, match cnt with
     | Some (cx, cy) => tlift (per_page_grouping fmt width height cx cy b us)
     | None => tret us end = (es, r) -> es = []).
  { intros es' r' Hg. destruct cnt as [[cx cy]|]; now injection Hg as <- _. }
  apply Seq in H. destruct H as [[e' H]|[us' [e6 [es7 [H6 [H ->]]]]]]; [apply Gr in H; subst es6; destruct X|].
  apply Gr in H6. subst e6. cbn [app] in X. clear Gr.
  destruct (ra_return_units a); [discriminate|].
  apply Seq in H. destruct H as [[e' H]|[[] [e7 [es8 [H7 [H ->]]]]]].
  { destruct (ra_merger a) as [m|]; [|discriminate]. destruct (str_eqb (ra_type a) (pys "pdf")); [|discriminate].
    destruct (known_merger m); [discriminate|]. injection H as <- _. destruct X. }
  apply in_app_or in X. destruct X as [X|X].
  { destruct (ra_merger a) as [m|]; [|injection H7 as <-; destruct X]. destruct (str_eqb (ra_type a) (pys "pdf")); [|injection H7 as <-; destruct X].
    destruct (known_merger m); [injection H7 as <-; destruct X|discriminate]. }
  apply Seq in H. destruct H as [[e' H]|[fs [e8 [es9 [H8 [H ->]]]]]].
  { apply (Exp us' (ra_type a)). now rewrite H. }
  apply in_app_or in X. destruct X as [X|X]; [apply (Exp us' (ra_type a)); now rewrite H8|].
  assert (Tail : forall x es e, tseq (when (ra_prune a) (temit EvPruneFiles)) (fun _ => tret x) = (es, @Err rendered e) -> False).
  { intros x es' e' Ht. destruct (ra_prune a); discriminate. }
  destruct (ra_merger a) as [m|]; [destruct (str_eqb (ra_type a) (pys "pdf"))|].
  - apply Seq in H. destruct H as [[e' H]|[[] [e9 [es10 [H9 [H ->]]]]]]; [discriminate|]. now apply Tail in H.
  - now apply Tail in H.
  - now apply Tail in H.
Qed.
End Rendering.
Print Assumptions C46_pages.
Print Assumptions C46_empty.
Print Assumptions C46_pdf_only.
Print Assumptions C74_files_partial.

(** A concrete deck. *)
Definition two : deck := drun (empty PIgnore) [DNew (Name (pys "a")) NoView; DPdf (pys "x.pdf"); DNew NoName NoView].
Definition ex_render := render (fun _ => pys "7") 4 3 (fun _ => Ok tt) (fun s => if Nat.eqb (so_index s) 0 then 2%Z else 1%Z)
  (fun s k => Ok (pys "<a/>")) (fun svg t => Ok (pys "f")) (fun s k t => pys "c").
Example ex_C46 : exists es, ex_render Inkscape true two
  (mkArgs false (pys "pdf") (Some (pys "pypdf")) false true true None None) = (es, Ok RNone) /\
  written es = [[pys "f"; pys "f"; pys "x.pdf"; pys "f"]] /\ debug_files es = [(0%nat, 1%Z); (0%nat, 2%Z); (2%nat, 1%Z)].
Proof. eexists. split; [vm_compute; reflexivity|]. split; vm_compute; reflexivity. Qed.

(** The documentation of prune_cache promises to remove something only after a successful
    render; the measurements of texts are pruned before anything is rendered. *)
Theorem C74_queries_refuted : exists es e, ex_render Inkscape false two
  (mkArgs false (pys "png") None false true true None None) = (es, Err e) /\ In EvPruneQueries es.
Proof. do 2 eexists. split; [vm_compute; reflexivity|]. now left. Qed.
Print Assumptions C74_queries_refuted.

(** ** C47 *)

(** Slides on a grid: pages of [columns * rows] slides, in order. *)
Theorem C47_grid_partial : forall fmt width height columns rows units contents,
  (0 < columns)%nat -> (0 < rows)%nat -> (columns * rows <> 1)%nat ->
  (forall q, legal_value (fmt q) = true) ->
  Forall2 slide_unit units contents ->
  exists us css,
    per_page_grouping fmt width height (Z.of_nat columns) (Z.of_nat rows) Inkscape units = Ok us /\
    pieces (columns * rows) css contents /\
    Forall2 (is_page fmt width height columns rows) us css.
Proof.
  intros fmt width height columns rows units contents Hc Hr H1 Hf H.
  unfold per_page_grouping.
  assert (E : ((0 <? Z.of_nat columns) && (0 <? Z.of_nat rows))%Z = true).
  { apply andb_true_iff. split; apply Z.ltb_lt; lia. }
  rewrite E. destruct (Z.eqb_spec (Z.of_nat columns * Z.of_nat rows) 1) as [E1|E1]; [lia|].
  destruct units as [|u0 units0].
  { inversion H; subst. exists [], []. split; [reflexivity|]. split; [apply pieces_nil|constructor]. }
  destruct (group_ok fmt width height columns rows Hc Hr Hf _ _ H [] [] []) as [us [css [G1 [G2 [G3 _]]]]].
  { constructor. } { cbn. lia. } { right. discriminate. }
  exists us, css. split; [|split; [exact G2|exact G3]].
  unfold page_calls in G1. cbn [cell_trees flat_map List.length app] in G1.
  rewrite app_nil_r in G1. exact G1.
Qed.
Print Assumptions C47_grid_partial.

(** The cells of a page are distinct and inside the page. *)
Theorem C47_cells : forall columns rows i j, (0 < columns)%nat ->
  (i < columns * rows)%nat -> (j < columns * rows)%nat ->
  (column columns i < columns)%nat /\ (row columns i < rows)%nat /\
  (column columns i = column columns j -> row columns i = row columns j -> i = j).
Proof.
  intros columns rows i j Hc Hi Hj. unfold column, row. split; [apply Nat.mod_upper_bound; lia|]. split.
  - apply Nat.div_lt_upper_bound; lia.
  - intros E1 E2. rewrite (Nat.div_mod i columns), (Nat.div_mod j columns) by lia. congruence.
Qed.
Print Assumptions C47_cells.

(** With one cell per page nothing is changed; Cairo and empty grids are rejected. *)
Theorem C47_edge_cases : forall fmt w h b us cx cy,
  per_page_grouping fmt w h 1 1 Inkscape us = Ok us /\
  per_page_grouping fmt w h cx cy Cairo us = Err EAssertion /\
  ((cx <= 0 \/ cy <= 0)%Z -> per_page_grouping fmt w h cx cy b us = Err EAssertion).
Proof.
  intros fmt w h b us cx cy. split; [reflexivity|]. split; [reflexivity|]. intros H.
  destruct b; [|reflexivity]. unfold per_page_grouping.
  replace ((0 <? cx) && (0 <? cy))%Z with false; [reflexivity|]. symmetry.
  apply andb_false_iff. destruct H; [left|right]; apply Z.ltb_ge; lia.
Qed.
Print Assumptions C47_edge_cases.

(** Pages of added PDFs overtake the slides before them. *)
Theorem C47_pdf_order_refuted : exists fmt w h us f u v,
  get_svg u <> None /\ get_svg v <> None /\ us = [u; UFile f (pys "pdf"); v] /\
  exists p, per_page_grouping fmt w h 2 1 Inkscape us = Ok [UFile f (pys "pdf"); p].
Proof.
  exists (fun _ => pys "7"), 4%Q, 3%Q. eexists. exists (pys "x.pdf"), (USvg None (pys "<a/>")), (USvg None (pys "<b/>")).
  split; [discriminate|]. split; [discriminate|]. split; [reflexivity|]. eexists. vm_compute. reflexivity.
Qed.
Print Assumptions C47_pdf_order_refuted.
Example ex_C47 : Forall2 slide_unit [USvg None (pys "<a/>"); USvg None (pys "<b/>"); USvg None (pys "<c/>")]
  [[NElem (pys "a") [] []]; [NElem (pys "b") [] []]; [NElem (pys "c") [] []]] /\
  legal_value (pys "7") = true.
Proof.
  split; [|reflexivity].
  repeat (constructor; [do 2 eexists; split; [reflexivity|]; split; [vm_compute; reflexivity|cbn; intuition discriminate]|]).
  constructor.
Qed.

(** ** C73: the default policy *)
Theorem C73_policies : forall s nb, 
  (exists d, new_deck s nb = Ok d /\ dk_slides d = []) <->
  In s [pys "auto"; pys "unique"; pys "ignore"; pys "replace"].
Proof.
  intros s nb. unfold new_deck. split.
  - intros [d [H _]]. cbn [In]. destruct (str_eqb s (pys "auto")) eqn:E1; [apply str_eqb_eq in E1; auto|].
    destruct (str_eqb s (pys "unique")) eqn:E2; [apply str_eqb_eq in E2; auto|].
    destruct (str_eqb s (pys "ignore")) eqn:E3; [apply str_eqb_eq in E3; auto|].
    destruct (str_eqb s (pys "replace")) eqn:E4; [apply str_eqb_eq in E4; auto|discriminate].
  - intros [<-|[<-|[<-|[<-|[]]]]]; destruct nb; eexists; split; reflexivity.
Qed.
Print Assumptions C73_policies.
(** What each accepted policy argument stands for according to the documentation
    (slidedeck.py:55-62). *)
Definition documented_policy (s : str) (notebook : bool) (p : policy) : Prop :=
  (s = pys "unique" /\ p = PUnique) \/ (s = pys "replace" /\ p = PReplace) \/
  (s = pys "ignore" /\ p = PIgnore) \/
  (s = pys "auto" /\ p = if notebook then PReplace else PUnique).
Theorem C73_documented_partial : forall s nb d, new_deck s nb = Ok d -> s <> pys "auto" \/ nb = true ->
  documented_policy s nb (dk_policy d).
Proof.
  intros s nb d H A.
  assert (I : In s [pys "auto"; pys "unique"; pys "ignore"; pys "replace"]).
  { apply (C73_policies s nb). exists d. split; auto. unfold new_deck in H.
    destruct (if str_eqb s (pys "auto") then _ else _) as [p|]; [|discriminate]. now injection H as <-. }
  unfold documented_policy.
  destruct I as [<-|[<-|[<-|[<-|[]]]]]; vm_compute in H; injection H as <-; cbn [dk_policy]; auto 6.
  destruct A as [A| ->]; [congruence|]. auto 6.
Qed.
Print Assumptions C73_documented_partial.
Theorem C73_auto_refuted : exists d, new_deck (pys "auto") false = Ok d /\
  ~ documented_policy (pys "auto") false (dk_policy d) /\
  exists cs, ~ NoDup (names (dk_slides (drun d cs))).
Proof.
  eexists. split; [reflexivity|]. split.
  - intros [[H _]|[[H _]|[[H _]|[_ H]]]]; discriminate.
  - exists abc. vm_compute. intros H. inversion H as [|? ? H1 _]. apply H1. right. now left.
Qed.
Print Assumptions C73_auto_refuted.
