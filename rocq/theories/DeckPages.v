(** Lemmas about the pages of a deck and about grids. *)
From Coq Require Import List ZArith QArith NArith Bool String Lia.
From Verif Require Import Py PyFacts XmlModel XmlSpec XmlProofs XmlProps DeckModel DeckSpec.
Import ListNotations.

(** ** Units *)
Section Units.
Variable prepare : slide_obj -> result unit.
Variable steps : slide_obj -> Z.
Variable draw : slide_obj -> Z -> result str.
Variable svg_file : str -> str -> result str.
Variable cairo_file : slide_obj -> Z -> str -> str.

(** The unit [u] shows fragment [k] of [e]. *)
Definition shows (b : backend) (type : str) (ek : entry * Z) (u : runit) : Prop :=
  match fst ek with
  | EPdf f => type = pys "pdf" /\ u = UFile f (pys "pdf")
  | ESlide s =>
      exists svg, draw s (snd ek) = Ok svg /\
      match b with
      | Inkscape => u = USvg (Some (s, snd ek)) svg
      | Cairo => (type = pys "pdf" \/ type = pys "png") /\ u = UCairo s (snd ek) type
      end
  end.

Lemma step_range_seq : forall n, step_range n = map Z.of_nat (seq 1 (Z.to_nat n)).
Proof.
  intros n. unfold step_range. rewrite <- seq_shift, map_map. apply map_ext. intro. lia.
Qed.

Lemma cairo_type_eq : forall t, cairo_type t = true <-> t = pys "pdf" \/ t = pys "png".
Proof. intro t. unfold cairo_type. rewrite orb_true_iff, !str_eqb_eq. reflexivity. Qed.

Lemma make_unit_shows : forall b e k type u, make_unit draw b e k type = Ok u ->
  shows b type (e, k) u.
Proof.
  intros b [s|f] k type u H; unfold shows; cbn [fst snd]; cbn [make_unit] in H.
  - destruct b.
    + destruct (draw s k) as [svg|]; [|discriminate]. injection H as <-. eauto.
    + destruct (cairo_type type) eqn:C; [|discriminate]. apply cairo_type_eq in C.
      destruct (draw s k) as [svg|]; [|discriminate]. injection H as <-. eauto.
  - destruct (str_eqb type (pys "pdf")) eqn:E; [|discriminate]. apply str_eqb_eq in E.
    injection H as <-. auto.
Qed.

Lemma make_steps_shows : forall b e type ks us, make_steps draw b e ks type = Ok us ->
  Forall2 (shows b type) (map (pair e) ks) us.
Proof.
  intros b e type. induction ks as [|k ks IH]; intros us H; cbn [make_steps] in H.
  - injection H as <-. constructor.
  - destruct (make_unit draw b e k type) as [u|] eqn:E; [|discriminate]. cbn [rbind] in H.
    destruct (make_steps draw b e ks type) as [us'|] eqn:E'; [|discriminate]. injection H as <-.
    cbn [map]. constructor; auto. now apply make_unit_shows.
Qed.

Lemma make_units_shows : forall b type l us, make_units prepare steps draw b l type = Ok us ->
  Forall2 (shows b type) (pages steps l) us.
Proof.
  intros b type. induction l as [|e l IH]; intros us H; cbn [make_units] in H.
  - injection H as <-. constructor.
  - destruct (entry_prepare prepare e) as [[]|]; [|discriminate]. cbn [rbind] in H.
    destruct (make_steps draw b e (step_range (entry_steps steps e)) type) as [us1|] eqn:E1; [|discriminate].
    cbn [rbind] in H. destruct (make_units prepare steps draw b l type) as [us2|] eqn:E2; [|discriminate].
    injection H as <-. unfold pages. cbn [flat_map]. apply Forall2_app; [|now apply IH].
    apply make_steps_shows in E1. rewrite step_range_seq, map_map in E1.
    destruct e as [s|f]; exact E1.
Qed.

(** ** Exporting *)

(** The file [f] is the page of the unit [u]. *)
Definition exported (type : str) (u : runit) (f : str) : Prop :=
  match u with
  | USvg _ svg => svg_file svg type = Ok f
  | UFile g _ => f = g
  | UCairo s k t => f = cairo_file s k t
  end.
(** Units that can be exported as [type]. *)
Definition suits (type : str) (u : runit) : Prop :=
  match u with
  | USvg _ _ => True
  | UFile _ t => t = type
  | UCairo _ _ _ => type = pys "pdf" \/ type = pys "png"
  end.

Lemma shows_suits : forall b type ek u, shows b type ek u -> suits type u.
Proof.
  intros b type [[s|f] k] u H; unfold shows in H; cbn [fst snd] in H.
  - destruct H as [svg [_ H]]. destruct b; [now subst|destruct H as [H ->]; exact H].
  - destruct H as [-> ->]. reflexivity.
Qed.

Lemma export_all_ok : forall type us es fs, Forall (suits type) us ->
  export_all svg_file cairo_file us type = (es, Ok fs) ->
  Forall2 (exported type) us fs /\ es = map (fun u => EvExport u type) us.
Proof.
  intros type. induction us as [|u us IH]; intros es fs Hs H; cbn [export_all] in H.
  - injection H as <- <-. split; [constructor|reflexivity].
  - apply Forall_cons_iff in Hs. destruct Hs as [Hu Hs].
    cbn [tseq temit tlift snd fst app] in H.
    assert (X : (exists f, export svg_file cairo_file u type = Ok (Some f) /\ exported type u f) \/
                exists e, export svg_file cairo_file u type = Err e).
    { destruct u as [o svg|g t|s k t]; cbn [export exported suits] in *.
      - destruct (svg_file svg type) as [f|e]; cbn [rbind]; eauto.
      - subst t. rewrite str_eqb_refl. eauto.
      - apply cairo_type_eq in Hu. rewrite Hu. eauto. }
    destruct X as [[f [X Ex]]|[e X]]; rewrite X in H; cbn [tseq snd fst] in H; [|discriminate].
    destruct (export_all svg_file cairo_file us type) as [es' [fs'|e]]; cbn [tseq snd fst tret] in H;
      [|discriminate].
    injection H as <- <-. destruct (IH es' fs' Hs eq_refl) as [F ->].
    split; [constructor; auto|]. cbn [map app]. now rewrite app_nil_r.
Qed.
End Units.

(** ** Grids *)
Section Grids.
Variable fmt : Q -> str.
Variables width height : Q.
Variables columns rows : nat.
Hypothesis columns_pos : (0 < columns)%nat.
Hypothesis rows_pos : (0 < rows)%nat.
(** Numbers are written with characters that are allowed in attribute values. *)
Hypothesis fmt_legal : forall q, legal_value (fmt q) = true.

Let cx : Z := Z.of_nat columns.
Let cy : Z := Z.of_nat rows.

Definition cell_tree (i : nat) (svg : str) : wtree :=
  WElem (pys "g") [(pys "transform", shift fmt width height columns i, true)] (Some (pys "g")) [WRaw svg].
Fixpoint cell_trees (i : nat) (svgs : list str) : list wtree :=
  match svgs with [] => [] | s :: svgs' => cell_tree i s :: cell_trees (S i) svgs' end.
Definition sheet_tree (svgs : list str) : wtree :=
  WElem (pys "svg")
    [(pys "xmlns", pys "http://www.w3.org/2000/svg", true);
     (pys "xmlns:xlink", pys "http://www.w3.org/1999/xlink", true);
     (pys "width", fmt (width * inject_Z cx), true);
     (pys "height", fmt (height * inject_Z cy), true)] (Some (pys "svg")) (cell_trees 0 svgs).

Lemma cell_calls_tree : forall i svg,
  cell_calls fmt width height cx (Z.of_nat i) svg = tree_calls (cell_tree i svg).
Proof.
  intros i svg. unfold cell_calls, cell_tree, cx, shift, column, row. cbn [tree_calls map flat_map app set_call fst snd].
  rewrite <- Nat2Z.inj_mod, <- Nat2Z.inj_div. reflexivity.
Qed.
Lemma cell_trees_app : forall a b i, cell_trees i (a ++ b) = cell_trees i a ++ cell_trees (i + List.length a) b.
Proof.
  induction a as [|x a IH]; intros b i; cbn [app cell_trees List.length].
  - now rewrite Nat.add_0_r.
  - rewrite IH. cbn [app]. now rewrite Nat.add_succ_r.
Qed.

(** The calls of a page with the slides [svgs] so far. *)
Definition page_calls (svgs : list str) : list xcall :=
  new_page fmt width height cx cy ++ flat_map tree_calls (cell_trees 0 svgs).
Lemma page_calls_snoc : forall svgs svg,
  page_calls svgs ++ cell_calls fmt width height cx (Z.of_nat (List.length svgs)) svg = page_calls (svgs ++ [svg]).
Proof.
  intros svgs svg. unfold page_calls. rewrite cell_trees_app, flat_map_app, app_assoc. f_equal.
  cbn [cell_trees flat_map plus]. rewrite app_nil_r. apply cell_calls_tree.
Qed.
Lemma page_calls_end : forall svgs, page_calls svgs ++ svg_end = forest_calls [sheet_tree svgs].
Proof.
  intros svgs. unfold page_calls, forest_calls, sheet_tree, new_page, svg_begin, svg_end.
  cbn [flat_map tree_calls map set_call fst snd app]. rewrite app_nil_r. reflexivity.
Qed.

Lemma cell_trees_closes : forall svgs i, Forall closes (cell_trees i svgs).
Proof.
  induction svgs as [|s svgs IH]; intros i; cbn [cell_trees]; constructor; auto.
  cbn [cell_tree closes]. auto.
Qed.
Lemma closes_all : forall l, Forall closes l ->
  (fix all (l : list wtree) : Prop := match l with [] => True | k :: l' => closes k /\ all l' end) l.
Proof. induction l as [|x l IH]; intros H; [exact I|]. apply Forall_cons_iff in H. destruct H as [H1 H2]. split; [exact H1|exact (IH H2)]. Qed.
Lemma sheet_closes : forall svgs, Forall closes [sheet_tree svgs].
Proof.
  intros svgs. constructor; [|constructor]. split; [now right|]. apply closes_all, cell_trees_closes.
Qed.

Lemma legal_value_app : forall a b, legal_value (a ++ b) = legal_value a && legal_value b.
Proof. intros. unfold legal_value. apply forallb_app. Qed.
Lemma shift_legal : forall i, legal_value (shift fmt width height columns i) = true.
Proof. intros i. unfold shift. rewrite !legal_value_app, !fmt_legal. reflexivity. Qed.

(** SVGs that can be embedded: well-formed by themselves. *)
Definition embeddable (svg : str) (content : list node) : Prop :=
  read svg = Some content /\ ~ In 13%N svg.

Lemma cell_trees_lawful : forall svgs cs i, Forall2 embeddable svgs cs -> Forall lawful (cell_trees i svgs).
Proof.
  intros svgs cs i H. revert i. induction H as [|s c svgs cs [Hr Hn] H IH]; intros i; cbn [cell_trees]; constructor; auto.
  cbn [cell_tree lawful]. split; [reflexivity|]. split.
  { apply NoDup_cons; [intros []|apply NoDup_nil]. }
  split; [|split; [split; [eauto|exact Hn]|exact I]].
  constructor; [|constructor]. cbn [fst snd]. split; [reflexivity|apply shift_legal].
Qed.
Lemma lawful_all : forall l, Forall lawful l ->
  (fix all (l : list wtree) : Prop := match l with [] => True | k :: l' => lawful k /\ all l' end) l.
Proof. induction l as [|x l IH]; intros H; [exact I|]. apply Forall_cons_iff in H. destruct H as [H1 H2]. split; [exact H1|exact (IH H2)]. Qed.
Lemma sheet_lawful : forall svgs cs, Forall2 embeddable svgs cs -> Forall lawful [sheet_tree svgs].
Proof.
  intros svgs cs H. constructor; [|constructor]. cbn [sheet_tree lawful]. split; [reflexivity|]. split.
  { cbn [map fst]. repeat (apply NoDup_cons; [cbn; intuition discriminate|]). apply NoDup_nil. }
  split; [|apply lawful_all; eapply cell_trees_lawful; eauto].
  repeat (constructor; [cbn [fst snd]; split; [reflexivity|try reflexivity; apply fmt_legal]|]). constructor.
Qed.
Lemma sheet_nodes : forall svgs cs, Forall2 embeddable svgs cs ->
  forest_nodes [sheet_tree svgs] = [sheet fmt width height columns rows cs].
Proof.
  intros svgs cs H. unfold forest_nodes, sheet_tree, sheet. cbn [flat_map tree_nodes map fst app].
  f_equal. f_equal.
  assert (G : forall i, flat_map tree_nodes (cell_trees i svgs) = cells fmt width height columns i cs);
    [|apply G].
  induction H as [|s c svgs cs [Hr Hn] H IH]; intros i; [reflexivity|].
  cbn [cell_trees flat_map cells]. rewrite IH. unfold cell_tree, cell. cbn [tree_nodes flat_map map fst app].
  now rewrite Hr, app_nil_r.
Qed.

Lemma close_page_ok : forall svgs cs acc, svgs <> [] -> Forall2 embeddable svgs cs ->
  exists u, close_page (Z.of_nat (List.length svgs)) (page_calls svgs) acc = Ok (acc ++ [u]) /\
            is_page fmt width height columns rows u cs.
Proof.
  intros svgs cs acc Hne H. unfold close_page.
  assert (P : (0 <? Z.of_nat (List.length svgs))%Z = true).
  { apply Z.ltb_lt. destruct svgs; [congruence|cbn [List.length]; lia]. }
  rewrite P, page_calls_end.
  destruct (proj2 (C43_nested (forest_calls [sheet_tree svgs]))) as [x [s [E1 E2]]].
  { exists [sheet_tree svgs]. split; [apply sheet_closes|reflexivity]. }
  rewrite E1. cbn [rbind]. rewrite E2. cbn [rbind]. exists (USvg None s). split; [reflexivity|].
  exists s. split; [reflexivity|].
  rewrite (C72_read_back_partial _ _ _ (sheet_closes svgs) (sheet_lawful svgs cs H) E1 E2).
  now rewrite (sheet_nodes svgs cs H).
Qed.

(** The unit [u] can be embedded. *)
Definition slide_unit (u : runit) (content : list node) : Prop :=
  exists of_ svg, u = USvg of_ svg /\ embeddable svg content.

Lemma forall2_length : forall {A B} (R : A -> B -> Prop) a b, Forall2 R a b -> List.length a = List.length b.
Proof. intros A B R a b H. induction H; cbn; auto. Qed.
Lemma forall2_snoc : forall {A B} (R : A -> B -> Prop) a b x y, Forall2 R a b -> R x y -> Forall2 R (a ++ [x]) (b ++ [y]).
Proof. intros. apply Forall2_app; auto. Qed.

(** The loop with the slides [svgs] (contents [cs]) on the current page: the pages made from
    now on are the rest cut in pieces, the first of which starts with [cs]. *)
Lemma group_ok : forall units contents, Forall2 slide_unit units contents ->
  forall svgs cs acc, Forall2 embeddable svgs cs -> (List.length svgs <= columns * rows)%nat ->
  (svgs <> [] \/ units <> []) ->
  exists us css,
    group_loop fmt width height cx cy units (Z.of_nat (List.length svgs)) (page_calls svgs) acc = Ok (acc ++ us) /\
    pieces (columns * rows) css (cs ++ contents) /\
    Forall2 (is_page fmt width height columns rows) us css /\ css <> [].
Proof.
  intros units contents H. induction H as [|u c units contents [of_ [svg [-> Hu]]] H IH];
    intros svgs cs acc Hs Hl Hne; cbn [group_loop].
  - destruct Hne as [Hne|Hne]; [|congruence].
    destruct (close_page_ok svgs cs acc Hne Hs) as [u [E P]]. exists [u], [cs].
    split; [exact E|]. rewrite app_nil_r. assert (L := forall2_length _ _ _ Hs).
    split; [|split; [constructor; auto|discriminate]].
    destruct cs as [|c0 cs0]; [destruct svgs; [congruence|discriminate]|]. apply pieces_last. lia.
  - cbn [get_svg]. assert (L := forall2_length _ _ _ Hs).
    assert (G : 0%nat <> (columns * rows)%nat) by (intro X; symmetry in X; apply Nat.eq_mul_0 in X; lia).
    destruct (Z.eqb_spec (Z.of_nat (List.length svgs)) (cx * cy)) as [E|E].
    + assert (E' : List.length svgs = (columns * rows)%nat) by (unfold cx, cy in E; lia).
      assert (Hn : svgs <> []) by (destruct svgs; [cbn in E'; congruence|discriminate]).
      destruct (close_page_ok svgs cs acc Hn Hs) as [v [Ev P]]. rewrite Ev. cbn [rbind].
      change (new_page fmt width height cx cy ++ cell_calls fmt width height cx 0 svg)
        with (new_page fmt width height cx cy ++ cell_calls fmt width height cx (Z.of_nat 0) svg).
      replace (new_page fmt width height cx cy ++ cell_calls fmt width height cx (Z.of_nat 0) svg)
        with (page_calls [svg]).
      2: { change (page_calls [svg]) with (page_calls ([] ++ [svg])). rewrite <- (page_calls_snoc [] svg). unfold page_calls. cbn [cell_trees flat_map List.length].
           now rewrite app_nil_r. }
      change 1%Z with (Z.of_nat (List.length [svg])).
      destruct (IH [svg] [c] (acc ++ [v])) as [us [css [E1 [E2 [E3 E4]]]]].
      { constructor; [exact Hu|constructor]. } { cbn [List.length]. lia. } { left. discriminate. }
      exists (v :: us), (cs :: css). split.
      { rewrite E1. now rewrite <- app_assoc. }
      split; [|split; [constructor; auto|discriminate]].
      apply pieces_full; auto. lia.
    + replace (Z.of_nat (List.length svgs) + 1)%Z with (Z.of_nat (List.length (svgs ++ [svg])))
        by (rewrite app_length; cbn [List.length]; lia).
      rewrite page_calls_snoc.
      destruct (IH (svgs ++ [svg]) (cs ++ [c]) acc) as [us [css [E1 [E2 [E3 E4]]]]].
      { apply forall2_snoc; auto. } { rewrite app_length. cbn [List.length]. unfold cx, cy in E. lia. }
      { left. destruct svgs; discriminate. }
      exists us, css. split; [exact E1|]. split; [|split; [exact E3|exact E4]].
      rewrite <- app_assoc in E2. exact E2.
Qed.
End Grids.
