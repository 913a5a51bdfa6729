(** C100 with several slides on a page. *)
From Coq Require Import List ZArith QArith NArith Bool String Lia.
From Verif Require Import Py PyFacts XmlModel XmlSpec DeckModel DeckSpec DeckProofs DeckPages DeckProps DeckPropsGrid.
From Verif Require Import ExportModel ExportProps.
Import ListNotations.

Section Grid.
Variable fmt : Q -> str.
Variables width height : Q.
Variable prepare : slide_obj -> result unit.
Variable steps : slide_obj -> Z.
Variable draw : slide_obj -> Z -> result str.
Variable svg_file : str -> str -> result str.
Variable cairo_file : slide_obj -> Z -> str -> str.
Notation render := (render fmt width height prepare steps draw svg_file cairo_file).

(** The pages of the file that come from one page of slides or one PDF. *)
Definition pages_for {P} (pp : str -> list P) (page_of : str -> P) columns rows (m : made) (ps : list P) : Prop :=
  match m with
  | MPage cs => exists svg, ps = [page_of svg] /\ read svg = Some [sheet fmt width height columns rows cs]
  | MFile u => exists f, u = UFile f (pys "pdf") /\ ps = pp f
  end.

(** With several slides on a page, the file has one page for each sheet of fragments, and all
    pages of the PDFs of the deck, arranged as in C47. *)
Theorem C100_grid : forall P (pp : str -> list P) page_of b debug d a es r m o columns rows,
  converts draw svg_file cairo_file P pp page_of ->
  ra_per_page a = Some [Some (Z.of_nat columns); Some (Z.of_nat rows)] -> (columns * rows <> 1)%nat ->
  (forall q, legal_value (fmt q) = true) ->
  (forall s k svg, draw s k = Ok svg -> exists c, embeddable svg c) ->
  ra_type a = pys "pdf" -> ra_merger a = Some m -> ra_return_units a = false ->
  render b debug d a = (es, Ok r) ->
  exists ins outs fs w pss, Forall2 (page_given draw) (pages steps (selected d a)) ins /\
    arranged (columns * rows) ins outs /\
    written es = [fs] /\ merge m fs (Some o) = Ok w /\
    Forall2 (pages_for pp page_of columns rows) outs pss /\
    document P pp w = Some (o, List.concat pss).
Proof.
  intros P pp po b debug d a es r m o columns rows [C1 C2] Hp H1 Hf Hd Ht Hm Hu H.
  assert (K : known_merger m = true).
  { destruct (known_merger m) eqn:K; [reflexivity|]. exfalso. unfold DeckModel.render in H. fold (selected d a) in H.
    destruct (selected d a); [discriminate|]. 
    do 7 (apply tseq_ok in H; destruct H as [? [? [? [_ [H ->]]]]]).
    rewrite Hu, Hm, Ht, str_eqb_refl in H. cbv zeta in H. rewrite K in H. discriminate. }
  destruct (C47_render fmt width height prepare steps draw svg_file cairo_file b debug d a es r columns rows Hp H1 Hf Hd H)
    as (-> & Hc & Hr & ins & outs & us & G & A & M & W).
  rewrite Hu in W. destruct W as [fs [E W]]. unfold merged in W. rewrite Hm, Ht, str_eqb_refl in W. destruct W as [_ W].
  destruct (merge_known m fs o K) as [w Ew].
  assert (Files : forall u, In u (files_out outs) -> exists f, u = UFile f (pys "pdf")).
  { destruct A as [_ [-> _]]. clear - G. intros u I. unfold files_in in I. apply in_flat_map in I as [g [I J]].
    destruct g as [c|v]; [destruct J|]. destruct J as [->|[]].
    induction G as [|ek g eks gs Hg G IH]; [destruct I|]. destruct I as [->|I]; [|auto].
    unfold page_given in Hg. destruct (fst ek) as [s|f]; [destruct Hg|eauto]. }
  exists ins, outs, fs, w, (map pp fs). do 4 (split; [assumption|]). split.
  - clear - C1 M E Files Ht. rewrite Ht in E. revert fs E Files. induction M as [|u out us outs Hm M IH]; intros fs E Files;
      inversion E as [|? f ? fs' E1 E2]; subst; cbn [map]; constructor.
    + destruct out as [cs|v]; cbn [pages_for unit_made] in *.
      * destruct Hm as [svg [-> R]]. exists svg. split; [now apply C1|exact R].
      * subst v. destruct (Files u (or_introl eq_refl)) as [g ->]. exists g. split; [reflexivity|]. cbn in E1. now subst.
    + apply IH; [exact E2|]. intros v I. apply Files. cbn. destruct out; [exact I|now right].
  - rewrite (document_merge _ _ _ _ _ _ Ew). do 2 f_equal. apply flat_map_concat_map.
Qed.
End Grid.
Print Assumptions C100_grid.

(** Two slides, the first of two fragments, a PDF of two pages between them, two slides on a
    page: the PDF comes first. *)
Definition grid_draw (s : slide_obj) (k : Z) : result str :=
  Ok (if Nat.eqb (so_index s) 0 then if (k =? 1)%Z then pys "<a/>" else pys "<b/>" else pys "<c/>").
Definition grid_cairo (s : slide_obj) (k : Z) (type : str) : str :=
  match grid_draw s k with Ok svg => pys "/cache/" ++ svg | Err _ => [] end.
Definition grid_args : render_args :=
  mkArgs false (pys "pdf") (Some (pys "pdfunite")) false true true None (Some [Some 2%Z; Some 1%Z]).
Example ex_C100_grid : converts grid_draw ex_file grid_cairo str ex_pages (fun svg => svg) /\
  ra_per_page grid_args = Some [Some (Z.of_nat 2); Some (Z.of_nat 1)] /\
  (forall s k svg, grid_draw s k = Ok svg -> exists c, embeddable svg c) /\
  exists es fs, render (fun _ => pys "7") 16 9 (fun _ => Ok tt) ex_steps grid_draw ex_file grid_cairo Inkscape false two grid_args
    = (es, Ok RNone) /\ written es = [fs] /\ map (fun f => List.length (ex_pages f)) fs = [2; 1; 1]%nat.
Proof.
  assert (A : forall x, ex_pages (pys "/cache/" ++ x) = [x]).
  { intros x. unfold ex_pages. destruct (strip_prefix (pys "/cache/") (pys "/cache/" ++ x)) as [y|] eqn:E.
    - apply strip_prefix_spec in E. apply app_inv_head in E. now subst.
    - exfalso. now apply (proj1 (strip_prefix_none _ _) E x). }
  split; [split|split; [reflexivity|split]].
  - intros svg f H. unfold ex_file in H. injection H as <-. apply A.
  - intros s k svg H. unfold grid_cairo. rewrite H. apply A.
  - intros s k svg H. unfold grid_draw in H. injection H as <-. destruct (Nat.eqb (so_index s) 0); [destruct (k =? 1)%Z|];
      (eexists; split; [vm_compute; reflexivity|vm_compute; intuition discriminate]).
  - do 2 eexists. split; [vm_compute; reflexivity|]. split; [reflexivity|vm_compute; reflexivity].
Qed.
