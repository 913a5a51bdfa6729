(** Properties of images: C22, C55, C56, C57, C58 and C78. *)
From Coq Require Import List ZArith NArith QArith Qabs Bool String Lia Lqa.
From Verif Require Import Py PyFacts ShowModel ShowSpec ShowProofs ShowProps LayoutModel
  LayoutProofs ImageModel ImageSpec ImageProofs ImageIds.
Import ListNotations.
Open Scope Z_scope.

(** ** C55: fragments inside SVG images *)

(** Fragment [k] is the image without the excluded elements, with the same order, nesting,
    names, attributes and leading text; the documents that existed before are unchanged. *)
Theorem C55_fragment : forall root k ds n t ds', nth_error ds root = Some n -> NoDup (ids n) ->
  create_image_data root k ds = Ok (t, ds') ->
  frag k n t /\ forall d m, nth_error ds d = Some m -> nth_error ds' d = Some m.
Proof.
  intros root k ds n t ds' N ND H. apply create_spec in H.
  destruct H as (n' & hs & N' & F & E). injection E as -> ->.
  rewrite N in N'. injection N' as <-. split; [now apply rm_frag|].
  intros d m D. rewrite nth_error_app1; auto. apply nth_error_Some. congruence.
Qed.
Print Assumptions C55_fragment.

(** An element is kept iff neither it nor an element between it and the root excludes [k]. *)
Theorem C55_keeps : forall root k ds n t ds' x, nth_error ds root = Some n -> NoDup (ids n) ->
  create_image_data root k ds = Ok (t, ds') ->
  (In x (ids t) <->
   exists l m, chain n l m /\ x_id m = x /\ Forall (fun e => ~ hides k e) l).
Proof.
  intros root k ds n t ds' x N ND H.
  destruct (C55_fragment _ _ _ _ _ _ N ND H) as [F _]. now apply (proj1 (frag_keeps k)).
Qed.
Print Assumptions C55_keeps.

(** The kept elements are in document order. *)
Theorem C55_order : forall root k ds n t ds', nth_error ds root = Some n -> NoDup (ids n) ->
  create_image_data root k ds = Ok (t, ds') -> sublist (ids t) (ids n).
Proof.
  intros root k ds n t ds' N ND H.
  destruct (C55_fragment _ _ _ _ _ _ N ND H) as [F _]. now apply (proj1 (frag_sublist k)).
Qed.
Print Assumptions C55_order.

(** The specification leaves no choice. *)
Theorem C55_unique : forall k n t t', frag k n t -> frag k n t' -> t = t'.
Proof. intros k n t t' H. now apply (proj1 (frag_unique k)). Qed.
Print Assumptions C55_unique.

(** The number of fragments is 1 or the largest number mentioned in a label. *)
Theorem C55_steps : forall n r, get_image_steps n = Ok r ->
  1 <= r /\ (forall m k, In m (x_iter n) -> label_mentions m k -> k <= r) /\
  (r = 1 \/ exists m, In m (x_iter n) /\ label_mentions m r).
Proof.
  intros n r H. destruct (fold_steps_max _ _ _ H) as (A & B & C). split; [lia|split].
  - intros m k M L. assert (O : exists i, parse_label m = Ok i)
      by (eapply fold_steps_ok; eauto; unfold get_image_steps in H; eauto).
    destruct O as [i O]. destruct (mentions_parsed _ _ _ O L) as [s ->].
    destruct (label_min_steps _ _ O) as (_ & D & _). specialize (B m s M O). specialize (D k L).
    lia.
  - destruct C as [C|(m & i & M & O & C)]; [now left|].
    destruct (label_min_steps _ _ O) as (_ & _ & [D|D]); [left; lia|].
    right. exists m. split; auto. now rewrite C.
Qed.
Print Assumptions C55_steps.

(** Exactly the images with acceptable labels are accepted, and then every fragment can be
    drawn. *)
Theorem C55_accepts : forall n,
  (exists r, get_image_steps n = Ok r) <-> forall m, In m (x_iter n) -> label_ok m.
Proof.
  intros n. unfold get_image_steps. rewrite fold_steps_ok. split; intros H m M.
  - apply parse_label_ok. auto.
  - apply parse_label_ok. auto.
Qed.
Print Assumptions C55_accepts.

Theorem C55_total : forall root k ds n r, nth_error ds root = Some n ->
  get_image_steps n = Ok r -> exists t ds', create_image_data root k ds = Ok (t, ds').
Proof.
  intros root k ds n r N H.
  destruct (find_ok k n) as [hs F].
  { intros m M. eapply fold_steps_ok; eauto. }
  exists (rm hs n), (ds ++ [rm hs n]). apply create_spec. exists n, hs. auto.
Qed.
Print Assumptions C55_total.

(** A small image: a group labelled "2+" with a nested element labelled "3", and a free one. *)
Definition lab (s : string) : list (str * str) := [(label_attr, pys s)].
Definition ex_svg : xnode :=
  XNode 0 (pys "svg") (lab "**9**") []
    [(XNode 1 (pys "g") (lab "layer **2+** x") []
        [(XNode 2 (pys "rect") (lab "**3") [] [], pys "a"); (XNode 3 (pys "rect") [] [] [], pys "b")],
      pys "c");
     (XNode 4 (pys "rect") (lab "plain") [] [], pys "d")].
Example ex_svg_steps : get_image_steps ex_svg = Ok 9.
Proof. vm_compute. reflexivity. Qed.
Example ex_svg_ids : NoDup (ids ex_svg).
Proof.
  assert (E : ids ex_svg = [0; 1; 2; 3; 4]%nat) by reflexivity. rewrite E.
  repeat (constructor; [cbn; lia|]). constructor.
Qed.
Example ex_svg_fragments :
  (exists t1 t2 t3, create_image_data 0 1 [ex_svg] = Ok (t1, [ex_svg; t1]) /\ ids t1 = [0; 4]%nat /\
   create_image_data 0 2 [ex_svg] = Ok (t2, [ex_svg; t2]) /\ ids t2 = [0; 1; 3; 4]%nat /\
   create_image_data 0 3 [ex_svg] = Ok (t3, [ex_svg; t3]) /\ t3 = ex_svg).
Proof. do 3 eexists. repeat split; vm_compute; reflexivity. Qed.

(** The text of a kept element is not kept: text that stands after an excluded child, so
    inside the kept parent, disappears with the child.  Here "b" in [a<x/>b]. *)
Definition node_text (n : xnode) : str :=
  let (_, _, _, text, kids) := n in
  text ++ (fix go (l : list (xnode * str)) : str :=
             match l with [] => [] | (_, t) :: l' => t ++ go l' end) kids.
Theorem C55_text_refuted : exists n t, NoDup (ids n) /\
  create_image_data 0 1 [n] = Ok (t, [n; t]) /\ In (x_id n) (ids t) /\
  node_text n = pys "ab" /\ node_text t = pys "a".
Proof.
  exists (XNode 0 (pys "text") [] (pys "a") [(XNode 1 (pys "tspan") (lab "**2**") [] [], pys "b")]).
  eexists. split.
  - assert (E : ids (XNode 0 (pys "text") [] (pys "a")
      [(XNode 1 (pys "tspan") (lab "**2**") [] [], pys "b")]) = [0; 1]%nat) by reflexivity.
    rewrite E. repeat (constructor; [cbn; lia|]). constructor.
  - split; [vm_compute; reflexivity|]. split; [now left|]. split; reflexivity.
Qed.
Print Assumptions C55_text_refuted.

(** ** C56: which image fragment is drawn on which page *)

(** [page_data] of an image set up by _image_svg. *)
Definition image_page (select : option (list (option Z))) (fragments : bool) (show_begin : Z)
  (root : nat) (ds : docs) (page : Z) : result (option xnode * docs) :=
  match nth_error ds root with
  | None => Err EAttribute
  | Some n => do steps <- image_steps select fragments n;
              page_data select show_begin steps root ds page
  end.

Theorem C56_not_before : forall select fragments b root ds page r,
  page < b -> image_page select fragments b root ds page = Ok r -> fst r = None.
Proof.
  intros select fragments b root ds page r Hp H. unfold image_page in H.
  destruct (nth_error ds root) as [n|]; [|discriminate].
  destruct (image_steps select fragments n) as [steps|]; cbn [rbind] in H; [|discriminate].
  unfold page_data in H. destruct ((steps =? 1) && no_selection select).
  - rewrite (proj2 (Z.ltb_lt _ _) Hp) in H. injection H as <-. reflexivity.
  - destruct select as [l|].
    + replace (0 <? page - b + 1) with false in H by (symmetry; apply Z.ltb_ge; lia).
      cbn [andb] in H. injection H as <-. reflexivity.
    + replace (page - b + 1 <? 1) with true in H by (symmetry; apply Z.ltb_lt; lia).
      injection H as <-. reflexivity.
Qed.
Print Assumptions C56_not_before.

(** What [page_data] must draw for image fragment [k] of [n]. *)
Definition draws (n : xnode) (k : Z) (o : option xnode) : Prop :=
  if k <? 1 then o = None else exists t, o = Some t /\ frag k n t.

Lemma draw_step : forall root ds n k r, nth_error ds root = Some n -> NoDup (ids n) ->
  (if k <? 1 then Ok (None, ds)
   else do (t, ds') <- create_image_data root k ds; Ok (Some t, ds')) = Ok r ->
  draws n k (fst r).
Proof.
  intros root ds n k r N ND H. unfold draws. destruct (k <? 1).
  - injection H as <-. reflexivity.
  - destruct (create_image_data root k ds) as [[t ds']|] eqn:C; cbn [rbind] in H; [|discriminate].
    injection H as <-. exists t. split; auto. now apply (C55_fragment _ _ _ _ _ _ N ND C).
Qed.

(** With select_fragments page [k] shows the entry number k-b+1, counted from 1. *)
Theorem C56_select : forall l fragments b root ds n page r,
  nth_error ds root = Some n -> NoDup (ids n) ->
  image_page (Some l) fragments b root ds page = Ok r ->
  (forall k, b <= page -> nth_error l (Z.to_nat (page - b)) = Some (Some k) ->
     draws n k (fst r)) /\
  (b <= page -> nth_error l (Z.to_nat (page - b)) = Some None -> fst r = None) /\
  (b <= page -> nth_error l (Z.to_nat (page - b)) = None -> fst r = None).
Proof.
  intros l fragments b root ds n page r N ND H. unfold image_page in H. rewrite N in H.
  cbn [image_steps rbind] in H. unfold page_data in H.
  assert (S1 : (Z.of_nat (List.length l) =? 1) && no_selection (Some l) = false).
  { destruct l as [|x l]; [reflexivity|]. cbn [no_selection]. apply andb_false_r. }
  rewrite S1 in H. replace (page - b + 1 - 1) with (page - b) in H by lia.
  split; [|split].
  - intros k B K. replace (0 <? page - b + 1) with true in H by (symmetry; apply Z.ltb_lt; lia).
    assert (L : (Z.to_nat (page - b) < List.length l)%nat) by (apply nth_error_Some; congruence).
    replace (page - b + 1 <=? Z.of_nat (List.length l)) with true in H
      by (symmetry; apply Z.leb_le; lia).
    cbn [andb] in H. rewrite K in H. exact (draw_step _ _ _ _ _ N ND H).
  - intros B K. rewrite K in H. destruct ((0 <? page - b + 1) && _); injection H as <-; auto.
  - intros B K. apply nth_error_None in K.
    replace (page - b + 1 <=? Z.of_nat (List.length l)) with false in H
      by (symmetry; apply Z.leb_gt; lia).
    rewrite andb_false_r in H. injection H as <-. auto.
Qed.
Print Assumptions C56_select.

(** Without a selection page [k] shows image fragment k-b+1, if the image has more than one
    fragment ([fragments=False] or no label with a number above 1: next theorem). *)
Theorem C56_all_fragments_partial : forall b root ds n page r steps,
  nth_error ds root = Some n -> NoDup (ids n) -> get_image_steps n = Ok steps -> steps <> 1 ->
  image_page None true b root ds page = Ok r -> draws n (page - b + 1) (fst r).
Proof.
  intros b root ds n page r steps N ND G S1 H. unfold image_page in H. rewrite N in H.
  cbn [image_steps] in H. rewrite G in H. cbn [rbind] in H. unfold page_data in H.
  apply Z.eqb_neq in S1. rewrite S1 in H. cbn [andb] in H. exact (draw_step _ _ _ _ _ N ND H).
Qed.
Print Assumptions C56_all_fragments_partial.

(** With [fragments=False] the unchanged image is on every page from [b] on. *)
Theorem C56_whole : forall b root ds n page, nth_error ds root = Some n -> b <= page ->
  image_page None false b root ds page = Ok (Some n, ds).
Proof.
  intros b root ds n page N B. unfold image_page. rewrite N. cbn [image_steps rbind].
  unfold page_data. cbn [Z.eqb Pos.eqb no_selection andb].
  replace (page <? b) with false by (symmetry; apply Z.ltb_ge; lia). now rewrite N.
Qed.
Print Assumptions C56_whole.

(** With one fragment the unchanged image is drawn as well.  That is fragment k-b+1 when no
    element excludes it. *)
Theorem C56_one_fragment_partial : forall b root ds n page, nth_error ds root = Some n ->
  NoDup (ids n) -> get_image_steps n = Ok 1 -> b <= page ->
  (forall m, In m (x_iter n) -> ~ hides (page - b + 1) m) ->
  exists r, image_page None true b root ds page = Ok r /\ draws n (page - b + 1) (fst r).
Proof.
  intros b root ds n page N ND G B Hn. exists (Some n, ds). unfold image_page. rewrite N.
  cbn [image_steps]. rewrite G. cbn [rbind]. unfold page_data.
  cbn [Z.eqb Pos.eqb no_selection andb].
  replace (page <? b) with false by (symmetry; apply Z.ltb_ge; lia). rewrite N.
  split; auto. unfold draws. replace (page - b + 1 <? 1) with false by (symmetry; apply Z.ltb_ge; lia).
  exists n. split; auto. cbn [fst]. clear N ND G. revert Hn. generalize (page - b + 1) as k.
  intros k. induction n as [i tag attrs text kids IH] using xnode_ind'. intros Hn.
  constructor. rewrite x_iter_unfold in Hn.
  assert (Hk : forall m, In m (iter_kids kids) -> ~ hides k m) by (intros m M; apply Hn; now right).
  clear Hn. induction IH as [|[c t] l Hc Hl IHl]; [constructor|].
  cbn [iter_kids] in Hk. apply fr_keep.
  - apply Hk. apply in_or_app. left. destruct c. rewrite x_iter_unfold. now left.
  - apply Hc. intros m M. apply Hk. apply in_or_app. now left.
  - apply IHl. intros m M. apply Hk. apply in_or_app. now right.
Qed.
Print Assumptions C56_one_fragment_partial.

(** The claim fails for an image whose labels only mention fragment 1: the element labelled
    "1" stays on page b+1, though image fragment 2 does not contain it. *)
Definition ex_one : xnode :=
  XNode 0 (pys "svg") [] [] [(XNode 1 (pys "rect") (lab "**1**") [] [], [])].
Theorem C56_one_fragment_refuted : exists n t, NoDup (ids n) /\ get_image_steps n = Ok 1 /\
  image_page None true 1 0 [n] 2 = Ok (Some n, [n]) /\
  create_image_data 0 2 [n] = Ok (t, [n; t]) /\ ids n = [0; 1]%nat /\ ids t = [0]%nat.
Proof.
  exists ex_one. eexists. split.
  - assert (E : ids ex_one = [0; 1]%nat) by reflexivity. rewrite E.
    repeat (constructor; [cbn; lia|]). constructor.
  - repeat split; vm_compute; reflexivity.
Qed.
Print Assumptions C56_one_fragment_refuted.

(** The pages asked for reach the last fragment: on that page the last entry is drawn. *)
Theorem C56_pages : forall select fragments n b steps,
  image_steps select fragments n = Ok steps ->
  image_pages b steps - b + 1 = steps /\
  (forall l, select = Some l -> steps = Z.of_nat (List.length l)) /\
  (select = None -> fragments = true -> get_image_steps n = Ok steps) /\
  (select = None -> fragments = false -> steps = 1).
Proof.
  intros select fragments n b steps H. unfold image_pages. split; [lia|].
  destruct select as [l|]; cbn [image_steps] in H.
  - split; [|split; discriminate]. intros l' E. injection E as <-. congruence.
  - split; [discriminate|]. split; intros _ ->; cbn in H; congruence.
Qed.
Print Assumptions C56_pages.

Example ex_pages : forall page,
  let drawn := image_page (Some [Some 3; None; Some 1]) true 2 0 [ex_svg] page in
  (page = 1 -> exists ds, drawn = Ok (None, ds)) /\
  (page = 2 -> exists t ds, drawn = Ok (Some t, ds) /\ ids t = [0; 1; 2; 3; 4]%nat) /\
  (page = 3 -> exists ds, drawn = Ok (None, ds)) /\
  (page = 4 -> exists t ds, drawn = Ok (Some t, ds) /\ ids t = [0; 4]%nat) /\
  (page = 5 -> exists ds, drawn = Ok (None, ds)).
Proof.
  intros page drawn. unfold drawn.
  repeat split; intros ->; repeat eexists; vm_compute; reflexivity.
Qed.

(** ** C57: renamed ids *)

Definition no_hash (s : str) : Prop := ~ In hash s.
(** XML: no attribute twice in an element. *)
Definition attrs_wf (root : xnode) : Prop :=
  forall n, In n (x_iter root) -> NoDup (map fst (x_attrs n)).
Definition ids_wf (root : xnode) : Prop := forall i, In i (doc_ids root) -> no_hash i.
(** [root] has the value [v] for [name] at its element number [k] (document order). *)
Definition attr_at (root : xnode) (k : nat) (name : str) (v : str) : Prop :=
  exists n, nth_error (x_iter root) k = Some n /\ attr_get name (x_attrs n) = Some v.

Lemma hash_append : forall a b, no_hash a -> no_hash b -> no_hash (a ++ b).
Proof. unfold no_hash. intros a b A B X. apply in_app_or in X. tauto. Qed.

Lemma suffix_id_other : forall s attrs n, n <> id_attr ->
  attr_get n (suffix_id s attrs) = attr_get n attrs.
Proof.
  intros s attrs n H. apply str_eqb_neq in H. rewrite suffix_id_get, H.
  destruct (attr_get n attrs) as [[|c i]|]; reflexivity.
Qed.

(** Every id gets the suffix, and no other id appears. *)
Theorem C57_ids : forall root s k j, attrs_wf root -> ids_wf root -> no_hash s ->
  (attr_at (rename_ids root s) k id_attr j <->
   exists i, attr_at root k id_attr i /\ j = match i with [] => [] | _ => i ++ s end).
Proof.
  intros root s k j Wa Wi Hs.
  assert (F : forall n i, nth_error (x_iter root) k = Some n ->
    attr_get id_attr (x_attrs n) = Some i ->
    final_value (map (fun i => pys "#" ++ i) (doc_ids root)) s
      (match i with [] => [] | _ => i ++ s end) = match i with [] => [] | _ => i ++ s end).
  { intros n i N A. apply final_nohash. destruct i as [|c i]; [intros []|].
    apply hash_append; auto. apply Wi. apply doc_ids_in. split; [discriminate|].
    exists n. split; auto. eapply nth_error_In; eauto. }
  assert (G : forall n, attr_get id_attr (suffix_id s (x_attrs n)) =
    option_map (fun i => match i with [] => [] | _ => i ++ s end) (attr_get id_attr (x_attrs n))).
  { intros n. rewrite suffix_id_get, str_eqb_refl'.
    destruct (attr_get id_attr (x_attrs n)) as [[|c i]|]; reflexivity. }
  split.
  - intros (n' & N' & A'). destruct (nth_error (x_iter root) k) as [n|] eqn:N.
    + destruct (rename_attr root s k n id_attr N) as (m & M & _ & A).
      { apply Wa. eapply nth_error_In; eauto. }
      rewrite N' in M. injection M as <-. rewrite A' , G in A.
      destruct (attr_get id_attr (x_attrs n)) as [i|] eqn:I0; [|discriminate].
      cbn [option_map] in A. rewrite (F n i eq_refl I0) in A. injection A as ->.
      exists i. split; auto. exists n. auto.
    + rewrite rename_nth, N in N'. discriminate.
  - intros (i & (n & N & A) & ->). destruct (rename_attr root s k n id_attr N) as (m & M & _ & A').
    { apply Wa. eapply nth_error_In; eauto. }
    exists m. split; auto. rewrite A', G, A. cbn [option_map]. now rewrite (F n i N A).
Qed.
Print Assumptions C57_ids.

(** An attribute whose references all name one id [i], and of which no other id is a prefix,
    names the renamed element afterwards; the rest of its text is unchanged. *)
Theorem C57_references_partial : forall root s k name v i a ps, attrs_wf root -> ids_wf root ->
  name <> id_attr -> attr_at root k name v -> In i (doc_ids root) ->
  refers_only (doc_ids root) i v a ps ->
  attr_at (rename_ids root s) k name (join_refs a (map (fun p => (i ++ s) ++ p) ps)).
Proof.
  intros root s k name v i a ps Wa Wi Nn (n & N & A) Hi R.
  destruct (rename_attr root s k n name N) as (m & M & _ & A').
  { apply Wa. eapply nth_error_In; eauto. }
  exists m. split; auto. rewrite A', suffix_id_other, A by auto.
  cbn [option_map]. f_equal. now apply final_refs.
Qed.
Print Assumptions C57_references_partial.

(** An attribute without '#' is unchanged. *)
Theorem C57_other_attributes : forall root s k name v, attrs_wf root -> name <> id_attr ->
  attr_at root k name v -> no_hash v -> attr_at (rename_ids root s) k name v.
Proof.
  intros root s k name v Wa Nn (n & N & A) Hv.
  destruct (rename_attr root s k n name N) as (m & M & _ & A').
  { apply Wa. eapply nth_error_In; eauto. }
  exists m. split; auto. rewrite A', suffix_id_other, A by auto.
  cbn [option_map]. f_equal. now apply final_nohash.
Qed.
Print Assumptions C57_other_attributes.

(** A whole reference [#i] leads to the same elements as before, if no other id is a prefix
    of [i]. *)
Theorem C57_resolves_partial : forall root s k name i, attrs_wf root -> ids_wf root ->
  no_hash s -> name <> id_attr -> In i (doc_ids root) ->
  (forall j q, In j (doc_ids root) -> i = j ++ q -> j = i) ->
  attr_at root k name (pys "#" ++ i) ->
  exists i', attr_at (rename_ids root s) k name (pys "#" ++ i') /\
    forall d, attr_at (rename_ids root s) d id_attr i' <-> attr_at root d id_attr i.
Proof.
  intros root s k name i Wa Wi Hs Nn Hi Hp A. exists (i ++ s). split.
  - pose proof (C57_references_partial root s k name (pys "#" ++ i) i [] [[]] Wa Wi Nn A Hi) as R.
    cbn [map join_refs] in R. rewrite app_nil_l, app_nil_r in R. apply R.
    split; [cbn [map join_refs]; now rewrite app_nil_r|]. split; [intros []|].
    split; [intros p [<-|[]] []|].
    intros p j [<-|[]] J Nj q E. rewrite app_nil_r in E. apply Nj. eapply Hp; eauto.
  - assert (Ni : i <> []) by (apply doc_ids_in in Hi; tauto).
    intros d. rewrite C57_ids by auto. split.
    + intros (j & Aj & E). destruct j as [|c j].
      * exfalso. apply Ni. destruct i; [auto|discriminate].
      * apply app_inv_tail in E. now subst i.
    + intros Ai. exists i. split; auto. destruct i; [congruence|auto].
Qed.
Print Assumptions C57_resolves_partial.

(** Ids of two documents renamed with different suffixes of the same length (the suffixes of
    latex.py:126 are '-' and 32 digits) are disjoint. *)
Theorem C57_disjoint : forall r1 r2 s1 s2 k1 k2 j1 j2,
  attrs_wf r1 -> ids_wf r1 -> no_hash s1 -> attrs_wf r2 -> ids_wf r2 -> no_hash s2 ->
  List.length s1 = List.length s2 -> s1 <> s2 ->
  attr_at (rename_ids r1 s1) k1 id_attr j1 -> attr_at (rename_ids r2 s2) k2 id_attr j2 ->
  j1 <> [] -> j1 <> j2.
Proof.
  intros r1 r2 s1 s2 k1 k2 j1 j2 A1 W1 H1 A2 W2 H2 L Ns B1 B2 N E.
  apply C57_ids in B1; auto. apply C57_ids in B2; auto.
  destruct B1 as (i1 & _ & E1), B2 as (i2 & _ & E2).
  destruct i1 as [|c1 i1]; [contradiction|]. destruct i2 as [|c2 i2]; [congruence|].
  assert (EE : (c1 :: i1) ++ s1 = (c2 :: i2) ++ s2) by congruence. apply Ns. clear - EE L.
  assert (G : forall a b : str, a ++ s1 = b ++ s2 -> s1 = s2).
  { intros a b E. apply (f_equal (@rev N)) in E. rewrite !rev_app_distr in E.
    assert (X : rev s1 = rev s2).
    { assert (Lr : List.length (rev s1) = List.length (rev s2)) by (rewrite !rev_length; auto).
      revert E Lr. generalize (rev s1), (rev s2), (rev a), (rev b). clear.
      induction l as [|x l IH]; intros [|y l0] a b E L; cbn in *; try discriminate; auto.
      injection E as -> E. f_equal. eapply IH; eauto. }
    apply (f_equal (@rev N)) in X. now rewrite !rev_involutive in X. }
  now apply (G _ _ EE).
Qed.
Print Assumptions C57_disjoint.

(** References of the usual forms. *)
Definition ex_refs : xnode :=
  XNode 0 (pys "svg") [(pys "id", pys "root")] []
    [(XNode 1 (pys "g") [(pys "id", pys "a")] [] [], []);
     (XNode 2 (pys "use") [(pys "href", pys "#a"); (pys "fill", pys "url(#a) none")] [] [], [])].
Example ex_refs_renamed :
  rename_ids ex_refs (pys "-1") =
  XNode 0 (pys "svg") [(pys "id", pys "root-1")] []
    [(XNode 1 (pys "g") [(pys "id", pys "a-1")] [] [], []);
     (XNode 2 (pys "use") [(pys "href", pys "#a-1"); (pys "fill", pys "url(#a-1) none")] [] [], [])] /\
  refers_only (doc_ids ex_refs) (pys "a") (pys "url(#a) none") (pys "url(") [pys ") none"].
Proof.
  split; [vm_compute; reflexivity|]. split; [reflexivity|].
  split; [cbn; intros X; repeat (destruct X as [X|X]; [discriminate|]); destruct X|]. split.
  - intros p [<-|[]]. cbn. intros X. repeat (destruct X as [X|X]; [discriminate|]). destruct X.
  - intros p j [<-|[]] J Nj q E. vm_compute in J.
    destruct J as [<-|[<-|[]]]; [discriminate E|now apply Nj].
Qed.

(** The claim fails in general.  Two references in one attribute: only the one to the later
    id is changed. *)
Definition attr (n v : string) : str * str := (pys n, pys v).
Definition ex_two : xnode :=
  XNode 0 (pys "svg") [] []
    [(XNode 1 (pys "g") [attr "id" "a"] [] [], []); (XNode 2 (pys "g") [attr "id" "b"] [] [], []);
     (XNode 3 (pys "use") [attr "style" "fill:url(#a);stroke:url(#b)"] [] [], [])].
Theorem C57_two_references_refuted :
  attrs_wf ex_two /\ ids_wf ex_two /\ doc_ids ex_two = [pys "a"; pys "b"] /\
  attr_at (rename_ids ex_two (pys "-1")) 3 (pys "style") (pys "fill:url(#a);stroke:url(#b-1)") /\
  forall k, ~ attr_at (rename_ids ex_two (pys "-1")) k id_attr (pys "a").
Proof.
  assert (W : attrs_wf ex_two).
  { intros n N. vm_compute in N. repeat (destruct N as [<-|N];
      [cbn; repeat (constructor; [cbn; tauto|]); constructor|]). destruct N. }
  assert (D : doc_ids ex_two = [pys "a"; pys "b"]) by reflexivity.
  assert (Wi : ids_wf ex_two).
  { intros i. rewrite D. intros [<-|[<-|[]]]; intros [X|[]]; discriminate. }
  repeat split; auto.
  - eexists. split; vm_compute; reflexivity.
  - intros k X. apply C57_ids in X; auto.
    + destruct X as (i & _ & E). destruct i as [|c [|d i]]; cbn in E; discriminate.
    + intros [X0|[X0|[]]]; discriminate.
Qed.
Print Assumptions C57_two_references_refuted.

(** An id that is a prefix of another one declared before: the reference to the longer one is
    broken. *)
Definition ex_prefix : xnode :=
  XNode 0 (pys "svg") [] []
    [(XNode 1 (pys "g") [attr "id" "g10"] [] [], []); (XNode 2 (pys "g") [attr "id" "g1"] [] [], []);
     (XNode 3 (pys "use") [attr "href" "#g10"] [] [], [])].
Theorem C57_prefix_refuted :
  attrs_wf ex_prefix /\ ids_wf ex_prefix /\ doc_ids ex_prefix = [pys "g10"; pys "g1"] /\
  attr_at (rename_ids ex_prefix (pys "-x")) 3 (pys "href") (pys "#g1-x0") /\
  forall k, ~ attr_at (rename_ids ex_prefix (pys "-x")) k id_attr (pys "g1-x0").
Proof.
  assert (W : attrs_wf ex_prefix).
  { intros n N. vm_compute in N. repeat (destruct N as [<-|N];
      [cbn; repeat (constructor; [cbn; tauto|]); constructor|]). destruct N. }
  assert (D : doc_ids ex_prefix = [pys "g10"; pys "g1"]) by reflexivity.
  assert (Wi : ids_wf ex_prefix).
  { intros i. rewrite D. intros [<-|[<-|[]]]; cbn; intros X;
      repeat (destruct X as [X|X]; [discriminate|]); destruct X. }
  repeat split; auto.
  - eexists. split; vm_compute; reflexivity.
  - intros k X. apply C57_ids in X; auto.
    + destruct X as (i & _ & E).
      destruct i as [|c1 [|c2 [|c3 [|c4 [|c5 [|c6 i]]]]]]; cbn in E; discriminate.
    + intros [X0|[X0|[]]]; discriminate.
Qed.
Print Assumptions C57_prefix_refuted.

(** ** C22: place and size of images *)

Open Scope Q_scope.

Lemma Qeq_bool_false : forall a b, Qeq_bool a b = false <-> ~ a == b.
Proof.
  intros. rewrite <- Qeq_bool_iff. destruct (Qeq_bool a b); split; congruence.
Qed.

(** With an explicit scale, or with the one computed, the image has its own aspect ratio, is
    centred, and its size is the scale times its own. *)
Theorem C22_centred : forall r scale iw ih p, place r scale iw ih = Ok p ->
  p_w p == iw * p_scale p /\ p_h p == ih * p_scale p /\ p_w p * ih == p_h p * iw /\
  p_x p + p_w p / 2 == rx r + rw r / 2 /\ p_y p + p_h p / 2 == ry r + rh r / 2 /\
  (forall s, scale = Some s -> p_scale p = s).
Proof.
  intros r scale iw ih p H. unfold place in H.
  destruct (match scale with Some s => Ok s | None => _ end) as [s|] eqn:E; cbn [rbind] in H;
    [|discriminate].
  injection H as <-. cbn [p_w p_h p_x p_y p_scale].
  repeat split; try reflexivity; try ring; try field.
  intros s' ->. congruence.
Qed.
Print Assumptions C22_centred.

(** In a box with positive sides the image fits and cannot be larger. *)
Theorem C22_fits : forall r iw ih, 0 < rw r -> 0 < rh r -> 0 < iw -> 0 < ih ->
  exists p, place r None iw ih = Ok p /\ 0 < p_scale p /\ p_w p <= rw r /\ p_h p <= rh r /\
    forall s, iw * s <= rw r -> ih * s <= rh r -> s <= p_scale p.
Proof.
  intros r iw ih Hw Hh Hiw Hih. unfold place, scaler, qdiv.
  replace (Qeq_bool iw 0) with false by (symmetry; apply Qeq_bool_false; lra).
  replace (Qeq_bool ih 0) with false by (symmetry; apply Qeq_bool_false; lra).
  cbn [rbind]. replace (qtrue (rw r)) with true by (symmetry; apply qtrue_true; lra).
  replace (qtrue (rh r)) with true by (symmetry; apply qtrue_true; lra).
  cbn [andb rbind]. eexists. split; [reflexivity|]. cbn [p_scale p_w p_h].
  assert (Ex : iw * (rw r / iw) == rw r) by (field; lra).
  assert (Ey : ih * (rh r / ih) == rh r) by (field; lra).
  assert (Px : 0 < rw r / iw) by (apply Qlt_shift_div_l; lra).
  assert (Py : 0 < rh r / ih) by (apply Qlt_shift_div_l; lra).
  destruct (qmin_case (rw r / iw) (rh r / ih)) as [[-> L]|[-> L]].
  - split; [auto|]. split; [lra|]. split.
    + apply Qle_trans with (ih * (rh r / ih)); [|lra]. rewrite !(Qmult_comm ih). apply Qmult_le_compat_r; lra.
    + intros s A B. apply Qle_shift_div_l; lra.
  - split; [auto|]. split; [|split; [lra|]].
    + apply Qle_trans with (iw * (rw r / iw)); [|lra]. rewrite !(Qmult_comm iw). apply Qmult_le_compat_r; lra.
    + intros s A B. apply Qle_shift_div_l; lra.
Qed.
Print Assumptions C22_fits.

(** If one side of the box is 0 the other one decides; if both are 0 the image has size 0. *)
Theorem C22_degenerate : forall r iw ih, 0 < iw -> 0 < ih ->
  (0 < rw r -> rh r == 0 ->
     exists p, place r None iw ih = Ok p /\ p_w p == rw r /\ p_h p == rw r * ih / iw) /\
  (rw r == 0 -> 0 < rh r ->
     exists p, place r None iw ih = Ok p /\ p_h p == rh r /\ p_w p == rh r * iw / ih) /\
  (rw r == 0 -> rh r == 0 ->
     exists p, place r None iw ih = Ok p /\ p_w p == 0 /\ p_h p == 0).
Proof.
  intros r iw ih Hiw Hih. unfold place, scaler, qdiv.
  replace (Qeq_bool iw 0) with false by (symmetry; apply Qeq_bool_false; lra).
  replace (Qeq_bool ih 0) with false by (symmetry; apply Qeq_bool_false; lra).
  cbn [rbind]. split; [|split].
  - intros Hw Hh. replace (qtrue (rw r)) with true by (symmetry; apply qtrue_true; lra).
    replace (qtrue (rh r)) with false by (symmetry; apply qtrue_false; lra).
    cbn [andb rbind]. eexists. split; [reflexivity|]. cbn [p_w p_h]. split; field; lra.
  - intros Hw Hh. replace (qtrue (rw r)) with false by (symmetry; apply qtrue_false; lra).
    replace (qtrue (rh r)) with true by (symmetry; apply qtrue_true; lra).
    cbn [andb rbind]. eexists. split; [reflexivity|]. cbn [p_w p_h]. split; field; lra.
  - intros Hw Hh. replace (qtrue (rw r)) with false by (symmetry; apply qtrue_false; lra).
    replace (qtrue (rh r)) with false by (symmetry; apply qtrue_false; lra).
    cbn [andb rbind]. eexists. split; [reflexivity|]. cbn [p_w p_h]. split; ring.
Qed.
Print Assumptions C22_degenerate.

(** So an image can be larger than its box: a box of height 0 (width "50%", no height). *)
Theorem C22_larger_refuted : exists r iw ih p, 0 < iw /\ 0 < ih /\ 0 <= rw r /\ 0 <= rh r /\
  place r None iw ih = Ok p /\ rh r < p_h p.
Proof.
  exists (mkRect 0 0 100 0), 10, 20. eexists.
  repeat (split; [first [reflexivity|cbn; lra]|]). reflexivity.
Qed.
Print Assumptions C22_larger_refuted.

Example ex_place : exists p, place (mkRect 10 20 100 300) None 20 30 = Ok p /\
  p_scale p == 5 /\ p_w p == 100 /\ p_h p == 150 /\ p_x p == 10 /\ p_y p == 95.
Proof. eexists. split; [reflexivity|]. repeat split; reflexivity. Qed.

(** The size request of a new box without size arguments is the image size (times the scale)
    plus the padding. *)
Theorem C22_request : forall id a l scale iw ih l', new_layout id a = Ok l ->
  a_width a = ANone -> a_height a = ANone -> image_request l scale iw ih = Ok l' ->
  0 <= iw * or_one scale + l_left (head l) + l_right (head l) ->
  0 <= ih * or_one scale + l_top (head l) + l_bottom (head l) ->
  sv_min (l_width (head l')) == iw * or_one scale + l_left (head l) + l_right (head l) /\
  sv_min (l_height (head l')) == ih * or_one scale + l_top (head l) + l_bottom (head l) /\
  kids l' = kids l.
Proof.
  intros id a l scale iw ih l' N W H R P1 P2. unfold new_layout in N. rewrite W, H in N.
  destruct (opt_pos (a_x a)) as [x|]; cbn [rbind] in N; [|discriminate].
  destruct (opt_pos (a_y a)) as [y|]; cbn [rbind] in N; [|discriminate].
  cbn [or_zero parse_size rbind] in N. injection N as <-.
  unfold image_request, set_image_size_request in R. cbn [l_wdef l_hdef] in R.
  injection R as <-. cbn [head kids ensure_height ensure_width l_width l_height l_left l_right
    l_top l_bottom] in *. rewrite !ensure_min. cbn [sv_min].
  split; [|split; [|reflexivity]].
  - destruct (qmax_case 0 (iw * or_one scale + set_padding (a_left a) (a_px a) (a_padding a) +
      set_padding (a_right a) (a_px a) (a_padding a))) as [[-> L]|[-> L]]; lra.
  - destruct (qmax_case 0 (ih * or_one scale + set_padding (a_top a) (a_py a) (a_padding a) +
      set_padding (a_bottom a) (a_py a) (a_padding a))) as [[-> L]|[-> L]]; lra.
Qed.
Print Assumptions C22_request.

Lemma or_one_nz : forall scale, ~ or_one scale == 0.
Proof.
  intros [s|]; cbn [or_one]; [|lra]. destruct (qtrue s) eqn:E; [now apply qtrue_true|lra].
Qed.

(** A new box with only a width [w] asks for the height w * ih / iw (plus padding), one with
    only a height [h] for the width h * iw / ih: without padding the ratio is kept. *)
Theorem C22_ratio_partial : forall id a l scale iw ih q, new_layout id a = Ok l ->
  0 < q -> 0 < iw -> 0 < ih ->
  0 <= l_left (head l) -> 0 <= l_right (head l) -> 0 <= l_top (head l) -> 0 <= l_bottom (head l) ->
  (a_width a = ANum q -> a_height a = ANone -> l_left (head l) + l_right (head l) <= q ->
   exists l', image_request l scale iw ih = Ok l' /\ sv_min (l_width (head l')) == q /\
     sv_min (l_height (head l')) == q * ih / iw + l_top (head l) + l_bottom (head l)) /\
  (a_width a = ANone -> a_height a = ANum q -> l_top (head l) + l_bottom (head l) <= q ->
   exists l', image_request l scale iw ih = Ok l' /\ sv_min (l_height (head l')) == q /\
     sv_min (l_width (head l')) == q * iw / ih + l_left (head l) + l_right (head l)).
Proof.
  intros id a l scale iw ih q N Hq Hiw Hih. unfold new_layout in N.
  destruct (opt_pos (a_x a)) as [x|]; cbn [rbind] in N; [|discriminate].
  destruct (opt_pos (a_y a)) as [y|]; cbn [rbind] in N; [|discriminate].
  assert (Q1 : qtrue q = true) by (apply qtrue_true; lra).
  pose proof (or_one_nz scale) as Hs.
  set (s := or_one scale) in *.
  assert (Z1 : Qeq_bool (ih * s) 0 = false).
  { apply Qeq_bool_false. intros X. apply Qmult_integral in X. destruct X; lra. }
  assert (Z2 : Qeq_bool (iw * s) 0 = false).
  { apply Qeq_bool_false. intros X. apply Qmult_integral in X. destruct X; lra. }
  assert (Pw : 0 <= q * iw / ih).
  { unfold Qdiv. apply Qmult_le_0_compat; [apply Qmult_le_0_compat; lra|].
    apply Qlt_le_weak, Qinv_lt_0_compat; lra. }
  assert (Ph : 0 <= q * ih / iw).
  { unfold Qdiv. apply Qmult_le_0_compat; [apply Qmult_le_0_compat; lra|].
    apply Qlt_le_weak, Qinv_lt_0_compat; lra. }
  intros Pl Pr Pt Pb. split; intros W H Pad; rewrite W, H in N; cbn [or_zero] in N;
    rewrite Q1 in N; cbn [parse_size rbind] in N; injection N as <-;
    unfold image_request, set_image_size_request; fold s; cbn [l_wdef l_hdef];
    unfold managed_children; cbn [head kids filter map min_children_size l_horizontal l_width
      l_height sv_min]; rewrite Z1, Z2; cbn [orb]; eexists; (split; [reflexivity|]);
    cbn [head ensure_height ensure_width l_width l_height l_left l_right l_top l_bottom] in *;
    rewrite !ensure_min; cbn [sv_min].
  - assert (E1 : qmax q 0 == q) by (destruct (qmax_case q 0) as [[-> ?]|[-> ?]]; lra).
    assert (E2 : qmax 0 0 == 0) by reflexivity.
    set (pl := set_padding (a_left a) (a_px a) (a_padding a)) in *.
    set (pr := set_padding (a_right a) (a_px a) (a_padding a)) in *.
    set (pt := set_padding (a_top a) (a_py a) (a_padding a)) in *.
    set (pb := set_padding (a_bottom a) (a_py a) (a_padding a)) in *.
    split.
    + assert (E3 : qmax 0 0 * (iw * s) / (ih * s) + pl + pr == pl + pr) by (rewrite E2; field; lra).
      rewrite (qmax_comp _ _ _ _ (Qeq_refl q) E3).
      destruct (qmax_case q (pl + pr)) as [[-> ?]|[-> ?]]; lra.
    + assert (E3 : qmax q 0 * (ih * s) / (iw * s) + pt + pb == q * ih / iw + pt + pb)
        by (rewrite E1; field; lra).
      rewrite (qmax_comp _ _ _ _ (Qeq_refl 0) E3).
      destruct (qmax_case 0 (q * ih / iw + pt + pb)) as [[-> ?]|[-> ?]]; lra.
  - assert (E1 : qmax q 0 == q) by (destruct (qmax_case q 0) as [[-> ?]|[-> ?]]; lra).
    assert (E2 : qmax 0 0 == 0) by reflexivity.
    set (pl := set_padding (a_left a) (a_px a) (a_padding a)) in *.
    set (pr := set_padding (a_right a) (a_px a) (a_padding a)) in *.
    set (pt := set_padding (a_top a) (a_py a) (a_padding a)) in *.
    set (pb := set_padding (a_bottom a) (a_py a) (a_padding a)) in *.
    split.
    + assert (E3 : qmax 0 0 * (ih * s) / (iw * s) + pt + pb == pt + pb) by (rewrite E2; field; lra).
      rewrite (qmax_comp _ _ _ _ (Qeq_refl q) E3).
      destruct (qmax_case q (pt + pb)) as [[-> ?]|[-> ?]]; lra.
    + assert (E3 : qmax q 0 * (iw * s) / (ih * s) + pl + pr == q * iw / ih + pl + pr)
        by (rewrite E1; field; lra).
      rewrite (qmax_comp _ _ _ _ (Qeq_refl 0) E3).
      destruct (qmax_case 0 (q * iw / ih + pl + pr)) as [[-> ?]|[-> ?]]; lra.
Qed.
Print Assumptions C22_ratio_partial.

(** With padding the ratio of the inner area differs from that of the image: a square image
    in a box of width 100 with padding 10 gets an inner area of 80 by 100. *)
Definition ex_args (w h : arg) (p : Q) : layout_args :=
  mkLArgs ANone ANone w h None None None None None None (Some p) false.
Theorem C22_padding_refuted : exists l l',
  new_layout 0 (ex_args (ANum 100) ANone 10) = Ok l /\ image_request l None 50 50 = Ok l' /\
  sv_min (l_width (head l')) - l_left (head l') - l_right (head l') == 80 /\
  sv_min (l_height (head l')) - l_top (head l') - l_bottom (head l') == 100.
Proof. do 2 eexists. repeat split; vm_compute; reflexivity. Qed.
Print Assumptions C22_padding_refuted.

Example ex_ratio : exists l l', new_layout 0 (ex_args ANone (ANum 30) 0) = Ok l /\
  image_request l (Some 2) 50 25 = Ok l' /\ sv_min (l_width (head l')) == 60.
Proof. do 2 eexists. repeat split; vm_compute; reflexivity. Qed.

(** ** C58: units *)

Lemma take_suffix_spec : forall isalpha u r s, Forall (fun c => isalpha c = true) u ->
  (match r with c :: _ => isalpha c = false | [] => True end) ->
  take_suffix isalpha (u ++ r) s = (r, rev u ++ s).
Proof.
  intros isalpha u r. induction u as [|c u IH]; intros s F R; cbn [app rev].
  - destruct r as [|c r]; cbn; auto. now rewrite R.
  - inversion F as [|? ? Hc Hu]; subst. cbn [take_suffix]. rewrite Hc, IH by auto.
    now rewrite <- app_assoc.
Qed.

(** A number followed by a unit is converted to CSS pixels with a relative error below three
    millionths; exactly if the unit is px or missing.  Missing from the claim: inches. *)
Theorem C58_units_partial : forall isalpha to_float num unit u q, css_unit unit u ->
  unit <> pys "in" -> Forall (fun c => isalpha c = true) unit ->
  (match rev num with c :: _ => isalpha c = false | [] => True end) -> to_float num = Some q ->
  exists r, svg_size_to_pixels isalpha to_float (Some (num ++ unit)) = Ok r /\
    Qabs (r - q * u) <= (3 # 1000000) * Qabs (q * u) /\
    (unit = pys "px" \/ unit = [] -> r == q * u).
Proof.
  intros isalpha to_float num unit u q U Nin F R T. unfold svg_size_to_pixels.
  rewrite rev_app_distr, take_suffix_spec; [|now apply Forall_rev|auto].
  rewrite rev_involutive, app_nil_r, rev_involutive, T. eexists. split; [reflexivity|].
  assert (B : forall f : Q, Qabs (f - u) <= (3 # 1000000) * Qabs u ->
    Qabs (q * f - q * u) <= (3 # 1000000) * Qabs (q * u)).
  { intros f Hf. assert (E : q * f - q * u == q * (f - u)) by ring. rewrite E, !Qabs_Qmult.
    rewrite (Qmult_comm (Qabs q) (Qabs (f - u))), (Qmult_comm (Qabs q) (Qabs u)), Qmult_assoc.
    apply Qmult_le_compat_r; auto. apply Qabs_nonneg. }
  destruct U; try (now destruct Nin);
    (split; [apply B; vm_compute; discriminate|]; intros [D|D]; try discriminate D;
     apply Qmult_comp; reflexivity).
Qed.
Print Assumptions C58_units_partial.

(** Inches (like any unknown unit) count as pixels: 96 times too small. *)
Theorem C58_inch_refuted : forall isalpha to_float num q,
  isalpha 105%N = true -> isalpha 110%N = true ->
  (match rev num with c :: _ => isalpha c = false | [] => True end) -> to_float num = Some q ->
  exists r, svg_size_to_pixels isalpha to_float (Some (num ++ pys "in")) = Ok r /\ r == q.
Proof.
  intros isalpha to_float num q Hi Hn R T. unfold svg_size_to_pixels.
  rewrite rev_app_distr, take_suffix_spec; [|repeat constructor; auto|auto].
  rewrite rev_involutive, app_nil_r, T. eexists. split; [reflexivity|].
  rewrite <- (Qmult_1_r q) at 2. apply Qmult_comp; reflexivity.
Qed.
Print Assumptions C58_inch_refuted.

(** The constants are rounded, so mm, cm and pt are not exact. *)
Theorem C58_exact_refuted : forall u, css_unit (pys "pt") u ->
  exists r, svg_size_to_pixels (fun c => N.leb 97 c) (fun _ => Some 72) (Some (pys "72pt")) = Ok r /\
    ~ r == 72 * u.
Proof.
  intros u U. eexists. split; [reflexivity|]. inversion U; subst. vm_compute. discriminate.
Qed.
Print Assumptions C58_exact_refuted.

Example ex_units :
  svg_size_to_pixels (fun c => N.leb 97 c) (fun _ => Some 10) (Some (pys "10mm")) =
    Ok (10 * (377953 # 100000)) /\
  svg_size_to_pixels (fun c => N.leb 97 c) (fun _ => Some 10) None = Err EType.
Proof. split; reflexivity. Qed.

(** ** C78: the type of an image *)

Lemma endswith_spec : forall p s, endswith p s = true <-> exists a, s = a ++ p.
Proof.
  intros p s. unfold endswith. rewrite startswith_spec. split.
  - intros [r E]. exists (rev r). apply (f_equal (@rev N)) in E.
    now rewrite rev_involutive, rev_app_distr, rev_involutive in E.
  - intros [a ->]. exists (rev a). apply rev_app_distr.
Qed.

Inductive extension : image_type -> str -> Prop :=
| ext_svg : extension TSvg (pys ".svg")
| ext_ora : extension TOra (pys ".ora")
| ext_png : extension TPng (pys ".png")
| ext_jpeg : extension TJpeg (pys ".jpeg")
| ext_jpg : extension TJpeg (pys ".jpg").

Lemma last_char : forall (a b : str) x y, a ++ [x] = b ++ [y] -> x = y /\ a = b.
Proof. intros a b x y H. apply app_inj_tail in H. tauto. Qed.

(** The type is the one of the extension of the file name; other names are rejected. *)
Theorem C78_image_type : forall s t,
  detect_type s = Ok t <-> exists a e, extension t e /\ s = a ++ e.
Proof.
  intros s t. unfold detect_type.
  assert (U : forall e e' t t', extension t e -> extension t' e' -> t <> t' ->
    forall a b, a ++ e <> b ++ e').
  { intros e e' t1 t2 X Y D a b E. apply (f_equal (@rev N)) in E. rewrite !rev_app_distr in E.
    destruct X, Y; try (now apply D); cbn in E; injection E; intros; discriminate. }
  assert (F : forall e t', extension t' e -> t' <> t -> (exists a e, extension t e /\ s = a ++ e) ->
    endswith e s = false).
  { intros e t' X D (a & e' & Y & ->). apply not_true_is_false. intros Z.
    apply endswith_spec in Z. destruct Z as [b Z]. eapply (U e' e t t'); eauto. }
  split.
  - destruct (endswith (pys ".svg") s) eqn:E1.
    { intros H. injection H as <-. apply endswith_spec in E1. destruct E1 as [a E1].
      exists a. eexists. split; eauto. constructor. }
    destruct (endswith (pys ".ora") s) eqn:E2.
    { intros H. injection H as <-. apply endswith_spec in E2. destruct E2 as [a E2].
      exists a. eexists. split; eauto. constructor. }
    destruct (endswith (pys ".png") s) eqn:E3.
    { intros H. injection H as <-. apply endswith_spec in E3. destruct E3 as [a E3].
      exists a. eexists. split; eauto. constructor. }
    destruct (endswith (pys ".jpeg") s) eqn:E4.
    { intros H. injection H as <-. apply endswith_spec in E4. destruct E4 as [a E4].
      exists a. eexists. split; eauto. constructor. }
    destruct (endswith (pys ".jpg") s) eqn:E5; [|discriminate].
    intros H. injection H as <-. apply endswith_spec in E5. destruct E5 as [a E5].
    exists a. eexists. split; eauto. apply ext_jpg.
  - intros H. pose proof (fun e t' X D => F e t' X D H) as G.
    destruct H as (a & e & X & E).
    assert (Y : endswith e s = true) by (apply endswith_spec; eauto).
    destruct X.
    + now rewrite Y.
    + rewrite (G _ _ ext_svg) by discriminate. now rewrite Y.
    + rewrite (G _ _ ext_svg), (G _ _ ext_ora) by discriminate. now rewrite Y.
    + rewrite (G _ _ ext_svg), (G _ _ ext_ora), (G _ _ ext_png) by discriminate. now rewrite Y.
    + rewrite (G _ _ ext_svg), (G _ _ ext_ora), (G _ _ ext_png) by discriminate.
      rewrite Y. now rewrite orb_true_r.
Qed.
Print Assumptions C78_image_type.

Example ex_type : detect_type (pys "a.svg.jpg") = Ok TJpeg /\ detect_type (pys "a.SVG") = Err EException.
Proof. split; reflexivity. Qed.
