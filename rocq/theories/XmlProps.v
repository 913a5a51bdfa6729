(** Properties C41-C43 and C72: the XML writer. *)
From Coq Require Import List NArith Bool String Lia.
From Verif Require Import Py PyFacts XmlModel XmlSpec XmlProofs.
Import ListNotations.
Local Open Scope N_scope.

(** ** C43 *)

(** The sequences of calls for which to_string() succeeds are exactly the properly nested
    ones. *)
Theorem C43_nested : forall cs,
  (exists x s, xrun new_xml cs = Ok x /\ to_string x = Ok s) <->
  (exists f, Forall closes f /\ cs = forest_calls f).
Proof.
  intros cs. split.
  - intros [x [s [H1 H2]]]. unfold to_string in H2. destruct (x_stack x) eqn:E; [|discriminate].
    destruct (run_finishes cs new_xml x H1 E) as [al [cs' [-> [F A]]]].
    rewrite (A eq_refl) in *. inversion F; subst. cbn. eauto.
  - intros [f [Hf ->]]. destruct (forest_run f Hf new_xml) as [x [H1 [H2 _]]].
    exists x, (written x). split; auto. unfold to_string. now rewrite H2.
Qed.
Print Assumptions C43_nested.

(** Attributes can only be given directly after an element was started or another
    attribute was given. *)
Theorem C43_attributes_in_start_tags : forall cs x n v e x',
  xrun new_xml cs = Ok x -> xdo x (CSet n v e) = Ok x' ->
  exists cs' m al, cs = cs' ++ CElement m :: map set_call al.
Proof.
  intros cs. induction cs as [|c cs IH] using rev_ind; intros x n v e x' H H'.
  - cbn in H. injection H as <-. discriminate.
  - rewrite xrun_app in H. destruct (xrun new_xml cs) as [x1|] eqn:E; [|discriminate].
    cbn [rbind xrun] in H. destruct (xdo x1 c) as [x2|] eqn:E2; [|discriminate]. injection H as ->.
    cbn [xdo] in H'. unfold set_ in H'. destruct (x_open x) eqn:O; [|discriminate]. clear H'.
    destruct c as [t|m|m w e'|t|m]; cbn [xdo] in E2.
    + injection E2 as <-. destruct (close_tag_facts x1) as [_ [C _]]. cbn in O. congruence.
    + exists cs, m, []. reflexivity.
    + destruct (IH x1 m w e' x eq_refl E2) as [cs' [m' [al ->]]].
      exists cs', m', (al ++ [(m, w, e')]). rewrite map_app, <- app_assoc. reflexivity.
    + injection E2 as <-. destruct (close_tag_facts x1) as [_ [C _]]. cbn in O. congruence.
    + unfold close in E2. destruct (x_stack x1); [discriminate|].
      destruct (match m with Some n0 => negb (str_eqb l n0) | None => false end); [discriminate|].
      destruct (x_open x1); injection E2 as <-; discriminate.
Qed.
Print Assumptions C43_attributes_in_start_tags.

Definition demo_forest : list wtree :=
  [WElem (pys "svg") [(pys "width", pys "1<2", true)] (Some (pys "svg"))
     [WElem (pys "text") [] None [WText (pys "a & b"); WElem (pys "tspan") [] None []];
      WRaw (pys "<g x=""1""/>")]].
Example ex_C43 : Forall closes demo_forest /\ Forall lawful demo_forest /\
  exists x, xrun new_xml (forest_calls demo_forest) = Ok x /\
  to_string x = Ok (pys "<svg width='1&lt;2'><text>a&#160;&amp;&#160;b<tspan /></text><g x=""1""/></svg>").
Proof.
  split; [|split].
  - constructor; [|constructor]. cbn [closes]. repeat split; auto.
  - repeat constructor; cbn [fst snd]; auto; try (vm_compute; reflexivity);
      try (vm_compute; intuition discriminate); try (eexists; vm_compute; reflexivity).
  - eexists. split; vm_compute; reflexivity.
Qed.

(** ** C72 *)

(** Full statement: what to_string() returns is well-formed and is read by an XML reader as
    the elements, attributes and texts that were written.  Missing: the writer does not
    reject calls with invalid names, unrepresentable characters, attributes given twice or
    values with quotes (refuted below and in C41, C42). *)
Theorem C72_read_back_partial : forall f x s, Forall closes f -> Forall lawful f ->
  xrun new_xml (forest_calls f) = Ok x -> to_string x = Ok s ->
  read s = Some (forest_nodes f).
Proof.
  intros f x s Hc Hl H1 H2. destruct (forest_run f Hc new_xml) as [x' [E [S W]]].
  assert (x = x') by congruence. subst x'. unfold to_string in H2. rewrite S in H2. cbn in H2.
  injection H2 as <-. unfold written in W. rewrite W. cbn [new_xml x_chunks List.concat].
  replace (flush new_xml f) with (@nil N) by (now destruct f). cbn [app]. now apply forest_read.
Qed.
Print Assumptions C72_read_back_partial.
Theorem C72_duplicate_refuted : exists cs x s,
  xrun new_xml cs = Ok x /\ to_string x = Ok s /\ read s = None.
Proof.
  exists [CElement (pys "a"); CSet (pys "x") (pys "1") true; CSet (pys "x") (pys "2") true; CClose None].
  do 2 eexists. split; [vm_compute; reflexivity|]. split; [vm_compute; reflexivity|].
  vm_compute. reflexivity.
Qed.
Print Assumptions C72_duplicate_refuted.

(** ** C41 *)

(** What an element with only a text is read as. *)
Definition text_doc (n s : str) : result str :=
  do x <- xrun new_xml [CElement n; CText s; CClose None]; to_string x.
Lemma text_doc_out : forall n s, text_doc n s =
  Ok (pys "<" ++ n ++ pys ">" ++ show_text s ++ pys "</" ++ n ++ pys ">").
Proof.
  intros n s. assert (C : Forall closes [WElem n [] None [WText s]]) by (constructor; [|constructor]; cbn; repeat split; auto; repeat constructor; auto).
  destruct (forest_run _ C new_xml) as [x [E [S W]]]. unfold text_doc.
  change [CElement n; CText s; CClose None] with (forest_calls [WElem n [] None [WText s]]).
  rewrite E. cbn [rbind]. unfold to_string. rewrite S. cbn [new_xml x_stack].
  unfold written in W. rewrite W. cbn [flat_map show flush]. rewrite !app_nil_r. reflexivity.
Qed.

(** Full statement: any text is read back as the same text.  Missing: texts with
    characters that XML does not allow, and carriage returns (exactly these: C41_exact). *)
Theorem C41_text_partial : forall n s out, is_name n = true -> legal s = true ->
  text_doc n s = Ok out -> read out = Some [NElem n [] (map NChar (hard_spaces s))].
Proof.
  intros n s out Hn Hs H. assert (C : Forall closes [WElem n [] None [WText s]]) by (constructor; [|constructor]; cbn; repeat split; auto; repeat constructor; auto).
  assert (L : Forall lawful [WElem n [] None [WText s]]) by (constructor; [|constructor]; cbn; repeat split; auto; repeat constructor; auto).
  unfold text_doc in H.
  change [CElement n; CText s; CClose None] with (forest_calls [WElem n [] None [WText s]]) in H.
  destruct (xrun new_xml (forest_calls [WElem n [] None [WText s]])) as [x|] eqn:E; [|discriminate].
  rewrite (C72_read_back_partial _ _ _ C L E H). unfold forest_nodes. cbn. now rewrite app_nil_r.
Qed.
Print Assumptions C41_text_partial.

(** In general line ends are normalised, and an unrepresentable character makes the whole
    document unreadable. *)
Theorem C41_exact : forall n s out, is_name n = true -> text_doc n s = Ok out ->
  read out = if forallb xml_char s
             then Some [NElem n [] (map NChar (hard_spaces (normal_lines s)))]
             else None.
Proof.
  intros n s out Hn H. rewrite text_doc_out in H.
  assert (Eo : out = pys "<" ++ n ++ pys ">" ++ show_text s ++ pys "</" ++ n ++ pys ">") by congruence.
  clear H.
  assert (N : normal_lines out = pys "<" ++ n ++ pys ">" ++ show_text (normal_lines s) ++
                                 pys "</" ++ n ++ pys ">").
  { assert (Nn := name_no_cr n Hn). rewrite Eo.
    rewrite (normal_prefix (pys "<")) by (now apply pys_no_cr). f_equal.
    rewrite (normal_prefix n) by auto. f_equal.
    rewrite (normal_prefix (pys ">")) by (now apply pys_no_cr). f_equal.
    rewrite normal_suffix.
    - f_equal. rewrite !show_text_flat. apply normal_flat; auto using esc_text_13, esc_text_head.
    - rewrite !in_app_iff. intros [X|[X|X]]; auto; revert X; now apply pys_no_cr.
    - discriminate. }
  destruct (forallb xml_char s) eqn:L.
  - assert (R := C41_text_partial n (normal_lines s) _ Hn (normal_legal s L) (text_doc_out n _)).
    unfold read in *. rewrite N. rewrite (normal_id (pys "<" ++ _)) in R; auto.
    rewrite <- N. apply normal_chars.
  - assert (B : exists c, In c s /\ xml_char c = false).
    { clear - L. induction s as [|c s IH]; [discriminate|]. cbn [forallb] in L.
      destruct (xml_char c) eqn:E; [|exists c; split; [now left|auto]].
      destruct (IH L) as [d [D1 D2]]. exists d. split; auto. now right. }
    destruct B as [c [B1 B2]]. unfold read.
    rewrite (illegal_unreadable (normal_lines out) start_reader c); auto.
    rewrite N, !in_app_iff. do 3 right. left. rewrite show_text_flat. apply in_flat_map.
    exists c. split; [apply normal_keeps; auto; intros ->; discriminate|].
    unfold esc_text, esc. destruct (N.eqb_spec c 32); [subst; discriminate|].
    destruct (N.eqb_spec c 38); [subst; discriminate|]. destruct (N.eqb_spec c 60); [subst; discriminate|].
    destruct (N.eqb_spec c 62); [subst; discriminate|]. now left.
Qed.
Print Assumptions C41_exact.

(** No text writes markup: what text() adds has no angle brackets. *)
Theorem C41_no_markup : forall x s x', text_ x s = Ok x' ->
  exists t, x_chunks x' = x_chunks (close_tag x) ++ [t] /\ ~ In 60 t /\ ~ In 62 t.
Proof.
  intros x s x' H. injection H as <-. exists (show_text s). split; [reflexivity|].
  assert (G : forall c, c = 60 \/ c = 62 -> ~ In c (show_text s)).
  { intros c Hc X. rewrite show_text_flat in X. apply in_flat_map in X. destruct X as [d [_ X]].
    unfold esc_text, esc in X.
    destruct (N.eqb_spec d 32); [vm_compute in X; intuition (subst; discriminate)|].
    destruct (N.eqb_spec d 38); [vm_compute in X; intuition (subst; discriminate)|].
    destruct (N.eqb_spec d 60); [vm_compute in X; intuition (subst; discriminate)|].
    destruct (N.eqb_spec d 62); [vm_compute in X; intuition (subst; discriminate)|].
    destruct X as [X|[]]. subst. destruct Hc; contradiction. }
  split; apply G; auto.
Qed.
Print Assumptions C41_no_markup.

(** A form feed in a text makes the SVG unreadable. *)
Theorem C41_refuted : exists s out, text_doc (pys "text") s = Ok out /\ read out = None.
Proof. exists [12]. eexists. split; [reflexivity|]. vm_compute. reflexivity. Qed.
Print Assumptions C41_refuted.
Example ex_C41 : exists out, text_doc (pys "text") (pys "if (a<b && c>d) ""'") = Ok out /\
  read out = Some [NElem (pys "text") [] (map NChar (hard_spaces (pys "if (a<b && c>d) ""'")))].
Proof. eexists. split; [reflexivity|]. vm_compute. reflexivity. Qed.

(** ** C42 *)

Definition attr_doc (n a v : str) (e : bool) : result str :=
  do x <- xrun new_xml [CElement n; CSet a v e; CClose None]; to_string x.
Lemma attr_doc_out : forall n a v e, attr_doc n a v e =
  Ok (pys "<" ++ n ++ pys " " ++ a ++ pys "='" ++ set_value v e ++ pys "'" ++ pys " />").
Proof.
  intros n a v e. assert (C : Forall closes [WElem n [(a, v, e)] None []]) by (constructor; [|constructor]; cbn; repeat split; auto; repeat constructor; auto).
  destruct (forest_run _ C new_xml) as [x [E [S W]]]. unfold attr_doc.
  change [CElement n; CSet a v e; CClose None] with (forest_calls [WElem n [(a, v, e)] None []]).
  rewrite E. cbn [rbind]. unfold to_string. rewrite S. cbn [new_xml x_stack].
  unfold written in W. rewrite W. cbn [flat_map show flush]. unfold show_attr. cbn [fst snd].
  rewrite !app_nil_r. rewrite <- !app_assoc. reflexivity.
Qed.

(** Full statement: any attribute value is read back as that value.  Missing: values with
    single quotes, line breaks, tabulators or characters that XML does not allow.  By
    C42_exact no other values are read back. *)
Theorem C42_value_partial : forall n a v e out, is_name n = true -> is_name a = true ->
  legal_value v = true -> attr_doc n a v e = Ok out -> read out = Some [NElem n [(a, v)] []].
Proof.
  intros n a v e out Hn Ha Hv H.
  assert (C : Forall closes [WElem n [(a, v, e)] None []]) by (constructor; [|constructor]; cbn; repeat split; auto; repeat constructor; auto).
  assert (L : Forall lawful [WElem n [(a, v, e)] None []]).
  { repeat constructor; cbn; auto. }
  unfold attr_doc in H.
  change [CElement n; CSet a v e; CClose None] with (forest_calls [WElem n [(a, v, e)] None []]) in H.
  destruct (xrun new_xml (forest_calls [WElem n [(a, v, e)] None []])) as [x|] eqn:E; [|discriminate].
  now rewrite (C72_read_back_partial _ _ _ C L E H).
Qed.
Print Assumptions C42_value_partial.

Definition value_char (c : char) : bool :=
  xml_char c && negb ((c =? 9) || (c =? 10) || (c =? 13) || (c =? 39)).
Lemma first_bad : forall v, legal_value v = false -> exists v1 c v2,
  v = v1 ++ c :: v2 /\ legal_value v1 = true /\ value_char c = false.
Proof.
  induction v as [|c v IH]; intros H; [discriminate|]. cbn [legal_value forallb] in H.
  fold (value_char c) in H. destruct (value_char c) eqn:E.
  - destruct (IH H) as [v1 [d [v2 [-> [H1 H2]]]]]. exists (c :: v1), d, v2. split; auto. split; auto.
    cbn [legal_value forallb]. fold (value_char c). now rewrite E.
  - exists [], c, v. auto.
Qed.

Definition esc_set (e : bool) (c : char) : str :=
  if e then if c =? 39 then pys "\'" else esc c else esc c.
Lemma set_value_flat : forall v e, set_value v e = flat_map (esc_set e) v.
Proof.
  intros v e. unfold set_value. destruct e.
  - rewrite escape_flat, replace_char_flat, flat_map_flat_map. apply flat_map_ext. intros c.
    unfold esc_set. destruct (N.eqb_spec c 39); [subst; reflexivity|]. cbn. apply app_nil_r.
  - rewrite escape_flat. reflexivity.
Qed.
Lemma esc_set_13 : forall e c, c <> 13 -> ~ In 13 (esc_set e c).
Proof.
  intros e c H. unfold esc_set. destruct e; [destruct (c =? 39)|]; try now apply esc_13.
  vm_compute. intuition discriminate.
Qed.
Lemma esc_set_head : forall e c, c <> 10 -> exists d r, esc_set e c = d :: r /\ d <> 10.
Proof.
  intros e c H. unfold esc_set. destruct e; [destruct (c =? 39)|]; try now apply esc_head.
  eexists. eexists. split; [reflexivity|discriminate].
Qed.

Theorem C42_exact : forall n a v e out, is_name n = true -> is_name a = true ->
  attr_doc n a v e = Ok out ->
  (read out = Some [NElem n [(a, v)] []] <-> legal_value v = true).
Proof.
  intros n a v e out Hn Ha H. split; [|intros L; eapply C42_value_partial; eauto].
  intros R. destruct (legal_value v) eqn:L; auto. exfalso.
  destruct (first_bad v L) as [v1 [c [v2 [-> [L1 Bc]]]]]. clear L.
  rewrite attr_doc_out in H.
  assert (Eo : out = pys "<" ++ n ++ pys " " ++ a ++ pys "='" ++ set_value (v1 ++ c :: v2) e ++
    pys "'" ++ pys " />") by congruence. clear H. subst out.
  set (v := v1 ++ c :: v2) in *.
  assert (Nv : exists d rest, normal_lines v = v1 ++ d :: rest /\
    ((d = c /\ c <> 13) \/ (d = 10 /\ c = 13))).
  { unfold v. rewrite normal_prefix by now apply legal_value_no_cr.
    destruct (N.eqb_spec c 13) as [->|Hc].
    - exists 10, (tl (normal_lines (13 :: v2))). split; [f_equal|auto]. rewrite normal_13.
      destruct v2 as [|x v2]; auto. destruct (N.eqb_spec x 10); auto. subst. reflexivity.
    - exists c, (normal_lines v2). split; auto. cbn [normal_lines].
      destruct (N.eqb_spec c 13); [contradiction|]. reflexivity. }
  destruct Nv as [d [rest [Nv Hd]]].
  assert (Nn := name_no_cr n Hn). assert (Na := name_no_cr a Ha).
  unfold read in R.
  assert (NL : normal_lines (pys "<" ++ n ++ pys " " ++ a ++ pys "='" ++ set_value v e ++ pys "'" ++ pys " />") =
    (pys "<" ++ n) ++ (pys " " ++ a ++ pys "='" ++ set_value v1 e) ++ esc_set e d ++
    (flat_map (esc_set e) rest ++ pys "'" ++ pys " />")).
  { rewrite (normal_prefix (pys "<")) by (now apply pys_no_cr). rewrite <- !app_assoc. f_equal.
    rewrite (normal_prefix n) by auto. f_equal.
    rewrite (normal_prefix (pys " ")) by (now apply pys_no_cr). f_equal.
    rewrite (normal_prefix a) by auto. f_equal.
    rewrite (normal_prefix (pys "='")) by (now apply pys_no_cr). f_equal.
    rewrite normal_suffix; [|vm_compute; intuition discriminate|discriminate].
    rewrite !set_value_flat, normal_flat; auto using esc_set_13, esc_set_head.
    - rewrite Nv, flat_map_app'. cbn [flat_map]. rewrite <- !app_assoc. reflexivity.
    - unfold esc_set. destruct e; reflexivity.
    - unfold esc_set. destruct e; reflexivity. }
  rewrite NL in R. clear NL.
  rewrite steps_app in R. unfold start_reader in R. rewrite start_tag_read in R by auto.
  assert (A : steps (mkReader (MName (rev n)) [] []) (pys " " ++ a ++ pys "='" ++ set_value v1 e) =
    Some (mkReader (MValue n [] a 39 (rev v1)) [] [])).
  { assert (A := attr_read n [] (MName (rev n)) a v1 e [] [] eq_refl Ha L1 (fun X => X)).
    unfold show_attr in A. cbn [fst snd] in A.
    replace (pys " " ++ a ++ pys "='" ++ set_value v1 e ++ pys "'") with
      ((pys " " ++ a ++ pys "='" ++ set_value v1 e) ++ pys "'") in A by (now rewrite <- !app_assoc).
    rewrite steps_app in A.
    rewrite steps_app, name_before_space. 
    destruct a as [|x a']; [discriminate|]. cbn [is_name] in Ha. apply andb_true_iff in Ha.
    destruct Ha as [H1 H2]. destruct (name_char_facts x (name_start_char _ H1)) as [X [X' _]].
    change ((x :: a') ++ pys "='" ++ set_value v1 e) with ([x] ++ (a' ++ (pys "='" ++ set_value v1 e))).
    rewrite steps_app. stepc. rewrite X, X', H1. cbn [negb]. rewrite steps_app, mattr_read by auto.
    rewrite steps_app.
    assert (E : steps (mkReader (MAttr n [] (rev a' ++ [x])) [] []) (pys "='") =
      Some (mkReader (MValue n [] (x :: a') 39 []) [] [])).
    { cbn. rewrite rev_app_distr, rev_involutive. reflexivity. }
    rewrite E, set_value_legal, value_read by auto. now rewrite app_nil_r. }
  rewrite steps_app, A in R. clear A. rewrite steps_app in R.
  destruct (steps (mkReader (MValue n [] a 39 (rev v1)) [] []) (esc_set e d)) as [r1|] eqn:E1; [|discriminate].
  assert (I : first_inv (fun w => w <> v) r1).
  { right. unfold value_char in Bc. destruct Hd as [[-> Hc] | [-> ->]].
    - destruct (xml_char c) eqn:Xc.
      + cbn [andb] in Bc. apply negb_false_iff in Bc. rewrite !orb_true_iff, !N.eqb_eq in Bc.
        assert (M : forall w x, v1 ++ x :: w <> v \/ x = c).
        { intros w x. destruct (N.eq_dec x c); auto. left. intros X. unfold v in X.
          apply app_inv_head in X. congruence. }
        destruct Bc as [[[-> | ->] | ->] | ->].
        * assert (r1 = mkReader (MValue n [] a 39 (32 :: rev v1)) [] []) as ->
            by (unfold esc_set in E1; destruct e; cbn in E1; congruence).
          cbn [r_open r_nodes r_mode]. split; auto. split; auto. intros w. cbn [rev].
          rewrite rev_involutive, <- app_assoc. destruct (M w 32); [auto|discriminate].
        * assert (r1 = mkReader (MValue n [] a 39 (32 :: rev v1)) [] []) as ->
            by (unfold esc_set in E1; destruct e; cbn in E1; congruence).
          cbn [r_open r_nodes r_mode]. split; auto. split; auto. intros w. cbn [rev].
          rewrite rev_involutive, <- app_assoc. destruct (M w 32); [auto|discriminate].
        * contradiction.
        * unfold esc_set in E1. destruct e; cbn in E1; injection E1 as <-;
            cbn [r_open r_nodes r_mode]; (split; [reflexivity|]; split; [reflexivity|]);
            unfold attrs_inv; cbn [rev app]; rewrite ?rev_involutive.
          -- destruct (M [] 92); [auto|discriminate].
          -- unfold v. intros X. apply (f_equal (@List.length N)) in X. rewrite app_length in X.
             cbn in X. lia.
      + exfalso. assert (In c (esc_set e c)).
        { unfold esc_set, esc. destruct (N.eqb_spec c 39); [subst; discriminate|].
          destruct (N.eqb_spec c 38); [subst; discriminate|].
          destruct (N.eqb_spec c 60); [subst; discriminate|].
          destruct (N.eqb_spec c 62); [subst; discriminate|]. destruct e; now left. }
        rewrite (illegal_unreadable _ _ c) in E1; auto. discriminate.
    - assert (r1 = mkReader (MValue n [] a 39 (32 :: rev v1)) [] []) as ->
        by (unfold esc_set in E1; destruct e; cbn in E1; congruence).
      cbn [r_open r_nodes r_mode]. split; auto. split; auto. intros w. cbn [rev].
      rewrite rev_involutive, <- app_assoc. unfold v. intros X. apply app_inv_head in X. discriminate. }
  destruct (steps r1 (flat_map (esc_set e) rest ++ pys "'" ++ pys " />")) as [r2|] eqn:E2; [|discriminate].
  apply (first_steps _ _ _ _ I) in E2. destruct r2 as [m k o]. cbn [r_mode r_open r_nodes] in R.
  destruct m; try discriminate. destruct o; [|discriminate]. injection R as R.
  destruct E2 as [E2|[_ [_ E2]]]; [|exact E2]. unfold open_inv in E2. cbn [r_open r_nodes rev] in E2.
  rewrite R in E2. now apply E2.
Qed.
Print Assumptions C42_exact.

(** A font or colour with a quote in its name breaks the SVG. *)
Theorem C42_refuted : exists v out, attr_doc (pys "text") (pys "font-family") v true = Ok out /\
  read out = None.
Proof. exists (pys "Joe's"). eexists. split; [reflexivity|]. vm_compute. reflexivity. Qed.
Print Assumptions C42_refuted.
Example ex_C42 : exists out, attr_doc (pys "text") (pys "a") (pys "x < y & ""z""") true = Ok out /\
  read out = Some [NElem (pys "text") [(pys "a", pys "x < y & ""z""")] []].
Proof. eexists. split; [reflexivity|]. vm_compute. reflexivity. Qed.
