(** C103: the looks of a markdown document. *)
From Coq Require Import List ZArith NArith QArith Bool String Lia.
From Verif Require Import Py PyFacts ListModel StyleModel StyleSpec StyleProofs MarkdownModel MarkdownSpec MarkdownProofs MdLookModel.
Import ListNotations.
Local Open Scope nat_scope.
Local Notation update := StyleModel.update.
Local Notation act := StyleModel.act.

(** ** Where a text of a document is, as far as styles are concerned *)

(** Inside of which quotes and list items, from the outside. *)
Inductive place := Quoted | Listed.
(** The texts of a block in the order they are drawn, each with its place and the name of its
    style; labels of items are texts in default style.  [lst]: where the active list is.  A
    list inside of an item belongs to the list of this item: it is where that list is. *)
Definition heading_name (level : Z) : str := pys "md-h" ++ [Z.to_N (48 + level)].
Fixpoint texts (here : list place) (lst : option (list place)) (b : block) : list (list place * str) :=
  match b with
  | BHeading level _ => [(here, heading_name level)]
  | BParagraph _ | BBlank => [(here, pys "md-paragraph")]
  | BFenced _ _ => [(here, pys "code")]
  | BQuote bs => flat_map (texts (here ++ [Quoted]) lst) bs
  | BList _ _ _ items =>
      let at_ := match lst with Some p => p | None => here end in
      flat_map (fun bs => (at_ ++ [Listed], pys "default") :: flat_map (texts (at_ ++ [Listed]) (Some at_)) bs) items
  | BOther => []
  end.
(** Headings have levels 1 to 6, ordered lists inside of items start at least with 1. *)
Fixpoint sound (inside : bool) (b : block) : Prop :=
  match b with
  | BHeading level _ => (1 <= level <= 6)%Z
  | BQuote bs => all (sound inside) bs
  | BList ordered start _ items => (inside = true -> ordered = true -> (1 <= start)%Z) /\ all (all (sound true)) items
  | _ => True
  end.

(** ** The styles *)

Definition env := str -> option style.
(** The styles that markdown() defines if the slide does not: left aligned, and ... *)
Definition plain (s : style) : Prop := forall x, get s x =
  match x with Align => PStr (pys "left") | Priority => PNum 0 | _ => PNone end.
Definition plain_but (y : attr) (v : pyval) (s : style) : Prop := forall x, get s x =
  match x with Align => PStr (pys "left") | Priority => PNum 0 | _ => PNone end /\ y <> x \/ y = x /\ get s x = v.
Inductive built_in : str -> style -> Prop :=
| bi_paragraph : forall s, plain s -> built_in (pys "md-paragraph") s
| bi_bold : forall s, plain_but Bold (PBool true) s -> built_in (pys "md-bold") s
| bi_italic : forall s, plain_but Italic (PBool true) s -> built_in (pys "md-italic") s
| bi_link : forall s, plain_but Color (PStr (pys "#0EBFE9")) s -> built_in (pys "md-link") s
| bi_quote : forall s, plain_but Color (PStr (pys "#A9A9A9")) s -> built_in (pys "md-blockquote") s
| bi_heading : forall k q s, (1 <= k <= 6)%Z -> q = inject_Z (42 - 2 * k) -> plain_but Size (PNum q) s ->
    built_in (heading_name k) s.
(** [e]: the styles of the document, [e0] those of the slide. *)
Definition document_styles (e0 e : env) : Prop := forall n,
  (e0 n <> None -> e n = e0 n) /\
  (forall s, e0 n = None -> built_in n s -> e n = Some s) /\
  (e0 n = None -> (forall s, ~ built_in n s) -> e n = None).

(** The default style at a place: that of the slide, changed by every quote and every item. *)
Inductive default_at (e : env) : list place -> style -> Prop :=
| da_top : forall d, e (pys "default") = Some d -> default_at e [] d
| da_quote : forall p d q d', default_at e p d -> e (pys "md-blockquote") = Some q -> combined d q d' ->
    default_at e (p ++ [Quoted]) d'
| da_item : forall p d a d', default_at e p d -> plain a -> combined d a d' -> default_at e (p ++ [Listed]) d'.
(** A text in style [n] at a place. *)
Definition drawn_in (e : env) (p : list place) (n : str) (s : style) : Prop := exists d, default_at e p d /\
  (n = pys "default" /\ s = d \/ n <> pys "default" /\ exists t, e n = Some t /\ combined d t s).

Lemma left_plain : plain left_args.
Proof. intros []; reflexivity. Qed.
Lemma plain_unique : forall a, plain a -> a = left_args.
Proof. intros a H. apply style_eq. intro x. now rewrite H, left_plain. Qed.

(** ** Worlds that only got more *)
Record more (w w' : world) : Prop := mkMore {
  mr_wf : wf w';
  mr_styles : extends_styles w w';
  mr_dicts : keeps_dicts w w';
  mr_conts : exists l, w_conts w' = w_conts w ++ l
}.
Lemma more_refl : forall w, wf w -> more w w.
Proof. intros w W. split; [exact W|exists []|exists []|exists []]; now rewrite app_nil_r. Qed.
Lemma more_trans : forall a b c, more a b -> more b c -> more a c.
Proof.
  intros a b c [W1 [s1 S1] [d1 D1] [c1 C1]] [W2 [s2 S2] [d2 D2] [c2 C2]]. split; [exact W2|exists (s1 ++ s2)|exists (d1 ++ d2)|exists (c1 ++ c2)].
  - now rewrite S2, S1, app_assoc.
  - now rewrite D2, D1, app_assoc.
  - now rewrite C2, C1, app_assoc.
Qed.
Lemma more_container : forall w w' c, more w w' -> is_container w c -> is_container w' c.
Proof. unfold is_container. intros w w' c [_ _ _ [l E]] H. rewrite E, app_length. lia. Qed.
Lemma more_known : forall w w' c n, wf w -> more w w' -> is_container w c -> known w' c n = known w c n.
Proof.
  intros w w' c n W M H. rewrite !known_dict. destruct (mr_conts _ _ M) as [l E]. rewrite E, nth_app_old by exact H.
  apply known_in_dict_extend; auto; [now apply (wf_conts w W)|apply M|apply M].
Qed.
Lemma more_in_dict : forall w w' d n, wf w -> more w w' -> d < List.length (w_dicts w) -> known_in_dict w' d n = known_in_dict w d n.
Proof. intros w w' d n W M H. apply known_in_dict_extend; auto; apply M. Qed.
Lemma more_style : forall w w' l s, more w w' -> nth_error (w_styles w) l = Some s -> nth_error (w_styles w') l = Some s.
Proof.
  intros w w' l s M H. destruct (mr_styles _ _ M) as [ls E]. rewrite E, nth_error_app1; auto.
  apply nth_error_Some. congruence.
Qed.

Lemma known_entry : forall w c n s, known w c n = Some s -> exists l, assoc n (entries w c) = Some l /\
  l < List.length (w_styles w) /\ style_at w l = s.
Proof.
  intros w c n s H. unfold known in H. change (nth (nth c (w_conts w) 0) (w_dicts w) []) with (entries w c) in H.
  destruct (assoc n (entries w c)) as [l|] eqn:E; [|discriminate]. exists l. split; [reflexivity|].
  assert (L : l < List.length (w_styles w)) by (apply nth_error_Some; congruence). split; [exact L|].
  rewrite nth_error_nth_style in H by exact L. congruence.
Qed.
Lemma alloc_more : forall w s, wf w -> more w (mkWorld (w_styles w ++ [s]) (w_dicts w) (w_conts w)).
Proof.
  intros w s W. split; [now apply wf_alloc|eexists; reflexivity|exists []|exists []]; now rewrite app_nil_r.
Qed.
Lemma box_step : forall w c, wf w -> is_container w c -> exists w' k, act w (ANewBox c) = (w', Ok k) /\ more w w' /\
  k = List.length (w_conts w) /\ is_container w' k /\ w_styles w' = w_styles w /\ forall n, known w' k n = known w c n.
Proof.
  intros w c W H. unfold is_container in *. unfold StyleModel.act. assert (Nat.ltb c (List.length (w_conts w)) = true) as -> by now apply Nat.ltb_lt.
  unfold new_box. do 2 eexists. split; [reflexivity|]. cbn [w_conts w_styles w_dicts].
  assert (D : did w (ANewBox c) (Ok (List.length (w_conts w))) (mkWorld (w_styles w) (w_dicts w) (w_conts w ++ [nth c (w_conts w) 0])))
    by now constructor.
  split; [split; [eapply did_wf; eauto|exists []|exists []|eexists; reflexivity]; cbn; now rewrite app_nil_r|].
  split; [reflexivity|]. split; [rewrite app_length; cbn; lia|]. split; [reflexivity|].
  intro n. unfold known. cbn [w_styles w_dicts w_conts]. rewrite nth_app_new. reflexivity.
Qed.
Lemma style_step : forall w a, wf w -> valid_style a -> exists w' k, act w (AStyle a) = (w', Ok k) /\ more w w' /\
  w_conts w' = w_conts w /\ nth_error (w_styles w') k = Some a.
Proof.
  intros w a W V. unfold StyleModel.act. assert (make_style a = Ok a) as -> by now apply make_style_ok. cbn [rbind].
  do 2 eexists. split; [reflexivity|]. split; [now apply alloc_more|]. split; [reflexivity|].
  cbn [w_styles]. rewrite nth_error_app2, Nat.sub_diag by lia. reflexivity.
Qed.
Lemma compose_step : forall w l l' s s', wf w -> nth_error (w_styles w) l = Some s -> nth_error (w_styles w) l' = Some s' ->
  exists w' k, act w (ACompose l l') = (w', Ok k) /\ more w w' /\ w_conts w' = w_conts w /\
  nth_error (w_styles w') k = Some (update s s').
Proof.
  intros w l l' s s' W H H'. assert (L : l < List.length (w_styles w)) by (apply nth_error_Some; congruence).
  assert (L' : l' < List.length (w_styles w)) by (apply nth_error_Some; congruence).
  unfold StyleModel.act. assert (Nat.ltb l (List.length (w_styles w)) = true) as -> by now apply Nat.ltb_lt.
  assert (Nat.ltb l' (List.length (w_styles w)) = true) as -> by now apply Nat.ltb_lt.
  unfold copy_style, alloc_style. cbn [andb]. rewrite style_at_new, style_at_old, write_new_style by exact L'.
  do 2 eexists. split; [reflexivity|]. split; [now apply alloc_more|]. split; [reflexivity|].
  cbn [w_styles]. rewrite nth_error_app2, Nat.sub_diag by lia. cbn [nth_error].
  rewrite nth_error_nth_style in H, H' by assumption. congruence.
Qed.
Lemma get_step : forall w c n full s d, wf w -> is_container w c -> known w c n = Some s -> known w c default_ = Some d ->
  exists w' k, act w (AGet c (ByName n) full) = (w', Ok k) /\ more w w' /\ w_conts w' = w_conts w /\ w_dicts w' = w_dicts w /\
  nth_error (w_styles w') k = Some (if str_eqb n default_ || negb full then s else update d s).
Proof.
  intros w c n full s d W H Hn Hd. destruct (known_entry _ _ _ _ Hn) as (l & E & L & <-).
  destruct (known_entry _ _ _ _ Hd) as (b & Eb & Lb & <-).
  unfold StyleModel.act, is_container in *. assert (Nat.ltb c (List.length (w_conts w)) = true) as -> by now apply Nat.ltb_lt.
  cbn [andb]. unfold get_style. rewrite E, Eb.
  destruct (str_eqb n default_), full; cbn [orb negb]; unfold copy_style, alloc_style; do 2 eexists;
    (split; [reflexivity|]; split; [now apply alloc_more|]; split; [reflexivity|]; split; [reflexivity|]; cbn [w_styles];
     rewrite nth_error_app2, Nat.sub_diag by lia; reflexivity).
Qed.
(** A new container whose default style is changed. *)
Definition set_default (e : env) (s : style) : env := fun n => if str_eqb n default_ then Some s else e n.
Lemma replace_last : forall {A} (l : list A) x y, replace_nth (List.length l) x (l ++ [y]) = l ++ [x].
Proof. induction l as [|z l IH]; intros x y; cbn; [reflexivity|]. now rewrite IH. Qed.
Lemma update_step : forall w0 w c n l s d, wf w0 -> more w0 w -> w_conts w = w_conts w0 ++ [nth c (w_conts w) 0] -> c = List.length (w_conts w0) ->
  nth_error (w_styles w) l = Some s -> known w c n = Some d ->
  exists w' k, act w (AUpdateStyle c n l) = (w', Ok k) /\ more w0 w' /\ is_container w' c /\
  forall m, known w' c m = if str_eqb m n then Some (update d s) else known w c m.
Proof.
  intros w0 w c n l s d W0 M Ec Hc Hs Hd. assert (W := mr_wf _ _ M).
  assert (Lc : c < List.length (w_conts w)) by (rewrite Ec, app_length; cbn; lia).
  assert (Ll : l < List.length (w_styles w)) by (apply nth_error_Some; congruence).
  destruct (known_entry _ _ _ _ Hd) as (b & Eb & Lb & Esb).
  assert (G : exists w' k, act w (AUpdateStyle c n l) = (w', Ok k)).
  { unfold StyleModel.act. assert (Nat.ltb c (List.length (w_conts w)) = true) as -> by now apply Nat.ltb_lt.
    assert (Nat.ltb l (List.length (w_styles w)) = true) as -> by now apply Nat.ltb_lt.
    cbn [andb]. unfold update_style, get_style. rewrite Eb. cbn [negb]. destruct (str_eqb n default_); unfold copy_style, alloc_style; cbn [rbind]; eauto. }
  destruct G as (w' & k & G). exists w', k. split; [exact G|]. assert (D := act_did _ _ _ _ W G). assert (W' := did_wf _ _ _ _ W D).
  assert (D2 := did_dicts _ _ _ _ D). assert (D3 := did_styles _ _ _ _ D (fun x => x)).
  inversion D as [| | |? ? F| | | |a0 c0 n0 l0 base b0 L1 L2 E1 E2]; subst; try contradiction.
  destruct E2 as [[E2 ->]|[E2 _]]; [|discriminate]. injection E2 as <- <- <-. rewrite Eb in E1. injection E1 as <-.
  destruct M as [_ [s1 S1] [d1 D1'] _].
  split; [split; [exact W'| | |]|].
  - destruct D3 as [s2 S2]. exists (s1 ++ s2). now rewrite S2, S1, app_assoc.
  - destruct D2 as [d2 S2]. exists (d1 ++ d2). now rewrite S2, D1', app_assoc.
  - cbn [w_conts]. rewrite Ec. rewrite replace_last. eexists. reflexivity.
  - split; [unfold is_container; cbn [w_conts]; now rewrite length_replace|].
    destruct (known_bind w [update (style_at w b) (style_at w l)] n (List.length (w_styles w)) (List.length (w_conts w0)) W Lc) as (K1 & K2 & _).
    { rewrite app_length. cbn. lia. }
    intro m. destruct (str_eqb m n) eqn:Em.
    + apply str_eqb_eq in Em. subst m. rewrite K1, nth_error_app2, Nat.sub_diag by lia. cbn [nth_error].
      rewrite nth_error_nth_style in Hs by exact Ll. congruence.
    + apply K2. intros ->. now rewrite (proj2 (str_eqb_eq n n) eq_refl) in Em.
Qed.

(** A container made on top of [w0], with whatever dictionary. *)
Definition fresh (w0 w : world) (c : nat) : Prop :=
  more w0 w /\ w_conts w = w_conts w0 ++ [nth c (w_conts w) 0] /\ c = List.length (w_conts w0).
Lemma fresh_container : forall w0 w c, fresh w0 w c -> is_container w c.
Proof. intros w0 w c (_ & E & ->). unfold is_container. rewrite E, app_length. cbn. lia. Qed.
Lemma box_fresh : forall w c, wf w -> is_container w c -> exists w' k, act w (ANewBox c) = (w', Ok k) /\ fresh w w' k /\
  forall n, known w' k n = known w c n.
Proof.
  intros w c W H. destruct (box_step w c W H) as (w' & k & E & M & -> & _ & _ & K). exists w', (List.length (w_conts w)).
  split; [exact E|]. split; [|exact K]. split; [exact M|]. split; [|reflexivity].
  unfold is_container in H. unfold StyleModel.act in E. assert (L : Nat.ltb c (List.length (w_conts w)) = true) by now apply Nat.ltb_lt.
  rewrite L in E. injection E as <-. cbn [w_conts]. now rewrite nth_app_new.
Qed.
Lemma fresh_more : forall w0 w w' c, fresh w0 w c -> more w w' -> w_conts w' = w_conts w -> fresh w0 w' c.
Proof. intros w0 w w' c (M & E & K) M' C. split; [eapply more_trans; eauto|]. rewrite C. auto. Qed.
Lemma set_step : forall w0 w c n l s, wf w0 -> fresh w0 w c -> nth_error (w_styles w) l = Some s ->
  exists w' k, act w (ASetStyle c n l default_) = (w', Ok k) /\ fresh w0 w' c /\ w_styles w' = w_styles w /\
  forall m, known w' c m = if str_eqb m n then Some s else known w c m.
Proof.
  intros w0 w c n l s W0 F Hs. assert (Lc := fresh_container _ _ _ F). destruct F as (M & Ec & Hc). assert (W := mr_wf _ _ M).
  assert (Ll : l < List.length (w_styles w)) by (apply nth_error_Some; congruence).
  unfold is_container in Lc. unfold StyleModel.act.
  assert (Nat.ltb c (List.length (w_conts w)) = true) as -> by now apply Nat.ltb_lt.
  assert (Nat.ltb l (List.length (w_styles w)) = true) as -> by now apply Nat.ltb_lt.
  cbn [andb]. unfold set_style. rewrite (proj2 (str_eqb_eq default_ default_) eq_refl), bind_style_eq by assumption.
  do 2 eexists. split; [reflexivity|].
  assert (D : did w (ASetStyle c n l default_) (Ok l) (mkWorld (w_styles w) (w_dicts w ++ [(n, l) :: entries w c])
         (replace_nth c (List.length (w_dicts w)) (w_conts w)))) by now constructor.
  assert (W' := did_wf _ _ _ _ W D). assert (R : replace_nth c (List.length (w_dicts w)) (w_conts w) = w_conts w0 ++ [List.length (w_dicts w)]).
  { rewrite Ec, Hc. apply replace_last. }
  split; [split; [split; [exact W'| | |]|split; [|exact Hc]]|].
  - cbn [w_styles]. apply M.
  - destruct (mr_dicts _ _ M) as [d1 D1]. eexists. cbn [w_dicts]. rewrite D1, <- app_assoc. reflexivity.
  - cbn [w_conts]. rewrite R. eexists. reflexivity.
  - cbn [w_conts]. rewrite R, Hc, nth_app_new. reflexivity.
  - split; [reflexivity|]. destruct (known_bind w [] n l c W Lc) as (K1 & K2 & _); [now rewrite app_nil_r|].
    rewrite app_nil_r in K1, K2. intro m. destruct (str_eqb m n) eqn:Em.
    + apply str_eqb_eq in Em. subst m. rewrite K1. exact Hs.
    + apply K2. intros ->. now rewrite (proj2 (str_eqb_eq n n) eq_refl) in Em.
Qed.

(** ** The styles of a document *)
Lemma args_valid : forall n a, In (n, a) md_args -> valid_style a.
Proof.
  intros n a H. cbn in H. repeat (destruct H as [H|H]; [injection H as <- <-; intros []; cbn; unfold is_string, is_number; eauto 6|]). destruct H.
Qed.
Lemma left_valid : valid_style left_args.
Proof. intros []; cbn; unfold is_number, one_of; eauto. right. exists "left"%string. cbn. auto. Qed.
Lemma make_ok : forall l w k0, wf w -> nth_error (w_styles w) k0 = Some left_args -> (forall n a, In (n, a) l -> valid_style a) ->
  exists w' rs, make_styles k0 l w = (w', Ok rs) /\ more w w' /\ w_conts w' = w_conts w /\
  Forall2 (fun x y => fst x = fst y /\ nth_error (w_styles w') (snd y) = Some (update left_args (snd x))) l rs.
Proof.
  induction l as [|[n a] l IH]; intros w k0 W Hk V.
  - exists w, []. split; [reflexivity|]. split; [now apply more_refl|]. split; [reflexivity|constructor].
  - cbn [make_styles]. unfold pbind at 1, does at 1.
    destruct (style_step w a W (V n a (or_introl eq_refl))) as (w1 & e & E1 & M1 & C1 & S1). rewrite E1.
    unfold pbind at 1, does at 1.
    destruct (compose_step w1 k0 e left_args a (mr_wf _ _ M1) (more_style _ _ _ _ M1 Hk) S1) as (w2 & k & E2 & M2 & C2 & S2). rewrite E2.
    assert (M12 := more_trans _ _ _ M1 M2).
    destruct (IH w2 k0 (mr_wf _ _ M2) (more_style _ _ _ _ M12 Hk) (fun n a H => V n a (or_intror H))) as (w3 & rs & E3 & M3 & C3 & F3).
    unfold pbind. rewrite E3. exists w3, ((n, k) :: rs). split; [reflexivity|]. split; [eapply more_trans; eauto|].
    split; [congruence|]. constructor; [|exact F3]. split; [reflexivity|]. cbn [snd]. eapply more_style; eauto.
Qed.
Lemma has_known : forall w c n, wf w -> has_style w c n = match known w c n with Some _ => true | None => false end.
Proof.
  intros w c n W. unfold has_style, known. change (nth (nth c (w_conts w) 0) (w_dicts w) []) with (entries w c).
  destruct (assoc n (entries w c)) as [l|] eqn:E; [|reflexivity]. assert (L := wf_dicts w W _ _ _ E).
  now rewrite nth_error_nth_style.
Qed.
Lemma missing_ok : forall l rs w0 w c, wf w0 -> fresh w0 w c ->
  Forall2 (fun x y => fst x = fst y /\ nth_error (w_styles w) (snd y) = Some (update left_args (snd x))) l rs ->
  exists w', set_missing c rs w = (w', Ok tt) /\ fresh w0 w' c /\ w_styles w' = w_styles w /\
  forall n, known w' c n = match known w c n with
    | Some s => Some s
    | None => option_map (update left_args) (assoc n l)
    end.
Proof.
  intros l. induction l as [|[n a] l IH]; intros rs w0 w c W0 F FF; inversion FF as [|? [n' k] ? rs' [H1 H2] FF']; subst.
  - exists w. split; [reflexivity|]. split; [exact F|]. split; [reflexivity|]. intro n. cbn. now destruct (known w c n).
  - cbn [fst snd] in H1, H2. subst n'. cbn [set_missing]. unfold pbind. rewrite has_known by apply F.
    destruct (known w c n) as [s|] eqn:Kn.
    + destruct (IH rs' w0 w c W0 F FF') as (w' & E & F' & S' & K'). exists w'. split; [exact E|]. split; [exact F'|]. split; [exact S'|].
      intro m. rewrite K'. destruct (known w c m) eqn:Km; [reflexivity|]. cbn [assoc]. destruct (str_eqb m n) eqn:Em; [|reflexivity].
      apply str_eqb_eq in Em. congruence.
    + destruct (set_step w0 w c n k _ W0 F H2) as (w1 & r & E1 & F1 & S1 & K1). rewrite E1.
      destruct (IH rs' w0 w1 c W0 F1) as (w' & E & F' & S' & K').
      { rewrite S1. exact FF'. }
      exists w'. split; [exact E|]. split; [exact F'|]. split; [congruence|].
      intro m. rewrite K', K1. cbn [assoc]. destruct (str_eqb m n) eqn:Em; [|reflexivity].
      apply str_eqb_eq in Em. subst m. rewrite Kn. reflexivity.
Qed.
Lemma heading_str : forall k, (1 <= k <= 6)%Z -> heading_name k = pys "md-h" ++ str_of_int k.
Proof. intros k H. assert (D : (k = 1 \/ k = 2 \/ k = 3 \/ k = 4 \/ k = 5 \/ k = 6)%Z) by lia. destruct D as [->|[->|[->|[->|[->| ->]]]]]; reflexivity. Qed.
Lemma plain_but_unique : forall y v s s', plain_but y v s -> plain_but y v s' -> s = s'.
Proof.
  intros y v s s' H H'. apply style_eq. intro x. destruct (H x) as [[H1 N]|[E H1]], (H' x) as [[H2 N']|[E' H2]]; congruence.
Qed.
Lemma update_plain_but : forall y v, y <> Align -> y <> Priority -> v <> PNone -> plain_but y v (update left_args (put no_args y v)).
Proof.
  intros y v Na Np Nv x. rewrite update_get. destruct y, x; cbn; try congruence; destruct v; try congruence; auto; left; split; auto; discriminate.
Qed.
Lemma built_in_args : forall n s, built_in n s <-> option_map (update left_args) (assoc n md_args) = Some s.
Proof.
  intros n s. split.
  - intros H. destruct H as [s P|s P|s P|s P|s P|k q s L -> P].
    1: { cbn. f_equal. apply plain_unique in P. subst s. reflexivity. }
    1-4: cbn; f_equal; (eapply plain_but_unique; [|exact P]); intros [];
      solve [left; split; [reflexivity|discriminate] | right; split; reflexivity].
    assert (D : (k = 1 \/ k = 2 \/ k = 3 \/ k = 4 \/ k = 5 \/ k = 6)%Z) by lia.
    destruct D as [->|[->|[->|[->|[->| ->]]]]]; cbn; f_equal; (eapply plain_but_unique; [|exact P]); intros [];
      solve [left; split; [reflexivity|discriminate] | right; split; reflexivity].
  - intros H. assert (Q : exists a, assoc n md_args = Some a /\ s = update left_args a).
    { destruct (assoc n md_args) as [a|]; [|discriminate]. injection H as <-. eauto. }
    destruct Q as (a & Q & ->). clear H. unfold md_args in Q. cbn [app map assoc] in Q.
    repeat match type of Q with (if str_eqb n ?m then _ else _) = _ => let E := fresh in destruct (str_eqb n m) eqn:E; [apply str_eqb_eq in E; subst n; injection Q as <-|clear E] end;
      try discriminate.
    + apply bi_paragraph. intros []; reflexivity.
    + apply bi_bold. now apply update_plain_but.
    + apply bi_italic. now apply update_plain_but.
    + apply bi_link. now apply update_plain_but.
    + apply bi_quote. now apply update_plain_but.
    + apply (bi_heading 1 (inject_Z 40)); [lia|reflexivity|now apply update_plain_but].
    + apply (bi_heading 2 (inject_Z 38)); [lia|reflexivity|now apply update_plain_but].
    + apply (bi_heading 3 (inject_Z 36)); [lia|reflexivity|now apply update_plain_but].
    + apply (bi_heading 4 (inject_Z 34)); [lia|reflexivity|now apply update_plain_but].
    + apply (bi_heading 5 (inject_Z 32)); [lia|reflexivity|now apply update_plain_but].
    + apply (bi_heading 6 (inject_Z 30)); [lia|reflexivity|now apply update_plain_but].
Qed.
Lemma root_ok : forall w root, wf w -> is_container w root -> exists w' box, create_root_md_box root w = (w', Ok box) /\
  fresh w w' box /\ document_styles (known w root) (known w' box).
Proof.
  intros w root W H. unfold create_root_md_box.
  destruct (box_fresh w root W H) as (w1 & box & E1 & F1 & K1). unfold pbind at 1, does at 1. rewrite E1.
  destruct (style_step w1 left_args (mr_wf _ _ (proj1 F1)) left_valid) as (w2 & d & E2 & M2 & C2 & S2).
  unfold pbind at 1, does at 1. rewrite E2.
  destruct (make_ok md_args w2 d (mr_wf _ _ M2) S2 args_valid) as (w3 & rs & E3 & M3 & C3 & F3). unfold pbind at 1. rewrite E3.
  assert (F : fresh w w3 box) by (eapply fresh_more; [eapply fresh_more; [exact F1|exact M2|exact C2]|exact M3|exact C3]).
  destruct (missing_ok md_args rs w w3 box W F F3) as (w4 & E4 & F4 & S4 & K4). unfold pbind. rewrite E4.
  exists w4, box. split; [reflexivity|]. split; [exact F4|].
  assert (K3 : forall n, known w3 box n = known w root n).
  { intro n. rewrite <- K1. apply more_known; [apply F1|eapply more_trans; eauto|eapply fresh_container; eauto]. }
  intro n. rewrite K4, K3. split; [|split].
  - destruct (known w root n); congruence.
  - intros s -> B. now apply built_in_args.
  - intros -> N. destruct (option_map (update left_args) (assoc n md_args)) as [s|] eqn:E; [|reflexivity].
    elim (N s). now apply built_in_args.
Qed.

(** ** The blocks *)
Section Blocks.
Variable e : env.
(** The names that blocks use are known. *)
Hypothesis complete : forall n, In n (pys "default" :: pys "code" :: pys "md-paragraph" :: pys "md-blockquote" ::
  map heading_name [1; 2; 3; 4; 5; 6]%Z) -> exists s, e n = Some s.

(** Container [c] is at place [p]. *)
Definition stands (w : world) (c : nat) (p : list place) : Prop := is_container w c /\
  exists d, default_at e p d /\ forall n, known w c n = if str_eqb n default_ then Some d else e n.
Lemma stands_more : forall w w' c p, wf w -> more w w' -> stands w c p -> stands w' c p.
Proof.
  intros w w' c p W M (C & d & D & K). split; [eapply more_container; eauto|]. exists d. split; [exact D|].
  intro n. now rewrite (more_known w w' c n W M C).
Qed.
(** What a text looks like. *)
Definition shown (w : world) (lk : look) (x : list place * str) : Prop := lk_name lk = snd x /\
  (exists s, nth_error (w_styles w) (lk_style lk) = Some s /\ drawn_in e (fst x) (snd x) s) /\
  lk_dict lk < List.length (w_dicts w) /\
  exists d, default_at e (fst x) d /\ forall n, known_in_dict w (lk_dict lk) n = if str_eqb n default_ then Some d else e n.
Lemma shown_more : forall w w' lk x, wf w -> more w w' -> shown w lk x -> shown w' lk x.
Proof.
  intros w w' lk x W M (N & (s & S & D) & L & d & Dd & K). split; [exact N|]. split.
  - exists s. split; [eapply more_style; eauto|exact D].
  - split.
    + destruct (mr_dicts _ _ M) as [l E]. rewrite E, app_length. lia.
    + exists d. split; [exact Dd|]. intro n. now rewrite (more_in_dict w w' _ n W M L).
Qed.
Lemma shown_all_more : forall w w' l ts, wf w -> more w w' -> Forall2 (shown w) l ts -> Forall2 (shown w') l ts.
Proof. intros w w' l ts W M F. induction F; constructor; auto. eapply shown_more; eauto. Qed.

Lemma draw_ok : forall w c p n, wf w -> stands w c p -> (exists s, e n = Some s) ->
  exists w' lks, draw_look c n w = (w', Ok lks) /\ more w w' /\ Forall2 (shown w') lks [(p, n)].
Proof.
  intros w c p n W (C & d & D & K) [s Hs]. unfold draw_look, pbind, does.
  assert (Kd : known w c default_ = Some d) by (rewrite K, (proj2 (str_eqb_eq default_ default_) eq_refl); reflexivity).
  assert (Kn : exists s', known w c n = Some s' /\ (n = default_ /\ s' = d \/ n <> default_ /\ s' = s)).
  { rewrite K. destruct (str_eqb n default_) eqn:E.
    - apply str_eqb_eq in E. exists d. auto.
    - exists s. split; [exact Hs|]. right. split; [|reflexivity]. intros ->. now rewrite (proj2 (str_eqb_eq default_ default_) eq_refl) in E. }
  destruct Kn as (s' & Kn & Ks).
  destruct (get_step w c n true s' d W C Kn Kd) as (w1 & k & E & M & C1 & D1 & S1). rewrite E.
  do 2 eexists. split; [reflexivity|]. split; [exact M|]. constructor; [|constructor].
  split; [reflexivity|]. cbn [lk_style lk_dict fst snd]. split; [|split].
  - eexists. split; [exact S1|]. exists d. split; [exact D|]. cbn [negb]. rewrite orb_false_r.
    destruct Ks as [[-> ->]|[Nn ->]].
    + left. rewrite (proj2 (str_eqb_eq default_ default_) eq_refl). auto.
    + right. split; [exact Nn|]. exists s. split; [exact Hs|].
      destruct (str_eqb n default_) eqn:Q; [apply str_eqb_eq in Q; contradiction|]. apply combined_update.
  - unfold dict_of. rewrite C1, D1. now apply (wf_conts w W).
  - exists d. split; [exact D|]. intro m. rewrite <- K. rewrite <- (more_known w w1 c m W M C). reflexivity.
Qed.
Lemma box_stands : forall w c p, wf w -> stands w c p -> exists w' k, act w (ANewBox c) = (w', Ok k) /\ fresh w w' k /\ stands w' k p.
Proof.
  intros w c p W (C & d & D & K). destruct (box_fresh w c W C) as (w' & k & E & F & K'). exists w', k.
  split; [exact E|]. split; [exact F|]. split; [eapply fresh_container; eauto|]. exists d. split; [exact D|].
  intro n. now rewrite K'.
Qed.
Lemma text_ok : forall w c p n, wf w -> stands w c p -> (exists s, e n = Some s) ->
  exists w' lks, text_look c n w = (w', Ok lks) /\ more w w' /\ Forall2 (shown w') lks [(p, n)].
Proof.
  intros w c p n W S H. destruct (box_stands w c p W S) as (w1 & k & E & F & S1). unfold text_look, pbind at 1, does. rewrite E.
  destruct (draw_ok w1 k p n (mr_wf _ _ (proj1 F)) S1 H) as (w2 & lks & E2 & M & Q). exists w2, lks.
  split; [exact E2|]. split; [|exact Q]. eapply more_trans; [apply F|exact M].
Qed.
(** The default style of a new box is updated. *)
Lemma redefine : forall w0 w c p k s q, wf w0 -> fresh w0 w c -> stands w c p -> nth_error (w_styles w) k = Some s ->
  (forall d, default_at e p d -> forall d', combined d s d' -> default_at e q d') ->
  exists w' r, act w (AUpdateStyle c default_ k) = (w', Ok r) /\ more w0 w' /\ stands w' c q.
Proof.
  intros w0 w c p k s q W0 (M & Ec & Hc) (C & d & D & K) Hs Hq.
  assert (Kd : known w c default_ = Some d) by (rewrite K, (proj2 (str_eqb_eq default_ default_) eq_refl); reflexivity).
  destruct (update_step w0 w c default_ k s d W0 M Ec Hc Hs Kd) as (w' & r & E & M' & C' & K'). exists w', r.
  split; [exact E|]. split; [exact M'|]. split; [exact C'|]. exists (update d s). split; [eapply Hq; [exact D|apply combined_update]|].
  intro n. rewrite K'. destruct (str_eqb n default_) eqn:En; [reflexivity|]. rewrite K, En. reflexivity.
Qed.
Lemma item_ok : forall w c p, wf w -> stands w c p -> exists w' content l, item_look c w = (w', Ok (content, l)) /\ more w w' /\
  stands w' content (p ++ [Listed]) /\ Forall2 (shown w') l [(p ++ [Listed], pys "default")].
Proof.
  intros w c p W S. destruct (box_stands w c p W S) as (w1 & b & E1 & F1 & S1). unfold item_look, pbind at 1, does at 1. rewrite E1.
  destruct (style_step w1 left_args (mr_wf _ _ (proj1 F1)) left_valid) as (w2 & k & E2 & M2 & C2 & Hk). unfold pbind at 1, does at 1. rewrite E2.
  assert (F2 := fresh_more _ _ _ _ F1 M2 C2). assert (S2 := stands_more _ _ _ _ (mr_wf _ _ (proj1 F1)) M2 S1).
  destruct (redefine w w2 b p k left_args (p ++ [Listed]) W F2 S2 Hk) as (w3 & r & E3 & M3 & S3).
  { intros d D d' Cd. eapply da_item; eauto. apply left_plain. }
  unfold pbind at 1, does at 1. rewrite E3. assert (W3 := mr_wf _ _ M3).
  destruct (box_stands w3 b _ W3 S3) as (w4 & lb & E4 & F4 & S4). unfold pbind at 1, does at 1. rewrite E4. assert (W4 := mr_wf _ _ (proj1 F4)).
  destruct (draw_ok w4 lb _ default_ W4 S4) as (w5 & l & E5 & M5 & Q5); [apply complete; now left|].
  unfold pbind at 1. rewrite E5. assert (W5 := mr_wf _ _ M5).
  assert (S5 : stands w5 b (p ++ [Listed])) by (eapply stands_more; [exact W4|exact M5|]; eapply stands_more; [exact W3|apply F4|exact S3]).
  destruct (box_stands w5 b _ W5 S5) as (w6 & content & E6 & F6 & S6). unfold pbind, does. rewrite E6.
  exists w6, content, l. split; [reflexivity|]. split; [|split; [exact S6|eapply shown_all_more; [exact W5|apply F6|exact Q5]]].
  eapply more_trans; [exact M3|]. eapply more_trans; [apply F4|]. eapply more_trans; [exact M5|apply F6].
Qed.

Definition listed_at (w : world) (lst : option nat) (lp : option (list place)) : Prop :=
  match lst, lp with
  | Some c, Some p => stands w c p
  | None, None => True
  | _, _ => False
  end.
Lemma listed_more : forall w w' lst lp, wf w -> more w w' -> listed_at w lst lp -> listed_at w' lst lp.
Proof. intros w w' [c|] [p|] W M H; cbn in *; auto. eapply stands_more; eauto. Qed.
Lemma each_ok : forall A (f : A -> prog (list look)) (ts : A -> list (list place * str)) (I : world -> Prop) l,
  (forall w w', wf w -> more w w' -> I w -> I w') ->
  (forall x, In x l -> forall w, wf w -> I w -> exists w' lks, f x w = (w', Ok lks) /\ more w w' /\ Forall2 (shown w') lks (ts x)) ->
  forall w, wf w -> I w -> exists w' lks, each f l w = (w', Ok lks) /\ more w w' /\ Forall2 (shown w') lks (flat_map ts l).
Proof.
  intros A f ts I l HI. induction l as [|x l IH]; intros Hf w W Iw.
  - exists w, []. split; [reflexivity|]. split; [now apply more_refl|constructor].
  - destruct (Hf x (or_introl eq_refl) w W Iw) as (w1 & l1 & E1 & M1 & F1). cbn [each flat_map]. unfold pbind at 1. rewrite E1.
    destruct (IH (fun y H => Hf y (or_intror H)) w1 (mr_wf _ _ M1) (HI _ _ W M1 Iw)) as (w2 & l2 & E2 & M2 & F2).
    unfold pbind. rewrite E2. exists w2, (l1 ++ l2). split; [reflexivity|]. split; [eapply more_trans; eauto|].
    apply Forall2_app; [eapply shown_all_more; [apply M1|exact M2|exact F1]|exact F2].
Qed.
Lemma build_ok : forall b inside here lp c lst w, sound inside b -> (lp = None \/ inside = true) -> wf w -> stands w c here -> listed_at w lst lp ->
  (inside = true -> lp <> None) ->
  exists w' lks, build_look b c lst w = (w', Ok lks) /\ more w w' /\ Forall2 (shown w') lks (texts here lp b).
Proof.
  induction b as [k l|l| |bs IH|lang t|o s u items IH|] using block_ind2; intros inside here lp c lst w Hs Hi W Sc Hw Hi2; cbn [build_look texts].
  - cbn [sound] in Hs. unfold md_heading. assert (((1 <=? k) && (k <=? 6))%Z = true) as -> by (apply andb_true_iff; rewrite !Z.leb_le; exact Hs).
    rewrite <- heading_str by exact Hs. apply text_ok; auto. apply complete. do 4 right. apply in_map.
    assert (D : (k = 1 \/ k = 2 \/ k = 3 \/ k = 4 \/ k = 5 \/ k = 6)%Z) by lia. cbn. intuition.
  - apply text_ok; auto. apply complete. right. right. now left.
  - apply text_ok; auto. apply complete. right. right. now left.
  - cbn [sound] in Hs. apply all_Forall in Hs. rewrite Forall_forall in IH, Hs.
    destruct (box_stands w c here W Sc) as (w1 & q & E1 & F1 & S1). unfold pbind at 1, does at 1. rewrite E1.
    destruct (complete (pys "md-blockquote")) as [qs Hq]; [do 3 right; now left|].
    assert (K : known w1 q md_blockquote = Some qs) by (destruct S1 as (_ & d & _ & K); rewrite K; exact Hq).
    assert (Kd : exists d, known w1 q default_ = Some d).
    { destruct S1 as (_ & d & _ & K'). exists d. rewrite K'. now rewrite (proj2 (str_eqb_eq default_ default_) eq_refl). }
    destruct Kd as [d0 Kd]. assert (W1 := mr_wf _ _ (proj1 F1)).
    destruct (get_step w1 q md_blockquote false qs d0 W1 (fresh_container _ _ _ F1) K Kd) as (w2 & k & E2 & M2 & C2 & _ & Hk).
    unfold pbind at 1, does at 1. rewrite E2. rewrite orb_true_r in Hk.
    destruct (redefine w w2 q here k qs (here ++ [Quoted]) W (fresh_more _ _ _ _ F1 M2 C2) (stands_more _ _ _ _ W1 M2 S1) Hk) as (w3 & r & E3 & M3 & S3).
    { intros d D d' Cd. eapply da_quote; eauto. }
    unfold pbind at 1, does at 1. rewrite E3.
    destruct (each_ok _ (fun b => build_look b q lst) (texts (here ++ [Quoted]) lp) (fun w => stands w q (here ++ [Quoted]) /\ listed_at w lst lp) bs)
      with (w := w3) as (w4 & lks & E4 & M4 & F4).
    + intros v v' Wv Mv [A B]. split; [eapply stands_more; eauto|eapply listed_more; eauto].
    + intros x Hx v Wv [A B]. eapply (IH x Hx inside); eauto.
    + apply M3.
    + split; [exact S3|]. eapply listed_more; [exact W|exact M3|exact Hw].
    + exists w4, lks. split; [exact E4|]. split; [eapply more_trans; eauto|exact F4].
  - apply text_ok; auto. apply complete. right. now left.
  - cbn [sound] in Hs. destruct Hs as [Ho Hs]. apply all_Forall in Hs. rewrite Forall_forall in IH, Hs.
    destruct (box_stands w c here W Sc) as (w1 & q & E1 & F1 & S1). unfold pbind at 1, does at 1. rewrite E1.
    assert (W1 := mr_wf _ _ (proj1 F1)). set (at_ := match lp with Some p => p | None => here end).
    assert (G : exists w2 parent, match lst with
        | Some p => if o && (s <? 1)%Z then praise EAssertion else does (ANewBox p)
        | None => does (ANewBox q) end w1 = (w2, Ok parent) /\ more w1 w2 /\ stands w2 parent at_).
    { destruct lst as [p|], lp as [pp|]; cbn in Hw; try contradiction.
      - assert (o && (s <? 1)%Z = false) as ->.
        { destruct o; [|reflexivity]. cbn. apply Z.ltb_ge. apply Ho; auto. destruct Hi; [discriminate|auto]. }
        destruct (box_stands w1 p pp W1) as (w2 & k & E2 & F2 & S2); [eapply stands_more; [exact W|apply F1|exact Hw]|].
        exists w2, k. split; [exact E2|]. split; [apply F2|exact S2].
      - destruct (box_stands w1 q here W1 S1) as (w2 & k & E2 & F2 & S2). exists w2, k. split; [exact E2|]. split; [apply F2|exact S2]. }
    destruct G as (w2 & parent & E2 & M2 & S2). unfold pbind at 1. rewrite E2. assert (W2 := mr_wf _ _ M2).
    destruct (each_ok _ (fun bs => pbind (item_look parent) (fun r =>
        pbind (each (fun b => build_look b (fst r) (Some parent)) bs) (fun l => pret (snd r ++ l))))
      (fun bs => (at_ ++ [Listed], pys "default") :: flat_map (texts (at_ ++ [Listed]) (Some at_)) bs) (fun w => stands w parent at_) items)
      with (w := w2) as (w3 & lks & E3 & M3 & F3).
    + intros v v' Wv Mv A. eapply stands_more; eauto.
    + intros bs Hbs v Wv A. destruct (item_ok v parent at_ Wv A) as (v1 & content & l & Ev & Mv & Sv & Fv). unfold pbind at 1. rewrite Ev.
      cbn [fst snd]. assert (Wv1 := mr_wf _ _ Mv).
      destruct (each_ok _ (fun b => build_look b content (Some parent)) (texts (at_ ++ [Listed]) (Some at_))
        (fun w => stands w content (at_ ++ [Listed]) /\ listed_at w (Some parent) (Some at_)) bs) with (w := v1) as (v2 & l2 & Ev2 & Mv2 & Fv2).
      * intros y y' Wy My [B1 B2]. split; [eapply stands_more; eauto|eapply listed_more; eauto].
      * intros x Hx y Wy [B1 B2]. specialize (IH bs Hbs). rewrite Forall_forall in IH. specialize (Hs bs Hbs). apply all_Forall in Hs.
        rewrite Forall_forall in Hs. apply (IH x Hx true); auto. intros _. discriminate.
      * exact Wv1.
      * split; [exact Sv|]. cbn. eapply stands_more; [exact Wv|exact Mv|exact A].
      * unfold pbind. rewrite Ev2. exists v2, (l ++ l2). split; [reflexivity|]. split; [eapply more_trans; eauto|].
        change (?x :: flat_map ?f bs) with ([x] ++ flat_map f bs). apply Forall2_app; [|exact Fv2].
        eapply shown_all_more; [exact Wv1|exact Mv2|exact Fv].
    + exact W2.
    + exact S2.
    + exists w3, lks. split; [exact E3|]. split; [|exact F3]. eapply more_trans; [apply F1|]. eapply more_trans; eauto.
  - exists w, []. split; [reflexivity|]. split; [now apply more_refl|constructor].
Qed.
End Blocks.

(** ** The theorems *)

Lemma document_complete : forall e0 e, document_styles e0 e -> (exists d, e0 (pys "default") = Some d) -> (exists s, e0 (pys "code") = Some s) ->
  forall n, In n (pys "default" :: pys "code" :: pys "md-paragraph" :: pys "md-blockquote" ::
    map heading_name [1; 2; 3; 4; 5; 6]%Z) -> exists s, e n = Some s.
Proof.
  intros e0 e D [d Hd] [c Hc] n H. destruct (e0 n) as [s|] eqn:E.
  - exists s. rewrite (proj1 (D n)); congruence.
  - assert (B : exists s, built_in n s).
    { destruct H as [<-|[<-|[<-|[<-|H]]]]; try congruence.
      - eexists. apply built_in_args. reflexivity.
      - eexists. apply built_in_args. reflexivity.
      - cbn in H. repeat (destruct H as [<-|H]; [eexists; apply built_in_args; reflexivity|]). destruct H. }
    destruct B as [s B]. exists s. now apply (proj1 (proj2 (D n))).
Qed.

(** The texts of a document, in order, each with the looks of its place; nothing else on the
    slide or in the deck changes its looks.  The styles that the slide has are used; only the
    missing ones are defined, for the document only. *)
Theorem C103_looks : forall named t w root doc, history named t w -> is_container w root ->
  (exists d, known w root (pys "default") = Some d) -> (exists s, known w root (pys "code") = Some s) ->
  all (sound false) doc ->
  exists w' lks e, markdown_look root doc w = (w', Ok lks) /\ document_styles (known w root) e /\
    Forall2 (fun lk x => lk_name lk = snd x /\
      (exists s, nth_error (w_styles w') (lk_style lk) = Some s /\ drawn_in e (fst x) (snd x) s) /\
      (forall n, n <> pys "default" -> known_in_dict w' (lk_dict lk) n = e n) /\
      (exists d, known_in_dict w' (lk_dict lk) (pys "default") = Some d /\ default_at e (fst x) d))
      lks (flat_map (texts [] None) doc) /\
    (forall c n, is_container w c -> known w' c n = known w c n) /\
    (forall d n, d < List.length (w_dicts w) -> known_in_dict w' d n = known_in_dict w d n) /\
    (forall l s, nth_error (w_styles w) l = Some s -> nth_error (w_styles w') l = Some s).
Proof.
  intros named t w root doc Hh C Hd Hc Hs. assert (W := history_wf _ _ _ Hh).
  destruct (root_ok w root W C) as (w1 & box & E1 & F1 & D1). set (e := known w1 box) in *.
  assert (Cm := document_complete _ _ D1 Hd Hc). assert (W1 := mr_wf _ _ (proj1 F1)).
  apply all_Forall in Hs. rewrite Forall_forall in Hs.
  destruct (each_ok e _ (fun b => build_look b box None) (texts [] None) (fun w => stands e w box []) doc) with (w := w1) as (w2 & lks & E2 & M2 & F2).
  - intros v v' Wv Mv A. eapply stands_more; eauto.
  - intros x Hx v Wv A. apply (build_ok e Cm x false); auto; [exact I|discriminate].
  - exact W1.
  - split; [eapply fresh_container; eauto|]. destruct (Cm (pys "default") (or_introl eq_refl)) as [d Ed]. exists d.
    split; [now constructor|]. intro n. destruct (str_eqb n default_) eqn:En; [|reflexivity]. apply str_eqb_eq in En. subst n. exact Ed.
  - exists w2, lks, e. split; [unfold markdown_look, pbind; now rewrite E1|]. split; [exact D1|].
    assert (M : more w w2) by (eapply more_trans; [apply F1|exact M2]).
    split; [|split; [|split]].
    + clear E2. induction F2 as [|lk x lks xs (N & S & L & d & Dd & K) F2 IH]; constructor; auto.
      split; [exact N|]. split; [exact S|]. split.
      * intros n Hn. rewrite K. destruct (str_eqb n default_) eqn:En; [|reflexivity]. apply str_eqb_eq in En. contradiction.
      * exists d. split; [|exact Dd]. rewrite K. change (pys "default") with default_. now rewrite (proj2 (str_eqb_eq default_ default_) eq_refl).
    + intros c n Hcn. now apply more_known.
    + intros d n Hdn. now apply more_in_dict.
    + intros l s Hl. eapply more_style; eauto.
Qed.
Print Assumptions C103_looks.

Lemma combined_get : forall a b c x, combined a b c -> get c x = match get b x with PNone => get a x | v => v end.
Proof. intros a b c x H. destruct (H x) as [[N E]|[N E]]; rewrite E; destruct (get b x); congruence. Qed.
Definition gives (s : style) (x : attr) : bool := match get s x with PNone => false | _ => true end.

(** What the default style is at a place: every attribute is that of the slide, but for
    the alignment, which is left, the priority, and what the style of quotes gives. *)
Theorem C103_default : forall e p d d0 q, default_at e p d -> e (pys "default") = Some d0 -> e (pys "md-blockquote") = Some q ->
  forall x, x <> Align -> x <> Priority ->
  get d x = if existsb (fun m => match m with Quoted => true | Listed => false end) p && gives q x then get q x else get d0 x.
Proof.
  intros e p d d0 q H H0 Hq x Na Np. induction H as [d E|p d q' d' H IH E Cd|p d a d' H IH Pa Cd].
  - cbn. congruence.
  - assert (q' = q) by congruence. subst q'. rewrite existsb_app. cbn [existsb]. rewrite orb_true_r, (combined_get _ _ _ x Cd), IH.
    unfold gives. destruct (get q x) eqn:G; cbn [andb]; rewrite ?andb_false_r; try reflexivity.
  - rewrite existsb_app. cbn [existsb]. cbn [orb]. rewrite ?orb_false_r, (combined_get _ _ _ x Cd), IH, Pa.
    destruct x; try congruence; reflexivity.
Qed.
Print Assumptions C103_default.

Lemma built_in_unique : forall n s s', built_in n s -> built_in n s' -> s = s'.
Proof. intros n s s' H H'. apply built_in_args in H, H'. congruence. Qed.
Lemma built_known : forall e0 e n s, document_styles e0 e -> e0 n = None -> built_in n s -> e n = Some s.
Proof. intros e0 e n s D H B. now apply (proj1 (proj2 (D n))). Qed.

(** On a slide without styles for markdown: texts in quotes are grey and the others have the
    colour of the slide; headings have the sizes 40, 38, ... 30 and paragraphs and labels the size
    of the slide; everything but code is left aligned, and everything but code has the font and
    the line spacing of the slide. *)
Theorem C103_built_in : forall e0 e p n s d0, document_styles e0 e -> (forall m s, built_in m s -> e0 m = None) ->
  e0 (pys "default") = Some d0 -> drawn_in e p n s -> n <> pys "code" ->
  (n = pys "default" /\ p <> [] \/ exists s0, built_in n s0) ->
  (forall m, n <> pys m \/ ~ In m ["md-bold"; "md-italic"; "md-link"; "md-blockquote"]%string) ->
  get s Align = PStr (pys "left") /\
  get s Color = (if existsb (fun m => match m with Quoted => true | Listed => false end) p then PStr (pys "#A9A9A9") else get d0 Color) /\
  (forall k, (1 <= k <= 6)%Z -> n = heading_name k -> get s Size = PNum (inject_Z (42 - 2 * k))) /\
  ((forall k, (1 <= k <= 6)%Z -> n <> heading_name k) -> get s Size = get d0 Size) /\
  get s Font = get d0 Font /\ get s LineSpacing = get d0 LineSpacing /\ get s Bold = get d0 Bold /\ get s Italic = get d0 Italic.
Proof.
  intros e0 e p n s d0 D Hb Hd (d & Dd & Hs) Nc Hn Hm.
  assert (Ed : e (pys "default") = Some d0) by (rewrite (proj1 (D (pys "default"))); congruence).
  assert (Bq : exists q, built_in (pys "md-blockquote") q) by (eexists; apply built_in_args; reflexivity).
  destruct Bq as [q Bq]. assert (Eq : e (pys "md-blockquote") = Some q) by (eapply built_known; eauto).
  assert (Gq : forall x, x <> Align -> x <> Priority -> get q x = match x with Color => PStr (pys "#A9A9A9") | _ => PNone end).
  { intros x Na Np. apply built_in_args in Bq. cbn in Bq. injection Bq as <-. destruct x; try congruence; reflexivity. }
  assert (Df := C103_default e p d d0 q Dd Ed Eq).
  assert (V : forall x, x <> Align -> x <> Priority -> get d x = match x with
     | Color => if existsb (fun m => match m with Quoted => true | Listed => false end) p then PStr (pys "#A9A9A9") else get d0 Color
     | _ => get d0 x end).
  { intros x Na Np. rewrite (Df x Na Np). unfold gives. rewrite (Gq x Na Np).
    destruct (existsb _ p); cbn [andb]; destruct x; try congruence; reflexivity. }
  assert (La : p <> [] -> get d Align = PStr (pys "left")).
  { intros Np. assert (Qa : get q Align = PStr (pys "left")) by (apply built_in_args in Bq; cbn in Bq; injection Bq as <-; reflexivity).
    inversion Dd as [d1 E1|p1 d1 q1 d2 H1 E1 C1|p1 d1 a1 d2 H1 P1 C1]; subst; [congruence| |].
    - rewrite (combined_get _ _ _ Align C1). assert (q1 = q) by congruence. subst. now rewrite Qa.
    - rewrite (combined_get _ _ _ Align C1). now rewrite P1. }
  destruct Hs as [[-> ->]|[Nd (u & Eu & Cu)]].
  - destruct Hn as [[_ Np]|[s0 B]]; [|apply built_in_args in B; discriminate].
    split; [now apply La|]. rewrite !V by discriminate. split; [reflexivity|]. split; [|repeat split; auto].
    intros k L E. apply (f_equal (fun l => nth 0 l 0%N)) in E. discriminate.
  - destruct Hn as [[E _]|[s0 B]]; [contradiction|].
    assert (u = s0) by (assert (X := built_known _ _ _ _ D (Hb _ _ B) B); congruence). subst u.
    assert (G := fun x => combined_get _ _ _ x Cu). rewrite !G.
    assert (Sv := B). destruct B as [s0 P|s0 P|s0 P|s0 P|s0 P|k0 q0 s0 L0 -> P].
    2: { exfalso. destruct (Hm "md-bold"%string) as [X|X]; [now apply X|apply X; cbn; auto]. }
    2: { exfalso. destruct (Hm "md-italic"%string) as [X|X]; [now apply X|apply X; cbn; auto]. }
    2: { exfalso. destruct (Hm "md-link"%string) as [X|X]; [now apply X|apply X; cbn; auto]. }
    2: { exfalso. destruct (Hm "md-blockquote"%string) as [X|X]; [now apply X|apply X; cbn; auto 6]. }
    + rewrite !P, !V by discriminate. split; [reflexivity|]. split; [reflexivity|]. split; [|repeat split; auto].
      intros k L E. apply (f_equal (fun l => nth 3 l 0%N)) in E. discriminate.
    + assert (R : forall x, x <> Size -> get s0 x = match x with Align => PStr (pys "left") | Priority => PNum 0 | _ => PNone end)
        by (intros x Nx; destruct (P x) as [[X _]|[X _]]; [exact X|congruence]).
      assert (Rs : get s0 Size = PNum (inject_Z (42 - 2 * k0))) by (destruct (P Size) as [[_ X]|[_ X]]; [congruence|exact X]).
      rewrite Rs, !R, !V by discriminate. split; [reflexivity|]. split; [reflexivity|]. split; [|split; [|repeat split; auto]].
      * intros k L E. unfold heading_name in E. apply app_inv_head in E.
        assert (E' : Z.to_N (48 + k0) = Z.to_N (48 + k)) by congruence. apply Z2N.inj in E'; [|lia|lia].
        assert (k = k0) by lia. subst. reflexivity.
      * intros X. elim (X k0 L0). reflexivity.
Qed.
Print Assumptions C103_built_in.

(** ** The same texts as in MarkdownModel.v *)
Section Same.
Variable measure_text : str -> list TextModel.token -> Q * Q.
Variable measure : str -> Q * Q.
Variable lexer_of : str -> option (str -> list (str * str)).
Variable esc : str.
Definition style_name (x : nat * str * list TextModel.token) : str := snd (fst x).
Definition not_label (x : list place * str) : bool := negb (str_eqb (snd x) (pys "default")).
(** The texts drawn by a step that succeeds. *)
Definition adds (f : mstate -> mstate * result unit) (names : list str) : Prop := forall m m' , f m = (m', Ok tt) ->
  exists new, m_texts m' = m_texts m ++ new /\ map style_name new = names.
Lemma draw_adds : forall c n ts, adds (fun m => draw measure_text m c n ts) [n].
Proof.
  intros c n [ts|e] m m' H; [|discriminate]. unfold draw in H. destruct (measure_text n ts) as [w h].
  destruct (SlideModel.item_call _ _ _) as [x [id|e]]; [|discriminate]. injection H as <-. cbn [m_texts].
  eexists. split; [reflexivity|reflexivity].
Qed.
Lemma box_adds : forall (r : mstate -> state * result nat) k names, (forall n, adds (k n) names) ->
  adds (fun m => with_box m (r m) k) names.
Proof.
  intros r k names H m m' E. unfold with_box in E. destruct (r m) as [s [n|e]]; [|discriminate]. apply H in E. exact E.
Qed.
Lemma all_adds : forall A (f : A -> mstate -> mstate * result unit) names l, Forall (fun x => adds (f x) (names x)) l ->
  adds (run_all f l) (flat_map names l).
Proof.
  intros A f names l F. induction F as [|x l Fx F IH]; intros m m' E; cbn [run_all flat_map] in *.
  - injection E as <-. exists []. now rewrite app_nil_r.
  - destruct (f x m) as [m1 [[]|e]] eqn:E1; [|discriminate]. destruct (Fx _ _ E1) as (n1 & T1 & N1).
    destruct (IH _ _ E) as (n2 & T2 & N2). exists (n1 ++ n2). rewrite T2, T1, map_app, N1, N2, app_assoc. auto.
Qed.
Definition names (l : list (list place * str)) : list str := map snd (filter not_label l).
Lemma names_app : forall a b, names (a ++ b) = names a ++ names b.
Proof. intros a b. unfold names. now rewrite filter_app, map_app. Qed.
Lemma names_flat : forall A (f : A -> list (list place * str)) l, names (flat_map f l) = flat_map (fun x => names (f x)) l.
Proof. intros A f l. induction l as [|x l IH]; [reflexivity|]. cbn [flat_map]. now rewrite names_app, IH. Qed.
Lemma build_adds : forall b here lst c, adds (build measure_text measure lexer_of esc b c) (names (texts here lst b)).
Proof.
  induction b as [k l|l| |bs IH|lang t|o s u items IH|] using block_ind2; intros here lst c; cbn [build texts].
  - destruct (Z.leb 1 k && Z.leb k 6) eqn:L.
    + unfold md_heading. rewrite L. apply andb_true_iff in L. rewrite !Z.leb_le in L.
      assert (N : names [(here, heading_name k)] = [pys "md-h" ++ str_of_int k]).
      { rewrite <- heading_str by exact L. reflexivity. }
      rewrite N. unfold build_text. apply (box_adds (fun m => sbox (m_state m) (cx_box c))). intro n. apply draw_adds.
    + unfold md_heading. rewrite L. intros m m' E. discriminate.
  - apply (box_adds (fun m => sbox (m_state m) (cx_box c))). intro n. apply draw_adds.
  - apply (box_adds (fun m => sbox (m_state m) (cx_box c))). intro n. apply draw_adds.
  - apply (box_adds (fun m => sbox (m_state m) (cx_box c))). intro n. rewrite names_flat. apply all_adds.
    rewrite Forall_forall in *. intros b Hb. now apply IH.
  - apply (box_adds (fun m => sbox (m_state m) (cx_box c))). intro n. apply draw_adds.
  - apply (box_adds (fun m => sbox (m_state m) (cx_box c))). intro n.
    apply (box_adds (fun m => new_list measure c n o s u (m_state m))). intro k. rewrite names_flat. apply all_adds.
    rewrite Forall_forall in *. intros bs Hbs. specialize (IH bs Hbs).
    apply (box_adds (fun m => item measure (m_state m) k None None [])). intro bx.
    change (?x :: flat_map ?f bs) with ([x] ++ flat_map f bs). rewrite names_app, names_flat. cbn [names filter not_label map app].
    apply all_adds. rewrite Forall_forall in *. intros b Hb. now apply IH.
  - intros m m' E. injection E as <-. exists []. now rewrite app_nil_r.
Qed.
(** The texts of C103 are those that are drawn, in the same order. *)
Theorem C103_same_texts : forall root doc m m', markdown measure_text measure lexer_of esc root doc m = (m', Ok tt) ->
  exists new, m_texts m' = m_texts m ++ new /\
    map (fun x => snd (fst x)) new = map snd (filter (fun x => negb (str_eqb (snd x) (pys "default"))) (flat_map (texts [] None) doc)).
Proof.
  intros root doc m m' H. assert (A : adds (markdown measure_text measure lexer_of esc root doc) (names (flat_map (texts [] None) doc))).
  { unfold markdown. apply (box_adds (fun m => box_with (m_state m) root [] [])). intro n. rewrite names_flat. apply all_adds.
    apply Forall_forall. intros b _. apply build_adds. }
  exact (A _ _ H).
Qed.
End Same.
Print Assumptions C103_same_texts.

(** ** A deck with a slide and a document *)
Definition slide_style : style :=
  mkStyle (PStr (pys "sans-serif")) (PNum 28) (PStr (pys "middle")) (PNum (6 # 5)) (PStr (pys "black")) (PBool false) (PBool false) PNone PNone (PNum 0).
Definition mono : style := mkStyle (PStr (pys "monospace")) (PNum 20) (PStr (pys "left")) PNone PNone PNone PNone PNone PNone (PNum 0).
Definition deck0 : list (str * style) := [(pys "default", slide_style); (pys "code", mono)].
Definition world0 : world := fst (act (new_deck deck0) ANewSlide).
Definition looked : list block :=
  [BHeading 2 []; BParagraph [];
   BQuote [BParagraph []; BList false 1 (pys "*") [[BParagraph []]]];
   BList true 1 [] [[BParagraph []; BQuote [BParagraph []; BList false 1 (pys "-") [[BParagraph []]]]]];
   BFenced (pys "python") []].
Definition look_values (doc : list block) : list (str * option pyval * option pyval * option pyval) :=
  match markdown_look 1 doc world0 with
  | (w, Ok l) => map (fun k => let v x := option_map (fun s => get s x) (nth_error (w_styles w) (lk_style k)) in
                        (lk_name k, v Color, v Size, v Align)) l
  | _ => []
  end.
Example ex_C103 : history deck0 [(ANewSlide, Ok 1)] world0 /\ is_container world0 1 /\
  known world0 1 (pys "default") = Some slide_style /\ known world0 1 (pys "code") = Some mono /\
  all (sound false) looked /\ (forall m s, built_in m s -> known world0 1 m = None) /\
  let grey := Some (PStr (pys "#A9A9A9")) in
  let black := Some (PStr (pys "black")) in
  let left := Some (PStr (pys "left")) in
  look_values looked =
  [(pys "md-h2", black, Some (PNum 38), left); (pys "md-paragraph", black, Some (PNum 28), left);
   (pys "md-paragraph", grey, Some (PNum 28), left); (pys "default", grey, Some (PNum 28), left);
   (pys "md-paragraph", grey, Some (PNum 28), left);
   (pys "default", black, Some (PNum 28), left); (pys "md-paragraph", black, Some (PNum 28), left);
   (pys "md-paragraph", grey, Some (PNum 28), left);
   (pys "default", black, Some (PNum 28), left); (pys "md-paragraph", black, Some (PNum 28), left);
   (pys "code", black, Some (PNum 20), left)].
Proof.
  split; [apply (h_act deck0 [] (new_deck deck0) ANewSlide); [constructor|reflexivity]|].
  split; [unfold is_container; vm_compute; lia|]. split; [reflexivity|]. split; [reflexivity|].
  split; [cbn; intuition; lia|]. split.
  - intros m s B. destruct B as [| | | | |k q s L E P]; reflexivity.
  - vm_compute. reflexivity.
Qed.

(** A quote does not reach into lists when it is inside of an item: the list belongs to the
    list outside of the quote, and its texts are not grey. *)
Theorem C103_quotes_refuted : exists doc, (exists b, doc = [BList true 1 [] [[BQuote [b]]]]) /\
  look_values doc = [(pys "default", Some (PStr (pys "black")), Some (PNum 28), Some (PStr (pys "left")));
                     (pys "default", Some (PStr (pys "black")), Some (PNum 28), Some (PStr (pys "left")));
                     (pys "md-paragraph", Some (PStr (pys "black")), Some (PNum 28), Some (PStr (pys "left")))].
Proof.
  eexists. split; [exists (BList false 1 (pys "-") [[BParagraph []]]); reflexivity|]. vm_compute. reflexivity.
Qed.
Print Assumptions C103_quotes_refuted.
