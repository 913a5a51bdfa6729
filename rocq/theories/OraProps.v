(** Property C66: ORA layers. *)
From Coq Require Import List NArith QArith Bool String Lia.
From Verif Require Import Py PyFacts XmlModel XmlSpec XmlProofs XmlProps ImageModel ImageIds OraModel.
Import ListNotations.

(** ** Specification *)

(** A missing attribute is printed as None. *)
Definition printed (o : option str) : str := match o with Some s => s | None => pys "None" end.

Definition o_kids (n : onode) : list onode := let (_, _, k) := n in k.
Definition is_stack (n : onode) : Prop := o_tag n = pys "stack".
Definition is_layer (n : onode) : Prop := o_tag n = pys "layer".
Definition marked_visible (n : onode) : Prop := o_get n "visibility" = Some (pys "visible").

(** The layers below a list of elements in document order (top layer first), each with the
    stacks around it, outermost first. *)
Fixpoint layers_of (n : onode) : list (list onode * onode) :=
  let (tag, attrs, kids) := n in
  if str_eqb tag (pys "layer") then [([], n)]
  else if str_eqb tag (pys "stack") then
    map (fun p => (n :: fst p, snd p))
      ((fix go (l : list onode) := match l with [] => [] | k :: l' => layers_of k ++ go l' end) kids)
  else [].

(** The images of a drawing in drawing order, each with the attributes of the groups around
    it, outermost first. *)
Fixpoint images_of (t : wtree) : list (list (list (str * str)) * list (str * str)) :=
  match t with
  | WElem n al _ ks =>
      if str_eqb n (pys "image") then [([], map fst al)]
      else if str_eqb n (pys "g") then
        map (fun p => (map fst al :: fst p, snd p))
          ((fix go (l : list wtree) := match l with [] => [] | k :: l' => images_of k ++ go l' end) ks)
      else []
  | _ => []
  end.

Section Spec.
Variable to_float : str -> option Q.
Variable num : Q -> str.
Variable load : str -> option source.

(** A layer to be drawn: it and the stacks around it are marked visible, and it has pixels. *)
Definition drawn (p : list onode * onode) : Prop :=
  Forall marked_visible (fst p) /\ marked_visible (snd p) /\
  exists src s, o_get (snd p) "src" = Some src /\ load src = Some s.

Definition number (n : onode) (name : string) (q : Q) : Prop :=
  exists s, o_get n name = Some s /\ to_float s = Some q.

(** The attributes of the image of a layer: the cropped picture at its place. *)
Definition layer_image (n : onode) (al : list (str * str)) : Prop :=
  exists src s o x y, o_get n "src" = Some src /\ load src = Some s /\ number n "opacity" o /\
    number n "x" x /\ number n "y" y /\
    al = [(pys "x", num (x + so_x s)); (pys "y", num (y + so_y s)); (pys "width", num (so_w s));
          (pys "height", num (so_h s)); (pys "inkscape:label", printed (o_get n "name"))] ++
         (if Qlt_le_dec o (9999 # 10000) then [(pys "opacity", num o)] else []) ++
         [(pys "xlink:href", pys "data:" ++ so_mime s ++ pys ";base64," ++ so_data s)].

(** The attributes of the group of a stack. *)
Definition stack_group (n : onode) (al : list (str * str)) : Prop :=
  exists o tr, number n "opacity" o /\
    (tr = [] /\ o_get n "x" = Some (pys "0") /\ o_get n "y" = Some (pys "0") \/
     tr = [(pys "transform", pys "translate(" ++ printed (o_get n "x") ++ pys ", " ++
              printed (o_get n "y") ++ pys ")")] /\
     (o_get n "x" <> Some (pys "0") \/ o_get n "y" <> Some (pys "0"))) /\
    al = tr ++ (if Qlt_le_dec o (9999 # 10000) then [(pys "opacity", num o)] else []) ++
         [(pys "inkscape:label", printed (o_get n "name"))].

Definition layer_entry (p : list onode * onode)
  (i : list (list (str * str)) * list (str * str)) : Prop :=
  Forall2 stack_group (fst p) (fst i) /\ layer_image (snd p) (snd i).
End Spec.

(** [picks P l l']: [l'] is the list of the elements of [l] that satisfy [P], in order. *)
Inductive picks {A : Type} (P : A -> Prop) : list A -> list A -> Prop :=
| pick_nil : picks P [] []
| pick_yes : forall x l l', P x -> picks P l l' -> picks P (x :: l) (x :: l')
| pick_no : forall x l l', ~ P x -> picks P l l' -> picks P (x :: l) l'.

(** ** Proofs *)

Lemma picks_app : forall (A : Type) (P : A -> Prop) a a' b b', picks P a a' -> picks P b b' ->
  picks P (a ++ b) (a' ++ b').
Proof.
  intros A P a a' b b' H. induction H; intros; cbn; [assumption| |].
  - apply pick_yes; auto.
  - apply pick_no; auto.
Qed.
Lemma picks_none : forall (A : Type) (P : A -> Prop) l, (forall x, In x l -> ~ P x) -> picks P l [].
Proof.
  induction l as [|x l IH]; intros H; [constructor|].
  apply pick_no; [apply H; now left|]. apply IH. intros y Y. apply H. now right.
Qed.
Lemma picks_map : forall (A B : Type) (P : A -> Prop) (R : B -> Prop) (f : A -> B) l l',
  (forall x, R (f x) <-> P x) -> picks P l l' -> picks R (map f l) (map f l').
Proof.
  intros A B P R f l l' E H. induction H; cbn; [constructor| |].
  - apply pick_yes; auto. now apply E.
  - apply pick_no; auto. rewrite E. auto.
Qed.

Fixpoint layers_list (l : list onode) : list (list onode * onode) :=
  match l with [] => [] | k :: l' => layers_of k ++ layers_list l' end.
Fixpoint images_list (l : list wtree) : list (list (list (str * str)) * list (str * str)) :=
  match l with [] => [] | k :: l' => images_of k ++ images_list l' end.
Lemma images_list_app : forall a b, images_list (a ++ b) = images_list a ++ images_list b.
Proof. induction a; intros; cbn; auto. now rewrite IHa, app_assoc. Qed.

Lemma onode_ind' : forall P : onode -> Prop,
  (forall tag attrs kids, Forall P kids -> P (ONode tag attrs kids)) -> forall n, P n.
Proof.
  intros P H. fix F 1. intros [tag attrs kids]. apply H.
  induction kids as [|c l IH]; [constructor|]. constructor; [apply F|exact IH].
Qed.

Lemma visibility_spec : forall n, check_visibility n = true <-> marked_visible n.
Proof.
  intros n. unfold check_visibility, marked_visible.
  destruct (o_get n "visibility") as [v|]; [|split; discriminate].
  rewrite str_eqb_eq. split; congruence.
Qed.

Lemma forest_calls_app : forall a b, forest_calls (a ++ b) = forest_calls a ++ forest_calls b.
Proof. intros. unfold forest_calls. now rewrite flat_map_app. Qed.

Section Proofs.
Variable to_float : str -> option Q.
Variable num : Q -> str.
Variable load : str -> option source.

Lemma ofloat_ok : forall n name q, ofloat to_float (o_get n name) = Ok q <-> number to_float n name q.
Proof.
  intros n name q. unfold ofloat, number. destruct (o_get n name) as [s|].
  - destruct (to_float s) as [r|] eqn:E.
    + split; [intros H; injection H as ->; eauto|]. intros (s' & X & Y). congruence.
    + split; [discriminate|]. intros (s' & X & Y). congruence.
  - split; [discriminate|]. intros (s' & X & Y). discriminate.
Qed.

Definition opacity_attrs (o : Q) : list (str * str * bool) :=
  if Qlt_le_dec o (9999 # 10000) then [(pys "opacity", num o, true)] else [].
Lemma opacity_calls_spec : forall o, opacity_calls num o = map set_call (opacity_attrs o).
Proof.
  intros o. unfold opacity_calls, opacity_attrs. destruct (Qlt_le_dec o (9999 # 10000)) as [L|L].
  - replace (Qle_bool (9999 # 10000) o) with false; [reflexivity|]. symmetry.
    apply not_true_is_false. intros X. apply Qle_bool_iff in X. now apply (Qlt_not_le _ _ L).
  - apply Qle_bool_iff in L. now rewrite L.
Qed.
Lemma opacity_attrs_fst : forall o, map fst (opacity_attrs o) =
  if Qlt_le_dec o (9999 # 10000) then [(pys "opacity", num o)] else [].
Proof. intros o. unfold opacity_attrs. destruct (Qlt_le_dec o (9999 # 10000)); reflexivity. Qed.

(** What the calls for one element, or for a list of elements, draw. *)
Definition draws_tree (ps : list (list onode * onode)) (cs : list xcall) : Prop :=
  exists f ps', cs = forest_calls f /\ Forall closes f /\ picks (drawn load) ps ps' /\
    Forall2 (layer_entry to_float num load) (rev ps') (images_list f).

Lemma layer_draws : forall n cs, is_layer n -> layer_to_svg to_float num load n = Ok cs ->
  draws_tree [([], n)] cs.
Proof.
  intros n cs L H. unfold layer_to_svg in H. destruct (check_visibility n) eqn:V; cbn [negb] in H.
  - apply visibility_spec in V. destruct (o_get n "src") as [src|] eqn:S1; [|discriminate].
    destruct (load src) as [s|] eqn:Ld.
    + destruct (ofloat to_float (o_get n "opacity")) as [o|] eqn:O; cbn [rbind] in H; [|discriminate].
      destruct (ofloat to_float (o_get n "x")) as [x|] eqn:X; cbn [rbind] in H; [|discriminate].
      destruct (ofloat to_float (o_get n "y")) as [y|] eqn:Y; cbn [rbind] in H; [|discriminate].
      injection H as <-. rewrite opacity_calls_spec.
      set (al := [(pys "x", num (x + so_x s), true); (pys "y", num (y + so_y s), true);
                  (pys "width", num (so_w s), true); (pys "height", num (so_h s), true);
                  (pys "inkscape:label", printed (o_get n "name"), true)] ++ opacity_attrs o ++
                 [(pys "xlink:href", pys "data:" ++ so_mime s ++ pys ";base64," ++ so_data s, false)]).
      exists [WElem (pys "image") al (Some (pys "image")) []], [([], n)].
      split; [|split; [|split]].
      * unfold forest_calls. cbn [flat_map tree_calls]. rewrite app_nil_r. unfold al.
        rewrite !map_app. cbn [map app]. rewrite <- app_assoc. reflexivity.
      * constructor; [|constructor]. cbn. auto.
      * apply pick_yes; [|constructor]. split; [constructor|]. split; [exact V|].
        exists src, s. auto.
      * cbn [rev images_list images_of app]. rewrite str_eqb_refl'. cbn [app].
        constructor; [|constructor]. split; [constructor|]. cbn [snd].
        exists src, s, o, x, y. rewrite ofloat_ok in O, X, Y.
        repeat (split; [assumption|]). unfold al. rewrite !map_app, opacity_attrs_fst. reflexivity.
    + injection H as <-. exists [], []. split; [reflexivity|]. split; [constructor|].
      split; [|constructor]. apply pick_no; [|constructor].
      intros (_ & _ & src' & s & A & B). cbn [snd] in A. congruence.
  - injection H as <-. exists [], []. split; [reflexivity|]. split; [constructor|].
    split; [|constructor]. apply pick_no; [|constructor].
    intros (_ & X & _). cbn [snd] in X. apply visibility_spec in X. congruence.
Qed.

Lemma layers_tag : forall n, o_tag n <> pys "layer" -> o_tag n <> pys "stack" -> layers_of n = [].
Proof.
  intros [tag attrs kids] A B. cbn [o_tag] in A, B. cbn [layers_of].
  apply str_eqb_neq in A, B. now rewrite A, B.
Qed.
Lemma layers_layer : forall n, is_layer n -> layers_of n = [([], n)].
Proof.
  intros [tag attrs kids] H. unfold is_layer in H. cbn in H. subst tag. reflexivity.
Qed.
Lemma layers_stack : forall n, is_stack n ->
  layers_of n = map (fun p => (n :: fst p, snd p)) (layers_list (o_kids n)).
Proof.
  intros [tag attrs kids] H. unfold is_stack in H. cbn in H. subst tag. reflexivity.
Qed.
Lemma images_group : forall al c ks, images_of (WElem (pys "g") al c ks) =
  map (fun p => (map fst al :: fst p, snd p)) (images_list ks).
Proof. reflexivity. Qed.

Lemma stack_unfold : forall tag attrs kids, let n := ONode tag attrs kids in
  stack_to_svg to_float num load n =
  if negb (check_visibility n) then Ok []
  else
    do o <- ofloat to_float (o_get n "opacity");
    do inner <- children_to_svg to_float num load kids;
    Ok (CElement (pys "g") :: transform_calls n ++ opacity_calls num o ++ [label_call n] ++ inner ++
        [CClose (Some (pys "g"))]).
Proof. intros. reflexivity. Qed.

Lemma children_draw : forall l cs,
  Forall (fun n => forall cs, is_stack n -> stack_to_svg to_float num load n = Ok cs ->
            draws_tree (layers_of n) cs) l ->
  children_to_svg to_float num load l = Ok cs -> draws_tree (layers_list l) cs.
Proof.
  induction l as [|k l IH]; intros cs F H; cbn [children_to_svg] in H.
  - injection H as <-. exists [], []. repeat split; try constructor.
  - inversion F as [|? ? Fk Fl]; subst.
    destruct (children_to_svg to_float num load l) as [later|]; cbn [rbind] in H; [|discriminate].
    destruct (if str_eqb (o_tag k) (pys "stack") then stack_to_svg to_float num load k
              else if str_eqb (o_tag k) (pys "layer") then layer_to_svg to_float num load k
              else Ok []) as [this|] eqn:T; cbn [rbind] in H; [|discriminate].
    injection H as <-. destruct (IH later Fl eq_refl) as (f & ps & Ef & Cf & Pf & Mf).
    assert (D : draws_tree (layers_of k) this).
    { destruct (str_eqb (o_tag k) (pys "stack")) eqn:S1.
      - apply str_eqb_eq in S1. now apply Fk.
      - destruct (str_eqb (o_tag k) (pys "layer")) eqn:L1.
        + apply str_eqb_eq in L1. rewrite layers_layer by exact L1. now apply layer_draws.
        + injection T as <-. apply str_eqb_neq in S1, L1. rewrite layers_tag by auto.
          exists [], []. repeat split; constructor. }
    destruct D as (g & qs & Eg & Cg & Pg & Mg).
    exists (f ++ g), (qs ++ ps). split; [|split; [|split]].
    + rewrite forest_calls_app. congruence.
    + apply Forall_app. auto.
    + cbn [layers_list]. apply picks_app; auto.
    + rewrite rev_app_distr, images_list_app. apply Forall2_app; auto.
Qed.

Lemma all_closes : forall ks, Forall closes ks ->
  (fix all (l : list wtree) : Prop := match l with [] => True | k :: l' => closes k /\ all l' end) ks.
Proof. intros ks H. induction H; auto. Qed.

Lemma stack_draws : forall n cs, is_stack n -> stack_to_svg to_float num load n = Ok cs ->
  draws_tree (layers_of n) cs.
Proof.
  intros n. induction n as [tag attrs kids IH] using onode_ind'. intros cs St H.
  rewrite stack_unfold in H. set (n := ONode tag attrs kids) in *.
  rewrite layers_stack by exact St. cbn [o_kids n].
  destruct (check_visibility n) eqn:V; cbn [negb] in H.
  - destruct (ofloat to_float (o_get n "opacity")) as [o|] eqn:O; cbn [rbind] in H; [|discriminate].
    destruct (children_to_svg to_float num load kids) as [inner|] eqn:C; cbn [rbind] in H;
      [|discriminate].
    injection H as <-. apply visibility_spec in V.
    destruct (children_draw kids inner IH C) as (f & ps & Ef & Cf & Pf & Mf).
    set (tr := if is_zero (o_get n "x") && is_zero (o_get n "y") then []
               else [(pys "transform", pys "translate(" ++ printed (o_get n "x") ++ pys ", " ++
                        printed (o_get n "y") ++ pys ")", true)]).
    assert (Et : transform_calls n = map set_call tr).
    { unfold transform_calls, tr. destruct (is_zero _ && is_zero _); reflexivity. }
    set (al := tr ++ opacity_attrs o ++ [(pys "inkscape:label", printed (o_get n "name"), true)]).
    assert (G : stack_group to_float num n (map fst al)).
    { exists o, (map fst tr). split; [now apply ofloat_ok|]. split.
      - unfold tr, is_zero. destruct (o_get n "x") as [x|]; destruct (o_get n "y") as [y|];
          cbn [andb]; try (right; split; [reflexivity|]; (left; discriminate) || (right; discriminate)).
        + destruct (str_eqb x (pys "0")) eqn:Ex; cbn [andb].
          * destruct (str_eqb y (pys "0")) eqn:Ey.
            -- left. apply str_eqb_eq in Ex, Ey. subst. auto.
            -- right. split; [reflexivity|]. right. apply str_eqb_neq in Ey. congruence.
          * right. split; [reflexivity|]. left. apply str_eqb_neq in Ex. congruence.
        + right. destruct (str_eqb x (pys "0")); (split; [reflexivity|right; discriminate]).
      - unfold al. rewrite !map_app, opacity_attrs_fst. reflexivity. }
    exists [WElem (pys "g") al (Some (pys "g")) f], (map (fun p => (n :: fst p, snd p)) ps).
    split; [|split; [|split]].
    + unfold forest_calls at 1. cbn [flat_map tree_calls]. rewrite app_nil_r.
      unfold al. rewrite !map_app, <- Et, <- opacity_calls_spec, Ef.
      unfold forest_calls. rewrite <- !app_assoc. reflexivity.
    + constructor; [|constructor]. cbn [closes]. split; [now right|]. now apply all_closes.
    + apply (picks_map _ _ (drawn load)); auto. intros [a b]. unfold drawn. cbn [fst snd].
      split; intros (A & B).
      * inversion A; subst. auto.
      * split; [constructor; auto|auto].
    + cbn [images_list]. rewrite images_group, app_nil_r, <- map_rev.
      induction Mf as [|p i pl il [P1 P2] Mf IHm]; cbn [map]; constructor; auto.
      split; cbn [fst snd]; auto.
  - injection H as <-. exists [], []. split; [reflexivity|]. split; [constructor|]. split.
    + apply picks_none. intros p P (D & _). apply in_map_iff in P.
      destruct P as (q & <- & _). cbn [fst] in D. inversion D; subst.
      apply visibility_spec in H1. congruence.
    + constructor.
Qed.
End Proofs.

(** ** Theorems *)

(** C66: the drawing is one well nested svg element, and its images, in drawing order, are the
    layers to be drawn from bottom to top, each inside the groups of its stacks. *)
Theorem C66_layers : forall to_float num load root cs,
  ora_calls to_float num load root = Ok cs ->
  exists attrs f ps,
    cs = forest_calls [WElem (pys "svg") attrs (Some (pys "svg")) f] /\
    Forall closes [WElem (pys "svg") attrs (Some (pys "svg")) f] /\
    picks (drawn load) (layers_list (o_kids root)) ps /\
    Forall2 (layer_entry to_float num load) (rev ps) (images_list f).
Proof.
  intros to_float num load [tag at0 kids] cs H. cbn [ora_calls] in H.
  destruct (children_to_svg to_float num load kids) as [inner|] eqn:C; cbn [rbind] in H;
    [|discriminate].
  injection H as <-.
  destruct (children_draw to_float num load kids inner) as (f & ps & Ef & Cf & Pf & Mf); auto.
  { apply Forall_forall. intros n _ cs. apply stack_draws. }
  set (n := ONode tag at0 kids).
  set (os := fun name (o : option str) =>
    match o with Some v => [(pys name, v, true)] | None => [] end).
  exists ([(pys "xmlns", pys "http://www.w3.org/2000/svg", true);
           (pys "xmlns:xlink", pys "http://www.w3.org/1999/xlink", true);
           (pys "xmlns:inkscape", pys "http://www.inkscape.org/namespaces/inkscape", true)] ++
          os "width"%string (o_get n "w") ++ os "height"%string (o_get n "h")), f, ps.
  split; [|split; [|split]]; auto.
  - unfold forest_calls at 1. cbn [flat_map tree_calls]. rewrite app_nil_r, !map_app, Ef.
    assert (Eo : forall name o, opt_set name o = map set_call (os name o))
      by (intros name [v|]; reflexivity).
    rewrite !Eo, <- !app_assoc. reflexivity.
  - constructor; [|constructor]. cbn [closes]. split; [now right|]. now apply all_closes.
Qed.
Print Assumptions C66_layers.

(** The writer accepts the calls: a conversion without a missing or malformed number succeeds. *)
Theorem C66_written : forall to_float num load root cs,
  ora_calls to_float num load root = Ok cs -> exists s, convert_ora to_float num load root = Ok s.
Proof.
  intros to_float num load root cs H.
  destruct (C66_layers _ _ _ _ _ H) as (attrs & f & ps & E & C & _).
  destruct (proj2 (C43_nested cs)) as (x & s & R & T); [eexists; split; [exact C|exact E]|].
  exists s. unfold convert_ora. rewrite H. cbn [rbind]. rewrite R. exact T.
Qed.
Print Assumptions C66_written.

(** Which layers those are does not depend on the way they are found. *)
Theorem C66_unique : forall (A : Type) (P : A -> Prop) l a b, picks P l a -> picks P l b -> a = b.
Proof.
  intros A P l a b H. revert b. induction H; intros b Hb; inversion Hb; subst; auto;
    try contradiction. f_equal. auto.
Qed.
Print Assumptions C66_unique.

(** ** A concrete image: a stack with two visible layers and an empty one, a hidden stack, and
    a layer below. *)
Definition at_ (n v : string) : str * str := (pys n, pys v).
Definition o_layer (name src vis : string) : onode :=
  ONode (pys "layer") [at_ "name" name; at_ "src" src; at_ "visibility" vis; at_ "x" "1"; at_ "y" "1";
    at_ "opacity" "1"] [].
Definition o_stack (name vis : string) (kids : list onode) : onode :=
  ONode (pys "stack") [at_ "name" name; at_ "visibility" vis; at_ "x" "0"; at_ "y" "5"; at_ "opacity" "1"]
    kids.
Definition ex_ora : onode :=
  ONode (pys "image") [at_ "w" "10"; at_ "h" "20"]
    [o_stack "s" "visible" [o_layer "top" "a" "visible"; o_layer "empty" "e" "visible";
                            o_layer "mid" "b" "visible"; o_layer "off" "a" "hidden"];
     o_stack "h" "hidden" [o_layer "in hidden" "a" "visible"];
     o_layer "bottom" "a" "visible"].
Definition ex_float (s : str) : option Q := Some 1.
Definition ex_num (q : Q) : str := pys "n".
Definition ex_load (s : str) : option source :=
  if str_eqb s (pys "e") then None else Some (mkSource s (pys "image/png") 0 0 1 1).
Definition label_of (al : list (str * str)) : str := printed (attr_get (pys "inkscape:label") al).
Example ex_ora_order : exists cs attrs f,
  ora_calls ex_float ex_num ex_load ex_ora = Ok cs /\
  cs = forest_calls [WElem (pys "svg") attrs (Some (pys "svg")) f] /\
  map (fun p => (map label_of (fst p), label_of (snd p))) (images_list f) =
  [([], pys "bottom"); ([pys "s"], pys "mid"); ([pys "s"], pys "top")].
Proof.
  eexists. eexists. 
  exists [WElem (pys "image") [(pys "x", pys "n", true); (pys "y", pys "n", true);
            (pys "width", pys "n", true); (pys "height", pys "n", true);
            (pys "inkscape:label", pys "bottom", true);
            (pys "xlink:href", pys "data:image/png;base64,a", false)] (Some (pys "image")) [];
          WElem (pys "g") [(pys "transform", pys "translate(0, 5)", true);
            (pys "inkscape:label", pys "s", true)] (Some (pys "g"))
            [WElem (pys "image") [(pys "x", pys "n", true); (pys "y", pys "n", true);
            (pys "width", pys "n", true); (pys "height", pys "n", true);
            (pys "inkscape:label", pys "mid", true);
            (pys "xlink:href", pys "data:image/png;base64,b", false)] (Some (pys "image")) [];
            WElem (pys "image") [(pys "x", pys "n", true); (pys "y", pys "n", true);
            (pys "width", pys "n", true); (pys "height", pys "n", true);
            (pys "inkscape:label", pys "top", true);
            (pys "xlink:href", pys "data:image/png;base64,a", false)] (Some (pys "image")) []]].
  split; [vm_compute; reflexivity|]. split; [|vm_compute; reflexivity].
  instantiate (1 := [(pys "xmlns", pys "http://www.w3.org/2000/svg", true);
           (pys "xmlns:xlink", pys "http://www.w3.org/1999/xlink", true);
           (pys "xmlns:inkscape", pys "http://www.inkscape.org/namespaces/inkscape", true);
           (pys "width", pys "10", true); (pys "height", pys "20", true)]).
  vm_compute. reflexivity.
Qed.

(** OpenRaster lets the attributes visibility, opacity, x and y be omitted (visible, 1.0, 0,
    0).  Layers that rely on the first default are dropped, images that rely on the second one
    cannot be converted. *)
Definition plain_layer (attrs : list (str * str)) : onode :=
  ONode (pys "image") [] [ONode (pys "layer") (at_ "src" "a" :: attrs) []].
Theorem C66_defaults_refuted :
  (exists attrs, ora_calls ex_float ex_num ex_load (plain_layer [at_ "opacity" "1"; at_ "x" "0"; at_ "y" "0"]) =
     Ok (forest_calls [WElem (pys "svg") attrs (Some (pys "svg")) []])) /\
  ora_calls ex_float ex_num ex_load (plain_layer [at_ "visibility" "visible"; at_ "x" "0"; at_ "y" "0"]) =
  Err EType.
Proof.
  split; [|vm_compute; reflexivity].
  exists [(pys "xmlns", pys "http://www.w3.org/2000/svg", true);
           (pys "xmlns:xlink", pys "http://www.w3.org/1999/xlink", true);
           (pys "xmlns:inkscape", pys "http://www.inkscape.org/namespaces/inkscape", true)].
  vm_compute. reflexivity.
Qed.
Print Assumptions C66_defaults_refuted.

(** A layer name with an apostrophe gives a file that is no XML (it is read again by
    boxmixin.py:580), though a plain name gives a readable one. *)
Theorem C66_apostrophe_refuted : forall s s',
  convert_ora ex_float ex_num ex_load (ONode (pys "image") [] [o_layer "Joe's" "a" "visible"]) = Ok s ->
  convert_ora ex_float ex_num ex_load (ONode (pys "image") [] [o_layer "Joe" "a" "visible"]) = Ok s' ->
  read s = None /\ exists doc, read s' = Some doc.
Proof.
  intros s s' H H'. vm_compute in H, H'. injection H as <-. injection H' as <-.
  split; [vm_compute; reflexivity|]. eexists. vm_compute. reflexivity.
Qed.
Print Assumptions C66_apostrophe_refuted.
