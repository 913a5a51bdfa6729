(** Proofs about image fragments. *)
From Coq Require Import List ZArith NArith Bool String Lia.
From Verif Require Import Py PyFacts ShowModel ShowSpec ShowProofs ShowProps ImageModel ImageSpec.
Import ListNotations.
Open Scope Z_scope.

(** ** First occurrence *)

Lemma strip_prefix_app : forall p r, strip_prefix p (p ++ r) = Some r.
Proof. induction p as [|c p IH]; intros; cbn; auto. rewrite N.eqb_refl. apply IH. Qed.

Lemma split_first_first : forall sep s a b,
  split_first sep s = Some (a, b) -> first_at sep s a b.
Proof.
  intros sep s a b H. split; [now apply split_first_spec|].
  revert a b H. induction s as [|c s IH]; intros a b H a' b' E.
  - cbn in H. destruct (strip_prefix sep []) as [r|] eqn:S0; [|discriminate].
    inversion H; subst. cbn. lia.
  - cbn [split_first] in H. destruct (strip_prefix sep (c :: s)) as [r|] eqn:S0.
    + inversion H; subst. cbn. lia.
    + destruct (split_first sep s) as [[a1 b1]|] eqn:S1; [|discriminate].
      inversion H; subst. destruct a' as [|x a'].
      * cbn in E. rewrite E, strip_prefix_app in S0. discriminate.
      * cbn in E. inversion E; subst x. cbn. apply le_n_S. eapply (IH _ _ eq_refl). eauto.
Qed.

Lemma split_first_absent : forall sep s, split_first sep s = None -> absent sep s.
Proof.
  intros sep. induction s as [|c s IH]; intros H a b E.
  - cbn in H. destruct (strip_prefix sep []) as [r|] eqn:S0; [discriminate|].
    destruct a; [|discriminate]. cbn in E. rewrite E, strip_prefix_app in S0. discriminate.
  - cbn [split_first] in H. destruct (strip_prefix sep (c :: s)) as [r|] eqn:S0;
      [discriminate|].
    destruct (split_first sep s) as [[a1 b1]|] eqn:S1; [discriminate|].
    destruct a as [|x a].
    + cbn in E. rewrite E, strip_prefix_app in S0. discriminate.
    + cbn in E. inversion E; subst x. now apply (IH eq_refl a b).
Qed.

Lemma first_at_unique : forall sep s a b a' b', first_at sep s a b -> first_at sep s a' b' ->
  a = a' /\ b = b'.
Proof.
  intros sep s a b a' b' [E M] [E' M'].
  pose proof (M _ _ E'). pose proof (M' _ _ E).
  assert (L : List.length a = List.length a') by lia. clear - E E' L.
  subst s. revert a' L E'. induction a as [|x a IH]; intros [|y a'] L E; try discriminate.
  - cbn in E. apply app_inv_head in E. auto.
  - cbn in E, L. inversion E; subst. destruct (IH a' ltac:(lia) H1). subst. auto.
Qed.

Lemma label_selector_unique : forall l s s', label_selector l s -> label_selector l s' ->
  s = s'.
Proof.
  intros l s s' (a & r & F & D) (a' & r' & F' & D').
  destruct (first_at_unique _ _ _ _ _ _ F F') as [? ?]; subst a' r'.
  destruct D as [[b B]|[-> N]], D' as [[b' B']|[-> N']].
  - now destruct (first_at_unique _ _ _ _ _ _ B B').
  - destruct B as [E _]. exfalso. now apply (N' _ _ E).
  - destruct B' as [E _]. exfalso. now apply (N _ _ E).
  - reflexivity.
Qed.

(** ** Labels *)

Lemma from_label_some : forall l i, from_label (Some l) = Ok (Some i) ->
  exists sel, label_selector l sel /\ parse_show (ShowStr sel) None = Ok i.
Proof.
  intros l i H. unfold from_label in H.
  destruct (split_first (pys "**") l) as [[a r]|] eqn:E; [|discriminate].
  apply split_first_first in E.
  destruct (split_first (pys "**") r) as [[m b]|] eqn:E2.
  - apply split_first_first in E2. exists m.
    destruct (parse_show (ShowStr m) None) eqn:P; cbn in H; [|discriminate].
    inversion H; subst. split; auto. exists a, r. eauto.
  - apply split_first_absent in E2. exists r.
    destruct (parse_show (ShowStr r) None) eqn:P; cbn in H; [|discriminate].
    inversion H; subst. split; auto. exists a, r. eauto.
Qed.

Lemma from_label_none : forall l, from_label l = Ok None ->
  forall l' sel, l = Some l' -> ~ label_selector l' sel.
Proof.
  intros l H l' sel -> (a & r & [E _] & _). unfold from_label in H.
  destruct (split_first (pys "**") l') as [[a' r']|] eqn:F.
  - destruct (parse_show _ None); discriminate.
  - apply split_first_absent in F. now apply (F _ _ E).
Qed.

Lemma from_label_ok : forall l, (forall l' sel, l = Some l' -> label_selector l' sel ->
    exists xs, selectors_text xs sel /\ acceptable None xs) <->
  exists i, from_label l = Ok i.
Proof.
  intros l. destruct l as [l|]; [|split; [exists None; reflexivity|intros _ l' sel E; discriminate]].
  unfold from_label. destruct (split_first (pys "**") l) as [[a r]|] eqn:F.
  - apply split_first_first in F.
    assert (G : exists sel, label_selector l sel /\
      (match split_first (pys "**") r with Some (mid, _) => mid | None => r end) = sel).
    { destruct (split_first (pys "**") r) as [[m b]|] eqn:F2.
      - exists m. split; auto. apply split_first_first in F2. exists a, r. eauto.
      - exists r. split; auto. apply split_first_absent in F2. exists a, r. auto. }
    destruct G as (sel & L & ->). split.
    + intros H. apply H with (1 := eq_refl) in L. apply C02_show_accepts in L.
      destruct L as [i E]. rewrite E. cbn. eauto.
    + intros [i E] l' sel' X L'. inversion X; subst l'.
      rewrite (label_selector_unique _ _ _ L' L). apply C02_show_accepts.
      destruct (parse_show (ShowStr sel) None); [eauto|discriminate].
  - split; [eauto|]. intros _ l' sel X LS. destruct LS as (a & r & [E _] & _). injection X as <-.
    apply split_first_absent in F. exfalso. now apply (F _ _ E).
Qed.

Lemma label_name_eq : label_name = label_attr.
Proof. reflexivity. Qed.
Lemma parse_label_ok : forall n, label_ok n <-> exists i, parse_label n = Ok i.
Proof.
  intros n. unfold parse_label. rewrite <- from_label_ok. unfold label_ok, labelled. rewrite label_name_eq. reflexivity.
Qed.

(** What the parsed label says about fragment [k] is what [hides] says. *)
Lemma parse_label_hides : forall n i k, parse_label n = Ok i ->
  (hides k n <-> exists s, i = Some s /\ is_visible s k = false).
Proof.
  intros n i k H. unfold parse_label in H. unfold hides, labelled. rewrite label_name_eq.
  destruct (attr_get label_attr (x_attrs n)) as [l|] eqn:A.
  - destruct i as [s|].
    + destruct (from_label_some _ _ H) as (sel & L & P).
      assert (T : exists xs, selectors_text xs sel /\ acceptable None xs)
        by (apply C02_show_accepts; eauto).
      destruct T as (xs & T & _). split.
      * intros (l' & sel' & ys & X & L' & T' & N). inversion X; subst l'.
        rewrite (label_selector_unique _ _ _ L' L) in T'. exists s. split; auto.
        destruct (is_visible s k) eqn:V; auto.
        apply (C01_show_visible _ _ _ _ P T') in V. destruct V as (x & I1 & C).
        exfalso. now apply (N x).
      * intros (s' & X & V). inversion X; subst s'. exists l, sel, xs.
        repeat (split; [assumption || reflexivity|]). intros x I1 C.
        assert (V' : is_visible s k = true)
          by (apply (C01_show_visible _ _ _ _ P T); eauto).
        congruence.
    + pose proof (from_label_none _ H) as N. split.
      * intros (l' & sel & _ & X & L & _). exfalso. now apply (N l' sel).
      * intros (s & X & _). discriminate.
  - split; [intros (l & _ & _ & X & _); discriminate|].
    intros (s & X & _). cbn in H. congruence.
Qed.

(** ** Trees *)

Lemma xnode_ind' : forall P : xnode -> Prop,
  (forall i tag attrs text kids, Forall (fun p => P (fst p)) kids ->
     P (XNode i tag attrs text kids)) -> forall n, P n.
Proof.
  intros P H. fix F 1. intros [i tag attrs text kids]. apply H.
  induction kids as [|[c t] l IH]; [constructor|]. constructor; [apply F|exact IH].
Qed.

Fixpoint iter_kids (l : list (xnode * str)) : list xnode :=
  match l with [] => [] | (c, _) :: l' => x_iter c ++ iter_kids l' end.
Definition ids_kids (l : list (xnode * str)) : list nat := map x_id (iter_kids l).

Lemma x_iter_unfold : forall i tag attrs text kids,
  x_iter (XNode i tag attrs text kids) = XNode i tag attrs text kids :: iter_kids kids.
Proof. reflexivity. Qed.
Lemma ids_unfold : forall i tag attrs text kids,
  ids (XNode i tag attrs text kids) = i :: ids_kids kids.
Proof. intros. unfold ids. rewrite x_iter_unfold. reflexivity. Qed.
Lemma ids_kids_cons : forall c t l, ids_kids ((c, t) :: l) = ids c ++ ids_kids l.
Proof. intros. unfold ids_kids, ids. cbn. now rewrite map_app. Qed.
Lemma iter_kids_app : forall a b, iter_kids (a ++ b) = iter_kids a ++ iter_kids b.
Proof.
  induction a as [|[c t] a IH]; intros; cbn; auto. now rewrite IH, app_assoc.
Qed.
Lemma ids_kids_app : forall a b, ids_kids (a ++ b) = ids_kids a ++ ids_kids b.
Proof. intros. unfold ids_kids. now rewrite iter_kids_app, map_app. Qed.
Lemma x_id_in : forall n, In (x_id n) (ids n).
Proof. intros [i tag attrs text kids]. rewrite ids_unfold. now left. Qed.

Fixpoint remove_kids (p c : nat) (l : list (xnode * str)) : list (xnode * str) :=
  match l with [] => [] | (k, t) :: l' => (remove_child p c k, t) :: remove_kids p c l' end.
Lemma remove_unfold : forall p c i tag attrs text kids,
  remove_child p c (XNode i tag attrs text kids) =
  XNode i tag attrs text (if Nat.eqb i p then drop_kid c (remove_kids p c kids)
                          else remove_kids p c kids).
Proof.
  intros. cbn [remove_child].
  assert (E : (fix go (l : list (xnode * list N)) : list (xnode * list N) :=
      match l with [] => [] | (k, t) :: l' => (remove_child p c k, t) :: go l' end) kids =
      remove_kids p c kids).
  { induction kids as [|[k t] l IH]; cbn; auto. now rewrite IH. }
  rewrite E. reflexivity.
Qed.

Lemma remove_id : forall p c n, x_id (remove_child p c n) = x_id n.
Proof. intros p c [i tag attrs text kids]. reflexivity. Qed.

Lemma remove_notin : forall p c n, ~ In p (ids n) -> remove_child p c n = n.
Proof.
  intros p c n. induction n as [i tag attrs text kids IH] using xnode_ind'. intros H.
  rewrite ids_unfold in H. rewrite remove_unfold.
  assert (E : Nat.eqb i p = false) by (apply Nat.eqb_neq; intros ->; apply H; now left).
  rewrite E. f_equal. assert (H' : ~ In p (ids_kids kids)) by (intros X; apply H; now right).
  clear H E. induction IH as [|[k t] l Hk Hl IHl]; cbn; auto.
  rewrite ids_kids_cons in H'. cbn in Hk. rewrite Hk, IHl; auto;
    intros X; apply H'; apply in_or_app; auto.
Qed.
Lemma remove_kids_notin : forall p c l, ~ In p (ids_kids l) -> remove_kids p c l = l.
Proof.
  intros p c. induction l as [|[k t] l IH]; intros H; cbn; auto.
  rewrite ids_kids_cons in H. rewrite remove_notin, IH; auto;
    intros X; apply H; apply in_or_app; auto.
Qed.
Lemma remove_kids_app : forall p c a b,
  remove_kids p c (a ++ b) = remove_kids p c a ++ remove_kids p c b.
Proof. induction a as [|[k t] a IH]; intros; cbn; auto. now rewrite IH. Qed.

Lemma drop_kid_incl : forall c l x, In x (ids_kids (drop_kid c l)) -> In x (ids_kids l).
Proof.
  intros c. induction l as [|[k t] l IH]; intros x H; cbn [drop_kid] in *; auto.
  rewrite ids_kids_cons. destruct (Nat.eqb (x_id k) c).
  - apply in_or_app. now right.
  - rewrite ids_kids_cons in H. apply in_app_or in H. apply in_or_app.
    destruct H; [now left|right; now apply IH].
Qed.

Lemma remove_incl : forall p c n x, In x (ids (remove_child p c n)) -> In x (ids n).
Proof.
  intros p c n. induction n as [i tag attrs text kids IH] using xnode_ind'. intros x H.
  rewrite remove_unfold in H. rewrite ids_unfold in *.
  destruct H as [<-|H]; [now left|right].
  assert (K : forall y, In y (ids_kids (remove_kids p c kids)) -> In y (ids_kids kids)).
  { clear H. induction IH as [|[k t] l Hk Hl IHl]; intros y H; cbn [remove_kids] in H; auto.
    rewrite ids_kids_cons in *. apply in_app_or in H. apply in_or_app.
    destruct H as [H|H]; [left; now apply Hk|right; now apply IHl]. }
  destruct (Nat.eqb i p); apply K; auto. now apply drop_kid_incl in H.
Qed.

(** All removals one after the other. *)
Definition rm (hs : list (nat * nat)) (n : xnode) : xnode :=
  fold_left (fun n pc => remove_child (fst pc) (snd pc) n) hs n.

Fixpoint find_kids (step : Z) (i : nat) (l : list (xnode * str)) : result (list (nat * nat)) :=
  match l with
  | [] => Ok []
  | (c, _) :: l' =>
      do info <- parse_label c;
      match match info with Some i => negb (is_visible i step) | None => false end with
      | true => do rest <- find_kids step i l'; Ok ((i, x_id c) :: rest)
      | false => do sub <- find_hidden step c; do rest <- find_kids step i l'; Ok (sub ++ rest)
      end
  end.
Lemma find_unfold : forall step i tag attrs text kids,
  find_hidden step (XNode i tag attrs text kids) = find_kids step i kids.
Proof.
  intros. cbn [find_hidden]. induction kids as [|[c t] l IH]; cbn [find_kids]; auto.
  destruct (parse_label c) as [info|]; cbn [rbind]; auto.
  rewrite <- IH. reflexivity.
Qed.

Lemma find_parents : forall step n hs, find_hidden step n = Ok hs ->
  forall p c, In (p, c) hs -> In p (ids n).
Proof.
  intros step n. induction n as [i tag attrs text kids IH] using xnode_ind'.
  intros hs H. rewrite find_unfold in H. rewrite ids_unfold.
  assert (K : forall p c, In (p, c) hs -> p = i \/ In p (ids_kids kids)).
  { revert hs H. induction IH as [|[k t] l Hk Hl IHl]; intros hs H; cbn [find_kids] in H.
    - inversion H; subst. intros p c [].
    - destruct (parse_label k) as [info|] eqn:PL; cbn [rbind] in H; [|discriminate].
      rewrite ids_kids_cons.
      destruct (match info with Some i => negb (is_visible i step) | None => false end).
      + destruct (find_kids step i l) as [rest|] eqn:R; cbn [rbind] in H; [|discriminate].
        inversion H; subst. intros p c [X|X]; [inversion X; subst; now left|].
        destruct (IHl _ eq_refl _ _ X) as [->|Y]; [now left|right; apply in_or_app; now right].
      + destruct (find_hidden step k) as [sub|] eqn:S1; cbn [rbind] in H; [|discriminate].
        destruct (find_kids step i l) as [rest|] eqn:R; cbn [rbind] in H; [|discriminate].
        inversion H; subst. intros p c X. apply in_app_or in X. destruct X as [X|X].
        * right. apply in_or_app. left. eapply Hk; eauto.
        * destruct (IHl _ eq_refl _ _ X) as [->|Y]; [now left|right; apply in_or_app; now right]. }
  intros p c X. destruct (K p c X) as [->|Y]; [now left|now right].
Qed.

Lemma NoDup_app_inv : forall (A : Type) (a b : list A), NoDup (a ++ b) ->
  NoDup a /\ NoDup b /\ forall x, In x a -> ~ In x b.
Proof.
  intros A a. induction a as [|x a IH]; intros b H; cbn in *.
  - repeat split; auto using NoDup_nil.
  - inversion H; subst. destruct (IH _ H3) as (Ha & Hb & D). split; [|split]; auto.
    + constructor; auto. intros X. apply H2. apply in_or_app. now left.
    + intros y [<-|Y] Z; [apply H2; apply in_or_app; now right|now apply (D y)].
Qed.

(** Removals below one child leave the rest alone. *)
Lemma rm_inside : forall sub i tag attrs text pre c t l,
  (forall p q, In (p, q) sub -> In p (ids c)) -> NoDup (i :: ids_kids (pre ++ (c, t) :: l)) ->
  rm sub (XNode i tag attrs text (pre ++ (c, t) :: l)) =
  XNode i tag attrs text (pre ++ (rm sub c, t) :: l).
Proof.
  intros sub i tag attrs text pre c t l H ND.
  rewrite ids_kids_app, ids_kids_cons in ND. inversion ND as [|? ? N1 N2]; subst.
  destruct (NoDup_app_inv _ _ _ N2) as (_ & N3 & D1).
  destruct (NoDup_app_inv _ _ _ N3) as (_ & _ & D2).
  assert (G : forall sub d, (forall p q, In (p, q) sub -> In p (ids c)) ->
    rm sub (XNode i tag attrs text (pre ++ (d, t) :: l)) =
    XNode i tag attrs text (pre ++ (rm sub d, t) :: l)).
  { clear sub H. induction sub as [|[p q] sub IH]; intros d H; auto.
    unfold rm. cbn [fold_left fst snd].
    assert (Hp : In p (ids c)) by (apply (H p q); now left).
    rewrite remove_unfold. replace (Nat.eqb i p) with false.
    2:{ symmetry. apply Nat.eqb_neq. intros ->. apply N1. apply in_or_app. right.
        apply in_or_app. now left. }
    rewrite remove_kids_app. cbn [remove_kids].
    rewrite (remove_kids_notin p q pre), (remove_kids_notin p q l); auto.
    - apply IH. intros p' q' X. apply (H p' q'). now right.
    - intros X. apply (D1 p X). apply in_or_app. now left. }
  now apply G.
Qed.

Lemma drop_kid_here : forall pre c t l, ~ In (x_id c) (ids_kids pre) ->
  drop_kid (x_id c) (pre ++ (c, t) :: l) = pre ++ l.
Proof.
  induction pre as [|[k u] pre IH]; intros c t l H; cbn [drop_kid app].
  - now rewrite Nat.eqb_refl.
  - rewrite ids_kids_cons in H.
    replace (Nat.eqb (x_id k) (x_id c)) with false.
    + rewrite IH; auto. intros X. apply H. apply in_or_app. now right.
    + symmetry. apply Nat.eqb_neq. intros X. apply H. apply in_or_app. left.
      rewrite <- X. apply x_id_in.
Qed.

(** Ids of a fragment are ids of the image. *)
Scheme frag_mut := Minimality for frag Sort Prop
  with frag_kids_mut := Minimality for frag_kids Sort Prop.
Combined Scheme frag_both from frag_mut, frag_kids_mut.

Inductive sublist {A : Type} : list A -> list A -> Prop :=
| sub_nil : sublist [] []
| sub_skip : forall x a b, sublist a b -> sublist a (x :: b)
| sub_keep : forall x a b, sublist a b -> sublist (x :: a) (x :: b).

Lemma sublist_app : forall (A : Type) (a a' b b' : list A),
  sublist a a' -> sublist b b' -> sublist (a ++ b) (a' ++ b').
Proof.
  intros A a a' b b' H. induction H; intros; cbn;
    [assumption|apply sub_skip; auto|apply sub_keep; auto].
Qed.
Lemma sublist_nil : forall (A : Type) (l : list A), sublist [] l.
Proof. induction l; constructor; auto. Qed.
Lemma sublist_in : forall (A : Type) (a b : list A) x, sublist a b -> In x a -> In x b.
Proof.
  intros A a b x H. induction H as [|y a b H IH|y a b H IH]; cbn; intros X; auto.
  destruct X; auto.
Qed.
Lemma sublist_NoDup : forall (A : Type) (a b : list A), sublist a b -> NoDup b -> NoDup a.
Proof.
  intros A a b H. induction H; intros N; auto; inversion N; subst; auto.
  constructor; auto. intros X. apply H2. eapply sublist_in; eauto.
Qed.

Lemma frag_sublist : forall k,
  (forall n n', frag k n n' -> sublist (ids n') (ids n)) /\
  (forall l l', frag_kids k l l' -> sublist (ids_kids l') (ids_kids l)).
Proof.
  intros k. apply frag_both.
  - intros. rewrite !ids_unfold. apply sub_keep. auto.
  - apply sub_nil.
  - intros. rewrite ids_kids_cons. change (ids_kids l') with ([] ++ ids_kids l').
    apply sublist_app; auto. apply sublist_nil.
  - intros. rewrite !ids_kids_cons. apply sublist_app; auto.
Qed.

Theorem rm_frag : forall k n hs, NoDup (ids n) -> find_hidden k n = Ok hs ->
  frag k n (rm hs n).
Proof.
  intros k n. induction n as [i tag attrs text kids IH] using xnode_ind'.
  intros hs ND H. rewrite find_unfold in H. rewrite ids_unfold in ND.
  assert (G : forall l pre hs, Forall (fun p => forall hs, NoDup (ids (fst p)) ->
       find_hidden k (fst p) = Ok hs -> frag k (fst p) (rm hs (fst p))) l ->
     NoDup (i :: ids_kids (pre ++ l)) -> find_kids k i l = Ok hs ->
     exists l', frag_kids k l l' /\
       rm hs (XNode i tag attrs text (pre ++ l)) = XNode i tag attrs text (pre ++ l')).
  { clear. induction l as [|[c t] l IHl]; intros pre hs F ND H; cbn [find_kids] in H.
    - inversion H; subst. exists []. split; [constructor|reflexivity].
    - inversion F as [|? ? Fc Fl]; subst. cbn [fst] in Fc.
      destruct (parse_label c) as [info|] eqn:PL; cbn [rbind] in H; [|discriminate].
      pose proof (parse_label_hides c info k PL) as Hh.
      assert (NDc : NoDup (ids c) /\ ~ In i (ids_kids (pre ++ l)) /\
                    ~ In i (ids_kids (pre ++ (c, t) :: l)) /\
                    NoDup (ids_kids (pre ++ l)) /\
                    forall x, In x (ids c) -> ~ In x (ids_kids pre) /\ ~ In x (ids_kids l)).
      { inversion ND as [|? ? N1 N2]; subst. rewrite ids_kids_app, ids_kids_cons in N1, N2.
        destruct (NoDup_app_inv _ _ _ N2) as (A1 & A2 & D1).
        destruct (NoDup_app_inv _ _ _ A2) as (A3 & A4 & D2).
        split; [auto|split; [|split; [|split]]].
        - intros X. rewrite ids_kids_app in X. apply N1. apply in_app_or in X.
          apply in_or_app. destruct X; [now left|right; apply in_or_app; now right].
        - rewrite ids_kids_app, ids_kids_cons. auto.
        - rewrite ids_kids_app. clear N1 N2 A2 A3 D2.
          induction (ids_kids pre) as [|x a IHa]; cbn; auto. inversion A1; subst.
          constructor.
          + intros X. apply in_app_or in X. destruct X as [X|X]; [contradiction|].
            apply (D1 x); [now left|]. apply in_or_app. now right.
          + apply IHa; auto. intros y Y. apply D1. now right.
        - intros x X. split; [|now apply D2]. intros Y. apply (D1 x Y).
          apply in_or_app. now left. }
      destruct NDc as (NDc & Ni & Ni' & NDr & Dc).
      destruct (match info with Some i => negb (is_visible i k) | None => false end) eqn:V.
      + destruct (find_kids k i l) as [rest|] eqn:R; cbn [rbind] in H; [|discriminate].
        inversion H; subst hs. unfold rm. cbn [fold_left fst snd].
        rewrite remove_unfold, Nat.eqb_refl, remove_kids_notin by auto.
        rewrite drop_kid_here by (apply (Dc (x_id c)), x_id_in).
        destruct (IHl pre rest Fl) as (l' & L & E); auto.
        { constructor; auto. }
        exists l'. split; auto. apply fr_hide; auto. apply Hh.
        destruct info as [s|]; [|discriminate]. exists s. split; auto.
        now apply negb_true_iff in V.
      + destruct (find_hidden k c) as [sub|] eqn:S1; cbn [rbind] in H; [|discriminate].
        destruct (find_kids k i l) as [rest|] eqn:R; cbn [rbind] in H; [|discriminate].
        inversion H; subst hs. unfold rm. rewrite fold_left_app. fold (rm sub).
        change (fold_left (fun (n : xnode) (pc : nat * nat) =>
          remove_child (fst pc) (snd pc) n) sub) with (rm sub).
        rewrite rm_inside; auto; [|eapply find_parents; eauto].
        assert (Fr : frag k c (rm sub c)) by (apply Fc; auto).
        pose proof (proj1 (frag_sublist k) _ _ Fr) as Sb.
        destruct (IHl (pre ++ [(rm sub c, t)]) rest Fl) as (l' & L & E); auto.
        { rewrite <- app_assoc. cbn [app].
          eapply (sublist_NoDup _ _ (i :: ids_kids (pre ++ (c, t) :: l))); auto.
          apply sub_keep. rewrite !ids_kids_app, !ids_kids_cons.
          assert (Refl : forall a : list nat, sublist a a)
            by (clear; induction a; [apply sub_nil|apply sub_keep; auto]).
          apply sublist_app; auto. apply sublist_app; auto. }
        exists ((rm sub c, t) :: l'). split.
        * apply fr_keep; auto. intros X. apply Hh in X. destruct X as (s & -> & X).
          rewrite X in V. discriminate.
        * rewrite <- !app_assoc in E. exact E. }
  destruct (G kids [] hs IH ND H) as (l' & L & E). rewrite app_nil_l in E. rewrite E.
  now constructor.
Qed.

(** ** Documents *)

Lemma set_doc_length : forall d n ds, List.length (set_doc d n ds) = List.length ds.
Proof. induction d as [|d IH]; intros n [|x ds]; cbn; auto. Qed.
Lemma set_doc_last : forall ds n m, set_doc (List.length ds) n (ds ++ [m]) = ds ++ [n].
Proof. induction ds as [|x ds IH]; intros; cbn; auto. now rewrite IH. Qed.
Lemma nth_last : forall (A : Type) (ds : list A) n, nth_error (ds ++ [n]) (List.length ds) = Some n.
Proof. induction ds; intros; cbn; auto. Qed.

Lemma remove_docs : forall hs ds n,
  fold_left (remove_in (List.length ds)) hs (ds ++ [n]) = ds ++ [rm hs n].
Proof.
  induction hs as [|[p c] hs IH]; intros ds n; cbn [fold_left]; auto.
  unfold remove_in at 2. rewrite nth_last. cbn [fst snd]. rewrite set_doc_last, IH. reflexivity.
Qed.

Lemma create_spec : forall root k ds r, create_image_data root k ds = Ok r <->
  exists n hs, nth_error ds root = Some n /\ find_hidden k n = Ok hs /\
    r = (rm hs n, ds ++ [rm hs n]).
Proof.
  intros root k ds r. unfold create_image_data, deepcopy.
  destruct (nth_error ds root) as [n|] eqn:N; cbn [rbind].
  - rewrite nth_last. destruct (find_hidden k n) as [hs|] eqn:F; cbn [rbind].
    + rewrite remove_docs, nth_last. split.
      * intros H. inversion H. exists n, hs. auto.
      * intros (n' & hs' & X & Y & ->). injection X as <-. rewrite F in Y. injection Y as <-.
        reflexivity.
    + split; [discriminate|intros (n' & hs' & X & Y & _); congruence].
  - split; [discriminate|intros (n' & hs' & X & _); discriminate].
Qed.

(** ** Which elements are kept *)

Lemma chain_cases : forall n l m, chain n l m -> (l = [] /\ m = n) \/
  exists c t l', l = c :: l' /\ In (c, t) (x_kids n) /\ chain c l' m.
Proof. intros n l m H. inversion H; subst; [now left|right; eauto 6]. Qed.

Lemma iter_chain : forall n m, In m (x_iter n) <-> exists l, chain n l m.
Proof.
  intros n. induction n as [i tag attrs text kids IH] using xnode_ind'. intros m.
  rewrite x_iter_unfold. split.
  - intros [<-|H]; [exists []; constructor|].
    assert (K : exists c t, In (c, t) kids /\ In m (x_iter c)).
    { clear IH. induction kids as [|[c t] l IHl]; [destruct H|]. cbn in H.
      apply in_app_or in H. destruct H as [H|H]; [exists c, t; split; auto; now left|].
      destruct (IHl H) as (c' & t' & X & Y). exists c', t'. split; auto. now right. }
    destruct K as (c & t & X & Y). rewrite Forall_forall in IH.
    apply (IH (c, t) X) in Y. destruct Y as [l Y]. exists (c :: l).
    eapply ch_kid; eauto.
  - intros [l H]. apply chain_cases in H.
    destruct H as [[_ ->]|(c & t & l' & -> & X & H)]; [now left|right]. cbn in X.
    rewrite Forall_forall in IH. assert (Y : In m (x_iter c)) by (apply (IH (c, t) X); eauto).
    clear - X Y. induction kids as [|[c' t'] l IHl]; [destruct X|].
    cbn. apply in_or_app. destruct X as [X|X]; [left|right; auto].
    injection X as -> _. exact Y.
Qed.

Lemma frag_keeps : forall k,
  (forall n n', frag k n n' -> forall x, In x (ids n') <->
     exists l m, chain n l m /\ x_id m = x /\ Forall (fun e => ~ hides k e) l) /\
  (forall l l', frag_kids k l l' -> forall x, In x (ids_kids l') <->
     exists c t q m, In (c, t) l /\ chain c q m /\ x_id m = x /\
       Forall (fun e => ~ hides k e) (c :: q)).
Proof.
  intros k. apply frag_both.
  - intros i tag attrs text kids kids' _ IH x. rewrite ids_unfold. split.
    + intros [<-|H].
      * exists [], (XNode i tag attrs text kids). repeat split; constructor.
      * apply IH in H. destruct H as (c & t & q & m & I1 & C & E & F).
        exists (c :: q), m. split; [eapply ch_kid; eauto|auto].
    + intros (q & m & C & E & F). apply chain_cases in C.
      destruct C as [[-> ->]|(c & t & q' & -> & I1 & C)]; [left; exact E|right].
      apply IH. exists c, t, q', m. auto.
  - intros x. split; [intros []|intros (c & t & q & m & [] & _)].
  - intros c t l l' Hh _ IH x. rewrite IH. split.
    + intros (c' & t' & q & m & I1 & C & E & F). exists c', t', q, m. split; auto. now right.
    + intros (c' & t' & q & m & [X|I1] & C & E & F).
      * inversion X; subst. inversion F; subst. contradiction.
      * exists c', t', q, m. auto.
  - intros c c' t l l' Hn _ IHc _ IH x. rewrite ids_kids_cons, in_app_iff, IHc, IH. split.
    + intros [(q & m & C & E & F)|(d & u & q & m & I1 & C & E & F)].
      * exists c, t, q, m. split; [now left|]. split; [exact C|]. split; [exact E|]. constructor; auto.
      * exists d, u, q, m. split; auto. now right.
    + intros (d & u & q & m & [X|I1] & C & E & F).
      * inversion X; subst. left. exists q, m. inversion F; subst. auto.
      * right. exists d, u, q, m. auto.
Qed.

Lemma frag_unique : forall k,
  (forall n n1, frag k n n1 -> forall n2, frag k n n2 -> n1 = n2) /\
  (forall l l1, frag_kids k l l1 -> forall l2, frag_kids k l l2 -> l1 = l2).
Proof.
  intros k. apply frag_both.
  - intros i tag attrs text kids kids' _ IH n2 H. inversion H; subst. now rewrite (IH _ H6).
  - intros l2 H. now inversion H.
  - intros c t l l' Hh _ IH l2 H. inversion H; subst; [auto|contradiction].
  - intros c c' t l l' Hn _ IHc _ IH l2 H. inversion H; subst; [contradiction|].
    now rewrite (IHc _ H5), (IH _ H6).
Qed.

(** ** Number of fragments *)

Lemma find_ok : forall k n, (forall m, In m (x_iter n) -> exists i, parse_label m = Ok i) ->
  exists hs, find_hidden k n = Ok hs.
Proof.
  intros k n. induction n as [i tag attrs text kids IH] using xnode_ind'. intros H.
  rewrite x_iter_unfold in H. rewrite find_unfold.
  assert (H' : forall m, In m (iter_kids kids) -> exists i, parse_label m = Ok i)
    by (intros m X; apply H; now right).
  clear H. induction IH as [|[c t] l Hc Hl IHl]; cbn [find_kids]; eauto.
  cbn [iter_kids] in H'. cbn [fst] in Hc.
  destruct (H' c) as [info E].
  { apply in_or_app. left. destruct c as [j u v w z]. rewrite x_iter_unfold. now left. }
  rewrite E. cbn [rbind].
  destruct IHl as [rest R]; [intros m X; apply H'; apply in_or_app; now right|].
  rewrite R. destruct (match info with Some i => negb (is_visible i k) | None => false end);
    cbn [rbind]; eauto.
  destruct Hc as [sub S1]; [intros m X; apply H'; apply in_or_app; now left|].
  rewrite S1. cbn [rbind]. eauto.
Qed.

Lemma fold_steps_ok : forall l a, (exists r, fold_result steps_of a l = Ok r) <->
  forall m, In m l -> exists i, parse_label m = Ok i.
Proof.
  induction l as [|n l IH]; intros a; cbn [fold_result].
  - split; [intros _ m []|eauto].
  - unfold steps_of at 1. destruct (parse_label n) as [i|] eqn:E; cbn [rbind].
    + assert (G : (exists r, (do a' <- match i with Some i0 => Ok (Z.max a (min_steps i0))
         | None => Ok a end; fold_result steps_of a' l) = Ok r) <->
         exists a', exists r, fold_result steps_of a' l = Ok r).
      { destruct i as [s|]; cbn [rbind]; (split; [intros [r H]; eauto|]);
          intros [a' H]; eapply IH; eapply IH; eauto. }
      rewrite G. split.
      * intros [a' H] m [<-|X]; [eauto|]. eapply IH; eauto.
      * intros H. exists a. apply IH. intros m X. apply H. now right.
    + split; [intros [r H]; discriminate|]. intros H. destruct (H n) as [i X]; [now left|].
      congruence.
Qed.

Lemma fold_steps_max : forall l a r, fold_result steps_of a l = Ok r ->
  a <= r /\
  (forall m i, In m l -> parse_label m = Ok (Some i) -> min_steps i <= r) /\
  (r = a \/ exists m i, In m l /\ parse_label m = Ok (Some i) /\ r = min_steps i).
Proof.
  induction l as [|n l IH]; intros a r H; cbn [fold_result] in H.
  - inversion H; subst. split; [lia|split; [intros m i []|now left]].
  - unfold steps_of at 1 in H.
    destruct (parse_label n) as [[i|]|] eqn:E; cbn [rbind] in H; [| |discriminate].
    + destruct (IH _ _ H) as (A & B & C). split; [lia|split].
      * intros m j [<-|X] Y; [rewrite E in Y; inversion Y; subst; lia|eauto].
      * destruct C as [C|(m & j & X & Y & Z)].
        -- destruct (Z_le_dec (min_steps i) a); [left; lia|].
           right. exists n, i. split; [now left|split; auto; lia].
        -- right. exists m, j. split; [now right|auto].
    + destruct (IH _ _ H) as (A & B & C). split; [lia|split].
      * intros m j [<-|X] Y; [congruence|eauto].
      * destruct C as [C|(m & j & X & Y & Z)]; [now left|].
        right. exists m, j. split; [now right|auto].
Qed.

Lemma label_min_steps : forall n i, parse_label n = Ok (Some i) ->
  1 <= min_steps i /\ (forall k, label_mentions n k -> k <= min_steps i) /\
  (min_steps i = 1 \/ label_mentions n (min_steps i)).
Proof.
  intros n i H. unfold parse_label in H.
  destruct (attr_get label_attr (x_attrs n)) as [l|] eqn:A; [|discriminate].
  destruct (from_label_some _ _ H) as (sel & L & P).
  assert (T : exists xs, selectors_text xs sel /\ acceptable None xs)
    by (apply C02_show_accepts; eauto).
  destruct T as (xs & T & _).
  destruct (C03_show_min_steps sel None i xs) as (B1 & B2 & B3); auto.
  { intros c X; discriminate. }
  split; [auto|split].
  - intros k (l' & sel' & ys & x & X & L' & T' & Ix & M).
    unfold labelled in X. rewrite label_name_eq, A in X. inversion X; subst l'.
    rewrite (label_selector_unique _ _ _ L' L) in T'.
    rewrite (C01_show_reading_unique _ _ _ T' T) in Ix. eauto.
  - destruct B3 as [B3|(x & Ix & M)]; [now left|right].
    exists l, sel, xs, x. auto.
Qed.

Lemma mentions_parsed : forall n k i, parse_label n = Ok i -> label_mentions n k ->
  exists s, i = Some s.
Proof.
  intros n k i H (l & sel & xs & x & X & L & _). unfold parse_label, labelled in *. rewrite label_name_eq in *.
  rewrite X in H. destruct i as [s|]; [eauto|]. exfalso.
  now apply (from_label_none _ H l sel).
Qed.
