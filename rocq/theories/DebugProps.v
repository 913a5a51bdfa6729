(** Properties of debug frames: C94. *)
From Coq Require Import List ZArith NArith QArith Bool Lia Arith Permutation Sorted.
From Verif Require Import Py PyFacts ShowModel LayoutModel SlideModel SlideSpec SlideProofs SlideProps DebugModel.
Import ListNotations.
Open Scope Z_scope.

(** *** Vocabulary *)
Definition is_item (p : dpainter) : bool := match p with DItem _ _ => true | DFrame _ _ _ => false end.
(** [box_at bs b cs n]: [b] with children [cs] is a box of the tree [n], inside the boxes [bs]. *)
Inductive box_at : list bhead -> bhead -> list node -> node -> Prop :=
| ba_here : forall b cs, box_at [] b cs (NBox b cs)
| ba_kid : forall bs b cs d ds c, In c ds -> box_at bs b cs c -> box_at (d :: bs) b cs (NBox d ds).
(** [x] is before [y]. *)
Definition before {A} (x y : A) (l : list A) : Prop := exists l1 l2 l3, l = l1 ++ x :: l2 ++ y :: l3.

(** *** Lists *)
Lemma before_in_l : forall A (x y : A) a b, before x y a -> before x y (a ++ b).
Proof. intros A x y a b (l1 & l2 & l3 & ->). exists l1, l2, (l3 ++ b). repeat (rewrite <- app_assoc; cbn [app]). reflexivity. Qed.
Lemma before_in_r : forall A (x y : A) a b, before x y b -> before x y (a ++ b).
Proof. intros A x y a b (l1 & l2 & l3 & ->). exists (a ++ l1), l2, l3. now rewrite <- app_assoc. Qed.
Lemma before_across : forall A (x y : A) a b, In x a -> In y b -> before x y (a ++ b).
Proof.
  intros A x y a b Hx Hy. apply in_split in Hx as (a1 & a2 & ->). apply in_split in Hy as (b1 & b2 & ->).
  exists a1, (a2 ++ b1), b2. repeat (rewrite <- app_assoc; cbn [app]). reflexivity.
Qed.
Definition level (p : dpainter) : Z := painter_z (no_depth p).
Lemma insert_perm : forall p l, Permutation (insert_at p l) (p :: l).
Proof.
  intros p l. induction l as [|q l IH]; simpl; auto.
  destruct (painter_z (no_depth p) <=? painter_z (no_depth q)); auto. rewrite IH. apply perm_swap.
Qed.
Lemma sort_perm : forall l, Permutation (sort_at l) l.
Proof. induction l as [|p l IH]; simpl; auto. rewrite insert_perm. now apply perm_skip. Qed.
Lemma sort_sorted : forall l, StronglySorted (fun p q => level p <= level q) (sort_at l).
Proof.
  induction l as [|p l IH]; simpl; [constructor|].
  induction IH as [|q l' HS IHS HF]; simpl; [repeat constructor|].
  fold (level p). fold (level q). destruct (Z.leb_spec (level p) (level q)).
  - constructor; [constructor; auto|]. constructor; auto.
    eapply Forall_impl; [|exact HF]. simpl. intros. lia.
  - constructor; auto. apply Forall_forall. intros x Hx.
    apply (Permutation_in _ (insert_perm p l')) in Hx. destruct Hx as [<-|Hx]; [lia|].
    rewrite Forall_forall in HF. auto.
Qed.
Lemma insert_before : forall p q l, StronglySorted (fun p q => level p <= level q) l -> In q l -> level p <= level q ->
  before p q (insert_at p l).
Proof.
  intros p q l HS. induction HS as [|x l HS IH HF]; intros Hq Hl; [destruct Hq|]. cbn [insert_at].
  fold (level p). fold (level x). destruct (Z.leb_spec (level p) (level x)) as [Hp|Hp].
  - change (p :: x :: l) with ([p] ++ x :: l). apply before_across; [now left|exact Hq].
  - destruct Hq as [->|Hq]; [lia|]. apply (before_in_r _ p q [x]). now apply IH.
Qed.
Lemma before_cons : forall A (x p q : A) l, before p q (x :: l) <-> (x = p /\ In q l) \/ before p q l.
Proof.
  intros A x p q l. split.
  - intros ([|y l1] & l2 & l3 & E); injection E as -> ->.
    + left. split; auto. apply in_or_app. right. now left.
    + right. now exists l1, l2, l3.
  - intros [[-> H]|H]; [apply (before_across _ p q [p] l); [now left|exact H]|exact (before_in_r _ p q [x] l H)].
Qed.
Lemma insert_keeps : forall r p q l, before p q l -> before p q (insert_at r l).
Proof.
  intros r p q l. induction l as [|x l IH]; intros H; [destruct H as ([|] & ? & ? & E); discriminate|].
  cbn [insert_at]. destruct (painter_z (no_depth r) <=? painter_z (no_depth x)).
  - apply before_cons. now right.
  - apply before_cons in H as [[-> H]|H]; apply before_cons; [left|right; auto].
    split; auto. apply (Permutation_in _ (Permutation_sym (insert_perm r l))). now right.
Qed.
Lemma sort_before : forall p q l, before p q l -> level p <= level q -> before p q (sort_at l).
Proof.
  intros p q l H Hl. induction l as [|x l IH]; [destruct H as ([|] & ? & ? & E); discriminate|]. cbn [sort_at].
  apply before_cons in H as [[-> H]|H].
  - apply insert_before; [apply sort_sorted| |exact Hl]. now apply (Permutation_in _ (Permutation_sym (sort_perm l))).
  - apply insert_keeps. now apply IH.
Qed.
Lemma insert_filter : forall f p l, StronglySorted (fun p q => level p <= level q) l ->
  filter f (insert_at p l) = if f p then insert_at p (filter f l) else filter f l.
Proof.
  intros f p l HS. induction HS as [|x l HS IH HF]; cbn [insert_at filter]; [reflexivity|].
  fold (level p). fold (level x). destruct (Z.leb_spec (level p) (level x)) as [Hp|Hp]; cbn [filter].
  - destruct (f p); [|reflexivity]. destruct (f x); cbn [insert_at].
    + fold (level p). fold (level x). destruct (Z.leb_spec (level p) (level x)); [reflexivity|lia].
    + clear IH. destruct (filter f l) as [|y m] eqn:E; [reflexivity|]. cbn [insert_at]. fold (level p). fold (level y).
      assert (Hy : In y l) by (assert (K : In y (filter f l)) by (rewrite E; now left); now apply filter_In in K).
      rewrite Forall_forall in HF. specialize (HF y Hy). destruct (Z.leb_spec (level p) (level y)); [reflexivity|lia].
  - rewrite IH. destruct (f x), (f p); cbn [insert_at]; try reflexivity.
    fold (level p). fold (level x). destruct (Z.leb_spec (level p) (level x)); [lia|reflexivity].
Qed.
Lemma sort_filter : forall f l, filter f (sort_at l) = sort_at (filter f l).
Proof.
  intros f l. induction l as [|p l IH]; [reflexivity|]. cbn [sort_at filter].
  rewrite insert_filter by apply sort_sorted. rewrite IH. now destruct (f p).
Qed.

(** *** The painters of a box tree *)
Lemma at_painters : forall debug k n depth, map no_depth (get_painters_at debug k depth n) = get_painters debug k n.
Proof.
  intros debug k n. induction n as [i z|b cs IH] using node_ind2; intros depth; cbn [get_painters_at get_painters]; [reflexivity|].
  destruct (is_visible (b_show b) k); [|reflexivity]. rewrite map_app. f_equal; [|now destruct debug].
  induction IH as [|c cs Hc _ IHcs]; cbn [flat_map]; [reflexivity|]. now rewrite map_app, Hc, IHcs.
Qed.
Lemma insert_erased : forall p l, map no_depth (insert_at p l) = insert_painter (no_depth p) (map no_depth l).
Proof.
  intros p l. induction l as [|q l IH]; cbn [insert_at map insert_painter]; [reflexivity|].
  destruct (painter_z (no_depth p) <=? painter_z (no_depth q)); cbn [map]; congruence.
Qed.
(** The page with depths is the page of C04 and C05. *)
Lemma page_erased : forall debug s k, map no_depth (page_at debug s k) = page debug s k.
Proof.
  intros debug s k. unfold page_at, page. rewrite <- (at_painters debug k (sl_box s) 0).
  induction (get_painters_at debug k 0 (sl_box s)) as [|p l IH]; cbn [sort_at map sort_painters]; [reflexivity|].
  now rewrite insert_erased, IH.
Qed.
Lemma filter_painters : forall k n depth, filter is_item (get_painters_at true k depth n) = get_painters_at false k depth n.
Proof.
  intros k n. induction n as [i z|b cs IH] using node_ind2; intros depth; cbn [get_painters_at]; [reflexivity|].
  destruct (is_visible (b_show b) k); [|reflexivity]. rewrite filter_app. cbn [filter is_item]. f_equal.
  induction IH as [|c cs Hc _ IHcs]; cbn [flat_map]; [reflexivity|]. now rewrite filter_app, Hc, IHcs.
Qed.
Lemma frames_in : forall k n depth i z d, In (DFrame i z d) (get_painters_at true k depth n) <->
  exists bs b cs, box_at bs b cs n /\ b_id b = i /\ b_z b = z /\ d = (depth + List.length bs)%nat /\
    Forall (fun b => is_visible (b_show b) k = true) (bs ++ [b]).
Proof.
  intros k n. induction n as [j y|b cs IH] using node_ind2; intros depth i z d; cbn [get_painters_at].
  - split; [intros [K|[]]; discriminate|]. intros (bs & b & cs & H & _). inversion H.
  - rewrite Forall_forall in IH. destruct (is_visible (b_show b) k) eqn:V.
    + rewrite in_app_iff, in_flat_map. split.
      * intros [(c & Hc & H)|H].
        -- apply (IH c Hc) in H as (bs & b' & cs' & B & E1 & E2 & E3 & F). exists (b :: bs), b', cs'.
           split; [econstructor; eauto|]. repeat (split; [assumption|]). split; [cbn [List.length]; lia|]. now constructor.
        -- destruct H as [H|[]]. injection H as <- <- <-. exists [], b, cs. split; [constructor|].
           repeat (split; [reflexivity|]). split; [cbn [List.length]; lia|]. cbn. auto.
      * intros (bs & b' & cs' & B & E1 & E2 & E3 & F). inversion B; subst.
        -- right. left. cbn [List.length]. f_equal. lia.
        -- left. eexists. split; [eassumption|]. apply IH; [assumption|]. exists bs0, b', cs'.
           split; [assumption|]. repeat (split; [reflexivity|]). split; [cbn [List.length]; lia|]. now inversion F.
    + split; [intros []|]. intros (bs & b' & cs' & B & E1 & E2 & E3 & F). inversion B; subst; cbn [app] in F; inversion F; congruence.
Qed.
Lemma under_painters : forall k n depth bs i z, under bs i z n -> Forall (fun b => is_visible (b_show b) k = true) bs ->
  In (DItem i z) (get_painters_at true k depth n).
Proof.
  intros k n depth bs i z H. revert depth. induction H as [i z|bs i z b cs c Hc H IH]; intros depth V; [now left|].
  inversion_clear V as [|? ? V1 V2]. cbn [get_painters_at]. rewrite V1. apply in_or_app. left. apply in_flat_map.
  exists c. split; [exact Hc|]. now apply IH.
Qed.
Lemma above_painters : forall k bs b cs n depth ps c i z, box_at bs b cs n -> In c cs -> under ps i z c ->
  Forall (fun b => is_visible (b_show b) k = true) (bs ++ b :: ps) ->
  before (DItem i z) (DFrame (b_id b) (b_z b) (depth + List.length bs)) (get_painters_at true k depth n).
Proof.
  intros k bs b cs n depth ps c i z H. revert depth. induction H as [b cs|bs b cs d ds c' Hc' H IH]; intros depth Hc U V.
  - cbn [app] in V. inversion_clear V as [|? ? V1 V2]. cbn [get_painters_at]. rewrite V1. apply before_across.
    + apply in_flat_map. exists c. split; [exact Hc|]. now apply (under_painters k c (S depth) ps).
    + left. cbn [List.length]. f_equal. lia.
  - cbn [app] in V. inversion_clear V as [|? ? V1 V2]. cbn [get_painters_at]. rewrite V1. apply before_in_l.
    apply in_split in Hc' as (ds1 & ds2 & ->). rewrite flat_map_app. cbn [flat_map]. apply before_in_r, before_in_l.
    cbn [List.length]. replace (depth + S (List.length bs))%nat with (S depth + List.length bs)%nat by lia. now apply IH.
Qed.

(** *** C94 *)
(** Debug frames change nothing for the items of a page: the same ones in the same order. *)
Theorem C94_same_items : forall s k, filter is_item (page_at true s k) = page_at false s k.
Proof. intros s k. unfold page_at. rewrite sort_filter. now rewrite filter_painters. Qed.
Print Assumptions C94_same_items.
(** There is one frame for each box that is visible together with the boxes around it, of the
    level of the box; its depth is the number of these boxes. *)
Theorem C94_frames : forall w h s0 s, new_slide w h = Ok s0 -> reachable s0 s ->
  forall k, NoDup (map no_depth (page_at true s k)) /\ forall i z d,
  In (DFrame i z d) (page_at true s k) <->
  exists bs b cs, box_at bs b cs (sl_box s) /\ b_id b = i /\ b_z b = z /\ d = List.length bs /\
    Forall (fun b => is_visible (b_show b) k = true) (bs ++ [b]).
Proof.
  intros w h s0 s H0 HR k. split.
  - rewrite page_erased. exact (C04_painted_once w h s0 s H0 HR true k).
  - intros i z d. rewrite <- (frames_in k (sl_box s) 0). unfold page_at.
    split; apply Permutation_in; [|apply Permutation_sym]; apply sort_perm.
Qed.
Print Assumptions C94_frames.
(** The frame of a box is painted after all items in the box whose level is not above the
    level of the box. *)
Theorem C94_above : forall s k bs b cs ps c i z, box_at bs b cs (sl_box s) -> In c cs -> under ps i z c ->
  Forall (fun b => is_visible (b_show b) k = true) (bs ++ b :: ps) -> z <= b_z b ->
  before (DItem i z) (DFrame (b_id b) (b_z b) (List.length bs)) (page_at true s k).
Proof.
  intros s k bs b cs ps c i z H Hc U V Hz. unfold page_at. apply sort_before; [|exact Hz].
  exact (above_painters k bs b cs (sl_box s) 0 ps c i z H Hc U V).
Qed.
Print Assumptions C94_above.
Example C94_ex : page_at true (run blank_slide calls1) 2 =
  [DItem 4 (-1); DItem 5 (-1); DFrame 3 (-1) 1; DItem 2 0; DFrame 1 0 1; DFrame 0 0 0].
Proof. vm_compute. reflexivity. Qed.
