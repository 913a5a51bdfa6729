(** Where the boxes of lists are: the parent of a box and its left edge are kept by later
    calls. *)
From Coq Require Import String List ZArith NArith QArith Bool Lia Lqa Arith.
From Verif Require Import Py PyFacts ShowModel LayoutModel LayoutSpec LayoutProofs LayoutProofs2 LayoutProps SlideModel SlideSpec SlideProofs ListModel ListSpec ListProofs.
Import ListNotations.

(** [linked l a c x q]: in the layout [l] the box [c] with position argument [x] and left
    padding [q] is a child of [a]. *)
Definition linked (l : layout) (a c : nat) (x : option pos_value) (q : Q) : Prop :=
  exists p k, within p l /\ In k (kids p) /\ l_id (head p) = a /\ l_id (head k) = c /\
    l_x (head k) = x /\ l_left (head k) = q.
Definition sig (h : lhead) : nat * option pos_value * Q := (l_id h, l_x h, l_left h).
Definition ext (n n' : layout) : Prop :=
  sig (head n) = sig (head n') /\ forall a c x q, linked n a c x q -> linked n' a c x q.

Lemma ext_refl : forall n, ext n n.
Proof. split; auto. Qed.
Lemma linked_kid : forall d h cs a c x q, In d cs -> linked d a c x q -> linked (Node h cs) a c x q.
Proof. intros d h cs a c x q H (p & k & W & R). exists p, k. split; [econstructor; eauto|auto]. Qed.
Lemma linked_here : forall h cs k, In k cs -> linked (Node h cs) (l_id h) (l_id (head k)) (l_x (head k)) (l_left (head k)).
Proof. intros h cs k H. exists (Node h cs), k. repeat split; auto. constructor. Qed.
Lemma linked_inv : forall h cs a c x q, linked (Node h cs) a c x q ->
  (exists k, In k cs /\ a = l_id h /\ sig (head k) = (c, x, q)) \/ exists d, In d cs /\ linked d a c x q.
Proof.
  intros h cs a c x q (p & k & W & Hk & E1 & E2 & E3 & E4).
  remember (Node h cs) as n eqn:En. destruct W as [n|p d h' cs' Hd W]; subst.
  - left. exists k. cbn [kids head] in *. unfold sig. auto.
  - injection En as -> ->. right. exists d. split; [exact Hd|]. exists p, k. auto 8.
Qed.
Lemma ext_ctx : forall d pre post n n', ext n n' -> ext (Node d (pre ++ n :: post)) (Node d (pre ++ n' :: post)).
Proof.
  intros d pre post n n' [E H]. split; [reflexivity|]. intros a c x q L.
  apply linked_inv in L as [(k & Hk & -> & Sk)|(e & He & L)].
  - apply in_elt_inv in Hk as [<-|Hk].
    + rewrite E in Sk. injection Sk as <- <- <-. apply linked_here. apply in_elt.
    + injection Sk as <- <- <-. apply linked_here. apply in_app_iff in Hk. apply in_or_app. simpl. tauto.
  - apply in_elt_inv in He as [<-|He].
    + eapply linked_kid; [apply in_elt|]. auto.
    + eapply linked_kid; [|exact L]. apply in_app_iff in He. apply in_or_app. simpl. tauto.
Qed.
Lemma ext_fill : forall C n n', ext n n' -> ext (lfill C n) (lfill C n').
Proof. induction C as [|[[d p] q] C IH]; intros n n' H; [exact H|]. simpl. apply IH. now apply ext_ctx. Qed.
Lemma ext_add : forall h ls l p, ext (Node h ls) (add_kid (Node h ls) l p).
Proof.
  intros h ls l p. split; [reflexivity|]. intros a c x q L. cbn [add_kid].
  assert (I : forall k, In k ls -> In k (if p then l :: ls else ls ++ [l])).
  { intros k Hk. destruct p; [now right|]. apply in_or_app. auto. }
  apply linked_inv in L as [(k & Hk & -> & Sk)|(e & He & L)].
  - injection Sk as <- <- <-. apply linked_here. auto.
  - eapply linked_kid; eauto.
Qed.
Lemma ext_head : forall h h' ls, sig h = sig h' -> ext (Node h ls) (Node h' ls).
Proof.
  intros h h' ls E. split; [exact E|]. intros a c x q L.
  apply linked_inv in L as [(k & Hk & -> & Sk)|(e & He & L)].
  - injection Sk as <- <- <-. injection E as -> _ _. now apply linked_here.
  - eapply linked_kid; eauto.
Qed.

Lemma text_layout_sig : forall t w h fit hd cs hd', Node hd' cs = text_layout t w h fit (Node hd cs) ->
  sig hd = sig hd'.
Proof.
  intros t w h fit hd cs hd' E. unfold text_layout in E. injection E as ->. unfold sig. cbn [l_id l_x l_left].
  destruct (negb fit || match l_wdef hd with ANone => true | _ => false end),
    (negb fit || match l_hdef hd with ANone => true | _ => false end); reflexivity.
Qed.
Lemma image_request_sig : forall hd cs w h hd', set_image_size_request (Node hd cs) w h = Ok (Node hd' cs) ->
  sig hd = sig hd'.
Proof.
  intros hd cs w h hd' H. unfold set_image_size_request in H.
  destruct (min_children_size _ _) as [mx my]. cbv zeta in H.
  destruct (Qeq_bool h 0 || Qeq_bool w 0)%bool, (l_wdef hd), (l_hdef hd); try discriminate;
    injection H as <-; reflexivity.
Qed.
Lemma perform_ext : forall s c s' r, wf s -> perform s c = (s', r) -> ext (sl_layout s) (sl_layout s').
Proof.
  intros s [r a|r k] s' res W H; simpl in H.
  - apply box_call_outcome in H; auto.
    destruct H as [Hg|e Hl|e l C b cs LC h ls Hl Hf Es Eh Hs
                  |e l C b cs LC h ls show Hl Hf Es Eh Hs Ha
                  |l C b cs LC h ls show z cs' Hl Hf Es Eh Hs Hz Ha]; try apply ext_refl;
      cbn [sl_layout]; rewrite Es; apply ext_fill, ext_add.
  - apply item_call_outcome in H; auto.
    destruct H as [e|C b b' cs LC h h' ls m st Hf Es Eh Eh' Eb Ez Hk Hh Hst]; [apply ext_refl|].
    cbn [sl_layout]; rewrite Es. apply ext_fill, ext_head.
    destruct k as [|w q fit|w q steps].
    + now subst h'.
    + eapply text_layout_sig; eauto.
    + eapply image_request_sig; eauto.
Qed.
Lemma reachable_ext : forall s s', wf s -> reachable s s' -> ext (sl_layout s) (sl_layout s').
Proof.
  intros s s' W H. induction H as [|s1 c s2 r H IH P]; [apply ext_refl|].
  destruct IH as [A B]. destruct (perform_ext s1 c s2 r (reachable_wf _ _ W H) P) as [A' B'].
  split; [congruence|auto].
Qed.

(** The object [p] is a box. *)
Definition isbox (s : slide) (p : nat) : Prop := exists b, In b (boxes (sl_box s)) /\ b_id b = p.
Lemma reachable_isbox : forall s s' p, wf s -> reachable s s' -> isbox s p -> isbox s' p.
Proof.
  intros s s' p W H (b & Hb & <-). induction H as [|s1 c s2 r H IH P]; [exists b; auto|].
  destruct IH as (b1 & H1 & E1).
  destruct (perform_keeps s1 c s2 r b1 (reachable_wf _ _ W H) P H1) as (b2 & H2 & E2 & _).
  exists b2. split; [exact H2|congruence].
Qed.
(** Visibility of boxes. *)
Definition seen (s : slide) (p : nat) (f : Z -> bool) : Prop :=
  exists b, In b (boxes (sl_box s)) /\ b_id b = p /\ forall k, is_visible (b_show b) k = f k.
Lemma reachable_seen : forall s s' p f, wf s -> reachable s s' -> seen s p f -> seen s' p f.
Proof.
  intros s s' p f W H (b & Hb & <- & F). induction H as [|s1 c s2 r H IH P]; [exists b; auto|].
  destruct IH as (b1 & H1 & E1 & F1).
  destruct (perform_keeps s1 c s2 r b1 (reachable_wf _ _ W H) P H1) as (b2 & H2 & E2 & _ & F2).
  exists b2. split; [exact H2|]. split; [congruence|]. intro k. now rewrite F2, F1.
Qed.

Lemma item_not_box : forall n b r z C cs d, NoDup (node_ids n) -> n = fill C (NBox b cs) -> In (NItem r z) cs ->
  In d (boxes n) -> b_id d = r -> False.
Proof.
  assert (G : forall n, NoDup (node_ids n) -> forall cs b, (exists C, n = fill C (NBox b cs)) -> forall r z d,
            In (NItem r z) cs -> In d (boxes n) -> b_id d <> r).
  2: { intros n b r z C cs d N E I D R. exact (G n N cs b (ex_intro _ C E) r z d I D R). }
  intros n N cs b (C & ->) r z d I D R.
  apply in_split in I as (pre & post & ->).
  assert (P := ids_insert C b pre post (NItem r z)). cbn [node_ids] in P.
  assert (B := boxes_insert C b pre post (NItem r z)). cbn [boxes] in B.
  apply (Permutation.Permutation_in _ B) in D. simpl in D. apply boxes_ids in D. rewrite R in D.
  apply (Permutation.Permutation_NoDup P) in N. inversion N as [|? ? Q _]. now apply Q.
Qed.

(** What a successful call of box() on a box does. *)
Lemma box_call_linked : forall s p a s' id, wf s -> isbox s p -> box_call s p a = (s', Ok id) ->
  exists l show, new_layout id (ba_layout a) = Ok l /\ parse_show (ba_show a) (Some (sl_max s)) = Ok show /\
    isbox s' id /\ linked (sl_layout s') p id (l_x (head l)) (l_left (head l)) /\
    seen s' id (is_visible show).
Proof.
  intros s p a s' id W (d & Hd & Ed) H. apply box_call_outcome in H; auto.
  inversion H as [| | | |l C b cs LC h ls show z cs' Hl Hf Es Eh Hs Hz Ha Hs']; subst.
  exists l, show. split; [exact Hl|]. split; [exact Hs|]. destruct Hf as [Et Hr].
  assert (Eb : b_id b = b_id d).
  { destruct Hr as [E|[z0 I]]; [exact E|]. exfalso.
    eapply item_not_box; [exact (wf_nodup s W)|exact Et|exact I|exact Hd|reflexivity]. }
  destruct (add_child_spec _ _ _ _ _ _ Ha) as [pre [post [-> [-> _]]]].
  set (z := match ba_z a with Some z => z | None => b_z b end) in *.
  assert (B : In (mkBox (sl_next s) show z) (boxes (fill C (NBox b (pre ++ NBox (mkBox (sl_next s) show z) [] :: post))))).
  { eapply Permutation.Permutation_in; [symmetry; apply boxes_insert|]. now left. }
  cbn [sl_box sl_layout]. split; [exists (mkBox (sl_next s) show z); auto|].
  split; [|exists (mkBox (sl_next s) show z); auto].
  destruct (new_layout_head _ _ _ Hl) as (hl & -> & Ei & _). cbn [head].
  assert (L : linked (add_kid (Node h ls) (Node hl []) (ba_prepend a)) (b_id d) (sl_next s) (l_x hl) (l_left hl)).
  { rewrite <- Eb, <- Eh, <- Ei. cbn [add_kid]. apply (linked_here h _ (Node hl [])).
    destruct (ba_prepend a); [now left|]. apply in_or_app. right. now left. }
  clear - L. revert L. generalize (add_kid (Node h ls) (Node hl []) (ba_prepend a)). clear.
  induction LC as [|[[e p] q] LC IH]; intros n L; [exact L|]. simpl. apply IH.
  eapply linked_kid; [apply in_elt|exact L].
Qed.

(** ** Keyword arguments *)

Lemma set_kwargs_app : forall d a e, set_kwargs a (d ++ e) = do a' <- set_kwargs a d; set_kwargs a' e.
Proof. induction d as [|k d IH]; intros a e; [reflexivity|]. simpl. destruct (set_kwarg a k); simpl; auto. Qed.
Lemma set_kwarg_x : forall a k a', set_kwarg a k = Ok a' -> key k <> 0%nat -> a_x (ba_layout a') = a_x (ba_layout a).
Proof. intros a [] a' H K; cbn in H; try discriminate; injection H as <-; try reflexivity. now elim K. Qed.
Lemma set_kwarg_left : forall a k a', set_kwarg a k = Ok a' -> key k <> 5%nat -> a_left (ba_layout a') = a_left (ba_layout a).
Proof. intros a [] a' H K; cbn in H; try discriminate; injection H as <-; try reflexivity. now elim K. Qed.
Lemma set_kwarg_show : forall a k a', set_kwarg a k = Ok a' -> key k <> 4%nat -> ba_show a' = ba_show a.
Proof. intros a [] a' H K; cbn in H; try discriminate; injection H as <-; try reflexivity. now elim K. Qed.
Lemma has_key_false : forall n d, has_key n d = false -> forall k, In k d -> key k <> n.
Proof.
  intros n d H k Hk E. assert (has_key n d = true); [|congruence].
  apply existsb_exists. exists k. split; [exact Hk|]. now apply Nat.eqb_eq.
Qed.
Lemma call_args_left : forall x q d a, call_args [Kx x; Kp_left (Some q)] d = Ok a ->
  a_x (ba_layout a) = x /\ a_left (ba_layout a) = Some q.
Proof.
  intros x q d a H. unfold call_args in H. cbn [existsb key] in H.
  destruct (has_key 0 d) eqn:H0; [discriminate|]. destruct (has_key 5 d) eqn:H5; [discriminate|].
  cbn [orb] in H. rewrite set_kwargs_app in H. cbn [set_kwargs rbind set_kwarg] in H.
  assert (K0 := has_key_false _ _ H0). assert (K5 := has_key_false _ _ H5). clear H0 H5.
  match type of H with set_kwargs ?a0 _ = _ =>
    assert (E : a_x (ba_layout a0) = x /\ a_left (ba_layout a0) = Some q) by (split; reflexivity);
    revert E H; generalize a0 end.
  induction d as [|k d IH]; intros a0 E H; cbn [set_kwargs] in H; [injection H as <-; exact E|].
  destruct (set_kwarg a0 k) as [a1|] eqn:E1; [|discriminate]. cbn [rbind] in H.
  revert H. apply IH; [intros; apply K0; now right|intros; apply K5; now right|].
  destruct E as [<- <-]. split.
  - apply (set_kwarg_x _ _ _ E1), K0. now left.
  - apply (set_kwarg_left _ _ _ E1), K5. now left.
Qed.
Lemma show_of_none : forall d, (forall k, In k d -> key k <> 4%nat) <-> show_of d = None.
Proof.
  induction d as [|k d IH]; [split; [reflexivity|intros _ k []]|]. split.
  - intro H. assert (H4 := H k (or_introl eq_refl)). destruct k; cbn in *; try (apply IH; intros; apply H; now right).
    now elim H4.
  - intros H j [<-|Hj]; destruct k; cbn in *; try discriminate; apply IH; auto.
Qed.
Lemma has_show : forall d, has_key 4 d = match show_of d with Some _ => true | None => false end.
Proof.
  intros d. destruct (show_of d) eqn:E.
  - destruct (has_key 4 d) eqn:H; [reflexivity|]. assert (K := has_key_false _ _ H).
    apply show_of_none in K. congruence.
  - destruct (has_key 4 d) eqn:H; [|reflexivity]. apply existsb_exists in H as (k & Hk & Ek).
    apply Nat.eqb_eq in Ek. now elim (proj2 (show_of_none d) E k Hk).
Qed.
Lemma set_kwargs_show : forall d a a', proper d -> set_kwargs a d = Ok a' -> ba_show a' = given (show_of d) (ba_show a).
Proof.
  induction d as [|k d IH]; intros a a' P H; cbn [set_kwargs] in H; [now injection H as <-|].
  destruct (set_kwarg a k) as [a1|] eqn:E1; [|discriminate]. cbn [rbind] in H. inversion P as [|? ? N P']; subst.
  rewrite (IH _ _ P' H). destruct (Nat.eq_dec (key k) 4) as [E|E].
  - assert (F : show_of d = None).
    { apply show_of_none. intros j Hj Ej. apply N. rewrite E, <- Ej. now apply in_map. }
    rewrite F. destruct k; try discriminate E. cbn in E1. now injection E1 as <-.
  - rewrite (set_kwarg_show _ _ _ E1 E). destruct k; try reflexivity. now elim E.
Qed.
Lemma call_args_show : forall x q d a, proper d -> call_args [Kx x; Kp_left (Some q)] d = Ok a ->
  ba_show a = given (show_of d) ShowNone.
Proof.
  intros x q d a P H. unfold call_args in H.
  destruct (existsb _ _); [discriminate|]. rewrite set_kwargs_app in H. cbn [set_kwargs rbind set_kwarg] in H.
  exact (set_kwargs_show _ _ _ P H).
Qed.
Lemma key_filter : forall d e k, In k (filter (fun k => negb (has_key (key k) e)) d) -> In k d /\ forall j, In j e -> key j <> key k.
Proof.
  intros d e k H. apply filter_In in H as [H K]. split; [exact H|]. apply negb_true_iff in K.
  exact (has_key_false _ _ K).
Qed.
Lemma update_proper : forall d e, proper d -> proper e -> proper (update d e).
Proof.
  intros d e D E. unfold update, proper. rewrite map_app.
  induction d as [|k d IH]; cbn [filter map app]; [exact E|]. inversion D as [|? ? N D']; subst.
  destruct (negb (has_key (key k) e)) eqn:K; cbn [map app]; [|now apply IH].
  constructor; [|now apply IH]. rewrite in_app_iff. intros [I|I].
  - apply in_map_iff in I as (j & Ej & I). apply filter_In in I as [I _]. apply N. rewrite <- Ej. now apply in_map.
  - apply in_map_iff in I as (j & Ej & I). apply negb_true_iff in K. exact (has_key_false _ _ K j I Ej).
Qed.
Lemma update_show : forall d e, show_of (update d e) = match show_of e with Some s => Some s | None => show_of d end.
Proof.
  intros d e. unfold update. induction d as [|k d IH]; cbn [filter app show_of].
  - now destruct (show_of e).
  - destruct (Nat.eq_dec (key k) 4) as [E|E].
    + destruct k; try discriminate E. cbn [key]. rewrite has_show. destruct (show_of e) eqn:F; cbn [negb]; [exact IH|reflexivity].
    + assert (G : forall l, show_of (k :: l) = show_of l) by (intro l; destruct k; try reflexivity; now elim E).
      change (match k with Kshow s => Some s | _ => show_of d end) with (show_of (k :: d)). rewrite (G d).
      destruct (negb (has_key (key k) e)); [rewrite <- app_comm_cons, G|]; exact IH.
Qed.
