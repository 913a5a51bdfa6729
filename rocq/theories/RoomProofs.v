(** Lemmas about the room for texts: what the calls of a slide do to the size requests and
    to the texts of its layouts. *)
From Coq Require Import List ZArith NArith QArith Bool Lia Lqa Arith Permutation.
From Verif Require Import Py ShowModel LayoutModel LayoutSpec LayoutProofs LayoutProofs2 LayoutProofs4
  SlideModel SlideSpec SlideProofs.
Import ListNotations.
Open Scope Q_scope.

(** What later calls may change of a layout: its minimal sizes grow, texts are added. *)
Definition sort_of (v : size_value) := (sv_ratio v, sv_fill v, sv_lazy v).
Record grown (h h' : lhead) : Prop := mkGrown {
  gr_id : l_id h' = l_id h;
  gr_x : l_x h' = l_x h; gr_y : l_y h' = l_y h;
  gr_wdef : l_wdef h' = l_wdef h; gr_hdef : l_hdef h' = l_hdef h;
  gr_wsort : sort_of (l_width h') = sort_of (l_width h);
  gr_hsort : sort_of (l_height h') = sort_of (l_height h);
  gr_w : sv_min (l_width h) <= sv_min (l_width h');
  gr_h : sv_min (l_height h) <= sv_min (l_height h');
  gr_left : l_left h' = l_left h; gr_right : l_right h' = l_right h;
  gr_top : l_top h' = l_top h; gr_bottom : l_bottom h' = l_bottom h;
  gr_hor : l_horizontal h' = l_horizontal h;
  gr_texts : exists ts, l_texts h' = l_texts h ++ ts
}.
Definition grows (l l' : layout) : Prop :=
  grown (head l) (head l') /\
  forall n, within n l -> exists n', within n' l' /\ grown (head n) (head n').

Lemma grown_refl : forall h, grown h h.
Proof. intro h. constructor; try reflexivity; try lra. exists []. now rewrite app_nil_r. Qed.
Lemma grown_trans : forall a b c, grown a b -> grown b c -> grown a c.
Proof.
  intros a b c [] []. constructor; try congruence; try lra.
  destruct gr_texts0 as [t0 E0], gr_texts1 as [t1 E1]. exists (t0 ++ t1). now rewrite E1, E0, app_assoc.
Qed.
Lemma grows_refl : forall l, grows l l.
Proof. intro l. split; [apply grown_refl|]. intros n W. exists n. split; [exact W|apply grown_refl]. Qed.
Lemma grows_trans : forall a b c, grows a b -> grows b c -> grows a c.
Proof.
  intros a b c [A1 A2] [B1 B2]. split; [eapply grown_trans; eauto|].
  intros n W. destruct (A2 n W) as (n1 & W1 & G1). destruct (B2 n1 W1) as (n2 & W2 & G2).
  exists n2. split; [exact W2|]. eapply grown_trans; eauto.
Qed.
Lemma within_inv : forall n h cs, within n (Node h cs) -> n = Node h cs \/ exists d, In d cs /\ within n d.
Proof.
  intros n h cs W. remember (Node h cs) as m eqn:Em. destruct W as [m|n d h' cs' Hd W]; [now left|].
  injection Em as -> ->. right. eauto.
Qed.
(** Children that have grown, possibly among new ones. *)
Lemma grows_node : forall h h' cs cs', grown h h' ->
  (forall d, In d cs -> exists d', In d' cs' /\ grows d d') -> grows (Node h cs) (Node h' cs').
Proof.
  intros h h' cs cs' G H. split; [exact G|]. intros n W. apply within_inv in W as [->|(d & Hd & W)].
  - exists (Node h' cs'). split; [constructor|exact G].
  - destruct (H d Hd) as (d' & Hd' & _ & K). destruct (K n W) as (n' & W' & G').
    exists n'. split; [econstructor; eauto|exact G'].
Qed.
Lemma grows_fill : forall C n n', grows n n' -> grows (lfill C n) (lfill C n').
Proof.
  induction C as [|[[d p] q] C IH]; intros n n' H; [exact H|]. simpl. apply IH.
  apply grows_node; [apply grown_refl|]. intros e He. apply in_elt_inv in He as [<-|He].
  - exists n'. split; [apply in_elt|exact H].
  - exists e. split; [|apply grows_refl]. apply in_app_iff in He. apply in_or_app. simpl. tauto.
Qed.
Lemma grows_add : forall h ls l p, grows (Node h ls) (add_kid (Node h ls) l p).
Proof.
  intros h ls l p. apply grows_node; [apply grown_refl|]. intros d Hd. exists d. split; [|apply grows_refl].
  destruct p; [now right|]. apply in_or_app. auto.
Qed.
Lemma grows_head : forall h h' ls, grown h h' -> grows (Node h ls) (Node h' ls).
Proof. intros h h' ls G. apply grows_node; [exact G|]. intros d Hd. exists d. split; [exact Hd|apply grows_refl]. Qed.

Lemma ensure_grown : forall v q, sort_of (ensure v q) = sort_of v /\ sv_min v <= sv_min (ensure v q) /\
  q <= sv_min (ensure v q).
Proof.
  intros v q. split; [unfold ensure; destruct (Qle_bool q (sv_min v)); reflexivity|].
  rewrite ensure_min. split; [apply qmax_l|apply qmax_r].
Qed.
Lemma grown_width : forall h q, grown h (ensure_width h q).
Proof.
  intros h q. destruct (ensure_grown (l_width h) (q + l_left h + l_right h)) as (A & B & _).
  constructor; cbn; try reflexivity; try assumption; try lra. exists []. now rewrite app_nil_r.
Qed.
Lemma grown_height : forall h q, grown h (ensure_height h q).
Proof.
  intros h q. destruct (ensure_grown (l_height h) (q + l_top h + l_bottom h)) as (A & B & _).
  constructor; cbn; try reflexivity; try assumption; try lra. exists []. now rewrite app_nil_r.
Qed.

(** The sizes a text asks for: always, unless it is scaled and the box has its own size. *)
Definition counts (fit : bool) (given : arg) : bool :=
  negb fit || match given with ANone => true | _ => false end.
Lemma text_layout_grown : forall t w h fit hd cs hd', Node hd' cs = text_layout t w h fit (Node hd cs) ->
  grown hd hd' /\ l_texts hd' = l_texts hd ++ (if fit then [t] else []) /\
  sv_min (l_width hd') = (if counts fit (l_wdef hd)
                          then qmax (sv_min (l_width hd)) (w + l_left hd + l_right hd) else sv_min (l_width hd)) /\
  sv_min (l_height hd') = (if counts fit (l_hdef hd)
                           then qmax (sv_min (l_height hd)) (h + l_top hd + l_bottom hd) else sv_min (l_height hd)).
Proof.
  intros t w h fit hd cs hd' E. unfold text_layout in E. injection E as ->. unfold counts.
  set (bw := (negb fit || match l_wdef hd with ANone => true | _ => false end)%bool) in *.
  set (bh := (negb fit || match l_hdef hd with ANone => true | _ => false end)%bool) in *.
  clearbody bw bh.
  set (h1 := if bw then ensure_width hd w else hd). set (h2 := if bh then ensure_height h1 h else h1).
  assert (G1 : grown hd h1) by (unfold h1; destruct bw; [apply grown_width|apply grown_refl]).
  assert (G2 : grown hd h2).
  { eapply grown_trans; [exact G1|]. unfold h2. destruct bh; [apply grown_height|apply grown_refl]. }
  assert (T2 : l_texts h2 = l_texts hd) by (unfold h2, h1; destruct bw, bh; reflexivity).
  split; [|split; [|split]].
  - destruct G2. constructor; cbn; try assumption. destruct fit; [|eauto]. rewrite T2. eauto.
  - cbn [l_texts]. rewrite T2. destruct fit; [reflexivity|]. now rewrite app_nil_r.
  - cbn [l_width]. transitivity (sv_min (l_width h1)); [unfold h2; destruct bh; reflexivity|].
    unfold h1. destruct bw; [|reflexivity]. cbn. apply ensure_min.
  - cbn [l_height]. unfold h2.
    replace (l_top hd) with (l_top h1) by apply G1. replace (l_bottom hd) with (l_bottom h1) by apply G1.
    replace (l_height hd) with (l_height h1) by (unfold h1; destruct bw; reflexivity).
    destruct bh; [|reflexivity]. cbn. apply ensure_min.
Qed.
Lemma image_request_grown : forall hd cs w h hd', set_image_size_request (Node hd cs) w h = Ok (Node hd' cs) ->
  grown hd hd' /\ l_texts hd' = l_texts hd /\
  (l_wdef hd = ANone -> l_hdef hd = ANone ->
   w + l_left hd + l_right hd <= sv_min (l_width hd') /\ h + l_top hd + l_bottom hd <= sv_min (l_height hd')).
Proof.
  intros hd cs w h hd' H. unfold set_image_size_request in H.
  destruct (min_children_size _ _) as [mx my]. cbv zeta in H.
  assert (K : forall p q, hd' = ensure_height (ensure_width hd p) q ->
    grown hd hd' /\ l_texts hd' = l_texts hd /\
    p + l_left hd + l_right hd <= sv_min (l_width hd') /\ q + l_top hd + l_bottom hd <= sv_min (l_height hd')).
  { intros p q ->. split; [eapply grown_trans; [apply grown_width|apply grown_height]|].
    split; [reflexivity|]. split; cbn; apply ensure_grown. }
  destruct (Qeq_bool h 0 || Qeq_bool w 0)%bool, (l_wdef hd) eqn:Ew, (l_hdef hd) eqn:Eh; try discriminate;
    injection H as E; symmetry in E; destruct (K _ _ E) as (A & B & C);
    (split; [exact A|]); (split; [exact B|]); intros F1 F2; try discriminate; exact C.
Qed.

Lemma perform_grows : forall s c s' r, wf s -> perform s c = (s', r) -> grows (sl_layout s) (sl_layout s').
Proof.
  intros s [r a|r k] s' res W H; simpl in H.
  - apply box_call_outcome in H; auto.
    destruct H as [Hg|e Hl|e l C b cs LC h ls Hl Hf Es Eh Hs
                  |e l C b cs LC h ls show Hl Hf Es Eh Hs Ha
                  |l C b cs LC h ls show z cs' Hl Hf Es Eh Hs Hz Ha]; try apply grows_refl;
      cbn [sl_layout]; rewrite Es; apply grows_fill, grows_add.
  - apply item_call_outcome in H; auto.
    destruct H as [e|C b b' cs LC h h' ls m st Hf Es Eh Eh' Eb Ez Hk Hh Hst]; [apply grows_refl|].
    cbn [sl_layout]; rewrite Es. apply grows_fill, grows_head.
    destruct k as [|w q fit|w q steps].
    + subst h'. apply grown_refl.
    + now apply (text_layout_grown _ _ _ _ _ _ _ Hh).
    + now apply (image_request_grown _ _ _ _ _ Hh).
Qed.
Lemma reachable_grows : forall s s', wf s -> reachable s s' -> grows (sl_layout s) (sl_layout s').
Proof.
  intros s s' W H. induction H as [|s1 c s2 r H IH P]; [apply grows_refl|].
  eapply grows_trans; [exact IH|]. eapply perform_grows; [|exact P]. eapply reachable_wf; eauto.
Qed.

(** ** The texts of a slide *)
Lemma texts_eq : forall h cs, texts (Node h cs) = l_texts h ++ flat_map texts cs.
Proof. exact texts_node. Qed.
Definition texts_fill := lmeasure_fill texts l_texts texts_eq.

Record texts_ok (s : slide) : Prop := mkTexts {
  to_nodup : NoDup (texts (sl_layout s));
  to_small : forall t, In t (texts (sl_layout s)) -> (t < sl_next s)%nat
}.

Lemma perform_texts : forall s c s' r, wf s -> perform s c = (s', r) ->
  (sl_next s <= sl_next s')%nat /\
  (forall t, (t < sl_next s)%nat -> st_text (sl_store s') t = st_text (sl_store s) t) /\
  (texts (sl_layout s') = texts (sl_layout s) \/
   sl_next s' = S (sl_next s) /\ Permutation (texts (sl_layout s')) (sl_next s :: texts (sl_layout s))).
Proof.
  intros s [r a|r k] s' res W H; simpl in H.
  - assert (K : forall LC h ls l p, new_layout (sl_next s) (ba_layout a) = Ok l ->
      sl_layout s = lfill LC (Node h ls) -> texts (lfill LC (add_kid (Node h ls) l p)) = texts (sl_layout s)).
    { intros LC h ls l p Hl ->. destruct (new_layout_head _ _ _ Hl) as (hl & -> & _ & T).
      rewrite !texts_fill. f_equal. f_equal. cbn [add_kid]. rewrite !texts_eq. f_equal.
      destruct p; cbn [flat_map]; rewrite ?flat_map_app; cbn [flat_map]; rewrite texts_eq, T; cbn [flat_map app];
        rewrite ?app_nil_r; reflexivity. }
    apply box_call_outcome in H; auto.
    destruct H as [Hg|e Hl|e l C b cs LC h ls Hl Hf Es Eh Hs
                  |e l C b cs LC h ls show Hl Hf Es Eh Hs Ha
                  |l C b cs LC h ls show z cs' Hl Hf Es Eh Hs Hz Ha]; cbn [sl_next sl_store sl_layout];
      (split; [lia|]); (split; [reflexivity|]); left; try reflexivity; eapply K; eauto.
  - apply item_call_outcome in H; auto.
    destruct H as [e|C b b' cs LC h h' ls m st Hf Es Eh Eh' Eb Ez Hk Hh Hst];
      [split; [lia|]; split; [reflexivity|]; left; reflexivity|].
    cbn [sl_next sl_store sl_layout]. split; [lia|]. split.
    { intros t Ht. subst st. destruct k; try reflexivity. unfold upd_text. cbn.
      destruct (Nat.eqb_spec t (sl_next s)); [lia|reflexivity]. }
    rewrite Es, !texts_fill, !texts_eq. destruct k as [|w q fit|w q steps].
    + left. now subst h'.
    + destruct (text_layout_grown _ _ _ _ _ _ _ Hh) as (_ & T & _). rewrite T. destruct fit.
      * right. split; [reflexivity|].
        match goal with |- Permutation (?A ++ ((?B ++ [?x]) ++ ?D) ++ ?F) _ =>
          replace (A ++ ((B ++ [x]) ++ D) ++ F) with ((A ++ B) ++ x :: D ++ F)
            by (rewrite <- !app_assoc; reflexivity);
          replace (A ++ (B ++ D) ++ F) with ((A ++ B) ++ D ++ F) by (rewrite <- !app_assoc; reflexivity) end.
        symmetry. apply Permutation_middle.
      * left. now rewrite app_nil_r.
    + left. destruct (image_request_grown _ _ _ _ _ Hh) as (_ & T & _). now rewrite T.
Qed.
Lemma perform_texts_ok : forall s c s' r, wf s -> texts_ok s -> perform s c = (s', r) -> texts_ok s'.
Proof.
  intros s c s' r W [D L] H. destruct (perform_texts s c s' r W H) as (N & _ & [E|[E P]]).
  - constructor; rewrite E; [exact D|]. intros t Ht. specialize (L t Ht). lia.
  - constructor.
    + apply (Permutation_NoDup (Permutation_sym P)). constructor; [|exact D]. intro F. specialize (L _ F). lia.
    + intros t Ht. apply (Permutation_in _ P) in Ht as [<-|Ht]; [lia|]. specialize (L t Ht). lia.
Qed.
Lemma new_texts_ok : forall w h s, new_slide w h = Ok s -> texts_ok s.
Proof.
  intros w h s H. unfold new_slide in H.
  destruct (new_layout 0 _) as [l|] eqn:El; [|discriminate]. cbn [rbind] in H. injection H as <-.
  destruct (new_layout_head _ _ _ El) as (hl & -> & _ & T).
  constructor; cbn [sl_layout sl_next]; rewrite texts_eq, T; cbn; [constructor|tauto].
Qed.
Lemma reachable_texts : forall s s', wf s -> texts_ok s -> reachable s s' ->
  texts_ok s' /\ (sl_next s <= sl_next s')%nat /\
  forall t, (t < sl_next s)%nat -> st_text (sl_store s') t = st_text (sl_store s) t.
Proof.
  intros s s' W T H. induction H as [|s1 c s2 r H IH P]; [auto|]. destruct IH as (T1 & N1 & K1).
  assert (W1 : wf s1) by (eapply reachable_wf; eauto).
  destruct (perform_texts s1 c s2 r W1 P) as (N2 & K2 & _).
  split; [eapply perform_texts_ok; eauto|]. split; [lia|]. intros t Ht. rewrite K2 by lia. auto.
Qed.
