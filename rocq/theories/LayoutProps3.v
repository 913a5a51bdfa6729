(** C20: a second render of slides with texts that are scaled to fit. *)
From Coq Require Import List ZArith QArith Qfield Bool Lia Lqa Setoid.
From Verif Require Import Py PyFacts LayoutModel LayoutSpec LayoutProofs LayoutProofs2
  LayoutProofs3 LayoutProofs4 LayoutProps.
Import ListNotations.
Open Scope Q_scope.

(** The lazy values of [user_lazy] that do not use a place in a text that is scaled. *)
Inductive plain_lazy (scaled : nat -> Prop) (owner : nat -> nat) (i : nat) : lazy -> Prop :=
| pl_x : forall j p, (forall f, p = PosLazy f -> plain_lazy scaled owner i f) ->
    plain_lazy scaled owner i (layout_x j p)
| pl_y : forall j p, (forall f, p = PosLazy f -> plain_lazy scaled owner i f) ->
    plain_lazy scaled owner i (layout_y j p)
| pl_map : forall g f, plain_lazy scaled owner i f -> plain_lazy scaled owner i (lazy_map g f)
| pl_const : forall r, plain_lazy scaled owner i (fun _ => r)
| pl_text : forall t g, owner t = i -> ~ scaled t -> plain_lazy scaled owner i (fun s =>
    match st_rect s i with Some r => g r (st_text s t) | None => Err EAttribute end)
| pl_text_size : forall t g, owner t = i -> ~ scaled t -> plain_lazy scaled owner i (fun s => Ok (g (st_text s t))).
Definition plain_tree (scaled : nat -> Prop) (owner : nat -> nat) (l : layout) : Prop :=
  forall p c f, within p l -> In c (kids p) -> lazy_in f (head c) ->
  plain_lazy scaled owner (l_id (head p)) f.

Section Again.
Variable scaled : nat -> Prop.
Variable owner : nat -> nat.
Definition near (S T : store) : Prop :=
  (forall i, st_rect T i = st_rect S i) /\ (forall t, ~ scaled t -> st_text T t = st_text S t).
Lemma plain_stable : forall i f, plain_lazy scaled owner i f ->
  forall S st T v, earlier owner S st -> near S T -> st_rect st i <> None -> f st = Ok v -> f T = Ok v.
Proof.
  intros i. fix IH 2. intros f H. destruct H as [j p Hp|j p Hp|g f Hf|r|t g Ho Hs|t g Ho Hs];
    intros S st T v HE HN Hi Hv; pose proof HN as [N1 N2].
  - unfold layout_x in *. destruct (st_rect st j) as [r|] eqn:Ej; [|discriminate].
    rewrite N1. destruct (HE j r Ej) as [-> _]. eapply pos_compute_replay; [|exact Hv].
    intros f w Ef. apply (IH f (Hp f Ef) S); auto.
  - unfold layout_y in *. destruct (st_rect st j) as [r|] eqn:Ej; [|discriminate].
    rewrite N1. destruct (HE j r Ej) as [-> _]. eapply pos_compute_replay; [|exact Hv].
    intros f w Ef. apply (IH f (Hp f Ef) S); auto.
  - unfold lazy_map in *. destruct (f st) as [w|] eqn:Ew; [|discriminate].
    rewrite (IH f Hf S st T w HE HN Hi Ew). exact Hv.
  - exact Hv.
  - destruct (st_rect st i) as [r|] eqn:Ei; [|discriminate].
    destruct (HE i r Ei) as [E Ht]. rewrite N1, E, (N2 t Hs), <- (Ht t Ho). exact Hv.
  - destruct (st_rect st i) as [r|] eqn:Ei; [|congruence].
    destruct (HE i r Ei) as [_ Ht]. rewrite (N2 t Hs), <- (Ht t Ho). exact Hv.
Qed.

Lemma callbacks_near : forall S R ts T, (forall t, In t ts -> scaled t) -> near S T -> near S (run_callbacks R ts T).
Proof.
  intros S R. unfold run_callbacks. induction ts as [|t ts IH]; intros T Hs [A B]; [split; auto|]. cbn [fold_left]. apply IH.
  - intros u Hu. apply Hs. now right.
  - split; [exact A|]. intros u Hu. cbn. destruct (Nat.eqb u t) eqn:E; [|auto].
    apply Nat.eqb_eq in E. subst. exfalso. apply Hu. apply Hs. now left.
Qed.
Lemma set_rect_near : forall S l r, laid (earlier owner S) S l r ->
  plain_tree scaled owner l -> (forall c, within c l -> forall t, In t (l_texts (head c)) -> scaled t) ->
  forall T, near S T -> exists T', set_rect l r T = Ok T' /\ near S T'.
Proof.
  intros S. induction l as [h cs IH] using layout_rect.
  intros r HL Hu Hn T HT. apply laid_inv in HL. destruct HL as [os [dd [HR [Hc HF]]]].
  set (R := content h r) in *.
  assert (HT1 : near S (entered h R T)).
  { unfold entered. apply callbacks_near; [exact (Hn (Node h cs) (within_refl _))|]. destruct HT as [H1 H2]. split; simpl; auto.
    intro i. destruct (Nat.eqb i (l_id h)) eqn:Ei; auto.
    apply Nat.eqb_eq in Ei. subst. now rewrite HR. }
  assert (Hkid : forall c, In c cs -> forall f, lazy_in f (head c) -> plain_lazy scaled owner (l_id h) f).
  { intros c Hi f Hf. apply (Hu (Node h cs) c f); auto. constructor. }
  assert (Hsub : forall c, In c cs -> plain_tree scaled owner c /\
    (forall d, within d c -> forall t, In t (l_texts (head d)) -> scaled t)).
  { intros c Hi. split.
    - intros p d f Hp Hd Hf. apply (Hu p d f); auto. eapply within_kid; eauto.
    - intros d Hd. apply Hn. eapply within_kid; eauto. }
  assert (Hgo : forall fu dd0 T0, near S T0 ->
    chain (at_box (earlier owner S) h R) (l_horizontal h) R fu cs dd0 os dd ->
    exists T', places (l_horizontal h) R fu cs dd0 T0 os dd T' /\ near S T').
  { clear Hc HT HT1 HR Hu Hn. intros fu dd0 T0 HT0 Hc. revert T0 HT0.
    induction Hc as [|c cs dd1 st o dd' os dd2 [HE HE'] H1 H3 IH2]; intros T0 HT0.
    - exists T0. split; auto. constructor.
    - inversion IH as [|? ? IHc IHcs]; subst. inversion HF as [|? ? ? ? F1 F2]; subst.
      assert (H1' : child_rect (l_horizontal h) R fu c dd1 T0 = Ok (o, dd')).
      { eapply child_rect_replay; [|exact H1]. intros f w Hf Hw.
        apply (plain_stable _ _ (Hkid c (or_introl eq_refl) f Hf) S st T0); auto.
        rewrite HE'. discriminate. }
      destruct (Hsub c (or_introl eq_refl)) as [Hu1 Hn1].
      destruct (IHc o F1 Hu1 Hn1 T0 HT0) as [T1 [A1 A2]].
      destruct (IH2 IHcs F2) with (T0 := T1) as [T2 [B1 B2]]; auto.
      + intros d Hd. apply Hkid. now right.
      + intros d Hd. apply Hsub. now right.
      + exists T2. split; auto. econstructor; eauto. }
  destruct (Hgo _ _ _ HT1 Hc) as [T' [A B]].
  exists T'. split; auto. eapply set_rect_intro. exact A.
Qed.
End Again.

Lemma again_scale : forall R t, let u := scale_callback R t in let v := scale_callback R u in
  tx_w v == tx_w u /\ tx_h v == tx_h u /\
  (1 # 100000 < tx_w u -> 1 # 100000 < tx_h u -> tx_scale v == 1) /\
  (tx_w u <= 1 # 100000 \/ tx_h u <= 1 # 100000 -> v = u).
Proof.
  intros R t u v. change (1 # 100000) with tiny.
  assert (D : forall x, let y := scale_callback R x in
    (tx_w x <= tiny \/ tx_h x <= tiny) /\ y = x \/
    (tiny < tx_w x /\ tiny < tx_h x /\ y = mkText (tx_w x * qmin (rw R / tx_w x) (rh R / tx_h x))
      (tx_h x * qmin (rw R / tx_w x) (rh R / tx_h x)) (qmin (rw R / tx_w x) (rh R / tx_h x)))).
  { intros [w h k] y. unfold y, scale_callback. cbn [tx_w tx_h].
    destruct (Qle_bool w tiny) eqn:A; cbn [negb andb].
    - left. apply Qle_bool_iff in A. auto.
    - destruct (Qle_bool h tiny) eqn:B; cbn [negb]; [left; apply Qle_bool_iff in B; auto|].
      assert (A' : ~ w <= tiny) by (rewrite <- Qle_bool_iff; congruence).
      assert (B' : ~ h <= tiny) by (rewrite <- Qle_bool_iff; congruence).
      right. split; [lra|]. split; [lra|reflexivity]. }
  assert (P0 : 0 < tiny) by reflexivity.
  destruct (D u) as [[Hs Ev]|(Hw & Hh & Ev)].
  { fold v in Ev. rewrite Ev. split; [reflexivity|]. split; [reflexivity|]. split; [|auto]. intros; exfalso. destruct Hs; lra. }
  fold v in Ev.
  destruct (D t) as [[Hs Eu]|(Hw0 & Hh0 & Eu)].
  { fold u in Eu. rewrite Eu in Hw, Hh. exfalso. destruct Hs; lra. }
  fold u in Eu. set (k := qmin (rw R / tx_w t) (rh R / tx_h t)) in *.
  assert (Wu : tx_w u = tx_w t * k) by now rewrite Eu. assert (Hu : tx_h u = tx_h t * k) by now rewrite Eu.
  assert (Pw : 0 < tx_w t) by lra. assert (Ph : 0 < tx_h t) by lra.
  assert (K : 0 < k).
  { rewrite Wu in Hw. destruct (Qlt_le_dec 0 k) as [X|X]; auto. exfalso.
    assert (tx_w t * k <= 0) by (setoid_replace 0 with (tx_w t * 0) by ring; apply Qmult_le_l; auto). lra. }
  assert (F : qmin (rw R / tx_w u) (rh R / tx_h u) == 1).
  { rewrite Wu, Hu.
    assert (E1 : rw R / (tx_w t * k) == rw R / tx_w t / k) by (field; split; lra).
    assert (E2 : rh R / (tx_h t * k) == rh R / tx_h t / k) by (field; split; lra).
    assert (M : (k == rw R / tx_w t /\ k <= rh R / tx_h t) \/ (k == rh R / tx_h t /\ k <= rw R / tx_w t)).
    { unfold k. unfold qmin. destruct (Qle_bool (rw R / tx_w t) (rh R / tx_h t)) eqn:Q.
      - apply Qle_bool_iff in Q. left. split; [reflexivity|exact Q].
      - assert (~ rw R / tx_w t <= rh R / tx_h t) by (rewrite <- Qle_bool_iff; congruence). right. split; [reflexivity|lra]. }
    assert (One : k / k == 1) by (field; lra).
    assert (G : forall a, k <= a -> 1 <= a / k). { intros a Ha. rewrite <- One. apply Qmult_le_compat_r; [exact Ha|]. apply Qlt_le_weak, Qinv_lt_0_compat, K. }
    set (A := rw R / (tx_w t * k)) in *. set (B := rh R / (tx_h t * k)) in *.
    assert (AB : (A == 1 /\ 1 <= B) \/ (B == 1 /\ 1 <= A)).
    { destruct M as [[M1 M2]|[M1 M2]]; [left|right]; (split; [|]).
      - rewrite E1, <- M1. exact One.
      - rewrite E2. apply G; exact M2.
      - rewrite E2, <- M1. exact One.
      - rewrite E1. apply G; exact M2. }
    unfold qmin. destruct (Qle_bool A B) eqn:Q.
    - apply Qle_bool_iff in Q. destruct AB as [[X Y]|[X Y]]; lra.
    - assert (~ A <= B) by (rewrite <- Qle_bool_iff; congruence). destruct AB as [[X Y]|[X Y]]; lra. }
  rewrite Ev. cbn [tx_w tx_h tx_scale]. clear - F Hw Hh.
  set (m := qmin (rw R / tx_w u) (rh R / tx_h u)) in *. clearbody m.
  split; [rewrite F; ring|]. split; [rewrite F; ring|]. split; [intros; exact F|].
  intros [X|X]; exfalso; lra.
Qed.

(** When slides are rendered twice, all boxes are where they were, all texts that are not
    scaled are as before, and texts that are scaled keep the room that they take; but they
    are drawn with scale 1, unless they are too small to be scaled. *)
Theorem C20_scaled_text : forall owner l r s S,
  NoDup (ids l) -> NoDup (texts l) -> owned owner l -> plain_tree (fun t => text_of t l) owner l ->
  fresh s -> set_rect l r s = Ok S ->
  exists S', set_rect l r S = Ok S' /\ (forall i, st_rect S' i = st_rect S i) /\
    (forall t, ~ text_of t l -> st_text S' t = st_text S t) /\
    (forall t, text_of t l ->
       tx_w (st_text S' t) == tx_w (st_text S t) /\ tx_h (st_text S' t) == tx_h (st_text S t) /\
       (1 # 100000 < tx_w (st_text S t) -> 1 # 100000 < tx_h (st_text S t) -> tx_scale (st_text S' t) == 1) /\
       (tx_w (st_text S t) <= 1 # 100000 \/ tx_h (st_text S t) <= 1 # 100000 -> st_text S' t = st_text S t)).
Proof.
  intros owner l r s S Hn Ht Ho Hu Hf H.
  assert (HL := first_render_laid _ _ _ _ _ Hn Ho Hf H).
  destruct (set_rect_near (fun t => text_of t l) owner S l r HL Hu) with (T := S) as [S' [A [B C]]].
  { intros c Hc t Hin. exists c. auto. }
  { split; auto. }
  exists S'. do 3 (split; [assumption|]). intros t [c [Hc Hin]].
  assert (Ha : exists R, area c S = Some R).
  { destruct (laid_within _ _ _ _ _ Hc HL) as [R HR]. destruct c as [hc kc]. apply laid_inv in HR as (os & dd & HR & _). unfold area. cbn [head]. eauto. }
  destruct Ha as [R HR].
  assert (HR' : area c S' = Some R) by (unfold area in *; now rewrite B).
  rewrite (text_final l r S S' Hn Ht A c t R Hc Hin HR'), (text_final l r s S Hn Ht H c t R Hc Hin HR).
  apply again_scale.
Qed.
Print Assumptions C20_scaled_text.
(** A text of 100 x 25 in a box of 200 x 100: 200 x 50 with scale 2, then 200 x 50 with scale 1. *)
Example ex_C20_scaled_text : NoDup (ids tree_scaled) /\ NoDup (texts tree_scaled) /\
  owned (fun _ => 0%nat) tree_scaled /\ plain_tree (fun t => text_of t tree_scaled) (fun _ => 0%nat) tree_scaled /\
  fresh text_store /\ (exists S, set_rect tree_scaled screen text_store = Ok S /\
    1 # 100000 < tx_w (st_text S 0%nat) /\ 1 # 100000 < tx_h (st_text S 0%nat)) /\ text_of 0%nat tree_scaled.
Proof.
  assert (W : forall c, within c tree_scaled -> c = tree_scaled).
  { intros c H. unfold tree_scaled in *. inversion H as [|? d ? ? I]; [reflexivity|destruct I]. }
  split; [repeat constructor; simpl; intuition congruence|]. split; [repeat constructor; simpl; intuition congruence|].
  split; [intros c H t _; rewrite (W c H); reflexivity|].
  split; [intros p c f H I _; rewrite (W p H) in I; destruct I|]. split; [intro; reflexivity|].
  split; [eexists; split; [vm_compute; reflexivity|split; vm_compute; reflexivity]|].
  exists tree_scaled. split; [apply within_refl|left; reflexivity].
Qed.
